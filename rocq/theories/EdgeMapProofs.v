(** Representation invariant of edge maps: [em_rep key L em X] says that [em] stores exactly the
    set [X] of edges; when it has at least two edges, edge [x] is filed under label [key x]. *)
From Verif Require Import Base Assoc Links EdgeMap AssocProofs LinksProofs.

(** ** The buckets *)
Definition bk_wf (key : nat -> string) (L : links) (b : list (string * llist)) (X : gset nat) : Prop :=
  NoDup b.*1 /\
  (forall l ll, bk_get b l = Some ll ->
     exists ys, is_dll L ll ys /\ ys <> [] /\ forall x, x ∈ ys <-> x ∈ X /\ key x = l) /\
  (forall x, x ∈ X -> is_Some (bk_get b (key x))).

Lemma bk_wf_nil key L : bk_wf key L [] ∅.
Proof. split; [constructor|split; [done|set_solver]]. Qed.

Lemma bk_wf_frame key key' L L' b X :
  (forall x, x ∈ X -> lk L' x = lk L x /\ key' x = key x) ->
  bk_wf key L b X -> bk_wf key' L' b X.
Proof.
  intros Hf (Hnd & Hb & Hall). split; [done|]. split.
  - intros l ll Hg. destruct (Hb l ll Hg) as (ys & Hd & Hne & Hin). exists ys. split; [|split; [done|]].
    + eapply is_dll_frame; [|done]. intros x Hx. apply Hf. by apply Hin.
    + intros x. rewrite Hin. split; intros [Hx Hk]; (split; [done|]).
      * destruct (Hf x Hx) as [_ ->]. done.
      * destruct (Hf x Hx) as [_ <-]. done.
  - intros x Hx. destruct (Hf x Hx) as [_ ->]. by apply Hall.
Qed.

Lemma do_add_frame lbl key L b X e b' L' x :
  do_add lbl b L e = (b', L') -> bk_wf key L b X -> x ∉ X -> x <> e -> lk L' x = lk L x.
Proof.
  unfold do_add. intros Heq (Hnd & Hb & _) Hx Hne.
  destruct (bk_get b (lbl e)) as [ll|] eqn:Hg.
  - destruct (el_add ll L e) as [l1 L1] eqn:Ha. injection Heq as <- <-.
    destruct (Hb _ _ Hg) as (ys & (_&_&Ht&_) & _ & Hin).
    eapply el_add_frame; [done|done|]. rewrite Ht. intros Heq. symmetry in Heq.
    apply last_elem, Hin in Heq. naive_solver.
  - destruct (el_add ll_empty L e) as [l1 L1] eqn:Ha. injection Heq as <- <-.
    eapply el_add_frame; [done|done|]. done.
Qed.

Lemma do_add_ok lbl key key' L b X e b' L' :
  do_add lbl b L e = (b', L') -> bk_wf key L b X -> e ∉ X ->
  key' e = lbl e -> (forall x, x ∈ X -> key' x = key x) ->
  bk_wf key' L' b' ({[e]} ∪ X).
Proof.
  intros Heq Hwf He Hke Hk.
  assert (forall x, x ∉ X -> x <> e -> lk L' x = lk L x) as Hframe
    by (intros; eapply do_add_frame; eauto).
  apply (bk_wf_frame _ key' L L) in Hwf; [|naive_solver]. clear Hk key.
  destruct Hwf as (Hnd & Hb & Hall).
  unfold do_add in Heq.
  destruct (bk_get b (lbl e)) as [ll|] eqn:Hg.
  - destruct (el_add ll L e) as [l1 L1] eqn:Ha. injection Heq as <- <-.
    destruct (Hb _ _ Hg) as (ys & Hd & Hne & Hin).
    assert (e ∉ ys) as Heys by naive_solver.
    split; [by rewrite bk_set_keys|]. split.
    + intros l ll'. rewrite bk_get_set by eauto. case_decide as Hl.
      * intros [= <-]. subst l. exists (ys ++ [e]). split; [by eapply el_add_ok|].
        split; [by destruct ys|]. intros x. rewrite elem_of_app, elem_of_list_singleton, Hin.
        rewrite elem_of_union, elem_of_singleton. clear - Hke; naive_solver.
      * intros Hg'. destruct (Hb _ _ Hg') as (zs & Hd' & Hne' & Hin'). exists zs.
        split; [|split; [done|]].
        -- eapply is_dll_frame; [|done]. intros x Hx. eapply el_add_frame; [done| |].
           ++ intros ->. apply Hin' in Hx. by destruct Hx.
           ++ destruct Hd as (_&_&->&_). intros Heq. symmetry in Heq. apply last_elem, Hin in Heq.
              apply Hin' in Hx. destruct Hx, Heq. congruence.
        -- intros x. rewrite Hin'. rewrite elem_of_union, elem_of_singleton.
           clear - Hke Hl. naive_solver.
    + intros x. rewrite elem_of_union, elem_of_singleton. rewrite bk_get_set by eauto.
      intros [->|Hx]; [rewrite Hke, decide_True by done; eauto|]. case_decide; eauto.
  - destruct (el_add ll_empty L e) as [l1 L1] eqn:Ha. injection Heq as <- <-.
    split; [|split].
    + rewrite fmap_app. apply NoDup_app. split; [done|]. split; [|apply NoDup_singleton].
      intros l Hl. simpl. apply bk_get_None in Hg. set_solver.
    + intros l ll'. rewrite bk_get_app. destruct (bk_get b l) as [y|] eqn:Hg'.
      * intros [= <-]. destruct (Hb _ _ Hg') as (zs & Hd' & Hne' & Hin'). exists zs.
        split; [|split; [done|]].
        -- eapply is_dll_frame; [|done]. intros x Hx. eapply el_add_frame; [done| |done].
           intros ->. apply Hin' in Hx. by destruct Hx.
        -- intros x. rewrite Hin'. rewrite elem_of_union, elem_of_singleton.
           assert (l <> lbl e) as Hl by congruence. clear - Hke Hl. naive_solver.
      * case_decide as Hl; [|done]. intros [= <-]. subst l. exists [e].
        split; [by apply (el_add_ok _ _ _ _ _ [] Ha); [apply is_dll_empty|set_solver]|].
        split; [done|]. intros x. rewrite elem_of_list_singleton, elem_of_union, elem_of_singleton.
        split; [by intros ->; eauto|]. intros [[->|Hx] Hkx]; [done|].
        destruct (Hall x Hx) as [? Hs]. congruence.
    + intros x. rewrite elem_of_union, elem_of_singleton. rewrite bk_get_app.
      intros [->|Hx]; [rewrite Hke, Hg, decide_True by done; eauto|].
      destruct (Hall x Hx) as [? ->]. eauto.
Qed.

(** ** The whole map *)
Definition em_rep (key : nat -> string) (L : links) (em : emap) (X : gset nat) : Prop :=
  em_n em = Z.of_nat (size X) /\
  (size X <= 1 -> em_bkts em = []) /\
  (size X = 1 -> exists e, em_only em = Some e /\ X = {[e]}) /\
  (2 <= size X -> bk_wf key L (em_bkts em) X).

Lemma em_rep_empty key L : em_rep key L em_empty ∅.
Proof.
  split; [by rewrite size_empty|]. split; [done|]. split; rewrite size_empty; lia.
Qed.

Lemma em_rep_frame key key' L L' em X :
  (forall x, x ∈ X -> lk L' x = lk L x /\ key' x = key x) ->
  em_rep key L em X -> em_rep key' L' em X.
Proof.
  intros Hf (Hn & H1 & H2 & H3). split; [done|]. split; [done|]. split; [done|].
  intros Hs. eapply bk_wf_frame; [done|]. by apply H3.
Qed.

Lemma em_add_ok lbl key key' L em X e :
  em_rep key L em X -> e ∉ X ->
  key' e = lbl e ->
  (forall x, x ∈ X -> key' x = if decide (2 <= size X) then key x else lbl x) ->
  exists em' L', em_add lbl em L e = Ok (em', L') /\
    em_rep key' L' em' ({[e]} ∪ X) /\
    (forall x, x ∉ X -> x <> e -> lk L' x = lk L x).
Proof.
  intros (Hn & H1 & H2 & H3) He Hke Hk.
  assert (size ({[e]} ∪ X) = S (size X)) as Hsz.
  { rewrite size_union by set_solver. by rewrite size_singleton. }
  unfold em_add. rewrite Hn.
  destruct (decide (size X = 0)) as [H0|H0].
  - rewrite decide_True by lia. eexists _, _. split; [done|]. split; [|done].
    split; [simpl; lia|]. split; [intros; by apply H1; lia|]. split; [|lia].
    intros _. exists e. split; [done|]. apply size_empty_inv in H0. set_solver.
  - rewrite decide_False by lia. destruct (decide (size X = 1)) as [Hx1|Hx1].
    + rewrite decide_True by lia. destruct (H2 Hx1) as (o & -> & HX).
      destruct (do_add lbl [] L o) as [b1 L1] eqn:Ha1.
      destruct (do_add lbl b1 L1 e) as [b2 L2] eqn:Ha2.
      assert (bk_wf key' L1 b1 ({[o]} ∪ ∅)) as Hw1.
      { apply (do_add_ok _ key' _ _ _ _ _ _ _ Ha1); [apply bk_wf_nil|set_solver| |set_solver].
        rewrite Hk by set_solver. rewrite decide_False by lia. done. }
      assert (bk_wf key' L2 b2 ({[e]} ∪ ({[o]} ∪ ∅))) as Hw2.
      { eapply do_add_ok; [done|exact Hw1|set_solver|done|done]. }
      eexists _, _. split; [done|]. split.
      * split; [simpl; lia|]. split; [lia|]. split; [lia|]. intros _. simpl.
        rewrite HX. replace ({[e]} ∪ {[o]} : gset nat) with ({[e]} ∪ ({[o]} ∪ ∅) : gset nat) by set_solver. done.
      * intros x Hx Hne. trans (lk L1 x).
        -- eapply do_add_frame; [exact Ha2|exact Hw1|set_solver|done].
        -- eapply do_add_frame; [exact Ha1|apply (bk_wf_nil key')|set_solver|set_solver].
    + rewrite decide_False by lia.
      destruct (do_add lbl (em_bkts em) L e) as [b1 L1] eqn:Ha1.
      assert (2 <= size X) as H4 by lia. specialize (H3 H4).
      eexists _, _. split; [done|]. split.
      * split; [simpl; lia|]. split; [lia|]. split; [lia|]. intros _. simpl.
        eapply do_add_ok; [done|exact H3|done|done|]. intros x Hx. rewrite Hk by done. by rewrite decide_True.
      * intros x Hx Hne. by eapply do_add_frame.
Qed.

Lemma bk_wf_single_bucket key L b X e :
  bk_wf key L b X -> X = {[e]} -> exists l ll, b = [(l, ll)] /\ ll_head ll = Some e.
Proof.
  intros (Hnd & Hb & Hall) ->.
  destruct (Hall e ltac:(set_solver)) as [ll Hll].
  assert (forall l' ll', (l', ll') ∈ b -> l' = key e /\ ll_head ll' = Some e) as Huniq.
  { intros l' ll' Hin. apply bk_get_elem in Hin; [|done]. destruct (Hb _ _ Hin) as (ys & (_&Hh&_) & Hne & Hin').
    destruct ys as [|y ys]; [done|]. assert (y ∈ (y :: ys)) as Hy by set_solver.
    apply Hin' in Hy as [Hy <-]. apply elem_of_singleton in Hy as ->. done. }
  destruct b as [|[l0 ll0] [|[l1 ll1] b]]; [done| |].
  - exists l0, ll0. split; [done|]. destruct (Huniq l0 ll0); set_solver.
  - exfalso. destruct (Huniq l0 ll0) as [-> _]; [set_solver|].
    destruct (Huniq l1 ll1) as [-> _]; [set_solver|]. simpl in Hnd.
    apply NoDup_cons in Hnd as [Hnd _]. set_solver.
Qed.

Lemma em_remove_ok lbl key L em X e em' L' :
  em_remove lbl em L e = (em', L') ->
  em_rep key L em X -> e ∈ X ->
  (2 <= size X -> key e = lbl e) ->
  em_rep key L' em' (X ∖ {[e]}) /\ (forall x, x ∉ X -> lk L' x = lk L x).
Proof.
  intros Heq (Hn & H1 & H2 & H3) He Hke.
  assert (size (X ∖ {[e]}) = size X - 1) as Hsz.
  { rewrite size_difference by set_solver. by rewrite size_singleton. }
  assert (size X <> 0) as Hnz.
  { intros H0. apply size_empty_inv in H0. set_solver. }
  unfold em_remove in Heq. rewrite decide_False in Heq by lia.
  destruct (decide (size X = 1)) as [Hx1|Hx1].
  - rewrite decide_True in Heq by lia. destruct (H2 Hx1) as (o & Ho & HX).
    assert (e = o) as <- by set_solver. rewrite Ho, decide_True in Heq by done.
    injection Heq as <- <-. split; [|done]. split; [simpl; lia|].
    split; [intros; apply H1; lia|]. split; lia.
  - rewrite decide_False in Heq by lia.
    assert (2 <= size X) as H4 by lia. specialize (H3 H4). specialize (Hke H4).
    pose proof H3 as (Hnd & Hb & Hall).
    destruct (Hall e He) as [ll Hg]. rewrite Hke in Hg. rewrite Hg in Heq.
    destruct (Hb _ _ Hg) as (ys & Hd & Hne & Hin).
    destruct (el_remove ll L e) as [l1 L1] eqn:Hr.
    assert (e ∈ ys) as Hey by naive_solver.
    assert (forall x, x ∉ ys -> lk L1 x = lk L x) as Hfr by (intros; by eapply el_remove_frame).
    apply elem_of_list_split in Hey as (u & v & ->).
    pose proof (el_remove_ok _ _ _ _ _ _ _ Hr Hd) as Hd'.
    assert (NoDup (u ++ e :: v)) as Hndy by apply Hd.
    assert (e ∉ u ++ v) as Heuv.
    { rewrite <- Permutation_middle in Hndy. by apply NoDup_cons in Hndy as [? _]. }
    set (b := if decide (ll_n l1 = 0%Z) then bk_del (em_bkts em) (lbl e)
              else bk_set (em_bkts em) (lbl e) l1) in *.
    assert (bk_wf key L1 b (X ∖ {[e]})) as Hwf.
    { assert (forall l ll', l <> lbl e -> bk_get (em_bkts em) l = Some ll' ->
        exists zs, is_dll L1 ll' zs /\ zs <> [] /\ forall x, x ∈ zs <-> x ∈ X ∖ {[e]} /\ key x = l) as Hother.
      { intros l ll' Hl Hg'. destruct (Hb _ _ Hg') as (zs & Hdz & Hnz' & Hinz). exists zs.
        split; [|split; [done|]].
        - eapply is_dll_frame; [|done]. intros x Hx. apply Hfr. intros Hx'.
          apply Hin in Hx'. apply Hinz in Hx. naive_solver.
        - intros x. rewrite Hinz. rewrite elem_of_difference, elem_of_singleton. naive_solver. }
      destruct (decide (ll_n l1 = 0%Z)) as [Hz|Hz].
      - assert (u ++ v = []) as Huv.
        { destruct Hd' as (_&_&_&Hl&_). destruct (u ++ v); [done|]. simpl in Hl. lia. }
        split; [by apply bk_del_NoDup|]. split.
        + intros l ll'. subst b. rewrite bk_get_del by done. destruct (decide (l = lbl e)); [done|]. by apply Hother.
        + intros x Hx. subst b. rewrite bk_get_del by done. destruct (decide (key x = lbl e)) as [Hkx|Hkx].
          * exfalso. apply elem_of_difference in Hx as [Hx Hx'].
            assert (x ∈ u ++ e :: v) as Hxin by (apply Hin; done).
            rewrite <- Permutation_middle, Huv in Hxin. clear - Hxin Hx'. set_solver.
          * apply Hall. clear - Hx. set_solver.
      - split; [by subst b; rewrite bk_set_keys|]. split.
        + intros l ll'. subst b. rewrite bk_get_set by eauto. destruct (decide (l = lbl e)) as [Hl|Hl]; [|by apply Hother].
          intros [= <-]. subst l. exists (u ++ v). split; [done|]. split.
          * intros Huv. destruct Hd' as (_&_&_&Hl&_). rewrite Huv in Hl. done.
          * intros x. rewrite elem_of_difference, elem_of_singleton.
            split.
            -- intros Hx. assert (x ∈ u ++ e :: v) as Hx' by (clear - Hx; set_solver).
               apply Hin in Hx' as [? ?]. split; [|done]. split; [done|]. intros ->. done.
            -- intros [[Hx Hxe] Hkx]. assert (x ∈ u ++ e :: v) as Hx' by (apply Hin; done).
               clear - Hx' Hxe. set_solver.
        + intros x Hx. subst b. rewrite bk_get_set by eauto. destruct (decide (key x = lbl e)); [eauto|].
          apply Hall. clear - Hx. set_solver. }
    destruct (decide (em_n em - 1 = 1)%Z) as [Hm|Hm].
    + injection Heq as <- <-. split; [|intros x Hx; apply Hfr; rewrite Hin; naive_solver].
      assert (size (X ∖ {[e]}) = 1) as Hs1 by lia.
      pose proof Hs1 as Hs2. apply size_1_elem_of in Hs2 as [o Ho]. apply leibniz_equiv in Ho.
      destruct (bk_wf_single_bucket _ _ _ _ _ Hwf Ho) as (l' & ll' & Hb' & Hh).
      split; [simpl; lia|]. split; [done|]. split; [|lia].
      intros _. exists o. split; [|done]. simpl. subst b. rewrite Hb'. done.
    + injection Heq as <- <-. split; [|intros x Hx; apply Hfr; rewrite Hin; naive_solver].
      split; [simpl; lia|]. split; [lia|]. split; [lia|]. intros _. done.
Qed.

(** ** Iteration *)
Lemma rmap_Ok {A B} (f : A -> res B) (g : A -> B) l :
  (forall x, x ∈ l -> f x = Ok (g x)) -> rmap f l = Ok (map g l).
Proof.
  induction l as [|x l IH]; simpl; intros H; [done|].
  rewrite H by set_solver. simpl. rewrite IH by set_solver. done.
Qed.

Definition dll_list (L : links) (fuel : nat) (ll : llist) : list nat :=
  match walk fuel L (ll_head ll) with Ok l => l | _ => [] end.

Lemma dll_list_ok L ll ys fuel :
  is_dll L ll ys -> length ys <= fuel -> walk fuel L (ll_head ll) = Ok ys /\ dll_list L fuel ll = ys.
Proof. intros H Hl. unfold dll_list. rewrite (walk_ok _ _ _ _ H Hl). done. Qed.

Lemma NoDup_length_le (ys : list nat) (X : gset nat) :
  NoDup ys -> (forall x, x ∈ ys -> x ∈ X) -> length ys <= size X.
Proof.
  intros Hnd Hin. rewrite <- (size_list_to_set (C := gset nat)) by done.
  apply subseteq_size. intros x. rewrite elem_of_list_to_set. apply Hin.
Qed.

Lemma bk_concat key L X fuel b0 (b : list (string * llist)) :
  bk_wf key L b0 X -> size X <= fuel -> (forall p, p ∈ b -> p ∈ b0) -> NoDup b.*1 ->
  rmap (fun p => walk fuel L (ll_head p.2)) b = Ok (map (fun p => dll_list L fuel p.2) b) /\
  NoDup (concat (map (fun p => dll_list L fuel p.2) b)) /\
  forall x, x ∈ concat (map (fun p => dll_list L fuel p.2) b) <-> x ∈ X /\ key x ∈ b.*1.
Proof.
  intros (Hnd0 & Hb & Hall) Hfuel Hsub Hnd. split; [|split].
  - apply rmap_Ok. intros [l ll] Hin. simpl. apply Hsub, bk_get_elem in Hin; [|done].
    destruct (Hb _ _ Hin) as (ys & Hd & _ & Hys).
    assert (length ys <= fuel).
    { etrans; [|exact Hfuel]. apply NoDup_length_le; [apply Hd|naive_solver]. }
    destruct (dll_list_ok _ _ _ fuel Hd) as [-> ->]; done.
  - induction b as [|[l ll] b IH]; simpl; [constructor|].
    simpl in Hnd. apply NoDup_cons in Hnd as [Hni Hnd].
    assert ((l, ll) ∈ b0) as Hin by (apply Hsub; set_solver).
    apply bk_get_elem in Hin; [|done]. destruct (Hb _ _ Hin) as (ys & Hd & _ & Hys).
    assert (length ys <= fuel).
    { etrans; [|exact Hfuel]. apply NoDup_length_le; [apply Hd|naive_solver]. }
    destruct (dll_list_ok _ _ _ fuel Hd) as [_ ->]; [done|].
    apply NoDup_app. split; [apply Hd|]. split; [|apply IH; [set_solver|done]].
    intros x Hx Hx'. apply Hys in Hx as [_ Hkx].
    apply elem_of_list_In, in_concat in Hx' as (zs & Hzs & Hx').
    apply in_map_iff in Hzs as ([l' ll'] & <- & Hin').
    apply elem_of_list_In in Hin'. apply elem_of_list_In in Hx'. simpl in Hx'.
    assert ((l', ll') ∈ b0) as Hin2 by (apply Hsub; set_solver).
    apply bk_get_elem in Hin2; [|done]. destruct (Hb _ _ Hin2) as (ys' & Hd' & _ & Hys').
    destruct (dll_list_ok _ _ _ fuel Hd') as [_ Hdl].
    { etrans; [|exact Hfuel]. apply NoDup_length_le; [apply Hd'|naive_solver]. }
    rewrite Hdl in Hx'. apply Hys' in Hx' as [_ Hkx']. apply Hni. rewrite <- Hkx, Hkx'.
    by apply (elem_of_list_fmap_1 fst _ (l', ll')).
  - intros x. clear Hnd. induction b as [|[l ll] b IH]; simpl; [set_solver|].
    assert ((l, ll) ∈ b0) as Hin by (apply Hsub; set_solver).
    apply bk_get_elem in Hin; [|done]. destruct (Hb _ _ Hin) as (ys & Hd & _ & Hys).
    destruct (dll_list_ok _ _ _ fuel Hd) as [_ ->].
    { etrans; [|exact Hfuel]. apply NoDup_length_le; [apply Hd|naive_solver]. }
    rewrite elem_of_app, Hys, IH by set_solver. rewrite elem_of_cons. naive_solver.
Qed.

Lemma em_iter_ok key L em X fuel :
  em_rep key L em X -> size X <= fuel ->
  exists xs, em_iter fuel L em = Ok xs /\ NoDup xs /\ forall x, x ∈ xs <-> x ∈ X.
Proof.
  intros (Hn & H1 & H2 & H3) Hf. unfold em_iter. rewrite Hn.
  destruct (decide (size X = 0)) as [H0|H0].
  { rewrite decide_True by lia. exists []. apply size_empty_inv in H0. split; [done|]. split; [constructor|]. clear - H0. set_solver. }
  rewrite decide_False by lia. destruct (decide (size X = 1)) as [Hx1|Hx1].
  { rewrite decide_True by lia. destruct (H2 Hx1) as (e & -> & ->). exists [e]. split; [done|].
    split; [apply NoDup_singleton|set_solver]. }
  rewrite decide_False by lia.
  assert (2 <= size X) as H4 by lia. specialize (H3 H4).
  destruct (bk_concat key L X fuel (em_bkts em) (em_bkts em)) as (Hr & Hnd & Hin); [done|done|done|apply H3|].
  rewrite Hr. simpl. eexists. split; [done|]. split; [done|].
  intros x. rewrite Hin. split; [naive_solver|]. intros Hx. split; [done|].
  destruct H3 as (_&_&Hall). destruct (Hall x Hx) as [ll Hll].
  apply bk_get_Some_elem in Hll. by apply (elem_of_list_fmap_1 fst _ (key x, ll)).
Qed.

Lemma em_iter_label_ok lbl key L em X fuel l :
  em_rep key L em X -> size X <= fuel ->
  exists xs, em_iter_label lbl fuel L em l = Ok xs /\ NoDup xs /\
    (forall x, x ∈ xs <-> x ∈ X /\ (if decide (size X = 1) then lbl x else key x) = l).
Proof.
  intros (Hn & H1 & H2 & H3) Hf. unfold em_iter_label. rewrite Hn.
  destruct (decide (size X = 0)) as [H0|H0].
  { rewrite decide_True by lia. exists []. apply size_empty_inv in H0. split; [done|]. split; [constructor|]. clear - H0. set_solver. }
  rewrite decide_False by lia. destruct (decide (size X = 1)) as [Hx1|Hx1].
  { rewrite decide_True by lia. destruct (H2 Hx1) as (e & -> & ->).
    rewrite H1 by lia. simpl. case_decide as Hl.
    - exists [e]. split; [done|]. split; [apply NoDup_singleton|].
      intros x. rewrite elem_of_list_singleton, elem_of_singleton. clear - Hl. naive_solver.
    - exists []. split; [done|]. split; [constructor|].
      intros x. rewrite elem_of_singleton. split; [by intros ?%elem_of_nil|]. clear - Hl. naive_solver. }
  rewrite decide_False by lia.
  assert (2 <= size X) as H4 by lia. specialize (H3 H4). destruct H3 as (Hnd & Hb & Hall).
  destruct (bk_get (em_bkts em) l) as [ll|] eqn:Hg.
  - destruct (Hb _ _ Hg) as (ys & Hd & _ & Hys). exists ys.
    split; [|split; [apply Hd|done]]. eapply walk_ok; [done|].
    etrans; [|exact Hf]. apply NoDup_length_le; [apply Hd|naive_solver].
  - exists []. split; [done|]. split; [constructor|]. intros x.
    split; [by intros ?%elem_of_nil|]. intros [Hx <-]. destruct (Hall x Hx) as [? ?]. congruence.
Qed.

Lemma em_iter_any_ok lbl key L em X fuel ord :
  em_rep key L em X -> size X <= fuel -> NoDup ord ->
  exists xs, em_iter_any lbl fuel L em ord = Ok xs /\ NoDup xs /\
    (forall x, x ∈ xs <-> x ∈ X /\ (if decide (size X = 1) then lbl x else key x) ∈ ord).
Proof.
  intros Hrep Hf Hord. pose proof Hrep as (Hn & H1 & H2 & H3). unfold em_iter_any. rewrite Hn.
  destruct (decide (size X = 0)) as [H0|H0].
  { rewrite decide_True by lia. exists []. apply size_empty_inv in H0. split; [done|]. split; [constructor|]. clear - H0. set_solver. }
  rewrite decide_False by lia. destruct (decide (size X = 1)) as [Hx1|Hx1].
  { rewrite decide_True by lia. destruct (H2 Hx1) as (e & -> & ->).
    case_decide as Hl.
    - exists [e]. split; [done|]. split; [apply NoDup_singleton|].
      intros x. rewrite elem_of_list_singleton, elem_of_singleton. clear - Hl. naive_solver.
    - exists []. split; [done|]. split; [constructor|].
      intros x. rewrite elem_of_singleton. split; [by intros ?%elem_of_nil|]. clear - Hl. naive_solver. }
  rewrite decide_False by lia.
  set (f := fun l => match em_iter_label lbl fuel L em l with Ok xs => xs | _ => [] end).
  assert (forall l, em_iter_label lbl fuel L em l = Ok (f l) /\ NoDup (f l) /\
    (forall x, x ∈ f l <-> x ∈ X /\ key x = l)) as Hfl.
  { intros l. destruct (em_iter_label_ok lbl key L em X fuel l Hrep Hf) as (xs & Heq & ? & Hin).
    unfold f. rewrite Heq. split; [done|]. split; [done|]. intros x. rewrite Hin, decide_False; done. }
  rewrite (rmap_Ok _ f).
  2: { intros l _. destruct (Hfl l) as (Heq & _ & Hin).
       destruct (bk_get (em_bkts em) l) as [ll|] eqn:Hg; [done|].
       f_equal. destruct (f l) as [|y r] eqn:Efl; [done|]. exfalso.
       destruct (Hin y) as [Hy _]. destruct Hy as [Hy Hky]; [set_solver|].
       assert (2 <= size X) as H4 by lia. destruct (H3 H4) as (_&_&Hall).
       destruct (Hall y Hy) as [? ?]. congruence. }
  simpl. eexists. split; [done|]. clear Hrep H1 H2 H3. split.
  - induction ord as [|l ord IH]; simpl; [constructor|]. apply NoDup_cons in Hord as [Hni Hord].
    apply NoDup_app. split; [apply Hfl|]. split; [|by apply IH].
    intros x Hx Hx'. apply Hfl in Hx as [_ Hkx]. apply elem_of_list_In, in_concat in Hx' as (zs & Hzs & Hx').
    apply in_map_iff in Hzs as (l' & <- & Hin'). apply elem_of_list_In, Hfl in Hx' as [_ Hkx'].
    apply elem_of_list_In in Hin'. congruence.
  - intros x. clear Hord. induction ord as [|l ord IH]; simpl; [set_solver|].
    rewrite elem_of_app, IH, elem_of_cons. destruct (Hfl l) as (_&_&->). naive_solver.
Qed.
