(** Proofs about clone.go. *)
From Verif Require Import Base Value Index Graph GraphSpec CoreProofs CoreStep AdjProofs NodeListProofs EdgeListProofs
  IndexGraphProofs ProgressProofs Sizes VPathProofs Clone CloneSpec AlgSpec.

Lemma clone_props_mapped f p : mapped f p (clone_props f p).
Proof. intros k. unfold clone_props. rewrite map_lookup_imap. by destruct (p !! k). Qed.
Lemma mapped_value f p q k v : mapped f p q -> q !! k = Some v -> exists w, p !! k = Some w /\ v = f k w.
Proof. intros H. rewrite H. destruct (p !! k) as [w|]; simpl; [|done]. intros [= <-]. eauto. Qed.

(** ** The target's history *)
Lemma node_index_clones f s ops ops' k : Forall (clone_op f s) ops' -> node_index (ops ++ ops') k = node_index ops k.
Proof.
  intros H. induction ops as [|o ops IH]; simpl.
  - induction H as [|o ops' Ho H IH]; simpl; [done|]. by destruct o.
  - rewrite IH. done.
Qed.
Lemma edge_index_clones f s ops ops' k : Forall (clone_op f s) ops' -> edge_index (ops ++ ops') k = edge_index ops k.
Proof.
  intros H. induction ops as [|o ops IH]; simpl.
  - induction H as [|o ops' Ho H IH]; simpl; [done|]. by destruct o.
  - rewrite IH. done.
Qed.
Lemma node_filed_clones f s ops ops' k v : Forall (clone_op f s) ops' -> node_filed (ops ++ ops') k v ->
  node_filed ops k v \/ cloned_node_value f s k v.
Proof.
  intros H Hf. induction ops' as [|o ops' IH] using rev_ind; [left; by rewrite app_nil_r in Hf|].
  apply Forall_app in H as [H1 H2]. apply Forall_cons in H2 as [H _]. rewrite app_assoc in Hf.
  apply node_filed_snoc in Hf as [Hf|[Hi Hw]]; [by apply IH|right].
  destruct Hw as [Hw|[Hn _]]; [|rewrite node_index_snoc, Hn in Hi; by destruct o, Hi]. destruct o; try done; simpl in *.
  destruct H as (n & x & Hx & _ & Hm). destruct (mapped_value _ _ _ _ _ Hm Hw) as (w & Hw' & ->).
  exists n, w. split; [|done]. by exists x.
Qed.
Lemma edge_filed_clones f s ops ops' k v : Forall (clone_op f s) ops' -> edge_filed (ops ++ ops') k v ->
  edge_filed ops k v \/ cloned_edge_value f s k v.
Proof.
  intros H Hf. induction ops' as [|o ops' IH] using rev_ind; [left; by rewrite app_nil_r in Hf|].
  apply Forall_app in H as [H1 H2]. apply Forall_cons in H2 as [H _]. rewrite app_assoc in Hf.
  apply edge_filed_snoc in Hf as [Hf|[Hi Hw]]; [by apply IH|right].
  destruct Hw as [Hw|[Hn _]]; [|rewrite edge_index_snoc, Hn in Hi; by destruct o, Hi]. destruct o; try done; simpl in *.
  destruct H as (n & x & Hx & _ & Hm). destruct (mapped_value _ _ _ _ _ Hm Hw) as (w & Hw' & ->).
  exists n, w. split; [|done]. by exists x.
Qed.
Lemma edge_list_safe_clones f s ops ops' : Forall (clone_op f s) ops' -> edge_list_safe ops -> edge_list_safe (ops ++ ops').
Proof.
  intros H Hs. induction ops' as [|o ops' IH] using rev_ind; [by rewrite app_nil_r|].
  apply Forall_app in H as [H1 H2]. rewrite app_assoc. apply edge_list_safe_snoc. split; [by apply IH|].
  apply Forall_cons in H2 as [Ho _]. intros e [[x Hx] Hn]. exfalso. apply Hn. unfold live_edge in *.
  destruct o; try (by destruct Ho). cbn [sstep s_edges]. destruct (decide (e = s_next (fold_left sstep (ops ++ ops') s_empty))) as [->|Hne].
  - rewrite lookup_insert. by eexists.
  - rewrite lookup_insert_ne by done. by exists x.
Qed.
Lemma scan_clones f s ops ops' (P : list op -> Prop) k : Forall (clone_op f s) ops' ->
  (forall o1 o2 it, ops = o1 ++ OAddNodeIndex k it :: o2 -> P o1) ->
  forall o1 o2 it, ops ++ ops' = o1 ++ OAddNodeIndex k it :: o2 -> P o1.
Proof.
  intros H HP o1 o2 it E. apply app_eq_app in E as (l & [[-> E]|[-> E]]).
  - destruct l as [|o l].
    + simpl in E. rewrite <-E in H. apply Forall_cons in H as [[] _].
    + injection E as <- E. by eapply HP.
  - rewrite E in H. apply Forall_app in H as [_ H]. apply Forall_cons in H as [[] _].
Qed.
Lemma calls_safe_clones f s ops ops' : Forall (clone_op f s) ops' -> calls_safe ops -> can_hold ops f s -> calls_safe (ops ++ ops').
Proof.
  intros H (H1 & H2 & H3) [C1 C2]. split; [by eapply edge_list_safe_clones|]. split.
  - intros k it Hk. rewrite (node_index_clones f s) in Hk by done. split.
    + eapply storable_mono; [|by apply C1]. intros v. by apply node_filed_clones.
    + intros o1 o2 t. eapply (scan_clones f s ops ops' node_list_safe k H). intros. by eapply (proj2 (H2 k it Hk)).
  - intros k it Hk. rewrite (edge_index_clones f s) in Hk by done.
    eapply storable_mono; [|by apply C2]. intros v. by apply edge_filed_clones.
Qed.

Lemma ids_bounded ops g : valid_history ops -> run ops = Ok g ->
  (forall n, live_node (srun ops) n -> n < s_next (srun ops)) /\ (forall e, live_edge (srun ops) e -> e < s_next (srun ops)).
Proof.
  intros Hv Hr. pose proof (core_run _ _ Hv Hr) as Hc. pose proof Hc as (_ & Hn & _ & B1 & _). split.
  - intros n [x Hx]. destruct (core_node _ _ _ _ Hc Hx) as (nd & Hnd & _). rewrite <-Hn. apply B1. by eexists.
  - intros e [x Hx]. destruct (core_edge _ _ _ _ Hc Hx) as (_ & _ & _ & H). by rewrite <-Hn.
Qed.

Section clone.
  Context (src : graph) (s : sgraph) (Hc : core src s) (f : string -> value -> value) (ord : nat -> list string).
  Context (Hord : forall n x, s_nodes s !! n = Some x -> order_of (sn_labels x) (ord n)).
  Context (tops : list op) (m0 : gmap nat nat) (Hm0 : forall n n', m0 !! n = Some n' -> live_node (srun tops) n').

  (** the calls return if the indexes of the target can hold the new values *)
  Definition safe : Prop := calls_safe tops /\ can_hold tops f s.
  Definition sat {A} (r : res A) (P : A -> Prop) : Prop := (forall a, r = Ok a -> P a) /\ (safe -> exists a, r = Ok a).
  Lemma sat_ok {A} (a : A) (P : A -> Prop) : P a -> sat (Ok a) P.
  Proof. intros H. split; [by intros ? [= <-]|eauto]. Qed.
  Lemma sat_bind {A B} (r : res A) (k : A -> res B) (P : A -> Prop) (Q : B -> Prop) : sat r P -> (forall a, r = Ok a -> P a -> sat (k a) Q) -> sat (rbind r k) Q.
  Proof.
    intros [H1 H2] H. split.
    - intros b Hb. apply rbind_Ok_inv in Hb as (a & Ha & Hb). by apply (H a Ha (H1 a Ha)).
    - intros Hs. destruct (H2 Hs) as [a Ha]. rewrite Ha. simpl. by apply (H a Ha (H1 a Ha)).
  Qed.
  Lemma sat_mono {A} (r : res A) (P Q : A -> Prop) : sat r P -> (forall a, P a -> Q a) -> sat r Q.
  Proof. intros [H1 H2] H. split; [|done]. auto. Qed.

  Definition good (ops' : list op) (tgt : graph) (m h : gmap nat nat) : Prop :=
    valid_history (tops ++ ops') /\ run (tops ++ ops') = Ok tgt /\ Forall (clone_op f s) ops' /\
    extended f s (srun tops) (srun (tops ++ ops')) m0 m h /\
    (forall n n', m !! n = Some n' -> live_node (srun (tops ++ ops')) n').

  Lemma good_init tgt : valid_history tops -> run tops = Ok tgt -> good [] tgt m0 ∅.
  Proof.
    intros Hv Hr. unfold good. rewrite app_nil_r. split; [done|]. split; [done|]. split; [constructor|]. split; [|done].
    split; try done.
    - intros n n' E1 E2. congruence.
    - intros n1 n2 n' E1 _ E2. congruence.
    - by left.
    - by left.
  Qed.
  Lemma good_step ops' tgt m h o : good ops' tgt m h -> clone_op f s o -> valid (srun (tops ++ ops')) o -> 
    sat (step tgt o) (fun tgt' => valid_history (tops ++ (ops' ++ [o])) /\ run (tops ++ (ops' ++ [o])) = Ok tgt' /\ Forall (clone_op f s) (ops' ++ [o])).
  Proof.
    intros (Hv & Hr & Hf & _) Ho Hvo. assert (Hf' : Forall (clone_op f s) (ops' ++ [o])) by (apply Forall_app; by repeat constructor).
    split.
    - intros tgt' Hs. split_and!; [|rewrite app_assoc, run_snoc, Hr; done|done]. rewrite app_assoc. by apply valid_history_snoc.
    - intros [S1 S2]. apply (step_progress (tops ++ ops') o tgt); try done. rewrite <-app_assoc. by apply (calls_safe_clones f s).
  Qed.
  Lemma good_bounds ops' tgt m h : good ops' tgt m h ->
    (forall n, live_node (srun (tops ++ ops')) n -> n < s_next (srun (tops ++ ops'))) /\
    (forall e, live_edge (srun (tops ++ ops')) e -> e < s_next (srun (tops ++ ops'))) /\ g_next tgt = s_next (srun (tops ++ ops')).
  Proof. intros (Hv & Hr & _). destruct (ids_bounded _ _ Hv Hr) as [? ?]. pose proof (core_run _ _ Hv Hr) as (_ & ? & _). done. Qed.

  Lemma good_node ops' tgt m h n : good ops' tgt m h -> live_node s n -> m !! n = None ->
    sat (clone_node src tgt f n (ord n)) (fun r => exists ops'', good ops'' r.1 (<[n := r.2]> m) h).
  Proof.
    intros Hg [x Hx] Hn. pose proof (good_bounds _ _ _ _ Hg) as (B1 & B2 & B3).
    destruct (core_node _ _ _ _ Hc Hx) as (nd & Hnd & El & Ep). unfold clone_node, deref_node. rewrite Hnd. cbn [rbind]. rewrite El, Ep.
    set (o := ONewNode (sn_labels x) (clone_props f (sn_props x)) (ord n)).
    assert (clone_op f s o) as Ho. { exists n, x. split; [done|]. split; [done|]. apply clone_props_mapped. }
    pose proof (good_step _ _ _ _ o Hg Ho (Hord n x Hx)) as [Hs1 Hs2]. unfold o in Hs1, Hs2. cbn [step] in Hs1, Hs2.
    split; [|intros Hsafe; apply Hs2 in Hsafe as [g Hg']; apply rbind_Ok_inv in Hg' as (r & Hr & _); eauto].
    intros [tgt' n'] Hr. rewrite Hr in Hs1. cbn [rbind fst snd] in *. destruct (Hs1 tgt' eq_refl) as (Hv' & Hr' & Hf').
    fold o in Hv', Hr', Hf'. exists (ops' ++ [o]). destruct (new_node_shape _ _ _ _ _ _ Hr) as (En & _). rewrite B3 in En.
    destruct Hg as (Hv & Hrun & Hf & Hex & Hlive).
    assert (Et : srun (tops ++ ops' ++ [o]) = sstep (srun (tops ++ ops')) o) by (by rewrite app_assoc, srun_snoc).
    set (t' := srun (tops ++ ops')) in *. cbn [sstep o] in Et.
    assert (Hfresh : s_nodes t' !! n' = None).
    { destruct (s_nodes t' !! n') eqn:E; [|done]. assert (n' < s_next t'); [|lia]. apply B1. by eexists. }
    assert (Hold : forall i, live_node t' i -> i <> n'). { intros i [y Hy] ->. congruence. }
    destruct Hex as [X1 X2 X3 X4 X5 X6 X7 X8 X9].
    assert (Hm0n : m0 !! n = None). { destruct (m0 !! n) eqn:E; [|done]. apply (lookup_weaken _ _ _ _ E) in X1. congruence. }
    split; [done|]. split; [done|]. split; [done|]. split; [|].
    - rewrite Et. split; cbn [s_nodes s_edges].
      + etrans; [exact X1|]. by apply insert_subseteq.
      + etrans; [exact X2|]. rewrite <-En. by apply insert_subseteq.
      + done.
      + intros a a' Ea Em. destruct (decide (a = n)) as [->|Hne].
        * rewrite lookup_insert in Ea. injection Ea as <-. split.
          -- destruct (s_nodes (srun tops) !! n') eqn:E; [|done]. apply (lookup_weaken _ _ _ _ E) in X2. congruence.
          -- exists x. eexists. split; [done|]. split; [rewrite <-En; by rewrite lookup_insert|]. split; [done|]. apply clone_props_mapped.
        * rewrite lookup_insert_ne in Ea by done. destruct (X4 _ _ Ea Em) as (? & y & z & Hy & Hz & ?). split; [done|].
          exists y, z. split; [done|]. split; [|done]. rewrite <-En, lookup_insert_ne; [done|]. intros <-. by rewrite Hfresh in Hz.
      + intros e e' He. destruct (X5 _ _ He) as (? & y & z & Hy & Hz & Z1 & Z2 & Z3). split; [done|]. exists y, z. split; [done|]. split; [done|].
        split; [|split; [|done]]; (rewrite lookup_insert_ne; [done|congruence]).
      + intros n1 n2 a E1 E2 E3. destruct (decide (n1 = n)) as [->|H1], (decide (n2 = n)) as [->|H2]; [done| | |].
        * rewrite lookup_insert in E1. rewrite lookup_insert_ne in E2 by done. injection E1 as <-. exfalso. by apply (Hold n'), eq_refl; eauto.
        * rewrite lookup_insert in E2. rewrite lookup_insert_ne in E1 by done. injection E2 as <-. exfalso. by apply (Hold n'), eq_refl; eauto.
        * rewrite lookup_insert_ne in E1, E2 by done. by eapply X6.
      + done.
      + intros a [y Hy]. cbn [s_nodes] in Hy. destruct (decide (a = n')) as [->|Hne].
        * right. exists n. by rewrite lookup_insert.
        * rewrite <-En, lookup_insert_ne in Hy by done. destruct (X8 a) as [?|(b & Hb & ?)]; [by eexists|by left|].
          right. exists b. split; [|done]. rewrite lookup_insert_ne; [done|congruence].
      + done.
    - rewrite Et. intros a a' Ea. unfold live_node. cbn [s_nodes]. rewrite <-En. destruct (decide (a = n)) as [->|Hne].
      + rewrite lookup_insert in Ea. injection Ea as <-. rewrite lookup_insert. by eexists.
      + rewrite lookup_insert_ne in Ea by done. rewrite lookup_insert_ne; [by eapply Hlive|]. intros <-. by eapply Hold; [eapply Hlive|].
  Qed.

  Lemma good_edge ops' tgt m h e x : good ops' tgt m h -> s_edges s !! e = Some x ->
    is_Some (m !! e_from x) -> is_Some (m !! e_to x) -> h !! e = None ->
    sat (copy_edge src tgt f m e) (fun r => exists ops'', good ops'' r.1 m (<[e := r.2]> h)).
  Proof.
    intros Hg Hx [a Ha] [b Hb] He. pose proof (good_bounds _ _ _ _ Hg) as (B1 & B2 & B3).
    destruct (core_edge _ _ _ _ Hc Hx) as (Hed & _). destruct (edge_ends src s Hc _ _ Hx) as [Ef Et].
    unfold copy_edge, clone_edge, deref_edge. rewrite Ef, Et, Ha, Hb, Hed. cbn [rbind].
    set (o := ONewEdge a b (e_label x) (clone_props f (e_props x))).
    assert (clone_op f s o) as Ho. { exists e, x. split; [done|]. split; [done|]. apply clone_props_mapped. }
    assert (valid (srun (tops ++ ops')) o) as Hvo. { destruct Hg as (_ & _ & _ & _ & Hl). split; by eapply Hl. }
    pose proof (good_step _ _ _ _ o Hg Ho Hvo) as [Hs1 Hs2]. unfold o in Hs1, Hs2. cbn [step] in Hs1, Hs2.
    split; [|intros Hsafe; apply Hs2 in Hsafe as [g Hg']; apply rbind_Ok_inv in Hg' as (r & Hr & _); eauto].
    intros [tgt' e'] Hr. rewrite Hr in Hs1. cbn [rbind fst snd] in *. destruct (Hs1 tgt' eq_refl) as (Hv' & Hr' & Hf').
    fold o in Hv', Hr', Hf'. exists (ops' ++ [o]). destruct (new_edge_shape _ _ _ _ _ _ _ Hr) as (En & _). rewrite B3 in En.
    destruct Hg as (Hv & Hrun & Hf & Hex & Hlive).
    assert (Es : srun (tops ++ ops' ++ [o]) = sstep (srun (tops ++ ops')) o) by (by rewrite app_assoc, srun_snoc).
    set (t' := srun (tops ++ ops')) in *. cbn [sstep o] in Es.
    assert (Hfresh : s_edges t' !! e' = None).
    { destruct (s_edges t' !! e') eqn:E; [|done]. assert (e' < s_next t'); [|lia]. apply B2. by eexists. }
    destruct Hex as [X1 X2 X3 X4 X5 X6 X7 X8 X9].
    assert (Hold : forall i i', h !! i = Some i' -> i' <> e').
    { intros i i' Hi ->. destruct (X5 _ _ Hi) as (_ & ? & ? & _ & ? & _). congruence. }
    split; [done|]. split; [done|]. split; [done|]. split; [|].
    - rewrite Es. split; cbn [s_nodes s_edges]; try done.
      + etrans; [exact X3|]. rewrite <-En. by apply insert_subseteq.
      + intros i i' Ei. destruct (decide (i = e)) as [->|Hne].
        * rewrite lookup_insert in Ei. injection Ei as <-. split.
          -- destruct (s_edges (srun tops) !! e') eqn:E; [|done]. apply (lookup_weaken _ _ _ _ E) in X3. congruence.
          -- exists x. eexists. split; [done|]. split; [rewrite <-En; by rewrite lookup_insert|]. split_and!; try done. apply clone_props_mapped.
        * rewrite lookup_insert_ne in Ei by done. destruct (X5 _ _ Ei) as (? & y & z & Hy & Hz & ?). split; [done|].
          exists y, z. split; [done|]. split; [|done]. rewrite <-En, lookup_insert_ne; [done|]. intros <-. by rewrite Hfresh in Hz.
      + intros n1 n2 i E1 E2. destruct (decide (n1 = e)) as [->|H1], (decide (n2 = e)) as [->|H2]; [done| | |].
        * rewrite lookup_insert in E1. rewrite lookup_insert_ne in E2 by done. injection E1 as <-. by destruct (Hold _ _ E2).
        * rewrite lookup_insert in E2. rewrite lookup_insert_ne in E1 by done. injection E2 as <-. by destruct (Hold _ _ E1).
        * rewrite lookup_insert_ne in E1, E2 by done. by eapply X7.
      + intros i [y Hy]. cbn [s_edges] in Hy. destruct (decide (i = e')) as [->|Hne].
        * right. exists e. by rewrite lookup_insert.
        * rewrite <-En, lookup_insert_ne in Hy by done. destruct (X9 i) as [?|(b' & Hb')]; [by eexists|by left|].
          right. exists b'. rewrite lookup_insert_ne; [done|congruence].
    - rewrite Es. intros i i' Ei. by apply (Hlive i).
  Qed.

  (** ** CopyGraph *)
  Lemma copy_nodes_ok ns ops' tgt m h : good ops' tgt m h -> NoDup ns -> (forall n, n ∈ ns -> live_node s n /\ m !! n = None) ->
    sat (rfold (fun (mt : gmap nat nat * graph) n =>
        let! r := (let! r := clone_node src mt.2 f n (ord n) in Ok (Some r.2, r.1)) in
        Ok (match r.1 with Some n' => <[n := n']> mt.1 | None => mt.1 end, r.2)) ns (m, tgt))
      (fun mt => exists ops'', good ops'' mt.2 mt.1 h /\ forall n, is_Some (mt.1 !! n) <-> is_Some (m !! n) \/ n ∈ ns).
  Proof.
    revert ops' tgt m. induction ns as [|n ns IH]; intros ops' tgt m Hg Hnd Hns; cbn [rfold].
    { apply sat_ok. exists ops'. split; [done|]. cbn [fst]. intros n. rewrite elem_of_nil. tauto. }
    apply NoDup_cons in Hnd as [Hn Hnd]. destruct (Hns n (elem_of_list_here _ _)) as [Ln Hmn].
    eapply sat_bind; [eapply sat_bind; [eapply sat_bind; [exact (good_node _ _ _ _ n Hg Ln Hmn)|]|]|]; cbn [fst snd].
    - intros r Hr HP. apply sat_ok. instantiate (1 := fun r => exists n' ops'', r.1 = Some n' /\ good ops'' r.2 (<[n := n']> m) h).
      destruct HP as [ops'' ?]. exists r.2, ops''. done.
    - intros r _ (n' & ops'' & E & Hg'). rewrite E. apply sat_ok.
      instantiate (1 := fun mt => exists n' ops'', mt.1 = <[n := n']> m /\ good ops'' mt.2 mt.1 h). exists n', ops''. done.
    - intros [m1 t1] _ (n' & ops'' & Em & Hg'). cbn [fst snd] in *. subst m1.
      eapply sat_mono; [apply (IH ops'' t1 _ Hg' Hnd)|].
      + intros y Hy. destruct (Hns y) as [? ?]; [by right|]. split; [done|]. rewrite lookup_insert_ne; [done|]. intros <-. done.
      + intros mt (o2 & Hg2 & Hdom). exists o2. split; [done|]. intros y. rewrite Hdom, elem_of_cons.
        destruct (decide (y = n)) as [->|Hne]; [rewrite lookup_insert|rewrite lookup_insert_ne by done]; [|tauto].
        split; [tauto|]. intros _. left. by eexists.
  Qed.
  Lemma copy_edges_ok es ops' tgt m h : good ops' tgt m h -> (forall n, live_node s n -> is_Some (m !! n)) -> NoDup es ->
    (forall e, e ∈ es -> live_edge s e /\ h !! e = None) ->
    sat (rfold (fun t e =>
      if decide (is_Some (m !! edge_from src e)) then
        if decide (is_Some (m !! edge_to src e)) then (let! r := copy_edge src t f m e in Ok r.1) else Ok t
      else Ok t) es tgt)
      (fun t => exists ops'' h', good ops'' t m h' /\ forall e, is_Some (h' !! e) <-> is_Some (h !! e) \/ e ∈ es).
  Proof.
    intros Hg Hm. revert ops' tgt h Hg. induction es as [|e es IH]; intros ops' tgt h Hg Hnd Hes; cbn [rfold].
    { apply sat_ok. exists ops', h. split; [done|]. intros e. rewrite elem_of_nil. tauto. }
    apply NoDup_cons in Hnd as [Hn Hnd]. destruct (Hes e (elem_of_list_here _ _)) as [[x Hx] He].
    destruct (edge_ends src s Hc _ _ Hx) as [Ef Et]. destruct (core_edge _ _ _ _ Hc Hx) as (_ & Lf & Lt & _).
    rewrite Ef, Et. destruct (decide (is_Some (m !! e_from x))) as [_|Hno]; [|by destruct Hno; apply Hm].
    destruct (decide (is_Some (m !! e_to x))) as [_|Hno]; [|by destruct Hno; apply Hm].
    eapply sat_bind; [eapply sat_bind; [exact (good_edge _ _ _ _ e x Hg Hx (Hm _ Lf) (Hm _ Lt) He)|]|].
    - intros r Hr HP. apply sat_ok. instantiate (1 := fun t => exists e' ops'', good ops'' t m (<[e := e']> h)).
      destruct HP as [ops'' ?]. by exists r.2, ops''.
    - intros t1 _ (e' & ops'' & Hg'). eapply sat_mono; [apply (IH ops'' t1 _ Hg' Hnd)|].
      + intros y Hy. destruct (Hes y) as [? ?]; [by right|]. split; [done|]. rewrite lookup_insert_ne; [done|]. intros <-. done.
      + intros t2 (o2 & h2 & Hg2 & Hdom). exists o2, h2. split; [done|]. intros y. rewrite Hdom, elem_of_cons.
        destruct (decide (y = e)) as [->|Hne]; [rewrite lookup_insert|rewrite lookup_insert_ne by done]; [|tauto].
        split; [tauto|]. intros _. left. by eexists.
  Qed.

  (** ** CopySubgraph *)
  Lemma reach_mono (m m' : gmap nat nat) n y : m ⊆ m' -> reach s m' n y -> reach s m n y.
  Proof.
    intros Hm. assert (forall i, m' !! i = None -> m !! i = None) as H.
    { intros i Hi. destruct (m !! i) eqn:E; [|done]. apply (lookup_weaken _ _ _ _ E) in Hm. congruence. }
    induction 1; [constructor; auto|]. eapply reach_next; eauto.
  Qed.
  Lemma reach_trans m n y z : reach s m n y -> reach s m y z -> reach s m n z.
  Proof. intros H. induction 1; [done|]. eapply reach_next; eauto. Qed.
  Lemma reach_live m n y : live_node s n -> reach s m n y -> live_node s y.
  Proof. intros Hn. induction 1 as [|y z e x _ _ Hx _ <- _]; [done|]. by destruct (core_edge _ _ _ _ Hc Hx) as (_ & _ & ? & _). Qed.

  Definition left_of (m : gmap nat nat) : nat := size (filter (fun p => m !! p.1 = None) (s_nodes s)).
  Lemma left_of_mono m m' : m ⊆ m' -> left_of m' <= left_of m.
  Proof.
    intros H. unfold left_of. rewrite <-!(size_dom (D := gset nat)). apply subseteq_size. intros i [x Hi]%elem_of_dom.
    apply map_filter_lookup_Some in Hi as [Hi Hn]. apply elem_of_dom. exists x. apply map_filter_lookup_Some. split; [done|]. simpl in *.
    destruct (m !! i) eqn:E; [|done]. apply (lookup_weaken _ _ _ _ E) in H. congruence.
  Qed.
  Lemma left_of_insert m n n' : live_node s n -> m !! n = None -> left_of (<[n := n']> m) < left_of m.
  Proof.
    intros [x Hx] Hn. unfold left_of. rewrite <-!(size_dom (D := gset nat)). apply subset_size. split.
    - intros i [y Hi]%elem_of_dom. apply map_filter_lookup_Some in Hi as [Hi Hi']. apply elem_of_dom. exists y.
      apply map_filter_lookup_Some. split; [done|]. simpl in *. destruct (decide (i = n)) as [->|]; [by rewrite lookup_insert in Hi'|].
      by rewrite lookup_insert_ne in Hi'.
    - intros Hsub. assert (n ∈ dom (filter (fun p => m !! p.1 = None) (s_nodes s))) as Hin.
      { apply elem_of_dom. exists x. by apply map_filter_lookup_Some. }
      apply Hsub, elem_of_dom in Hin as [y Hy]. apply map_filter_lookup_Some in Hy as [_ Hy]. simpl in Hy. by rewrite lookup_insert in Hy.
  Qed.

  (** CopySubgraph reading from [rd tgt], where [tgt] is the target as it then is *)
  Fixpoint copy_gen (rd : graph -> graph) (k n : nat) (tgt : graph) (m : gmap nat nat) : res (gmap nat nat * graph) :=
    match k with
    | O => Diverge
    | S k =>
        match m !! n with
        | Some _ => Ok (m, tgt)
        | None =>
            let! r := clone_node (rd tgt) tgt f n (ord n) in
            let! es := node_edges (rd r.1) n Outgoing in
            rfold (fun mt e =>
                let! mt1 := copy_gen rd k (edge_to (rd mt.2) e) mt.2 mt.1 in
                let! r := copy_edge (rd mt1.2) mt1.2 f mt1.1 e in
                Ok (mt1.1, r.1)) es (<[n := r.2]> m, r.1)
        end
    end.
  Lemma copy_gen_const k : forall n tgt m, copy_gen (fun _ => src) k n tgt m = copy_subgraph k src f ord n tgt m.
  Proof.
    induction k as [|k IH]; intros n tgt m; cbn [copy_gen copy_subgraph]; [done|]. destruct (m !! n); [done|].
    destruct (clone_node _ _ _ _ _) as [r| |]; cbn [rbind]; [|done..]. destruct (node_edges _ _ _) as [es| |]; cbn [rbind]; [|done..].
    generalize (<[n := r.2]> m, r.1). induction es as [|e es IHes]; intros mt; cbn [rfold]; [done|]. rewrite IH.
    destruct (copy_subgraph _ _ _ _ _ _ _) as [mt1| |]; cbn [rbind]; [|done..]. destruct (copy_edge _ _ _ _ _) as [r1| |]; cbn [rbind]; [|done..]. apply IHes.
  Qed.
  (** [g] has the nodes and edges of [s], and no more edges from these nodes *)
  Definition agrees (g : graph) : Prop :=
    (forall n x, s_nodes s !! n = Some x -> exists nd, g_nodes g !! n = Some nd /\ n_labels nd = sn_labels x /\ n_props nd = sn_props x) /\
    (forall e x, s_edges s !! e = Some x -> g_edges g !! e = Some x) /\
    (forall n, live_node s n -> exists es, node_edges g n Outgoing = Ok es /\ lists (is_out s n) es).
  Lemma src_agrees : agrees src.
  Proof.
    split; [|split].
    - intros n x Hx. destruct (core_node _ _ _ _ Hc Hx) as (nd & ? & ? & ?). eauto.
    - intros e x Hx. by destruct (core_edge _ _ _ _ Hc Hx) as (? & _).
    - intros n Ln. exact (node_edges_out src s Hc n Ln).
  Qed.
  Lemma clone_node_agrees g tgt n : agrees g -> live_node s n -> clone_node g tgt f n (ord n) = clone_node src tgt f n (ord n).
  Proof.
    intros (Hn & _) [x Hx]. destruct (Hn n x Hx) as (nd & E & E1 & E2). destruct (proj1 src_agrees n x Hx) as (nd' & E' & E1' & E2').
    unfold clone_node, deref_node. rewrite E, E'. cbn [rbind]. by rewrite E1, E2, E1', E2'.
  Qed.
  Lemma edge_ends_agrees g e x : agrees g -> s_edges s !! e = Some x -> edge_from g e = e_from x /\ edge_to g e = e_to x.
  Proof. intros (_ & He & _) Hx. unfold edge_from, edge_to. by rewrite (He e x Hx). Qed.
  Lemma copy_edge_agrees g tgt m e : agrees g -> live_edge s e -> copy_edge g tgt f m e = copy_edge src tgt f m e.
  Proof.
    intros Ha [x Hx]. destruct (edge_ends_agrees g e x Ha Hx) as [E1 E2]. destruct (edge_ends_agrees src e x src_agrees Hx) as [E3 E4].
    unfold copy_edge, clone_edge, deref_edge. by rewrite E1, E2, E3, E4, (proj1 (proj2 Ha) e x Hx), (proj1 (proj2 src_agrees) e x Hx).
  Qed.
  (** the edges copied so far are from nodes without image at the start *)
  Definition fresh_from (h : gmap nat nat) : Prop := forall e x, s_edges s !! e = Some x -> is_Some (h !! e) -> m0 !! e_from x = None.

  Lemma copy_gen_ok rd (Hrd : forall ops' tgt m h, good ops' tgt m h -> fresh_from h -> agrees (rd tgt)) k :
    forall n tgt m h ops', good ops' tgt m h -> live_node s n -> left_of m < k ->
    (forall e x, s_edges s !! e = Some x -> m !! e_from x = None -> h !! e = None) -> fresh_from h ->
    sat (copy_gen rd k n tgt m) (fun mt => exists ops'' h', good ops'' mt.2 mt.1 h' /\ m ⊆ mt.1 /\ is_Some (mt.1 !! n) /\
      (forall y, is_Some (mt.1 !! y) -> m !! y = None -> reach s m n y) /\
      (forall e x, s_edges s !! e = Some x ->
         is_Some (h' !! e) <-> is_Some (h !! e) \/ (m !! e_from x = None /\ is_Some (mt.1 !! e_from x))) /\
      (forall e x, s_edges s !! e = Some x -> m !! e_from x = None -> is_Some (mt.1 !! e_from x) -> is_Some (mt.1 !! e_to x))).
  Proof.
    induction k as [|k IHk]; intros n tgt m h ops' Hg Ln Hk Hh Hff; [lia|]. cbn [copy_gen].
    destruct (m !! n) as [n0|] eqn:En.
    { apply sat_ok. exists ops', h. cbn [fst snd]. split_and!; try done.
      - intros y [z Hy] Hn. congruence.
      - intros e x Hx. split; [tauto|]. intros [?|[Hn [z Hz]]]; [done|]. congruence.
      - intros e x Hx Hn [z Hz]. congruence. }
    assert (Hm0n : forall i, m !! i = None -> m0 !! i = None).
    { intros i Hi. destruct (m0 !! i) eqn:E; [|done]. destruct Hg as (_ & _ & _ & Hex & _).
      apply ex_keep in Hex. apply (lookup_weaken _ _ _ _ E) in Hex. congruence. }
    rewrite (clone_node_agrees _ _ _ (Hrd _ _ _ _ Hg Hff) Ln).
    eapply sat_bind; [exact (good_node _ _ _ _ n Hg Ln En)|]. intros [tgt1 n'] _ [ops1 Hg1]. cbn [fst snd] in *.
    destruct (proj2 (proj2 (Hrd _ _ _ _ Hg1 Hff)) n Ln) as (es & Hes & Hnd & Hin). rewrite Hes. cbn [rbind].
    assert (Hk1 : left_of (<[n := n']> m) < k) by (pose proof (left_of_insert m n n' Ln En); lia).
    set (m1 := <[n := n']> m) in *. assert (Hm1 : m ⊆ m1) by (by apply insert_subseteq).
    set (J := fun (done : list nat) (mt : gmap nat nat * graph) => exists ops'' h', good ops'' mt.2 mt.1 h' /\ m1 ⊆ mt.1 /\
      (forall y, is_Some (mt.1 !! y) -> m !! y = None -> reach s m n y) /\
      (forall e x, s_edges s !! e = Some x -> is_Some (h' !! e) <->
         is_Some (h !! e) \/ (e_from x = n /\ e ∈ done) \/ (e_from x <> n /\ m !! e_from x = None /\ is_Some (mt.1 !! e_from x))) /\
      (forall e x, s_edges s !! e = Some x -> e_from x = n -> e ∈ done -> is_Some (mt.1 !! e_to x)) /\
      (forall e x, s_edges s !! e = Some x -> e_from x <> n -> m !! e_from x = None -> is_Some (mt.1 !! e_from x) -> is_Some (mt.1 !! e_to x))).
    assert (Hloop : forall rest done mt, es = done ++ rest -> J done mt ->
      sat (rfold (fun mt e =>
              let! mt1 := copy_gen rd k (edge_to (rd mt.2) e) mt.2 mt.1 in
              let! r := copy_edge (rd mt1.2) mt1.2 f mt1.1 e in
              Ok (mt1.1, r.1)) rest mt) (J es)).
    { induction rest as [|e rest IH]; intros done mt Ees HJ; cbn [rfold].
      { apply sat_ok. rewrite app_nil_r in Ees. by subst. }
      assert (He : e ∈ es) by (rewrite Ees; set_solver). apply Hin in He as (x & Hx & Hfx).
      assert (Hed : e ∉ done). { rewrite Ees in Hnd. apply NoDup_app in Hnd as (_ & Hd & _). intros H%Hd. apply H. left. }
      destruct (core_edge _ _ _ _ Hc Hx) as (_ & _ & Lt & _).
      destruct HJ as (ops2 & h2 & Hg2 & M2 & R2 & E2 & D2 & C2). destruct mt as [m2 tgt2]. cbn [fst snd] in *.
      assert (Hn2 : m2 !! n = Some n'). { eapply lookup_weaken; [|exact M2]. unfold m1. by rewrite lookup_insert. }
      assert (Hmm2 : m ⊆ m2) by (by etrans).
      assert (Hback : forall i, m2 !! i = None -> m !! i = None).
      { intros i Hi. destruct (m !! i) eqn:E; [|done]. apply (lookup_weaken _ _ _ _ E) in Hmm2. congruence. }
      assert (Hff2 : fresh_from h2).
      { intros i y Hy Hi. destruct (proj1 (E2 i y Hy) Hi) as [H|[[-> _]|(_ & H & _)]]; [by apply (Hff i)|by apply Hm0n|by apply Hm0n]. }
      destruct (edge_ends_agrees _ _ _ (Hrd _ _ _ _ Hg2 Hff2) Hx) as [_ Et].
      rewrite Et. eapply sat_bind; [eapply sat_bind; [apply (IHk (e_to x) tgt2 m2 h2 ops2 Hg2 Lt)|]|].
      - pose proof (left_of_mono _ _ M2). lia.
      - intros i y Hy Hi. destruct (h2 !! i) as [j|] eqn:Ej; [exfalso|done].
        destruct (proj1 (E2 i y Hy)) as [H|[[H _]|(H1 & H2 & H3)]]; [by eexists| | |].
        + rewrite (Hh i y Hy) in H by auto. by destruct H.
        + rewrite H in Hi. congruence.
        + rewrite Hi in H3. by destruct H3.
      - done.
      - intros [m3 tgt3] _ (ops3 & h3 & Hg3 & M3 & T3 & R3 & E3 & C3). cbn [fst snd] in *.
        assert (Hn3 : m3 !! n = Some n') by (by eapply lookup_weaken).
        assert (He3 : h3 !! e = None).
        { destruct (h3 !! e) as [j|] eqn:Ej; [exfalso|done]. destruct (proj1 (E3 e x Hx)) as [H|[H _]]; [by eexists| |rewrite Hfx in H; congruence].
          apply (E2 e x Hx) in H as [H|[[_ H]|[H _]]]; [|done|done].
          rewrite (Hh e x Hx) in H by (by rewrite Hfx). by destruct H. }
        assert (Hff3 : fresh_from h3).
        { intros i y Hy Hi. destruct (proj1 (E3 i y Hy) Hi) as [H|[H _]]; [by apply (Hff2 i)|by apply Hm0n, Hback]. }
        rewrite (copy_edge_agrees _ _ _ _ (Hrd _ _ _ _ Hg3 Hff3) ltac:(by eexists)).
        eapply sat_bind; [apply (good_edge _ _ _ _ e x Hg3 Hx); [rewrite Hfx; by eexists|exact T3|exact He3]|].
        intros [tgt4 e'] _ [ops4 Hg4]. cbn [fst snd] in *. apply sat_ok.
        instantiate (1 := fun mt => J (done ++ [e]) mt). exists ops4, (<[e := e']> h3). cbn [fst snd].
        assert (Hmm3 : m ⊆ m3) by (by etrans).
        split; [done|]. split; [by etrans|]. split; [|split; [|split]].
        + intros y Hy Hny. destruct (m2 !! y) eqn:E; [by apply R2; [rewrite E; by eexists|]|].
          assert (reach s m2 (e_to x) y) as Hr by (by apply R3). pose proof (reach_mono m m2 _ _ Hmm2 Hr) as Hr'.
          eapply reach_trans; [|exact Hr']. eapply reach_next; [by constructor|exact Hx|done|done|].
          clear - Hr Hback. apply Hback. by induction Hr.
        + intros i y Hy. destruct (decide (i = e)) as [->|Hne].
          * rewrite lookup_insert. assert (y = x) as -> by congruence. split; [|by eexists]. intros _. right. left. split; [done|]. set_solver.
          * rewrite lookup_insert_ne by done. rewrite (E3 i y Hy), (E2 i y Hy). 
            assert (Hsplit : i ∈ done ++ [e] <-> i ∈ done) by (clear - Hne; set_solver). rewrite Hsplit.
            destruct (decide (e_from y = n)) as [Hn|Hn].
            -- rewrite Hn, Hn2. split; [|tauto]. intros [?|[? _]]; [tauto|done].
            -- split.
               ++ intros [[?|[?|(? & ? & H2)]]|[H1 H2]]; [tauto|tauto| |].
                  ** right. right. split; [done|]. split; [done|]. clear - H2 M3. destruct H2 as [z Hz]. exists z. by eapply lookup_weaken.
                  ** right. right. auto.
               ++ intros [?|[[? _]|(H1 & H2 & H3)]]; [tauto|done|]. destruct (m2 !! e_from y) eqn:E; [|by right].
                  left. right. right. split; [done|]. split; [done|]. by eexists.
        + intros i y Hy Hfy [Hi|Hi]%elem_of_app.
          * destruct (D2 i y Hy Hfy Hi) as [z Hz]. exists z. by eapply lookup_weaken.
          * apply elem_of_list_singleton in Hi as ->. assert (y = x) as -> by congruence. done.
        + intros i y Hy Hfy Hny Hsome. destruct (m2 !! e_from y) eqn:E; [|by apply (C3 i y)].
          destruct (C2 i y Hy Hfy Hny) as [z Hz]; [rewrite E; by eexists|]. exists z. by eapply lookup_weaken.
      - intros mt Hmt HJ. apply (IH (done ++ [e])); [by rewrite <-app_assoc|done]. }
    eapply sat_mono; [apply (Hloop es []); [done|]|].
    - exists ops1, h. cbn [fst snd]. split; [done|]. split; [done|]. split; [|split; [|split]].
      + intros y Hy Hny. destruct (decide (y = n)) as [->|Hne]; [by constructor|]. exfalso. unfold m1 in Hy.
        rewrite lookup_insert_ne, Hny in Hy by done. by destruct Hy.
      + intros e x Hx. split; [tauto|]. intros [?|[[_ H]|(H1 & H2 & H3)]]; [done|by apply elem_of_nil in H|].
        exfalso. unfold m1 in H3. rewrite lookup_insert_ne, H2 in H3 by done. by destruct H3.
      + intros e x _ _ H. by apply elem_of_nil in H.
      + intros e x Hx H1 H2 H3. exfalso. unfold m1 in H3. rewrite lookup_insert_ne, H2 in H3 by done. by destruct H3.
    - intros [m4 tgt4] (ops4 & h4 & Hg4 & M4 & R4 & E4 & D4 & C4). cbn [fst snd] in *.
      assert (Hn4 : m4 !! n = Some n'). { eapply lookup_weaken; [|exact M4]. unfold m1. by rewrite lookup_insert. }
      exists ops4, h4. split; [done|]. split; [by etrans|]. split; [by eexists|]. split; [done|]. split.
      + intros e x Hx. rewrite (E4 e x Hx). destruct (decide (e_from x = n)) as [Hn|Hn].
        * assert (e ∈ es) by (apply Hin; by exists x). rewrite Hn, Hn4. split; [|tauto]. intros _. right. split; [done|]. by eexists.
        * tauto.
      + intros e x Hx H1 H2. destruct (decide (e_from x = n)) as [Hn|Hn].
        * apply (D4 e x Hx Hn). apply Hin. by exists x.
        * by apply (C4 e x).
  Qed.
End clone.

Section copy.
  Context (sops tops : list op) (src tgt : graph) (f : string -> value -> value) (ord : nat -> list string).
  Context (Hsv : valid_history sops) (Hsr : run sops = Ok src) (Htv : valid_history tops) (Htr : run tops = Ok tgt).
  Context (Hord : forall n x, s_nodes (srun sops) !! n = Some x -> order_of (sn_labels x) (ord n)).

  Lemma copy_graph_sat : node_list_safe sops -> edge_list_safe sops ->
    sat (srun sops) f tops (copy_graph src tgt f ord) (fun mt => exists ops' h,
      valid_history (tops ++ ops') /\ run (tops ++ ops') = Ok mt.2 /\ Forall (clone_op f (srun sops)) ops' /\
      copied f (srun sops) (srun tops) (srun (tops ++ ops')) mt.1 h).
  Proof.
    intros Hn He. pose proof (core_run _ _ Hsv Hsr) as Hc.
    destruct (get_nodes_ok _ _ Hsv Hsr Hn) as (ns & Hns & [Nd In] & _).
    destruct (get_edges_ok _ _ Hsv Hsr He) as [(es & Hes & Ed & Ein) _].
    unfold copy_graph, copy_graphf. rewrite Hns. cbn [rbind].
    eapply sat_bind; [eapply (copy_nodes_ok src _ Hc f ord Hord tops ∅ ns [] tgt ∅ ∅)|].
    - by apply good_init.
    - done.
    - intros n Hin. split; [by apply In|done].
    - intros [m t1] _ (ops1 & Hg1 & Hdom). cbn [fst snd] in *. rewrite Hes. cbn [rbind].
      eapply sat_bind; [eapply (copy_edges_ok src _ Hc f tops ∅ es ops1 t1 m ∅ Hg1)|].
      + intros n Ln. apply Hdom. right. by apply In.
      + done.
      + intros e Hin. split; [by apply Ein|done].
      + intros t2 _ (ops2 & h & Hg2 & Hdomh). apply sat_ok. cbn [fst snd].
        destruct Hg2 as (V & R & F & X & _). exists ops2, h. split; [done|]. split; [done|]. split; [done|]. split; [done|]. split.
        * intros n. rewrite Hdom, lookup_empty, In. split; [|by right]. by intros [[? ?]|?].
        * intros e. rewrite Hdomh, lookup_empty, Ein. split; [|by right]. by intros [[? ?]|?].
  Qed.
  Lemma copy_graph_sound m tgt' : node_list_safe sops -> edge_list_safe sops -> copy_graph src tgt f ord = Ok (m, tgt') ->
    exists ops' h, valid_history (tops ++ ops') /\ run (tops ++ ops') = Ok tgt' /\ Forall (clone_op f (srun sops)) ops' /\
      copied f (srun sops) (srun tops) (srun (tops ++ ops')) m h.
  Proof. intros Hn He Hcp. exact (proj1 (copy_graph_sat Hn He) _ Hcp). Qed.
  Lemma copy_graph_returns : node_list_safe sops -> edge_list_safe sops -> calls_safe tops -> can_hold tops f (srun sops) ->
    exists r, copy_graph src tgt f ord = Ok r.
  Proof. intros Hn He Hs Hh. exact (proj2 (copy_graph_sat Hn He) (conj Hs Hh)). Qed.

  Lemma copy_gen_sat rd k n m0 : (forall ops' tgt m h, good (srun sops) f tops m0 ops' tgt m h -> fresh_from (srun sops) m0 h -> agrees (srun sops) (rd tgt)) ->
    live_node (srun sops) n -> (forall a b, m0 !! a = Some b -> live_node (srun tops) b) ->
    size (s_nodes (srun sops)) < k ->
    sat (srun sops) f tops (copy_gen f ord rd k n tgt m0) (fun mt => exists ops' h,
      valid_history (tops ++ ops') /\ run (tops ++ ops') = Ok mt.2 /\ Forall (clone_op f (srun sops)) ops' /\
      copied_part f (srun sops) (srun tops) (srun (tops ++ ops')) n m0 mt.1 h).
  Proof.
    intros Hrd Ln Hm0 Hk. pose proof (core_run _ _ Hsv Hsr) as Hc.
    eapply sat_mono; [eapply (copy_gen_ok src _ Hc f ord Hord tops m0 Hm0 rd Hrd k n tgt m0 ∅ [])|].
    - by apply good_init.
    - done.
    - eapply Nat.le_lt_trans; [|exact Hk]. unfold left_of. rewrite <-!(size_dom (D := gset nat)). apply subseteq_size, dom_filter_subseteq.
    - done.
    - intros e x _ H. rewrite lookup_empty in H. by destruct H.
    - intros [m t1] (ops1 & h & Hg & Hm & Hn & Hr & He & Hcl). cbn [fst snd] in *. destruct Hg as (V & R & F & X & _).
      assert (Hreach : forall y, reach (srun sops) m0 n y -> is_Some (m !! y)).
      { induction 1 as [|y z e x Hy IH Hx Hf Ht Hz]; [done|]. subst. apply (Hcl e x Hx); [|done].
        clear - Hy. by induction Hy. }
      exists ops1, h. split; [done|]. split; [done|]. split; [done|]. split; [done|]. split.
      + intros y. split.
        * intros Hy. destruct (m0 !! y) eqn:E; [left; by eexists|]. right. by apply Hr.
        * intros [[z Hz]|Hy]; [|by apply Hreach]. exists z. by eapply lookup_weaken.
      + intros e. split.
        * intros [e' Hhe]. destruct (ex_edge _ _ _ _ _ _ _ X e e' Hhe) as (_ & x & _ & Hx & _). exists x. split; [done|].
          destruct (proj1 (He e x Hx)) as [H|[H1 H2]]; [by eexists|by destruct H|by apply Hr].
        * intros (x & Hx & Hy). apply (He e x Hx). right. split; [|by apply Hreach]. clear - Hy. by induction Hy.
  Qed.
  Lemma copy_sub_sat k n m0 : live_node (srun sops) n -> (forall a b, m0 !! a = Some b -> live_node (srun tops) b) ->
    size (s_nodes (srun sops)) < k ->
    sat (srun sops) f tops (copy_subgraph k src f ord n tgt m0) (fun mt => exists ops' h,
      valid_history (tops ++ ops') /\ run (tops ++ ops') = Ok mt.2 /\ Forall (clone_op f (srun sops)) ops' /\
      copied_part f (srun sops) (srun tops) (srun (tops ++ ops')) n m0 mt.1 h).
  Proof.
    rewrite <-copy_gen_const. apply copy_gen_sat. intros _ _ _ _ _ _. by apply src_agrees, core_run.
  Qed.
  Lemma copy_sub_sound k n m0 m tgt' : live_node (srun sops) n -> (forall a b, m0 !! a = Some b -> live_node (srun tops) b) ->
    size (s_nodes (srun sops)) < k -> copy_subgraph k src f ord n tgt m0 = Ok (m, tgt') ->
    exists ops' h, valid_history (tops ++ ops') /\ run (tops ++ ops') = Ok tgt' /\ Forall (clone_op f (srun sops)) ops' /\
      copied_part f (srun sops) (srun tops) (srun (tops ++ ops')) n m0 m h.
  Proof. intros Ln Hm0 Hk Hcp. exact (proj1 (copy_sub_sat k n m0 Ln Hm0 Hk) _ Hcp). Qed.
  Lemma copy_sub_returns k n m0 : live_node (srun sops) n -> (forall a b, m0 !! a = Some b -> live_node (srun tops) b) ->
    size (s_nodes (srun sops)) < k -> calls_safe tops -> can_hold tops f (srun sops) ->
    exists r, copy_subgraph k src f ord n tgt m0 = Ok r.
  Proof. intros Ln Hm0 Hk Hs Hh. exact (proj2 (copy_sub_sat k n m0 Ln Hm0 Hk) (conj Hs Hh)). Qed.
End copy.

(** copying into a graph without nodes and edges *)
Lemma copied_isomorphism f s t t' m h neq eeq : s_nodes t = ∅ -> s_edges t = ∅ -> copied f s t t' m h ->
  (forall n n' x y, s_nodes s !! n = Some x -> s_nodes t' !! n' = Some y -> node_copy f x y -> neq n n' = true) ->
  (forall e e' x y, s_edges s !! e = Some x -> s_edges t' !! e' = Some y -> e_label y = e_label x /\ mapped f (e_props x) (e_props y) -> eeq e e' = true) ->
  isomorphism s t' neq eeq (fun n => default 0 (m !! n)) (fun e => default 0 (h !! e)).
Proof.
  intros En Ee ([X1 X2 X3 X4 X5 X6 X7 X8 X9] & Dm & Dh) Hneq Heeq. split_and!.
  - split_and!.
    + intros n Hn. destruct (proj2 (Dm n) Hn) as [n' E]. rewrite E. simpl. destruct (X4 _ _ E (lookup_empty _)) as (_ & ? & ? & _ & ? & _). by eexists.
    + intros a b La Lb. destruct (proj2 (Dm a) La) as [a' Ea], (proj2 (Dm b) Lb) as [b' Eb]. rewrite Ea, Eb. simpl. intros ->.
      by eapply X6; [| |apply lookup_empty].
    + intros n' Ln'. destruct (X8 n' Ln') as [[? H]|(n & E & _)]; [by rewrite En in H|]. exists n. split; [apply Dm; by eexists|]. by rewrite E.
  - split_and!.
    + intros n Hn. destruct (proj2 (Dh n) Hn) as [n' E]. rewrite E. simpl. destruct (X5 _ _ E) as (_ & ? & ? & _ & ? & _). by eexists.
    + intros a b La Lb. destruct (proj2 (Dh a) La) as [a' Ea], (proj2 (Dh b) Lb) as [b' Eb]. rewrite Ea, Eb. simpl. intros ->.
      by eapply X7.
    + intros n' Ln'. destruct (X9 n' Ln') as [[? H]|(n & E)]; [by rewrite Ee in H|]. exists n. split; [apply Dh; by eexists|]. by rewrite E.
  - intros n Hn. destruct (proj2 (Dm n) Hn) as [n' E]. rewrite E. simpl. destruct (X4 _ _ E (lookup_empty _)) as (_ & x & y & ? & ? & ?). by eapply Hneq.
  - intros e x Hx. destruct (proj2 (Dh e)) as [e' E]; [by eexists|]. rewrite E. simpl. destruct (X5 _ _ E) as (_ & x' & y & Hx' & Hy & C1 & C2 & C3 & C4).
    assert (x' = x) as -> by congruence. rewrite C1, C2. split; [by eapply Heeq|]. by exists y.
Qed.

(** results of concrete calls *)
Lemma ok_match {A} (r : res A) (P : A -> Prop) : match r with Ok a => P a | _ => False end -> exists a, r = Ok a /\ P a.
Proof. destruct r; [eauto|done|done]. Qed.

Lemma rfold_filter {A S} (P : A -> Prop) `{forall a, Decision (P a)} (k : S -> A -> res S) l x :
  rfold (fun x a => if decide (P a) then k x a else Ok x) l x = rfold k (filter P l) x.
Proof.
  revert x. induction l as [|a l IH]; intros x; [done|]. rewrite filter_cons. cbn [rfold]. destruct (decide (P a)); cbn [rfold rbind]; [|done].
  destruct (k x a); cbn [rbind]; [apply IH|done|done].
Qed.
Lemma copy_graphf_ok {T} sops src (cn : nat -> gmap nat nat -> T -> res (option nat * T)) (ce : nat -> gmap nat nat -> T -> res T) t :
  valid_history sops -> run sops = Ok src -> node_list_safe sops -> edge_list_safe sops ->
  exists ns es, lists_nodes (srun sops) ns /\ lists (live_edge (srun sops)) es /\
    copy_graphf src cn ce t =
      (let! mt := rfold (fun mt n => let! r := cn n mt.1 mt.2 in
         Ok (match r.1 with Some n' => <[n := n']> mt.1 | None => mt.1 end, r.2)) ns (∅, t) in
       let! t' := rfold (fun t e => ce e mt.1 t)
         (filter (fun e => is_Some (mt.1 !! edge_from src e) /\ is_Some (mt.1 !! edge_to src e)) es) mt.2 in
       Ok (mt.1, t')).
Proof.
  intros Hv Hr Hn He. destruct (get_nodes_ok _ _ Hv Hr Hn) as (ns & Hns & Hl), (get_edges_ok _ _ Hv Hr He) as [(es & Hes & Hle) _].
  exists ns, es. split; [done|]. split; [done|]. unfold copy_graphf. rewrite Hns. cbn [rbind].
  destruct (rfold _ ns (∅, t)) as [[m t1]| |]; [|done|done]. cbn [rbind fst snd]. rewrite Hes. cbn [rbind].
  rewrite <-rfold_filter. f_equal. apply rfold_ext_ok. intros x e _.
  destruct (decide (is_Some (m !! edge_from src e))) as [H1|H1], (decide (is_Some (m !! edge_to src e))) as [H2|H2];
    repeat case_decide; try done; tauto.
Qed.

(** ** CopyEdge *)
Lemma copy_edge_is sops src tgt f m e x a b : valid_history sops -> run sops = Ok src -> s_edges (srun sops) !! e = Some x ->
  m !! e_from x = Some a -> m !! e_to x = Some b -> copy_edge src tgt f m e = new_edge tgt a b (e_label x) (clone_props f (e_props x)).
Proof.
  intros Hv Hr Hx Ha Hb. pose proof (core_run _ _ Hv Hr) as Hc. destruct (core_edge _ _ _ _ Hc Hx) as (Hed & _).
  destruct (edge_ends src _ Hc _ _ Hx) as [Ef Et]. unfold copy_edge, clone_edge, deref_edge. by rewrite Ef, Et, Ha, Hb, Hed.
Qed.
Lemma copy_edge_sound sops tops src tgt f m e x a b tgt' e' : valid_history sops -> run sops = Ok src ->
  valid_history tops -> run tops = Ok tgt -> s_edges (srun sops) !! e = Some x ->
  m !! e_from x = Some a -> m !! e_to x = Some b -> live_node (srun tops) a -> live_node (srun tops) b ->
  copy_edge src tgt f m e = Ok (tgt', e') ->
  exists p, mapped f (e_props x) p /\ e' = s_next (srun tops) /\
    valid_history (tops ++ [ONewEdge a b (e_label x) p]) /\ run (tops ++ [ONewEdge a b (e_label x) p]) = Ok tgt'.
Proof.
  intros Hv Hr Hv' Hr' Hx Ha Hb La Lb. rewrite (copy_edge_is sops src tgt f m e x a b) by done. intros He.
  exists (clone_props f (e_props x)). split; [apply clone_props_mapped|].
  destruct (new_edge_shape _ _ _ _ _ _ _ He) as (En & _). pose proof (core_run _ _ Hv' Hr') as (_ & Hn & _).
  split; [congruence|]. split; [by apply valid_history_snoc|]. rewrite run_snoc, Hr'. cbn [rbind step]. by rewrite He.
Qed.
Lemma copy_edge_returns sops tops src tgt f m e x a b : valid_history sops -> run sops = Ok src ->
  valid_history tops -> run tops = Ok tgt -> s_edges (srun sops) !! e = Some x ->
  m !! e_from x = Some a -> m !! e_to x = Some b -> live_node (srun tops) a -> live_node (srun tops) b ->
  calls_safe tops -> can_hold tops f (srun sops) -> exists r, copy_edge src tgt f m e = Ok r.
Proof.
  intros Hv Hr Hv' Hr' Hx Ha Hb La Lb Hs Hh. rewrite (copy_edge_is sops src tgt f m e x a b) by done.
  destruct (step_progress tops (ONewEdge a b (e_label x) (clone_props f (e_props x))) tgt Hv' Hr') as [g' Hg']; [done| |].
  - apply (calls_safe_clones f (srun sops)); [|done|done]. repeat constructor. exists e, x. split; [done|]. split; [done|]. apply clone_props_mapped.
  - cbn [step] in Hg'. apply rbind_Ok_inv in Hg' as (r & Hr2 & _). eauto.
Qed.
Lemma copy_edge_unmapped sops src tgt f m e x : valid_history sops -> run sops = Ok src -> s_edges (srun sops) !! e = Some x ->
  m !! e_from x = None \/ m !! e_to x = None -> copy_edge src tgt f m e = Panic.
Proof.
  intros Hv Hr Hx Hm. pose proof (core_run _ _ Hv Hr) as Hc. destruct (edge_ends src _ Hc _ _ Hx) as [Ef Et].
  unfold copy_edge. rewrite Ef, Et. destruct Hm as [Hm|Hm]; rewrite Hm; [done|]. by destruct (m !! e_from x).
Qed.
