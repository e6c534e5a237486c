(** Proofs about what GetNodes lists in every graph (ListedSpec.v). *)
From Verif Require Import Base Assoc Value FastSet Links EdgeMap NodeMap Index Graph GraphSpec ListedSpec.
From Verif Require Import LinksProofs EdgeMapProofs CoreProofs CoreStep AdjProofs ReadProofs NodeListProofs.

(** ** Rows of linked nodes *)
Lemma list_snoc_dec {A} (l : list A) : l = [] \/ exists x l', l = l' ++ [x].
Proof. destruct l as [|x l _] using rev_ind; [by left|right; by exists x, l]. Qed.
Definition nextok (L : links) (c : list nat) : Prop := forall a y b, c = a ++ y :: b -> el_next (lk L y) = head b.
Definition prevok (L : links) (p : option nat) (c : list nat) : Prop :=
  forall a y b, c = a ++ y :: b -> el_prev (lk L y) = match last a with Some x => Some x | None => p end.
Lemma nextok_frame L L' c : (forall y, y ∈ c -> el_next (lk L' y) = el_next (lk L y)) -> nextok L c -> nextok L' c.
Proof. intros HF H a y b E. rewrite HF; [by apply (H a)|]. rewrite E. apply elem_of_app. right. left. Qed.
Lemma prevok_frame L L' p c : (forall y, y ∈ c -> el_prev (lk L' y) = el_prev (lk L y)) -> prevok L p c -> prevok L' p c.
Proof. intros HF H a y b E. rewrite HF; [by apply (H a y b)|]. rewrite E. apply elem_of_app. right. left. Qed.
Lemma nextok_nil L : nextok L [].
Proof. intros a y b E. by destruct a. Qed.
Lemma prevok_nil L p : prevok L p [].
Proof. intros a y b E. by destruct a. Qed.
Lemma nextok_snoc L L' c n : nextok L c -> NoDup c ->
  (forall y, y ∈ c -> last c <> Some y -> el_next (lk L' y) = el_next (lk L y)) ->
  (forall y, last c = Some y -> el_next (lk L' y) = Some n) -> el_next (lk L' n) = None -> nextok L' (c ++ [n]).
Proof.
  intros H Hnd HF Hl Hn a y b E. apply split_snoc in E as [(-> & -> & ->)|(b' & -> & ->)]; [done|].
  destruct b' as [|z b'].
  - simpl. apply Hl. by rewrite last_snoc.
  - rewrite HF; [by rewrite (H _ _ _ eq_refl)|apply elem_of_app; right; left|].
    intros El%last_Some. destruct El as [l' El]. apply NoDup_app in Hnd as (_ & _ & Hnd). apply NoDup_cons in Hnd as [Hni _].
    destruct (list_snoc_dec (z :: b')) as [?|(x & l & Ez)]; [done|].
    rewrite Ez, app_comm_cons, app_assoc in El. apply app_inj_tail in El as [_ <-]. apply Hni. rewrite Ez. apply elem_of_app. right. left.
Qed.
Lemma prevok_snoc L L' p c n : prevok L p c -> (forall y, y ∈ c -> el_prev (lk L' y) = el_prev (lk L y)) ->
  el_prev (lk L' n) = match last c with Some x => Some x | None => p end -> prevok L' p (c ++ [n]).
Proof.
  intros H HF Hn a y b E. apply split_snoc in E as [(-> & -> & ->)|(b' & -> & ->)]; [done|].
  rewrite HF; [by apply (H _ _ b')|]. apply elem_of_app. right. left.
Qed.
Lemma nextok_suffix L a b : nextok L (a ++ b) -> nextok L b.
Proof. intros H a' y b' ->. apply (H (a ++ a')). by rewrite <- app_assoc. Qed.
Lemma nextok_del L L' a n b : nextok L (a ++ n :: b) -> NoDup (a ++ n :: b) ->
  (forall y, last a <> Some y -> y ∈ a ++ b -> el_next (lk L' y) = el_next (lk L y)) ->
  (forall y, last a = Some y -> el_next (lk L' y) = head b) -> nextok L' (a ++ b).
Proof.
  intros H Hnd HF Hl x y z E. destruct (decide (last a = Some y)) as [Hy|Hy].
  - rewrite (Hl _ Hy). apply last_Some in Hy as [a' ->].
    assert (x = a' /\ z = b) as [-> ->]; [|done].
    assert (NoDup (a' ++ y :: b)) as Hnd'.
    { clear -Hnd. apply NoDup_app in Hnd as (H1 & H2 & H3). apply NoDup_cons in H3 as [H3 H4].
      change (y :: b) with ([y] ++ b). rewrite app_assoc. apply NoDup_app. split; [done|]. split; [|done]. intros w Hw Hb. apply (H2 w Hw). by right. }
    rewrite <- app_assoc in E. simpl in E. clear -E Hnd'. revert x E Hnd'. induction a' as [|w a' IH]; intros [|v x] E Hnd'; simpl in *.
    + by injection E as <-.
    + injection E as <- ->. apply NoDup_cons in Hnd' as [Hn _]. destruct Hn. apply elem_of_app. right. left.
    + injection E as -> <-. apply NoDup_cons in Hnd' as [Hn _]. destruct Hn. apply elem_of_app. right. left.
    + injection E as <- E. apply NoDup_cons in Hnd' as [_ Hnd']. destruct (IH _ E Hnd') as [-> ->]. done.
  - rewrite HF; [|done|rewrite E; apply elem_of_app; right; left].
    assert ((exists b', a = x ++ y :: b' /\ b' <> [] /\ z = b' ++ b) \/ (exists a', b = a' ++ y :: z)) as [(b' & -> & Hb' & ->)|(a' & ->)].
    { clear -E Hy. revert x E. induction a as [|w a IH]; intros [|v x] E; simpl in *.
      - right. by exists [].
      - right. by exists (v :: x).
      - injection E as -> <-. left. exists a. split; [done|]. split; [by intros ->|done].
      - injection E as <- E. destruct (IH (fun H => Hy ltac:(destruct a; [done|exact H])) _ E) as [(b' & -> & ? & ?)|?]; [left; by exists b'|by right]. }
    + rewrite <- app_assoc in H. rewrite (H _ _ _ eq_refl). by destruct b'.
    + rewrite (H (a ++ n :: a') y z); [done|]. by rewrite <- app_assoc.
Qed.
Lemma prevok_del L L' p a n b : prevok L p (a ++ n :: b) -> NoDup (a ++ n :: b) ->
  (forall y, head b <> Some y -> y ∈ a ++ b -> el_prev (lk L' y) = el_prev (lk L y)) ->
  (forall y, head b = Some y -> el_prev (lk L' y) = match last a with Some x => Some x | None => p end) -> prevok L' p (a ++ b).
Proof.
  intros H Hnd HF Hh x y z E.
  assert ((exists b', a = x ++ y :: b' /\ z = b' ++ b) \/ (exists a', b = a' ++ y :: z /\ x = a ++ a')) as [(b' & -> & ->)|(a' & -> & ->)].
  { clear -E. revert x E. induction a as [|w a IH]; intros [|v x] E; simpl in *.
    - right. by exists [].
    - right. by exists (v :: x).
    - injection E as -> <-. left. by exists a.
    - injection E as <- E. destruct (IH _ E) as [(b' & -> & ?)|(a' & -> & ->)]; [left; by exists b'|right; by exists a']. }
  - rewrite HF; [rewrite <- app_assoc in H; by apply (H _ _ _ eq_refl)| |rewrite E; apply elem_of_app; right; left].
    intros Hy. destruct b as [|w b]; [done|]. injection Hy as ->. rewrite <- app_assoc in Hnd. apply NoDup_app in Hnd as (_ & _ & Hnd).
    simpl in Hnd. apply NoDup_cons in Hnd as [Hnd _]. apply Hnd. apply elem_of_app. right. right. left.
  - destruct a' as [|w a'].
    + rewrite app_nil_r. by apply Hh.
    + rewrite HF; [| |rewrite E; apply elem_of_app; right; left].
      * rewrite (H (a ++ n :: w :: a') y z) by (by rewrite <- app_assoc). 
        destruct (list_snoc_dec (w :: a')) as [?|(u & l & ->)]; [done|]. rewrite app_comm_cons, !app_assoc, !last_snoc. done.
      * simpl. intros [= ->]. apply NoDup_app in Hnd as (_ & _ & Hnd). apply NoDup_cons in Hnd as [_ Hnd]. simpl in Hnd. apply NoDup_cons in Hnd as [Hnd _].
        apply Hnd. apply elem_of_app. right. left.
Qed.

Lemma elem_of_rows (K : list (list nat)) y : y ∈ concat K <-> exists c, c ∈ K /\ y ∈ c.
Proof. rewrite elem_of_list_In, in_concat. by setoid_rewrite elem_of_list_In. Qed.

(** ** One call *)
Definition everyone (r : rows) : list nat := listing r ++ concat (l_hidden r).
Definition outside (r : rows) (next t : nat) : Prop := t ∉ everyone r /\ t < next.
Definition front_at (r : rows) (next : nat) (p : option nat) : Prop :=
  match l_front r with
  | Open => p = None /\ l_dead r = []
  | Detached => exists t, p = Some t /\ outside r next t
  | Listed => p = last (l_dead r) /\ l_dead r <> []
  end.
Definition back_at (r : rows) (next : nat) (t : option nat) : Prop :=
  match l_back r with
  | AtListing => t = last (listing r)
  | AtHidden => listing r <> [] /\ exists c K, l_hidden r = c :: K /\ c <> [] /\ t = last c
  | Nowhere => exists x, t = Some x /\ outside r next x
  end.
Definition rinv (l : llist) (L : links) (r : rows) (next : nat) : Prop :=
  NoDup (everyone r) /\ ll_head l = head (listing r) /\ nextok L (listing r) /\
  (l_live r <> [] -> exists p, front_at r next p /\ prevok L p (l_live r)) /\
  (forall c, c ∈ l_hidden r -> nextok L c /\ exists t, outside r next t /\ prevok L (Some t) c) /\
  back_at r next (ll_tail l) /\
  (forall y, y ∈ everyone r -> y < next) /\ (forall y, next <= y -> lk L y = Elem None None).

Lemma nl_add_links l L n l' L' : nl_add l L n = (l', L') -> lk L n = Elem None None -> ll_tail l <> Some n ->
  (forall y, el_next (lk L' y) = if decide (ll_tail l = Some y) then Some n else el_next (lk L y)) /\
  (forall y, el_prev (lk L' y) = if decide (y = n) then ll_tail l else el_prev (lk L y)) /\
  ll_tail l' = Some n /\ ll_head l' = match ll_head l with None => Some n | h => h end.
Proof.
  unfold nl_add. intros [= <- <-] Hn Ht. destruct (ll_tail l) as [t|] eqn:E; cbn [ll_tail ll_head].
  - assert (t <> n) by congruence. split; [|split; [|by destruct (ll_head l)]].
    + intros y. rewrite lk_set_next, !lk_set_prev. repeat case_decide; simplify_eq; simpl; done.
    + intros y. rewrite lk_set_next, !lk_set_prev. repeat case_decide; simplify_eq; simpl; done.
  - split; [|split; [|by destruct (ll_head l)]].
    + intros y. rewrite lk_set_prev. repeat case_decide; simplify_eq; simpl; done.
    + intros y. rewrite lk_set_prev. repeat case_decide; simplify_eq; simpl; done.
Qed.
Lemma nl_remove_links l L n l' L' : nl_remove l L n = (l', L') -> el_prev (lk L n) <> Some n -> el_next (lk L n) <> Some n ->
  (forall y, el_next (lk L' y) = if decide (el_prev (lk L n) = Some y) then el_next (lk L n) else el_next (lk L y)) /\
  (forall y, el_prev (lk L' y) = if decide (el_next (lk L n) = Some y) then el_prev (lk L n) else el_prev (lk L y)) /\
  ll_tail l' = match el_next (lk L n) with None => Some n | _ => ll_tail l end /\
  ll_head l' = match el_prev (lk L n) with None => el_next (lk L n) | _ => ll_head l end.
Proof.
  unfold nl_remove. intros E Hp Hq. destruct (el_prev (lk L n)) as [p|] eqn:Ep.
  - assert (p <> n) by congruence. rewrite (lk_set_next L p _ n), decide_False in E by done.
    destruct (el_next (lk L n)) as [q|] eqn:Eq; injection E as <- <-; cbn [ll_tail ll_head]; (split; [|split; [|done]]); intros y;
      rewrite ?lk_set_prev, ?lk_set_next; repeat case_decide; simplify_eq; simpl; rewrite ?Ep, ?Eq, ?lk_set_next; repeat case_decide; simplify_eq; simpl; done.
  - destruct (el_next (lk L n)) as [q|] eqn:Eq; injection E as <- <-; cbn [ll_tail ll_head]; (split; [|split; [|done]]); intros y;
      rewrite ?lk_set_prev; repeat case_decide; simplify_eq; simpl; rewrite ?Ep, ?Eq; done.
Qed.
Lemma outside_mono r r' next next' t : outside r next t -> next <= next' -> (forall y, y ∈ everyone r' -> y ∈ everyone r \/ next <= y) -> outside r' next' t.
Proof. intros [H1 H2] Hle H. split; [|lia]. intros [?|?]%H; [done|lia]. Qed.
Lemma in_row r c y : c ∈ l_hidden r -> y ∈ c -> y ∈ everyone r.
Proof. intros H1 H2. apply elem_of_app. right. apply elem_of_rows. by exists c. Qed.
Lemma row_not_listed r c y : NoDup (everyone r) -> c ∈ l_hidden r -> y ∈ c -> y ∉ listing r.
Proof. intros Hnd H1 H2 H3. apply NoDup_app in Hnd as (_ & Hnd & _). apply (Hnd y H3). apply elem_of_rows. by exists c. Qed.

Lemma last_app_ne {A} (a b : list A) : b <> [] -> last (a ++ b) = last b.
Proof. destruct (list_snoc_dec b) as [->|(x & b' & ->)]; [done|]. intros _. by rewrite app_assoc, !last_snoc. Qed.

Lemma rinv_add l L r n l' L' : nl_add l L n = (l', L') -> rinv l L r n -> rinv l' L' (rows_add r n) (S n).
Proof.
  intros Ha (Hnd & Hh & Hx & Hp & Hk & Hb & Hlt & Hfr).
  assert (n ∉ everyone r) as Hn by (intros H%Hlt; lia).
  assert (ll_tail l <> Some n) as Ht.
  { unfold back_at in Hb. destruct (l_back r).
    - rewrite Hb. intros E%last_elem. apply Hn. apply elem_of_app. by left.
    - destruct Hb as (_ & c & K & EK & _ & ->). intros E%last_elem. apply Hn. eapply in_row; [|done]. rewrite EK. left.
    - destruct Hb as (x & -> & _ & Hx'). intros [= ->]. lia. }
  destruct (nl_add_links _ _ _ _ _ Ha (Hfr n ltac:(lia)) Ht) as (Hne & Hpe & Htl & Hhd). clear Ha.
  assert (forall r', (forall y, y ∈ everyone r' <-> y ∈ everyone r \/ y = n) -> (forall y, y ∈ everyone r' -> y < S n)) as Hlt'.
  { intros r' Hr' y [Hy| ->]%Hr'; [apply Hlt in Hy|]; lia. }
  assert (forall r' t, (forall y, y ∈ everyone r' <-> y ∈ everyone r \/ y = n) -> outside r n t -> outside r' (S n) t) as Hout.
  { intros r' t Hr' Ho. eapply outside_mono; [done|lia|]. intros y [?| ->]%Hr'; [by left|by right]. }
  assert (forall y, S n <= y -> lk L' y = Elem None None) as Hfr'.
  { intros y Hy. specialize (Hne y). specialize (Hpe y). rewrite (Hfr y) in Hne, Hpe by lia. rewrite decide_False in Hpe by lia.
    rewrite decide_False in Hne; [by destruct (lk L' y); simpl in *; congruence|].
    intros E. unfold back_at in Hb. destruct (l_back r).
    - rewrite Hb in E. apply last_elem in E. assert (y < n); [|lia]. apply Hlt. apply elem_of_app. by left.
    - destruct Hb as (_ & c & K & EK & _ & Ec). rewrite Ec in E. apply last_elem in E. assert (y < n); [|lia]. apply Hlt. eapply in_row; [|done]. rewrite EK. left.
    - destruct Hb as (x & Ex & _ & Hx'). rewrite Ex in E. injection E as ->. lia. }
  assert (forall c, c ∈ l_hidden r -> forall y, y ∈ c -> el_prev (lk L' y) = el_prev (lk L y)) as Hpc.
  { intros c Hc y Hy. rewrite Hpe, decide_False; [done|]. intros ->. apply Hn. by eapply in_row. }
  assert (forall y, y ∈ listing r -> el_prev (lk L' y) = el_prev (lk L y)) as Hpl.
  { intros y Hy. rewrite Hpe, decide_False; [done|]. intros ->. apply Hn. apply elem_of_app. by left. }
  assert (el_prev (lk L' n) = ll_tail l) as Hpn by (by rewrite Hpe, decide_True).
  assert (el_next (lk L' n) = None) as Hnn by (rewrite Hne, decide_False, (Hfr n) by (done || lia); done).
  unfold rows_add. unfold back_at in Hb. destruct (l_back r) eqn:Eb.
  - (* behind the listing *)
    set (r' := Rows _ _ _ _ _).
    assert (listing r' = listing r ++ [n]) as El by (unfold listing; simpl; by rewrite app_assoc).
    assert (forall y, y ∈ everyone r' <-> y ∈ everyone r \/ y = n) as Hev.
    { intros y. unfold everyone. rewrite El. simpl. rewrite !elem_of_app, elem_of_list_singleton. tauto. }
    assert (forall y, y ∉ listing r -> el_next (lk L' y) = el_next (lk L y)) as Hnc.
    { intros y Hy. rewrite Hne, decide_False; [done|]. rewrite Hb. by intros E%last_elem. }
    split; [|split; [|split; [|split; [|split; [|split; [|split]]]]]].
    + unfold everyone. rewrite El. simpl. rewrite <- app_assoc. apply NoDup_app in Hnd as (H1 & H2 & H3).
      apply NoDup_app. split; [done|]. split; [|simpl; apply NoDup_cons; split; [|done]].
      * intros y Hy [->|Hy']%elem_of_cons; [apply Hn, elem_of_app; by left|by eapply H2].
      * intros H. apply Hn, elem_of_app. by right.
    + rewrite Hhd, El, Hh. by destruct (listing r).
    + rewrite El. eapply nextok_snoc; [exact Hx|by apply NoDup_app in Hnd as [? _]| | |done].
      * intros y _ Hy. rewrite Hne, decide_False; [done|]. by rewrite Hb.
      * intros y Hy. rewrite Hne, decide_True; [done|]. by rewrite Hb.
    + intros _. subst r'. unfold front_at. cbn [l_front l_live l_dead]. destruct (decide (l_live r = [])) as [E0|E0].
      * exists (ll_tail l). rewrite E0. split.
        -- rewrite Hb. unfold listing. rewrite E0, app_nil_r. destruct (decide (l_dead r = [])) as [->|]; done.
        -- intros a y b E. destruct a as [|? [|]]; [|done|done]. by injection E as <- <-.
      * destruct (Hp E0) as (p & Hf & Hpp). exists p. split.
        -- unfold front_at in Hf. destruct (l_front r); [done| |done]. destruct Hf as (t & -> & Ho). exists t. split; [done|]. by apply Hout.
        -- eapply prevok_snoc; [exact Hpp| |].
           ++ intros y Hy. apply Hpl. apply elem_of_app. by right.
           ++ rewrite Hpn, Hb. unfold listing. rewrite last_app_ne by done. destruct (list_snoc_dec (l_live r)) as [?|(x & l0 & ->)]; [done|]. by rewrite last_snoc.
    + simpl. intros c Hc. destruct (Hk c Hc) as (H1 & t & H2 & H3). split.
      * eapply nextok_frame; [|exact H1]. intros y Hy. apply Hnc. by eapply row_not_listed.
      * exists t. split; [by apply Hout|]. eapply prevok_frame; [|exact H3]. by apply Hpc.
    + unfold back_at. simpl. rewrite El, last_snoc. done.
    + by apply Hlt'.
    + done.
  - (* behind the newest row *)
    destruct Hb as (Hne0 & c0 & K & EK & Hc0 & Hb). rewrite EK. set (r' := Rows _ _ _ _ _).
    assert (forall y, y ∈ everyone r' <-> y ∈ everyone r \/ y = n) as Hev.
    { intros y. unfold everyone. rewrite EK. simpl. rewrite !elem_of_app, elem_of_list_singleton. tauto. }
    assert (forall y, y ∉ c0 -> el_next (lk L' y) = el_next (lk L y)) as Hnc.
    { intros y Hy. rewrite Hne, decide_False; [done|]. rewrite Hb. by intros E%last_elem. }
    assert (c0 ∈ l_hidden r) as Hin0 by (rewrite EK; left).
    assert (forall y, y ∈ listing r -> y ∉ c0) as Hd1 by (intros y H1 H2; by eapply row_not_listed).
    split; [|split; [|split; [|split; [|split; [|split; [|split]]]]]].
    + unfold everyone in *. rewrite EK in Hnd, Hn. simpl in Hnd, Hn |- *. apply NoDup_app in Hnd as (H1 & H2 & H3). apply NoDup_app in H3 as (H3 & H4 & H5).
      apply NoDup_app. split; [done|]. split.
      * intros y Hy. rewrite !elem_of_app, elem_of_list_singleton. intros [[?| ->]|?]; [eapply H2; [exact Hy|]; apply elem_of_app; by left|apply Hn; apply elem_of_app; by left|eapply H2; [exact Hy|]; apply elem_of_app; by right].
      * rewrite <- app_assoc. apply NoDup_app. split; [done|]. split; [|simpl; apply NoDup_cons; split; [|done]].
        -- intros y Hy [->|Hy']%elem_of_cons; [apply Hn; rewrite !elem_of_app; auto|by eapply H4].
        -- intros H. apply Hn. rewrite !elem_of_app. auto.
    + rewrite Hhd, Hh. change (listing r') with (listing r). by destruct (listing r).
    + eapply nextok_frame; [|exact Hx]. intros y Hy. apply Hnc. by apply Hd1.
    + simpl. intros E0. destruct (Hp E0) as (p & Hf & Hpp). exists p. split.
      * unfold front_at in Hf |- *. simpl. destruct (l_front r); [done| |done]. destruct Hf as (t & -> & Ho). exists t. split; [done|]. by apply Hout.
      * eapply prevok_frame; [|exact Hpp]. intros y Hy. apply Hpl. apply elem_of_app. by right.
    + simpl. intros c [->|Hc]%elem_of_cons.
      * destruct (Hk c0 Hin0) as (H1 & t & H2 & H3). split.
        -- eapply nextok_snoc; [exact H1| | | |done].
           ++ unfold everyone in Hnd. rewrite EK in Hnd. simpl in Hnd. apply NoDup_app in Hnd as (_ & _ & Hnd). by apply NoDup_app in Hnd as [? _].
           ++ intros y _ Hy. rewrite Hne, decide_False; [done|]. by rewrite Hb.
           ++ intros y Hy. rewrite Hne, decide_True; [done|]. by rewrite Hb.
        -- exists t. split; [by apply Hout|]. eapply prevok_snoc; [exact H3|by apply Hpc|]. rewrite Hpn, Hb.
           destruct (list_snoc_dec c0) as [?|(x & l0 & ->)]; [done|]. by rewrite last_snoc.
      * assert (c ∈ l_hidden r) as Hc' by (rewrite EK; by right). destruct (Hk c Hc') as (H1 & t & H2 & H3). split.
        -- eapply nextok_frame; [|exact H1]. intros y Hy. apply Hnc. intros Hy0. unfold everyone in Hnd. rewrite EK in Hnd. simpl in Hnd.
           apply NoDup_app in Hnd as (_ & _ & Hnd). apply NoDup_app in Hnd as (_ & Hnd & _). apply (Hnd y Hy0). apply elem_of_rows. by exists c.
        -- exists t. split; [by apply Hout|]. eapply prevok_frame; [|exact H3]. by apply Hpc.
    + unfold back_at. simpl. split; [done|]. exists (c0 ++ [n]), K. split; [done|]. split; [by destruct c0|]. by rewrite last_snoc.
    + by apply Hlt'.
    + done.
  - (* behind a removed node *)
    destruct Hb as (x & Hb & Ho).
    assert (forall y, y ∈ everyone r -> el_next (lk L' y) = el_next (lk L y)) as Hnc.
    { intros y Hy. rewrite Hne, decide_False; [done|]. rewrite Hb. intros [= ->]. by destruct Ho. }
    destruct (decide (listing r = [])) as [E0|E0]; set (r' := Rows _ _ _ _ _).
    + assert (forall y, y ∈ everyone r' <-> y ∈ everyone r \/ y = n) as Hev.
      { intros y. unfold everyone. rewrite E0. subst r'. unfold listing. simpl. rewrite elem_of_cons. tauto. }
      split; [|split; [|split; [|split; [|split; [|split; [|split]]]]]].
      * unfold everyone in *. rewrite E0 in Hnd, Hn. subst r'. unfold listing. simpl in *. by apply NoDup_cons.
      * rewrite Hhd, Hh, E0. done.
      * subst r'. unfold listing. simpl. intros a y b E. destruct a as [|? [|]]; [|done|done]. by injection E as <- <-.
      * intros _. subst r'. exists (Some x). split; [exists x; split; [done|]; by apply Hout|]. simpl. intros a y b E. destruct a as [|? [|]]; [|done|done]. injection E as <- <-. simpl. congruence.
      * simpl. intros c Hc. destruct (Hk c Hc) as (H1 & t & H2 & H3). split.
        -- eapply nextok_frame; [|exact H1]. intros y Hy. apply Hnc. by eapply in_row.
        -- exists t. split; [by apply Hout|]. eapply prevok_frame; [|exact H3]. by apply Hpc.
      * subst r'. unfold back_at, listing. simpl. done.
      * by apply Hlt'.
      * done.
    + assert (forall y, y ∈ everyone r' <-> y ∈ everyone r \/ y = n) as Hev.
      { intros y. unfold everyone. simpl. rewrite !elem_of_app, elem_of_cons. change (listing r') with (listing r). tauto. }
      split; [|split; [|split; [|split; [|split; [|split; [|split]]]]]].
      * unfold everyone in *. change (listing r') with (listing r). simpl. apply NoDup_app in Hnd as (H1 & H2 & H3). apply NoDup_app. split; [done|]. split.
        -- intros y Hy [->|Hy']%elem_of_cons; [apply Hn, elem_of_app; by left|by eapply H2].
        -- apply NoDup_cons. split; [|done]. intros H. apply Hn, elem_of_app. by right.
      * rewrite Hhd, Hh. change (listing r') with (listing r). by destruct (listing r).
      * change (listing r') with (listing r). eapply nextok_frame; [|exact Hx]. intros y Hy. apply Hnc. apply elem_of_app. by left.
      * simpl. intros E1. destruct (Hp E1) as (p & Hf & Hpp). exists p. split.
        -- unfold front_at in Hf |- *. simpl. destruct (l_front r); [done| |done]. destruct Hf as (t & -> & Ho'). exists t. split; [done|]. by apply Hout.
        -- eapply prevok_frame; [|exact Hpp]. intros y Hy. apply Hpl. apply elem_of_app. by right.
      * simpl. intros c [->|Hc]%elem_of_cons.
        -- split; [intros a y b E; destruct a as [|? [|]]; [|done|done]; by injection E as <- <-|]. exists x. split; [by apply Hout|].
           intros a y b E; destruct a as [|? [|]]; [|done|done]; injection E as <- <-. simpl. congruence.
        -- destruct (Hk c Hc) as (H1 & t & H2 & H3). split.
           ++ eapply nextok_frame; [|exact H1]. intros y Hy. apply Hnc. by eapply in_row.
           ++ exists t. split; [by apply Hout|]. eapply prevok_frame; [|exact H3]. by apply Hpc.
      * unfold back_at. simpl. split; [done|]. by exists [n], (l_hidden r).
      * by apply Hlt'.
      * done.
Qed.

Lemma without_not n c : n ∉ c -> without n c = c.
Proof.
  unfold without. induction c as [|x c IH]; intros H; [done|]. rewrite filter_cons_True, IH; [done| |].
  - intros Hc. apply H. by right.
  - intros ->. apply H. left.
Qed.
Lemma without_mid n a b : NoDup (a ++ n :: b) -> without n (a ++ n :: b) = a ++ b.
Proof.
  intros Hnd. apply NoDup_app in Hnd as (_ & H1 & H2). apply NoDup_cons in H2 as [H2 _].
  pose proof (without_not n b H2) as E. unfold without in *. rewrite filter_app, filter_cons_False by (intros H; by apply H). rewrite E. f_equal.
  apply (without_not n a). intros H. apply (H1 n H). left.
Qed.
Lemma without_concat n K : concat (without n <$> K) = without n (concat K).
Proof. induction K as [|c K IH]; [done|]. rewrite fmap_cons. cbn [concat]. rewrite IH. unfold without. by rewrite filter_app. Qed.
Lemma elem_of_without n c y : y ∈ without n c <-> y <> n /\ y ∈ c.
Proof. unfold without. by rewrite elem_of_list_filter. Qed.
Lemma rows_apart (K : list (list nat)) c c' y : NoDup (concat K) -> c ∈ K -> c' ∈ K -> y ∈ c -> y ∈ c' -> c = c'.
Proof.
  induction K as [|d K IH]; intros Hnd Hc Hc' Hy Hy'; [by apply elem_of_nil in Hc|]. simpl in Hnd. apply NoDup_app in Hnd as (_ & H1 & H2).
  apply elem_of_cons in Hc as [->|Hc]; apply elem_of_cons in Hc' as [->|Hc']; [done| | |by apply IH].
  - destruct (H1 y Hy). apply elem_of_rows. by exists c'.
  - destruct (H1 y Hy'). apply elem_of_rows. by exists c.
Qed.
Lemma mid_facts (a b : list nat) n : NoDup (a ++ n :: b) -> last a <> Some n /\ head b <> Some n.
Proof.
  intros Hnd. apply NoDup_app in Hnd as (_ & H1 & H2). apply NoDup_cons in H2 as [H2 _]. split.
  - intros E%last_elem. apply (H1 n E). left.
  - destruct b; [done|]. intros [= ->]. apply H2. left.
Qed.

Lemma rinv_remove l L r n next l' L' : nl_remove l L n = (l', L') -> rinv l L r next -> n ∈ l_live r \/ n ∈ concat (l_hidden r) ->
  rinv l' L' (rows_remove r n) next.
Proof.
  intros Ha (Hnd & Hh & Hx & Hp & Hk & Hb & Hlt & Hfr) Hn.
  assert (n < next) as Hnlt. { apply Hlt. unfold everyone, listing. rewrite !elem_of_app. tauto. }
  assert (NoDup (listing r)) as Hndl by (by apply NoDup_app in Hnd as [? _]).
  assert (NoDup (concat (l_hidden r))) as Hndk by (by apply NoDup_app in Hnd as (_ & _ & ?)).
  unfold rows_remove. destruct (decide (n ∈ l_live r)) as [Hl|Hl].
  - (* listed *)
    clear Hn. apply elem_of_list_split in Hl as (a & b & Elv).
    assert (l_live r <> []) as Hne by (rewrite Elv; by destruct a). destruct (Hp Hne) as (p0 & Hf & Hpp). clear Hp.
    assert (listing r = (l_dead r ++ a) ++ n :: b) as El by (unfold listing; rewrite Elv; by rewrite app_assoc).
    assert (NoDup (a ++ n :: b)) as Hnda by (rewrite <- Elv; unfold listing in Hndl; by apply NoDup_app in Hndl as (_ & _ & ?)).
    rewrite El in Hndl. destruct (mid_facts _ _ _ Hndl) as [Hl1 Hl2].
    assert (el_next (lk L n) = head b) as Enx by (by eapply (Hx (l_dead r ++ a))).
    assert (el_prev (lk L n) = match last a with Some x => Some x | None => p0 end) as Epv by (by eapply (Hpp a)).
    assert (forall x, head b = Some x -> x ∈ listing r) as Hqin.
    { intros x Ex. rewrite El. apply elem_of_app. right. destruct b; [done|]. injection Ex as ->. right. left. }
    assert (forall x, last (l_dead r ++ a) = Some x -> x ∈ listing r) as Hpin.
    { intros x Ex%last_elem. rewrite El. apply elem_of_app. by left. }
    assert (forall y, y ∈ listing r -> y ∈ everyone r) as Hle by (intros; apply elem_of_app; by left).
    assert (head (a ++ n :: b) = Some n <-> a = []) as Hhead.
    { split; [|by intros ->]. destruct a as [|x a]; [done|]. simpl. intros [= ->]. simpl in Hnda. apply NoDup_cons in Hnda as [H _]. destruct H. apply elem_of_app. right. left. }
    assert (last (a ++ n :: b) = Some n <-> b = []) as Hlast.
    { split; [|by intros ->; rewrite last_snoc]. destruct (list_snoc_dec b) as [->|(x & b' & ->)]; [done|]. rewrite app_comm_cons, app_assoc, last_snoc. intros [= ->].
      apply NoDup_app in Hnda as (_ & _ & H). apply NoDup_cons in H as [H _]. destruct H. apply elem_of_app. right. left. }
    rewrite Elv. rewrite (without_mid _ _ _ Hnda).
    destruct (decide (head (a ++ n :: b) = Some n /\ l_front r = Detached)) as [[Ea%Hhead Ef]|Hnot].
    + (* it stays *)
      subst a. simpl in *. unfold front_at in Hf. rewrite Ef in Hf. destruct Hf as (t & -> & Ho & Htlt).
      assert (t <> n) as Htn. { intros ->. apply Ho, Hle. rewrite El. apply elem_of_app. right. left. }
      destruct (nl_remove_links _ _ _ _ _ Ha) as (Hne' & Hpe & Htl & Hhd); [rewrite Epv; congruence|by rewrite Enx|]. rewrite Epv, Enx in *.
      set (r' := Rows _ _ _ _ _).
      assert (listing r' = listing r) as El' by (unfold listing; simpl; rewrite Elv, <- app_assoc; done).
      assert (everyone r' = everyone r) as Eev by (unfold everyone; rewrite El'; done).
      assert (forall x, outside r next x -> outside r' next x) as Hout by (intros x; unfold outside; by rewrite Eev).
      assert (forall y, y ∈ everyone r -> el_next (lk L' y) = el_next (lk L y)) as Hnc.
      { intros y Hy. rewrite Hne', decide_False; [done|]. by intros [= ->]. }
      split; [|split; [|split; [|split; [|split; [|split; [|split]]]]]].
      * by rewrite Eev.
      * rewrite El'. by rewrite Hhd.
      * rewrite El'. eapply nextok_frame; [|exact Hx]. intros y Hy. apply Hnc. by apply Hle.
      * simpl. intros Hb0. exists (Some t). split; [exists t; split; [done|by apply Hout]|].
        rewrite Elv in Hpp. eapply (prevok_del _ _ _ [] n b Hpp Hnda); simpl.
        -- intros y Hy _. by rewrite Hpe, decide_False.
        -- intros y Hy. by rewrite Hpe, decide_True.
      * simpl. intros c Hc. destruct (Hk c Hc) as (H1 & t' & H2 & H3). split.
        -- eapply nextok_frame; [|exact H1]. intros y Hy. apply Hnc. by eapply in_row.
        -- exists t'. split; [by apply Hout|]. eapply prevok_frame; [|exact H3]. intros y Hy. rewrite Hpe, decide_False; [done|].
           intros E%Hqin. by eapply row_not_listed.
      * unfold back_at. subst r'. cbn [l_back]. destruct (decide _) as [E|E].
        -- apply Hlast in E as ->. rewrite El', Htl. simpl. unfold listing. by rewrite Elv, last_snoc.
        -- rewrite Htl. destruct b as [|x b]; [exfalso; by apply E, Hlast|]. cbn [head]. unfold back_at in Hb. destruct (l_back r).
           ++ by rewrite El'.
           ++ destruct Hb as [Hb1 Hb2]. by rewrite El'.
           ++ destruct Hb as (y & -> & Hy). exists y. split; [done|]. by apply Hout.
      * by rewrite Eev.
      * intros y Hy. specialize (Hne' y). specialize (Hpe y). rewrite (Hfr y) in Hne', Hpe by done. rewrite decide_False in Hne' by (intros [= ->]; lia).
        rewrite decide_False in Hpe by (intros E%Hqin%Hle%Hlt; lia). by destruct (lk L' y); simpl in *; congruence.
    + (* it goes *)
      assert (el_prev (lk L n) = last (l_dead r ++ a)) as Epv'.
      { rewrite Epv. destruct (list_snoc_dec a) as [->|(x & a' & ->)]; [|by rewrite app_assoc, !last_snoc]. rewrite app_nil_r. simpl. unfold front_at in Hf.
        destruct (l_front r); [by destruct Hf as [-> ->]|exfalso; by apply Hnot|by destruct Hf as [-> _]]. }
      destruct (nl_remove_links _ _ _ _ _ Ha) as (Hne' & Hpe & Htl & Hhd); [by rewrite Epv'|by rewrite Enx|]. rewrite Epv', Enx in *.
      set (r' := Rows _ _ _ _ _).
      assert (listing r' = (l_dead r ++ a) ++ b) as El' by (unfold listing; simpl; by rewrite app_assoc).
      assert (forall y, y ∈ everyone r' <-> y ∈ everyone r /\ y <> n) as Hev.
      { intros y. unfold everyone. rewrite El', El. subst r'. cbn [l_hidden]. rewrite !elem_of_app, elem_of_cons. split.
        - intros Hy. split; [tauto|]. intros ->. apply NoDup_app in Hndl as (_ & H1 & H2). apply NoDup_cons in H2 as [H2 _].
          destruct Hy as [[Hy|Hy]|Hy]; [|done|].
          + apply (H1 n); [by apply elem_of_app|left].
          + unfold everyone in Hnd. rewrite El in Hnd. apply NoDup_app in Hnd as (_ & H3 & _). apply (H3 n); [|done]. apply elem_of_app. right. left.
        - intros [Hy Hyn]. tauto. }
      assert (forall x, outside r next x -> outside r' next x) as Hout by (intros x [H1 H2]; split; [|done]; by intros [? _]%Hev).
      split; [|split; [|split; [|split; [|split; [|split; [|split]]]]]].
      * unfold everyone in *. rewrite El'. rewrite El in Hnd. subst r'. cbn [l_hidden]. apply NoDup_app in Hnd as (H1 & H2 & H3). apply NoDup_app. split; [|split; [|done]].
        -- clear -H1. apply NoDup_app in H1 as (H1 & H2 & H3). apply NoDup_cons in H3 as [_ H3]. apply NoDup_app. split; [done|]. split; [|done]. intros y Hy Hy'. apply (H2 y Hy). by right.
        -- intros y Hy. apply H2. apply elem_of_app in Hy as [?|?]; apply elem_of_app; [by left|right; by right].
      * rewrite Hhd, El', Hh, El. destruct (list_snoc_dec (l_dead r ++ a)) as [->|(x & z & E)]; [done|]. rewrite E, last_snoc. by destruct z.
      * rewrite El'. rewrite El in Hx. eapply nextok_del; [exact Hx|done| |].
        -- intros y Hy _. by rewrite Hne', decide_False.
        -- intros y Hy. by rewrite Hne', decide_True.
      * subst r'. cbn [l_live]. intros Hab. exists p0. split.
        -- unfold front_at in Hf |- *. cbn [l_front l_dead]. destruct (l_front r); [done| |done]. destruct Hf as (t & -> & Ho). exists t. split; [done|]. by apply Hout.
        -- rewrite Elv in Hpp. eapply prevok_del; [exact Hpp|done| |].
           ++ intros y Hy _. by rewrite Hpe, decide_False.
           ++ intros y Hy. rewrite Hpe, decide_True by done. by rewrite <- Epv.
      * subst r'. cbn [l_hidden]. intros c Hc. destruct (Hk c Hc) as (H1 & t' & H2 & H3). split.
        -- eapply nextok_frame; [|exact H1]. intros y Hy. rewrite Hne', decide_False; [done|]. intros E%Hpin. by eapply row_not_listed.
        -- exists t'. split; [by apply Hout|]. eapply prevok_frame; [|exact H3]. intros y Hy. rewrite Hpe, decide_False; [done|].
           intros E%Hqin. by eapply row_not_listed.
      * unfold back_at. subst r'. cbn [l_back]. destruct (decide _) as [E|E].
        -- apply Hlast in E as ->. rewrite Htl. simpl. exists n. split; [done|]. split; [|done]. intros [_ H]%Hev. done.
        -- assert (b <> []) as Hbne by (intros ->; by apply E, Hlast). rewrite Htl. replace (match head b with Some _ => ll_tail l | None => Some n end) with (ll_tail l) by (by destruct b).
           unfold back_at in Hb. destruct (l_back r).
           ++ rewrite Hb, El', El. rewrite !last_app_ne by done. destruct (list_snoc_dec b) as [?|(x & b' & ->)]; [done|]. by rewrite app_comm_cons, !last_snoc.
           ++ destruct Hb as [Hb1 Hb2]. rewrite El'. split; [|done]. by intros [_ ?]%app_eq_nil.
           ++ destruct Hb as (y & -> & Hy). exists y. split; [done|]. by apply Hout.
      * intros y [Hy _]%Hev. by apply Hlt.
      * intros y Hy. specialize (Hne' y). specialize (Hpe y). rewrite (Hfr y) in Hne', Hpe by done. rewrite decide_False in Hne' by (intros E%Hpin%Hle%Hlt; lia).
        rewrite decide_False in Hpe by (intros E%Hqin%Hle%Hlt; lia). by destruct (lk L' y); simpl in *; congruence.
  - (* hidden *)
    destruct Hn as [?|Hn]; [done|]. apply elem_of_rows in Hn as (c & Hc & Hn). apply elem_of_list_split in Hn as (a & b & Ec).
    destruct (Hk c Hc) as (Hcx & t & [Hto Htlt] & Hcp). subst c.
    assert (NoDup (a ++ n :: b)) as Hnda.
    { clear -Hndk Hc. induction (l_hidden r) as [|d K IH]; [by apply elem_of_nil in Hc|]. simpl in Hndk. apply NoDup_app in Hndk as (H1 & _ & H2).
      apply elem_of_cons in Hc as [<-|Hc]; [done|by apply IH]. }
    destruct (mid_facts _ _ _ Hnda) as [Hl1 Hl2].
    assert (n ∈ a ++ n :: b) as Hnin by (apply elem_of_app; right; left).
    assert (el_next (lk L n) = head b) as Enx by (by eapply (Hcx a)).
    assert (el_prev (lk L n) = match last a with Some x => Some x | None => Some t end) as Epv by (by eapply (Hcp a)).
    assert (forall y, head b = Some y -> y ∈ a ++ n :: b) as Hqin.
    { intros x Ex. apply elem_of_app. right. destruct b; [done|]. injection Ex as ->. right. left. }
    assert (forall y, el_prev (lk L n) = Some y -> y ∈ a ++ n :: b \/ y = t) as Hpin.
    { intros x Ex. rewrite Epv in Ex. destruct (last a) eqn:Ela; [|right; congruence]. left. injection Ex as ->. apply elem_of_app. left. by apply last_elem. }
    assert (el_prev (lk L n) <> Some n) as Hpn.
    { rewrite Epv. destruct (last a) eqn:Ela; [done|]. intros [= ->]. apply Hto. by eapply in_row. }
    destruct (nl_remove_links _ _ _ _ _ Ha) as (Hne' & Hpe & Htl & Hhd); [done|by rewrite Enx|].
    assert (forall y, y ∈ everyone r -> y ∉ a ++ n :: b -> el_next (lk L' y) = el_next (lk L y)) as Hnc.
    { intros y Hy Hy'. rewrite Hne', decide_False; [done|]. by intros [?| ->]%Hpin. }
    assert (forall y, y ∉ a ++ n :: b -> el_prev (lk L' y) = el_prev (lk L y)) as Hpc.
    { intros y Hy'. rewrite Hpe, decide_False; [done|]. rewrite Enx. by intros ?%Hqin. }
    set (r' := Rows _ _ _ _ _). assert (listing r' = listing r) as El' by done.
    assert (forall y, y ∈ everyone r' <-> y ∈ everyone r /\ y <> n) as Hev.
    { intros y. unfold everyone. rewrite El'. subst r'. cbn [l_hidden]. rewrite without_concat, !elem_of_app, elem_of_without. split; [|tauto].
      intros [Hy|Hy]; [|tauto]. split; [tauto|]. intros ->. by eapply row_not_listed. }
    assert (forall x, outside r next x -> outside r' next x) as Hout by (intros x [H1 H2]; split; [|done]; by intros [? _]%Hev).
    assert (last (a ++ n :: b) = Some n <-> b = []) as Hlast.
    { split; [|by intros ->; rewrite last_snoc]. destruct (list_snoc_dec b) as [->|(x & b' & ->)]; [done|]. rewrite app_comm_cons, app_assoc, last_snoc. intros [= ->].
      apply NoDup_app in Hnda as (_ & _ & H). apply NoDup_cons in H as [H _]. destruct H. apply elem_of_app. right. left. }
    split; [|split; [|split; [|split; [|split; [|split; [|split]]]]]].
    + unfold everyone in *. rewrite El'. subst r'. cbn [l_hidden]. rewrite without_concat. apply NoDup_app in Hnd as (H1 & H2 & H3). apply NoDup_app. split; [done|]. split.
      * intros y Hy [_ Hy']%elem_of_without. by eapply H2.
      * by apply NoDup_filter.
    + rewrite Hhd, El'. rewrite Epv. by destruct (last a).
    + rewrite El'. eapply nextok_frame; [|exact Hx]. intros y Hy. apply Hnc; [apply elem_of_app; by left|]. intros Hy'. by eapply row_not_listed.
    + subst r'. cbn [l_live]. intros Hab. destruct (Hp Hab) as (p0 & Hf & Hpp). exists p0. split.
      * unfold front_at in Hf |- *. cbn [l_front l_dead]. destruct (l_front r); [done| |done]. destruct Hf as (x & -> & Ho). exists x. split; [done|]. by apply Hout.
      * eapply prevok_frame; [|exact Hpp]. intros y Hy. apply Hpc. intros Hy'. eapply row_not_listed; [done|done|done|]. apply elem_of_app. by right.
    + subst r'. cbn [l_hidden]. intros c' Hc'. apply elem_of_list_fmap in Hc' as (c1 & -> & Hc1). destruct (decide (n ∈ c1)) as [Hn1|Hn1].
      * assert (c1 = a ++ n :: b) as -> by (by eapply rows_apart). rewrite (without_mid _ _ _ Hnda). split.
        -- eapply nextok_del; [exact Hcx|done| |].
           ++ intros y Hy Hyab. rewrite Hne', decide_False; [done|]. rewrite Epv. destruct (last a) eqn:Ela; [done|]. intros [= ->]. apply Hto.
              eapply in_row; [exact Hc|]. apply elem_of_app in Hyab as [?|?]; apply elem_of_app; [by left|right; by right].
           ++ intros y Hy. rewrite Hne', decide_True; [done|]. by rewrite Epv, Hy.
        -- exists t. split; [by apply Hout|]. eapply prevok_del; [exact Hcp|done| |].
           ++ intros y Hy _. rewrite Hpe, decide_False; [done|]. by rewrite Enx.
           ++ intros y Hy. rewrite Hpe, decide_True; [done|]. by rewrite Enx.
      * rewrite (without_not _ _ Hn1). destruct (Hk c1 Hc1) as (H1 & t' & H2 & H3).
        assert (forall y, y ∈ c1 -> y ∉ a ++ n :: b) as Hap.
        { intros y Hy Hy'. apply Hn1. assert (c1 = a ++ n :: b) as ->; [by eapply rows_apart|done]. }
        split.
        -- eapply nextok_frame; [|exact H1]. intros y Hy. apply Hnc; [by eapply in_row|by apply Hap].
        -- exists t'. split; [by apply Hout|]. eapply prevok_frame; [|exact H3]. intros y Hy. apply Hpc. by apply Hap.
    + unfold back_at. subst r'. cbn [l_back l_hidden]. destruct (decide _) as [E|E].
      * assert (b = []) as ->.
        { apply Exists_exists in E as (c1 & Hc1 & E). apply Hlast. assert (c1 = a ++ n :: b) as <-; [|done]. eapply rows_apart; [done|done|done| |done]. by apply last_elem. }
        rewrite Htl, Enx. simpl. exists n. split; [done|]. split; [|done]. intros [_ H]%Hev. done.
      * assert (b <> []) as Hbne. { intros ->. apply E. apply Exists_exists. exists (a ++ [n]). split; [done|]. by rewrite last_snoc. }
        rewrite Htl, Enx. replace (match head b with Some _ => ll_tail l | None => Some n end) with (ll_tail l) by (by destruct b).
        unfold back_at in Hb. destruct (l_back r).
        -- by rewrite El'.
        -- destruct Hb as (Hb1 & c0 & K & EK & Hc0 & Hb2). rewrite El'. split; [done|]. rewrite EK. exists (without n c0), (without n <$> K). split; [done|].
           destruct (decide (n ∈ c0)) as [Hn0|Hn0].
           ++ assert (c0 = a ++ n :: b) as ->. { eapply rows_apart; [done| |done|done|done]. rewrite EK. left. }
              rewrite (without_mid _ _ _ Hnda). split; [by intros [_ ?]%app_eq_nil|]. rewrite Hb2. rewrite !last_app_ne by done.
              destruct (list_snoc_dec b) as [?|(x & b' & ->)]; [done|]. by rewrite app_comm_cons, !last_snoc.
           ++ by rewrite (without_not _ _ Hn0).
        -- destruct Hb as (y & -> & Hy). exists y. split; [done|]. by apply Hout.
    + intros y [Hy _]%Hev. by apply Hlt.
    + intros y Hy. assert (forall z, z ∈ a ++ n :: b -> z < next) as Hz by (intros z Hz; apply Hlt; by eapply in_row).
      specialize (Hne' y). specialize (Hpe y). rewrite (Hfr y) in Hne', Hpe by done. rewrite decide_False in Hne' by (intros [E| ->]%Hpin; [apply Hz in E|]; lia).
      rewrite decide_False in Hpe by (rewrite Enx; intros E%Hqin%Hz; lia). by destruct (lk L' y); simpl in *; congruence.
Qed.

(** ** Histories *)
Lemma rows_from_snoc r s ops o : rows_from r s (ops ++ [o]) = rows_step (rows_from r s ops) (fold_left sstep ops s) o.
Proof. revert r s. induction ops as [|o' ops IH]; intros r s; [done|]. simpl. by rewrite IH. Qed.
Lemma rows_of_snoc ops o : rows_of (ops ++ [o]) = rows_step (rows_of ops) (srun ops) o.
Proof. apply rows_from_snoc. Qed.
Lemma rinv_next l L r n n' : rinv l L r n -> n <= n' -> rinv l L r n'.
Proof.
  intros (Hnd & Hh & Hx & Hp & Hk & Hb & Hlt & Hfr) Hle.
  assert (forall t, outside r n t -> outside r n' t) as Ho by (intros t [? ?]; split; [done|lia]).
  split; [done|]. split; [done|]. split; [done|]. split; [|split; [|split; [|split]]].
  - intros Hl. destruct (Hp Hl) as (p & Hf & Hpp). exists p. split; [|done]. unfold front_at in *. destruct (l_front r); [done| |done]. destruct Hf as (t & ? & ?). eauto.
  - intros c Hc. destruct (Hk c Hc) as (H1 & t & H2 & H3). split; [done|]. eauto.
  - unfold back_at in *. destruct (l_back r); [done|done|]. destruct Hb as (t & ? & ?). eauto.
  - intros y Hy. apply Hlt in Hy. lia.
  - intros y Hy. apply Hfr. lia.
Qed.
Lemma sorted_without n xs : StronglySorted lt xs -> StronglySorted lt (without n xs).
Proof.
  induction 1 as [|x xs Hs IH Hx]; [constructor|]. unfold without in *. rewrite filter_cons. destruct (decide _); [|done]. constructor; [done|].
  rewrite Forall_forall in Hx |- *. intros y [_ Hy]%elem_of_list_filter. by apply Hx.
Qed.
Lemma sorted_snoc xs n : StronglySorted lt xs -> (forall y, y ∈ xs -> y < n) -> StronglySorted lt (xs ++ [n]).
Proof.
  induction 1 as [|x xs Hs IH Hx]; intros Hn; [repeat constructor|]. simpl. constructor; [apply IH; intros y Hy; apply Hn; by right|].
  rewrite Forall_forall in Hx |- *. intros y [Hy|Hy%elem_of_list_singleton]%elem_of_app; [by apply Hx|]. subst y. apply Hn. left.
Qed.
Lemma add_members r n y : y ∈ l_live (rows_add r n) \/ y ∈ concat (l_hidden (rows_add r n)) <-> y ∈ l_live r \/ y ∈ concat (l_hidden r) \/ y = n.
Proof.
  unfold rows_add. destruct (l_back r); cbn [l_live l_hidden].
  - rewrite elem_of_app, elem_of_list_singleton. tauto.
  - destruct (l_hidden r) as [|c K]; simpl; rewrite ?elem_of_app, ?elem_of_cons, ?elem_of_nil; tauto.
  - destruct (decide (listing r = [])) as [E|E]; cbn [l_live l_hidden].
    + apply app_eq_nil in E as [_ E]. rewrite E, elem_of_cons, elem_of_nil. tauto.
    + simpl. rewrite elem_of_cons. tauto.
Qed.
Lemma remove_members r n y : NoDup (everyone r) -> n ∈ l_live r \/ n ∈ concat (l_hidden r) ->
  y ∈ l_live (rows_remove r n) \/ y ∈ concat (l_hidden (rows_remove r n)) <-> (y ∈ l_live r \/ y ∈ concat (l_hidden r)) /\ y <> n.
Proof.
  intros Hnd Hn. unfold rows_remove. destruct (decide (n ∈ l_live r)) as [Hl|Hl].
  - assert (n ∉ concat (l_hidden r)) as Hh. { unfold everyone, listing in Hnd. apply NoDup_app in Hnd as (_ & H & _). apply H. apply elem_of_app. by right. }
    assert (y ∈ concat (l_hidden r) -> y <> n) by (intros ? ->; done).
    destruct (decide _); cbn [l_live l_hidden]; rewrite elem_of_without; tauto.
  - assert (y ∈ l_live r -> y <> n) by (intros ? ->; done). cbn [l_live l_hidden]. rewrite without_concat, elem_of_without. tauto.
Qed.
Lemma listing_remove r n : NoDup (everyone r) -> n ∈ l_live r \/ n ∈ concat (l_hidden r) ->
  listing (rows_remove r n) = listing r \/ listing (rows_remove r n) = without n (listing r).
Proof.
  intros Hnd Hn. unfold rows_remove. destruct (decide (n ∈ l_live r)) as [Hl|Hl]; [|by left].
  assert (n ∉ l_dead r) as Hd. { unfold everyone, listing in Hnd. apply NoDup_app in Hnd as (Hnd & _). apply NoDup_app in Hnd as (_ & H & _). intros Hd. by apply (H n). }
  assert (without n (l_dead r) = l_dead r) as Ed by (by apply without_not).
  destruct (decide _) as [[Eh _]|_].
  - left. unfold listing. cbn [l_dead l_live]. destruct (l_live r) as [|x xs] eqn:E; [done|]. injection Eh as ->.
    assert (NoDup ([] ++ n :: xs)) as Hnx. { unfold everyone, listing in Hnd. rewrite E in Hnd. apply NoDup_app in Hnd as (Hnd & _). by apply NoDup_app in Hnd as (_ & _ & ?). }
    pose proof (without_mid n [] xs Hnx) as Ew. simpl in Ew. rewrite Ew, <- app_assoc. done.
  - right. unfold listing. cbn [l_dead l_live]. unfold without in *. by rewrite filter_app, Ed.
Qed.
Lemma rows_run ops g : valid_history ops -> run ops = Ok g ->
  rinv (g_list g) (g_nl g) (rows_of ops) (g_next g) /\
  (forall n, live_node (srun ops) n <-> n ∈ l_live (rows_of ops) \/ n ∈ hidden ops) /\ StronglySorted lt (listed ops).
Proof.
  revert ops g. apply history_ind.
  { split; [|split; [|constructor]].
    - split; [constructor|]. split; [done|]. split; [apply nextok_nil|]. split; [done|]. split; [by intros c ?%elem_of_nil|]. split; [done|].
      split; [by intros y ?%elem_of_nil|]. done.
    - intros n. unfold hidden. simpl. rewrite elem_of_nil. split; [intros [x Hx]; done|tauto]. }
  intros ops g o g' Hv Hr (Hi & Hm & Hs) Ho Hst. pose proof (core_run _ _ Hv Hr) as Hc. pose proof Hc as (_ & Hnext & _).
  pose proof (step_list _ _ _ Hst) as Hl. 
  assert (run (ops ++ [o]) = Ok g') as Hr' by (by rewrite run_snoc, Hr).
  assert (valid_history (ops ++ [o])) as Hv' by (by apply valid_history_snoc).
  pose proof (core_run _ _ Hv' Hr') as (_ & Hnext' & _). rewrite srun_snoc in Hnext'.
  unfold listed, hidden in *. rewrite rows_of_snoc. rewrite srun_snoc.
  assert (forall n, s_next (sstep (srun ops) o) = n -> g_next g' = n) as Hn' by (intros n <-; done).
  destruct o; cbn [rows_step].
  all: try (injection Hl as El Ell; rewrite El, Ell; split; [eapply rinv_next; [exact Hi|rewrite Hnext, Hnext'; simpl; lia]|]; split; [|done]; intros m; rewrite <- Hm; simpl; unfold live_node; simpl; rewrite ?lookup_alter_is_Some; done).
  - rewrite <- Hnext. destruct (nl_add (g_list g) (g_nl g) (g_next g)) as [l' L'] eqn:Ea. injection Hl as -> ->.
    pose proof (rinv_add _ _ _ _ _ _ Ea Hi) as Hi'. split; [|split].
    + rewrite (Hn' (S (g_next g))); [done|]. simpl. by rewrite Hnext.
    + intros m. rewrite add_members. unfold live_node. simpl. rewrite <- Hnext. rewrite lookup_insert_is_Some. specialize (Hm m). unfold live_node in Hm. rewrite Hm.
      destruct (decide (m = g_next g)); naive_solver.
    + destruct Hi as (_ & _ & _ & _ & _ & _ & Hlt & _). unfold rows_add. destruct (l_back (rows_of ops)).
      * unfold listing. simpl. rewrite app_assoc. apply sorted_snoc; [done|]. intros y Hy. apply Hlt. apply elem_of_app. by left.
      * done.
      * destruct (decide _); [repeat constructor|done].
  - rename n into m. assert (live_node (srun ops) m) as Hlv by (destruct Ho as (x & Hx & _); by exists x).
    pose proof (proj1 (Hm m) Hlv) as Hin. destruct (nl_remove (g_list g) (g_nl g) m) as [l' L'] eqn:Ea. injection Hl as -> ->.
    pose proof (rinv_remove _ _ _ _ _ _ _ Ea Hi Hin) as Hi'. pose proof (proj1 Hi) as Hnd. split; [|split].
    + rewrite (Hn' (g_next g)); [done|]. simpl. by rewrite Hnext.
    + intros y. rewrite remove_members by done. rewrite <- Hm. unfold live_node. simpl. rewrite lookup_delete_is_Some. naive_solver.
    + destruct (listing_remove _ _ Hnd Hin) as [-> | ->]; [done|]. by apply sorted_without.
Qed.

Lemma nextok_walk L xs fuel : nextok L xs -> length xs <= fuel -> walk fuel L (head xs) = Ok xs.
Proof.
  intros Hs Hf.
  assert (forall b a f, xs = a ++ b -> length b <= f -> walk f L (head b) = Ok b) as Hgen.
  { induction b as [|y b IH]; intros a f Hx Hl; [by destruct f|]. simpl in Hl.
    destruct f as [|f]; [lia|]. simpl. rewrite (Hs _ _ _ Hx).
    rewrite (IH (a ++ [y]) f); [done| |lia]. by rewrite <- app_assoc. }
  eapply (Hgen xs []); done.
Qed.
Theorem get_nodes_listed ops g : valid_history ops -> run ops = Ok g -> get_nodes g = Ok (listed ops).
Proof.
  intros Hv Hr. destruct (rows_run _ _ Hv Hr) as ((Hnd & Hh & Hx & _ & _ & _ & Hlt & _) & _ & _).
  unfold get_nodes. rewrite Hh. apply nextok_walk; [done|]. rewrite <- (size_set_seq (C := gset nat) 0 (fuel g)).
  apply NoDup_length_le; [by apply NoDup_app in Hnd as (? & _)|]. intros y Hy. apply elem_of_set_seq.
  assert (y ∈ everyone (rows_of ops)) as He by (apply elem_of_app; by left). apply Hlt in He. unfold fuel. lia.
Qed.

Lemma listed_parts ops g : valid_history ops -> run ops = Ok g ->
  NoDup (listed ops ++ hidden ops) /\ StronglySorted lt (listed ops) /\
  (forall n, n ∈ hidden ops <-> live_node (srun ops) n /\ n ∉ listed ops) /\
  (forall n, n ∈ l_dead (rows_of ops) <-> n ∈ listed ops /\ ~ live_node (srun ops) n) /\
  (forall n, n ∈ l_live (rows_of ops) <-> n ∈ listed ops /\ live_node (srun ops) n).
Proof.
  intros Hv Hr. destruct (rows_run _ _ Hv Hr) as ((Hnd & _) & Hm & Hs). split; [done|]. split; [done|].
  pose proof Hnd as Hnd'. unfold everyone in Hnd'. fold (hidden ops) in Hnd'. apply NoDup_app in Hnd' as (Hl & Hlh & _).
  unfold listing in Hl. apply NoDup_app in Hl as (_ & Hdl & _). unfold listed, listing in *.
  split; [|split]; intros n; rewrite Hm; specialize (Hlh n); specialize (Hdl n); rewrite elem_of_app in *; tauto.
Qed.
Lemma listed_exact ops g : valid_history ops -> run ops = Ok g ->
  lists_nodes (srun ops) (listed ops) <-> l_dead (rows_of ops) = [] /\ hidden ops = [].
Proof.
  intros Hv Hr. destruct (listed_parts _ _ Hv Hr) as (Hnd & Hs & Hh & Hd & Hl). apply NoDup_app in Hnd as (Hnd & _ & _). split.
  - intros [[_ Hin] _]. split.
    + destruct (l_dead (rows_of ops)) as [|x d]; [done|]. assert (x ∈ x :: d) as Hx by left. apply Hd in Hx as [Hx Hx']. by apply Hin in Hx.
    + destruct (hidden ops) as [|x d]; [done|]. assert (x ∈ x :: d) as Hx by left. apply Hh in Hx as [Hx Hx']. by apply Hin in Hx.
  - intros [Ed Eh]. split; [|done]. split; [done|]. intros x. split.
    + intros Hx. destruct (decide (x ∈ l_live (rows_of ops))) as [Hy|Hy]; [by apply Hl|]. unfold listed, listing in Hx. rewrite Ed in Hx. done.
    + intros Hx. destruct (decide (x ∈ listed ops)) as [|Hy]; [done|]. assert (x ∈ hidden ops) as Hz by (by apply Hh). rewrite Eh in Hz. by apply elem_of_nil in Hz.
Qed.
Lemma listed_num ops g : valid_history ops -> run ops = Ok g ->
  num_nodes g = Z.of_nat (length (l_live (rows_of ops)) + length (hidden ops)).
Proof.
  intros Hv Hr. rewrite (num_nodes_ok _ _ Hv Hr). destruct (rows_run _ _ Hv Hr) as ((Hnd & _) & Hm & _). f_equal.
  rewrite <- app_length. rewrite <- (size_dom (D := gset nat)). rewrite <- (size_list_to_set (C := gset nat) (l_live (rows_of ops) ++ hidden ops)).
  - apply set_size_proper. intros x. rewrite elem_of_dom, elem_of_list_to_set, elem_of_app. apply Hm.
  - unfold everyone, listing in Hnd. rewrite <- app_assoc in Hnd. by apply NoDup_app in Hnd as (_ & _ & ?).
Qed.

Lemma rows_add_listing r n : listing (rows_add r n) = listing r \/ listing (rows_add r n) = listing r ++ [n].
Proof.
  unfold rows_add. destruct (l_back r); [right| by left|].
  - unfold listing. simpl. by rewrite app_assoc.
  - destruct (decide (listing r = [])) as [E|E]; [right; by rewrite E|by left].
Qed.
Lemma listed_snoc ops o g : valid_history (ops ++ [o]) -> run (ops ++ [o]) = Ok g ->
  (forall n, n ∈ listed (ops ++ [o]) -> n ∈ listed ops \/ n = s_next (srun ops)) /\
  (forall n, n ∈ listed ops -> live_node (srun (ops ++ [o])) n -> n ∈ listed (ops ++ [o])) /\
  (forall n, n ∈ l_dead (rows_of ops) -> n ∈ l_dead (rows_of (ops ++ [o]))).
Proof.
  intros [Hv Ho]%valid_history_snoc (g0 & Hr & _)%run_snoc_inv. destruct (rows_run _ _ Hv Hr) as ((Hnd & _) & Hm & _).
  unfold listed. rewrite rows_of_snoc, srun_snoc. destruct o; cbn [rows_step]; try (split; [by left|done]).
  - destruct (rows_add_listing (rows_of ops) (s_next (srun ops))) as [E|E]; rewrite E.
    + split; [by left|]. split; [done|]. intros n. unfold rows_add. destruct (l_back _); [done|done|]. destruct (decide _) as [E'|]; [|done].
      apply app_eq_nil in E' as [-> _]. done.
    + split; [intros n; rewrite elem_of_app, elem_of_list_singleton; done|]. split; [intros n; rewrite elem_of_app; tauto|].
      intros n. unfold rows_add. destruct (l_back _); [done|done|]. destruct (decide _) as [E'|]; [|done].
      apply app_eq_nil in E' as [-> _]. done.
  - rename n into m. assert (live_node (srun ops) m) as Hlv by (destruct Ho as (x & Hx & _); by exists x).
    pose proof (proj1 (Hm m) Hlv) as Hin. split; [|split].
    + intros n. destruct (listing_remove _ _ Hnd Hin) as [-> | ->]; [by left|]. intros [_ ?]%elem_of_without. by left.
    + intros n Hn Hl. destruct (listing_remove _ _ Hnd Hin) as [-> | ->]; [done|]. apply elem_of_without. split; [|done].
      intros ->. destruct Hl as [x Hx]. simpl in Hx. by rewrite lookup_delete in Hx.
    + intros n Hn. unfold rows_remove. destruct (decide _); [|done]. destruct (decide _); [|done]. simpl. apply elem_of_app. by left.
Qed.
Lemma live_back s o n : live_node (sstep s o) n -> live_node s n \/ n = s_next s.
Proof.
  unfold live_node. destruct o; simpl; rewrite ?lookup_alter_is_Some, ?lookup_insert_is_Some, ?lookup_delete_is_Some; try tauto.
  destruct (decide (n = s_next s)); naive_solver.
Qed.
Lemma next_le s o : s_next s <= s_next (sstep s o).
Proof. destruct o; simpl; lia. Qed.
Lemma listed_later ops ops' g n : valid_history (ops ++ ops') -> run (ops ++ ops') = Ok g -> n < s_next (srun ops) ->
  s_next (srun ops) <= s_next (srun (ops ++ ops')) /\
  (n ∈ listed (ops ++ ops') -> n ∈ listed ops) /\
  (live_node (srun (ops ++ ops')) n -> live_node (srun ops) n /\ (n ∈ listed ops -> n ∈ listed (ops ++ ops'))) /\
  (n ∈ l_dead (rows_of ops) -> n ∈ l_dead (rows_of (ops ++ ops'))).
Proof.
  intros Hv Hr Hn. revert g Hv Hr. induction ops' as [|o ops' IH] using rev_ind; intros g Hv Hr; [rewrite app_nil_r; naive_solver lia|].
  rewrite app_assoc in *. destruct (listed_snoc _ _ _ Hv Hr) as (H1 & H2 & H3).
  pose proof Hv as [Hv0 Ho]%valid_history_snoc. pose proof Hr as (g0 & Hr0 & _)%run_snoc_inv.
  destruct (IH _ Hv0 Hr0) as (I0 & I1 & I2 & I3). clear IH Hr Hr0. rewrite srun_snoc in *. pose proof (next_le (srun (ops ++ ops')) o). split; [lia|]. split; [|split].
  - intros [|E]%H1; [auto|lia].
  - intros Hl. pose proof Hl as [Hl'|E]%live_back; [|lia]. destruct (I2 Hl') as [J1 J2]. split; [done|]. intros Hx. apply H2; [auto|done].
  - auto.
Qed.
Lemma everyone_lt ops g n : valid_history ops -> run ops = Ok g -> n ∈ listed ops \/ n ∈ hidden ops -> n < s_next (srun ops).
Proof.
  intros Hv Hr Hn. destruct (rows_run _ _ Hv Hr) as ((_ & _ & _ & _ & _ & _ & Hlt & _) & _). pose proof (core_run _ _ Hv Hr) as (_ & Hnext & _).
  rewrite <- Hnext. apply Hlt. by apply elem_of_app.
Qed.
Theorem listed_forever ops ops' g n : valid_history (ops ++ ops') -> run (ops ++ ops') = Ok g ->
  (n ∈ l_dead (rows_of ops) -> n ∈ listed (ops ++ ops') /\ ~ live_node (srun (ops ++ ops')) n) /\
  (n ∈ hidden ops -> n ∉ listed (ops ++ ops')) /\
  (live_node (srun ops) n -> live_node (srun (ops ++ ops')) n -> (n ∈ listed ops <-> n ∈ listed (ops ++ ops'))).
Proof.
  intros Hv Hr. assert (exists g0, run ops = Ok g0) as [g0 Hr0]. { clear Hv n. revert g Hr. induction ops' as [|o ops' IH] using rev_ind; intros g Hr; [rewrite app_nil_r in Hr; eauto|].
    rewrite app_assoc in Hr. apply run_snoc_inv in Hr as (g0 & Hr & _). eauto. }
  assert (valid_history ops) as Hv0. { clear Hr Hr0 g g0 n. revert Hv. induction ops' as [|o ops' IH] using rev_ind; intros Hv; [by rewrite app_nil_r in Hv|].
    rewrite app_assoc in Hv. apply valid_history_snoc in Hv as [? _]. auto. }
  destruct (listed_parts _ _ Hv0 Hr0) as (_ & _ & Hh & Hd & Hl). destruct (listed_parts _ _ Hv Hr) as (_ & _ & Hh' & Hd' & Hl').
  pose proof (everyone_lt _ _ n Hv0 Hr0) as Hlt. pose proof (fun H => listed_later _ _ _ n Hv Hr H) as Hlat. clear Hr Hr0 Hv Hv0. split; [|split].
  - intros Hx. apply Hd'. apply Hlat; [|done]. apply Hlt. left. by apply Hd.
  - intros Hx Hy. assert (n < s_next (srun ops)) as H by auto. apply Hh in Hx as [_ Hx]. apply Hx. by apply Hlat.
  - intros Hx Hy. assert (n < s_next (srun ops)) as H. { apply Hlt. destruct (decide (n ∈ listed ops)); [by left|]. right. by apply Hh. }
    destruct (Hlat H) as (_ & H1 & H2 & _). destruct (H2 Hy) as [_ H3]. by split.
Qed.
