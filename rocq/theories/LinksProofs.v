(** Representation invariant of the intrusive lists of Links.v. *)
From Verif Require Import Base Links.

Lemma lk_set_next L e p x :
  lk (set_next L e p) x = if decide (x = e) then Elem p (el_prev (lk L e)) else lk L x.
Proof.
  unfold lk, set_next. destruct (decide (x = e)) as [->|Hne].
  - by rewrite lookup_insert.
  - by rewrite lookup_insert_ne.
Qed.
Lemma lk_set_prev L e p x :
  lk (set_prev L e p) x = if decide (x = e) then Elem (el_next (lk L e)) p else lk L x.
Proof.
  unfold lk, set_prev. destruct (decide (x = e)) as [->|Hne].
  - by rewrite lookup_insert.
  - by rewrite lookup_insert_ne.
Qed.

(** [segs L xs]: the link fields of the elements of [xs] chain them in this order. *)
Definition segs (L : links) (xs : list nat) : Prop :=
  forall a x b, xs = a ++ x :: b -> lk L x = Elem (head b) (last a).

Definition is_dll (L : links) (l : llist) (xs : list nat) : Prop :=
  NoDup xs /\ ll_head l = head xs /\ ll_tail l = last xs /\ ll_n l = Z.of_nat (length xs) /\ segs L xs.

Lemma segs_frame L L' xs :
  (forall x, x ∈ xs -> lk L' x = lk L x) -> segs L xs -> segs L' xs.
Proof.
  intros Hf Hs a x b ->. rewrite Hf by set_solver. by apply Hs.
Qed.
Lemma is_dll_frame L L' l xs :
  (forall x, x ∈ xs -> lk L' x = lk L x) -> is_dll L l xs -> is_dll L' l xs.
Proof.
  intros Hf (?&?&?&?&?). repeat split; eauto using segs_frame.
Qed.

Lemma is_dll_empty L : is_dll L ll_empty [].
Proof.
  repeat split; try done. constructor. intros a x b. by destruct a.
Qed.

Lemma split_snoc {A} (xs a b : list A) (e x : A) :
  xs ++ [e] = a ++ x :: b ->
  (b = [] /\ x = e /\ a = xs) \/ (exists b', b = b' ++ [e] /\ xs = a ++ x :: b').
Proof.
  intros H. destruct b as [|y b _] using rev_ind.
  - left. apply app_inj_tail in H as [-> ->]. done.
  - right. exists b. rewrite app_comm_cons, app_assoc in H. apply app_inj_tail in H as [-> ->]. done.
Qed.

Lemma el_add_frame l L e l' L' x :
  el_add l L e = (l', L') -> x <> e -> Some x <> ll_tail l -> lk L' x = lk L x.
Proof.
  unfold el_add. intros [= <- <-] Hne Ht.
  rewrite lk_set_next. destruct (decide (x = e)); [done|].
  destruct (ll_tail l) as [t|].
  - rewrite lk_set_next. destruct (decide (x = t)); [congruence|].
    rewrite lk_set_prev. by destruct (decide (x = e)).
  - rewrite lk_set_prev. by destruct (decide (x = e)).
Qed.

Lemma last_elem {A} (xs : list A) x : last xs = Some x -> x ∈ xs.
Proof. intros H. apply last_Some in H as [l' ->]. set_solver. Qed.

Lemma el_add_ok l L e l' L' xs :
  el_add l L e = (l', L') -> is_dll L l xs -> e ∉ xs -> is_dll L' l' (xs ++ [e]).
Proof.
  intros Heq (Hnd & Hh & Ht & Hn & Hs) Hni. pose proof Heq as Heq0.
  unfold el_add in Heq. injection Heq as <- HL. repeat split; simpl.
  - apply NoDup_app. repeat split; [done| |by apply NoDup_singleton].
    intros y Hy Hy2. set_solver.
  - rewrite Hh. by destruct xs.
  - by rewrite last_snoc.
  - rewrite Hn, app_length. simpl. lia.
  - intros a x b Hsp. apply split_snoc in Hsp as [(-> & -> & ->)|(b' & -> & ->)].
    + rewrite <- HL. rewrite lk_set_next. rewrite decide_True by done. simpl.
      rewrite Ht. destruct (last xs) as [t|] eqn:El.
      * assert (t <> e) by (intros ->; apply Hni; by apply last_elem).
        rewrite lk_set_next. rewrite decide_False by done. rewrite lk_set_prev, decide_True by done. done.
      * rewrite lk_set_prev, decide_True by done. done.
    + specialize (Hs a x b' eq_refl).
      destruct b' as [|y b' _] using rev_ind.
      * rewrite last_snoc in Ht. rewrite Ht in HL. simpl.
        assert (x <> e) by set_solver.
        rewrite <- HL, lk_set_next, decide_False by done.
        rewrite lk_set_next, decide_True by done. rewrite lk_set_prev, decide_False by done.
        rewrite Hs. done.
      * erewrite el_add_frame; [|exact Heq0| |].
        -- rewrite Hs. f_equal. by destruct b'.
        -- set_solver.
        -- rewrite Ht. rewrite app_comm_cons, app_assoc, last_snoc. intros [= ->].
           apply NoDup_app in Hnd as (_ & _ & Hnd). apply NoDup_cons in Hnd as [Hnd _]. set_solver.
Qed.

(** Which link fields [el_remove] touches: the element and its neighbours. *)
Lemma el_remove_lk l L e l' L' x :
  el_remove l L e = (l', L') ->
  el_prev (lk L e) <> Some e -> el_next (lk L e) <> Some e ->
  lk L' x =
    if decide (x = e) then Elem None None
    else Elem (if decide (el_prev (lk L e) = Some x) then el_next (lk L e) else el_next (lk L x))
              (if decide (el_next (lk L e) = Some x) then el_prev (lk L e) else el_prev (lk L x)).
Proof.
  unfold el_remove. intros H Hp Hn.
  destruct (el_prev (lk L e)) as [p|] eqn:Ep.
  - assert (p <> e) by congruence.
    assert (lk (set_next L p (el_next (lk L e))) e = lk L e) as He.
    { rewrite lk_set_next. by rewrite decide_False. }
    rewrite He in H. rewrite Ep in H.
    destruct (el_next (lk L e)) as [q|] eqn:En.
    + assert (q <> e) by congruence. injection H as <- <-.
      rewrite lk_set_prev, !lk_set_next.
      destruct (decide (x = e)); [by rewrite decide_True|].
      rewrite ?lk_set_prev, ?lk_set_next.
      repeat case_decide; simplify_eq; simpl; try done; by destruct (lk L x).
    + injection H as <- <-.
      rewrite lk_set_prev, !lk_set_next.
      destruct (decide (x = e)); [by rewrite decide_True|].
      repeat case_decide; simplify_eq; simpl; try done; by destruct (lk L x).
  - rewrite Ep in H. destruct (el_next (lk L e)) as [q|] eqn:En.
    + assert (q <> e) by congruence. injection H as <- <-.
      rewrite lk_set_prev, !lk_set_next.
      destruct (decide (x = e)); [by rewrite decide_True|].
      rewrite ?lk_set_prev, ?lk_set_next.
      repeat case_decide; simplify_eq; simpl; try done; by destruct (lk L x).
    + injection H as <- <-.
      rewrite lk_set_prev, !lk_set_next.
      destruct (decide (x = e)); [by rewrite decide_True|].
      repeat case_decide; simplify_eq; simpl; try done; by destruct (lk L x).
Qed.

Lemma el_remove_list l L e l' L' :
  el_remove l L e = (l', L') -> el_prev (lk L e) <> Some e ->
  l' = LL (match el_prev (lk L e) with Some _ => ll_head l | None => el_next (lk L e) end)
          (match el_next (lk L e) with Some _ => ll_tail l | None => el_prev (lk L e) end)
          (ll_n l - 1).
Proof.
  unfold el_remove. intros H Hp.
  destruct (el_prev (lk L e)) as [p|] eqn:Ep.
  - assert (lk (set_next L p (el_next (lk L e))) e = lk L e) as He.
    { rewrite lk_set_next. rewrite decide_False; congruence. }
    rewrite He in H. destruct (el_next (lk L e)); injection H as <- _; congruence.
  - destruct (el_next (lk L e)); injection H as <- _; congruence.
Qed.

Lemma segs_ends L xs a e b :
  NoDup xs -> segs L xs -> xs = a ++ e :: b ->
  lk L e = Elem (head b) (last a) /\ head b <> Some e /\ last a <> Some e.
Proof.
  intros Hnd Hs ->. repeat split; [by apply Hs| |].
  - apply NoDup_app in Hnd as (_&_&Hnd). apply NoDup_cons in Hnd as [Hni _].
    intros H. destruct b; simplify_eq/=. set_solver.
  - apply NoDup_app in Hnd as (_&Hd&_). intros H. apply last_elem in H. apply (Hd _ H). set_solver.
Qed.

Lemma el_remove_frame l L e l' L' xs x :
  el_remove l L e = (l', L') -> is_dll L l xs -> e ∈ xs -> x ∉ xs -> lk L' x = lk L x.
Proof.
  intros Hr (Hnd&_&_&_&Hs) He Hx. apply elem_of_list_split in He as (a&b&Hxs).
  destruct (segs_ends _ _ _ _ _ Hnd Hs Hxs) as (Hl&H1&H2).
  rewrite (el_remove_lk _ _ _ _ _ x Hr) by (rewrite Hl; done). rewrite Hl. simpl.
  rewrite decide_False by set_solver.
  rewrite decide_False by (intros Hy%last_elem; set_solver).
  rewrite decide_False; [by destruct (lk L x)|].
  intros Hy. destruct b; simplify_eq/=. set_solver.
Qed.

Lemma head_app {A} (a b : list A) : head (a ++ b) = match head a with Some x => Some x | None => head b end.
Proof. by destruct a. Qed.
Lemma last_app' {A} (a b : list A) : last (a ++ b) = match last b with Some x => Some x | None => last a end.
Proof. apply last_app. Qed.

Lemma el_remove_ok l L e l' L' a b :
  el_remove l L e = (l', L') -> is_dll L l (a ++ e :: b) -> is_dll L' l' (a ++ b).
Proof.
  intros Hr Hd. pose proof Hd as (Hnd&Hh&Ht&Hn&Hs).
  destruct (segs_ends _ _ _ _ _ Hnd Hs eq_refl) as (Hl&H1&H2).
  rewrite (el_remove_list _ _ _ _ _ Hr) by (rewrite Hl; done). rewrite Hl. simpl.
  pose proof Hnd as Hnd'. rewrite <- Permutation_middle in Hnd'. apply NoDup_cons in Hnd' as [Hni Hnd'].
  repeat split; simpl.
  - done.
  - rewrite Hh. rewrite !head_app. destruct a as [|y a'] eqn:Ea; [done|].
    rewrite last_cons. destruct (last a'); done.
  - rewrite Ht. rewrite !last_app', last_cons. destruct b as [|y b']; simpl; [done|].
    destruct (last (y :: b')) eqn:El; [done|]. by apply last_None in El.
  - rewrite Hn, !app_length. simpl. lia.
  - intros u x v Hsp.
    rewrite (el_remove_lk _ _ _ _ _ x Hr) by (rewrite Hl; done). rewrite Hl. simpl.
    assert (x <> e) by (intros ->; apply Hni; rewrite Hsp; set_solver).
    rewrite decide_False by done.
    apply app_eq_inv in Hsp as [(k & Ha & Hk)|(k & -> & Hk)]. 2: {
      (* u = a ++ k, b = k ++ x :: v *)
      subst b. specialize (Hs (a ++ e :: k) x v). rewrite <- app_assoc in Hs.
      specialize (Hs eq_refl). rewrite Hs. simpl.
      assert (last a <> Some x).
      { intros Hy%last_elem. apply NoDup_app in Hnd' as (_&Hd'&_). apply (Hd' _ Hy). set_solver. }
      rewrite decide_False by done.
      destruct k as [|y k']; simpl.
      * rewrite decide_True by done. by rewrite app_nil_r.
      * rewrite decide_False.
        -- f_equal. rewrite !last_app'. rewrite !last_cons. destruct (last k'); done.
        -- intros [= ->]. apply NoDup_app in Hnd' as (_&_&Hd'). simpl in Hd'.
           apply NoDup_cons in Hd' as [Hd' _]. set_solver. }
    (* a = u ++ k, x :: v = k ++ b *)
      destruct k as [|y k].
      * simpl in Hk. subst b. rewrite app_nil_r in Ha. subst u.
        specialize (Hs (a ++ [e]) x v). rewrite <- app_assoc in Hs. specialize (Hs eq_refl).
        rewrite Hs. simpl.
        assert (last a <> Some x).
        { intros Hy%last_elem. apply NoDup_app in Hnd' as (_&Hd'&_). apply (Hd' _ Hy). set_solver. }
        rewrite decide_False by done. rewrite decide_True by done. done.
      * simpl in Hk. injection Hk as <- ->. subst a.
        specialize (Hs u x (k ++ e :: b)). rewrite <- app_assoc in Hs. specialize (Hs eq_refl).
        rewrite Hs. simpl.
        assert (head b <> Some x).
        { intros Hy. destruct b; simplify_eq/=. apply NoDup_app in Hnd' as (_&Hd'&_).
          apply (Hd' x); set_solver. }
        rewrite (decide_False (P := head b = Some x)) by done.
        rewrite last_app', last_cons. destruct k as [|z k _] using rev_ind; simpl.
        -- rewrite decide_True by done. done.
        -- rewrite last_snoc. rewrite decide_False.
           ++ rewrite <- !app_assoc. simpl. rewrite !head_app. by destruct k.
           ++ intros [= ->]. rewrite <- app_assoc in Hnd'. apply NoDup_app in Hnd' as (_&_&Hd').
              simpl in Hd'. apply NoDup_cons in Hd' as [Hd' _]. set_solver.
Qed.

Lemma walk_segs L xs fuel :
  length xs <= fuel -> NoDup xs -> segs L xs -> walk fuel L (head xs) = Ok xs.
Proof.
  intros Hf _ Hs.
  assert (forall b a, xs = a ++ b -> forall fuel, length b <= fuel -> walk fuel L (head b) = Ok b) as Hgen.
  { induction b as [|x b IH]; intros a Hxs f Hlen; [by destruct f|].
    simpl in *. destruct f as [|f]; [lia|]. simpl. rewrite (Hs a x b Hxs). simpl.
    rewrite (IH (a ++ [x])); [done| |lia]. by rewrite <- app_assoc. }
  by apply (Hgen xs []).
Qed.
Lemma walk_ok L l xs fuel :
  is_dll L l xs -> length xs <= fuel -> walk fuel L (ll_head l) = Ok xs.
Proof. intros (?&->&_&_&?) ?. by apply walk_segs. Qed.

Lemma el_remove_n l L e : ll_n (el_remove l L e).1 = (ll_n l - 1)%Z.
Proof. unfold el_remove. repeat case_match; simplify_eq; done. Qed.
