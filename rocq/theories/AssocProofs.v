(** Lemmas about Assoc.v. *)
From Verif Require Import Base Assoc.

Section assoc.
  Context {V : Type}.
  Implicit Types (b : list (string * V)).

Lemma bk_get_app b l0 x0 l :
  bk_get (b ++ [(l0, x0)]) l =
  match bk_get b l with Some x => Some x | None => if decide (l = l0) then Some x0 else None end.
Proof. induction b as [|[l' x'] b IH]; simpl; [done|]. by destruct (decide (l = l')). Qed.
  Lemma bk_get_set b l0 y l :
  is_Some (bk_get b l0) ->
  bk_get (bk_set b l0 y) l = if decide (l = l0) then Some y else bk_get b l.
Proof.
  induction b as [|[l' x'] b IH]; simpl; intros Hs; [by destruct Hs|].
  destruct (decide (l0 = l')) as [->|]; simpl.
  - repeat case_decide; congruence.
  - rewrite IH by done. repeat case_decide; congruence.
Qed.
  Lemma bk_set_keys b l y : (bk_set b l y).*1 = b.*1.
Proof. induction b as [|[l' x'] b IH]; simpl; [done|]. case_decide; csimpl; [done|]. by rewrite IH. Qed.
  Lemma bk_get_None b l : bk_get b l = None <-> l ∉ b.*1.
Proof.
  induction b as [|[l' x'] b IH]; simpl; [set_solver|]. case_decide; set_solver.
Qed.
  Lemma bk_get_del b l0 l :
  NoDup b.*1 -> bk_get (bk_del b l0) l = if decide (l = l0) then None else bk_get b l.
Proof.
  induction b as [|[l' x'] b IH]; simpl; intros Hnd; [by case_decide|].
  apply NoDup_cons in Hnd as [Hni Hnd].
  destruct (decide (l0 = l')) as [->|]; simpl.
  - case_decide; [subst; by apply bk_get_None|done].
  - rewrite IH by done. repeat case_decide; congruence.
Qed.
  Lemma bk_del_keys b l k : k ∈ (bk_del b l).*1 -> k ∈ b.*1.
Proof. induction b as [|[l' x'] b IH]; simpl; [done|]. case_decide; set_solver. Qed.
  Lemma bk_del_NoDup b l : NoDup b.*1 -> NoDup (bk_del b l).*1.
Proof.
  induction b as [|[l' x'] b IH]; simpl; [done|]. intros [Hni Hnd]%NoDup_cons.
  case_decide; [done|]. simpl. apply NoDup_cons. split; [|by apply IH].
  intros H'. by apply Hni, (bk_del_keys b l).
Qed.
  Lemma bk_get_elem b l x : NoDup b.*1 -> (l, x) ∈ b -> bk_get b l = Some x.
Proof.
  induction b as [|[l' x'] b IH]; simpl; intros Hnd Hin; [by apply elem_of_nil in Hin|].
  apply NoDup_cons in Hnd as [Hni Hnd].
  apply elem_of_cons in Hin as [[= -> ->]|Hin]; [by rewrite decide_True|].
  rewrite decide_False; [by apply IH|]. intros ->. apply Hni. by apply (elem_of_list_fmap_1 fst _ (l', x)).
Qed.
  Lemma bk_get_Some_elem b l x : bk_get b l = Some x -> (l, x) ∈ b.
Proof.
  induction b as [|[l' x'] b IH]; simpl; [done|]. case_decide; intros; simplify_eq; set_solver.
Qed.

  Lemma bk_put_get b l0 y l :
    bk_get (bk_put b l0 y) l = if decide (l = l0) then Some y else bk_get b l.
  Proof.
    unfold bk_put. destruct (bk_get b l0) as [x|] eqn:Hg.
    - rewrite bk_get_set by eauto. done.
    - rewrite bk_get_app. destruct (decide (l = l0)) as [->|].
      + by rewrite Hg.
      + by destruct (bk_get b l).
  Qed.
  Lemma bk_put_NoDup b l y : NoDup b.*1 -> NoDup (bk_put b l y).*1.
  Proof.
    intros Hnd. unfold bk_put. destruct (bk_get b l) as [x|] eqn:Hg; [by rewrite bk_set_keys|].
    rewrite fmap_app. apply NoDup_app. split; [done|]. split; [|apply NoDup_singleton].
    intros k Hk. simpl. apply bk_get_None in Hg. set_solver.
  Qed.
End assoc.
