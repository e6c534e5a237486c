(** The node map (nodes by label). *)
From Verif Require Import Base Assoc AssocProofs FastSet FastSetProofs NodeMap GraphSpec.

Definition dup (n : nat) : nat * nat := (n, n).
(** [f] is the set [xs], in this order; each id stands for itself *)
Definition ns_rep (f : fastset nat) (xs : list nat) : Prop := fs_rep f (map dup xs).

Lemma dup_fst xs : (map dup xs).*1 = xs.
Proof. induction xs as [|x xs IH]; csimpl; [done|]. by rewrite IH. Qed.
Lemma dup_snd xs : (map dup xs).*2 = xs.
Proof. induction xs as [|x xs IH]; csimpl; [done|]. by rewrite IH. Qed.
Lemma ns_rep_new : ns_rep fs_new [].
Proof. apply fs_rep_new. Qed.
Lemma ns_rep_NoDup f xs : ns_rep f xs -> NoDup xs.
Proof. intros H%fs_rep_NoDup. by rewrite dup_fst in H. Qed.
Lemma ns_has f xs n : ns_rep f xs -> fs_has f n = bool_decide (n ∈ xs).
Proof. intros H. rewrite (fs_has_ok _ _ _ H). apply bool_decide_ext. by rewrite dup_fst. Qed.
Lemma ns_size f xs : ns_rep f xs -> fs_size f = length xs.
Proof. intros H. rewrite (fs_size_ok _ _ H). by rewrite map_length. Qed.
Lemma ns_iter f xs : ns_rep f xs -> fs_iter f = xs.
Proof. intros H. rewrite (fs_iter_ok _ _ H). apply dup_snd. Qed.
Lemma ns_add f xs n : ns_rep f xs -> ns_rep (fs_add f n n).1 (if decide (n ∈ xs) then xs else xs ++ [n]).
Proof.
  intros H. destruct (decide (n ∈ xs)) as [Hn|Hn].
  - rewrite (fs_add_old _ _ _ _ H); [done|]. by rewrite dup_fst.
  - unfold ns_rep. rewrite map_app. apply fs_add_new; [done|]. by rewrite dup_fst.
Qed.
Lemma ns_remove f xs n : ns_rep f xs -> ns_rep (fs_remove f n).1 (filter (fun m => m <> n) xs).
Proof.
  intros H. destruct (fs_remove_ok _ _ n H) as [_ Hr]. unfold ns_rep.
  assert (map dup (filter (fun m => m <> n) xs) = fs_without (map dup xs) n) as ->; [|done].
  clear. unfold fs_without. induction xs as [|x xs IH]; [done|]. rewrite filter_cons. simpl. rewrite filter_cons. simpl.
  destruct (decide (x <> n)); simpl; congruence.
Qed.

Definition lab_wf (m : list (string * fastset nat)) : Prop :=
  NoDup m.*1 /\ forall l f, bk_get m l = Some f -> exists xs, ns_rep f xs /\ xs <> [].
Definition in_lab (m : list (string * fastset nat)) (l : string) (n : nat) : Prop :=
  exists f, bk_get m l = Some f /\ fs_has f n = true.

Lemma nm_label_wf n m l : lab_wf m -> lab_wf (nm_label n m l).
Proof.
  intros [Hnd Hf]. unfold nm_label. destruct (bk_get m l) as [f|] eqn:Hg.
  - split; [by rewrite bk_set_keys|]. intros l' f'. rewrite bk_get_set by eauto.
    destruct (decide (l' = l)) as [->|]; [|apply Hf]. intros [= <-].
    destruct (Hf _ _ Hg) as (xs & Hxs & Hne). eexists. split; [by apply ns_add|].
    destruct (decide (n ∈ xs)); [done|]. by destruct xs.
  - split.
    + rewrite fmap_app. apply NoDup_app. split; [done|]. split; [|apply NoDup_singleton].
      apply bk_get_None in Hg. simpl. set_solver.
    + intros l' f'. rewrite bk_get_app. destruct (bk_get m l') as [f|] eqn:Hg'; [intros [= <-]; by eapply Hf|].
      destruct (decide (l' = l)); [|done]. intros [= <-]. exists [n]. split; [|done].
      apply (ns_add fs_new []). apply ns_rep_new.
Qed.
Lemma nm_label_in n m l l' n' : lab_wf m ->
  in_lab (nm_label n m l) l' n' <-> in_lab m l' n' \/ (l' = l /\ n' = n).
Proof.
  intros [Hnd Hf]. unfold nm_label, in_lab. destruct (bk_get m l) as [f|] eqn:Hg.
  - rewrite bk_get_set by eauto. destruct (decide (l' = l)) as [->|]; [|naive_solver].
    destruct (Hf _ _ Hg) as (xs & Hxs & Hne). pose proof (ns_add _ _ n Hxs) as Ha. rewrite Hg.
    split.
    + intros (f' & [= <-] & Hh). rewrite (ns_has _ _ _ Ha) in Hh. apply bool_decide_eq_true in Hh.
      destruct (decide (n ∈ xs)).
      * left. eexists. split; [done|]. rewrite (ns_has _ _ _ Hxs). by apply bool_decide_eq_true.
      * apply elem_of_app in Hh as [Hh|Hh]; [|right; set_solver].
        left. eexists. split; [done|]. rewrite (ns_has _ _ _ Hxs). by apply bool_decide_eq_true.
    + intros Hor. eexists. split; [done|]. rewrite (ns_has _ _ _ Ha). apply bool_decide_eq_true.
      assert (n' ∈ xs \/ n' = n) as Hor'.
      { destruct Hor as [(f' & [= <-] & Hh)|[_ ->]]; [|by right]. left.
        rewrite (ns_has _ _ _ Hxs) in Hh. by apply bool_decide_eq_true in Hh. }
      destruct (decide (n ∈ xs)); [naive_solver|]. set_solver.
  - rewrite bk_get_app. destruct (bk_get m l') as [f'|] eqn:Hg'.
    + destruct (decide (l' = l)) as [->|]; [congruence|]. naive_solver.
    + pose proof (ns_add _ [] n ns_rep_new) as Ha.
      destruct (decide (l' = l)) as [->|]; [|naive_solver]. split.
      * intros (f' & [= <-] & Hh). rewrite (ns_has _ _ _ Ha) in Hh. apply bool_decide_eq_true in Hh.
        simpl in Hh. right. set_solver.
      * intros [(?&?&_)|[_ ->]]; [done|]. eexists. split; [done|]. rewrite (ns_has _ _ _ Ha).
        apply bool_decide_eq_true. set_solver.
Qed.
Lemma nm_unlabel_wf n m l : lab_wf m -> lab_wf (nm_unlabel n m l).
Proof.
  intros [Hnd Hf]. unfold nm_unlabel. destruct (bk_get m l) as [f|] eqn:Hg; [|done].
  destruct (Hf _ _ Hg) as (xs & Hxs & Hne). pose proof (ns_remove _ _ n Hxs) as Hr.
  destruct (decide (fs_size _ = 0)) as [H0|H0].
  - split; [by apply bk_del_NoDup|]. intros l' f'. rewrite bk_get_del by done.
    destruct (decide (l' = l)); [done|]. apply Hf.
  - split; [by rewrite bk_set_keys|]. intros l' f'. rewrite bk_get_set by eauto.
    destruct (decide (l' = l)) as [->|]; [|apply Hf]. intros [= <-]. eexists. split; [done|].
    rewrite (ns_size _ _ Hr) in H0. by destruct (filter _ xs).
Qed.
Lemma nm_unlabel_in n m l l' n' : lab_wf m ->
  in_lab (nm_unlabel n m l) l' n' <-> in_lab m l' n' /\ ~ (l' = l /\ n' = n).
Proof.
  intros [Hnd Hf]. unfold nm_unlabel, in_lab. destruct (bk_get m l) as [f|] eqn:Hg.
  2: { split; [|naive_solver]. intros (f & Hf' & Hh). split; [eauto|]. intros [-> _]. congruence. }
  destruct (Hf _ _ Hg) as (xs & Hxs & Hne). pose proof (ns_remove _ _ n Hxs) as Hr.
  destruct (decide (fs_size _ = 0)) as [H0|H0].
  - rewrite bk_get_del by done. destruct (decide (l' = l)) as [->|]; [|naive_solver].
    split; [naive_solver|]. intros [(f' & Hf' & Hh) Hn]. assert (f' = f) as -> by congruence.
    rewrite (ns_has _ _ _ Hxs) in Hh. apply bool_decide_eq_true in Hh.
    rewrite (ns_size _ _ Hr) in H0. apply nil_length_inv in H0.
    assert (n' ∈ filter (fun m => m <> n) xs) as Hin by (apply elem_of_list_filter; naive_solver).
    rewrite H0 in Hin. set_solver.
  - rewrite bk_get_set by eauto. destruct (decide (l' = l)) as [->|]; [|naive_solver].
    rewrite Hg. split.
    + intros (f' & [= <-] & Hh). rewrite (ns_has _ _ _ Hr) in Hh. apply bool_decide_eq_true, elem_of_list_filter in Hh as [Hh1 Hh2].
      split; [|naive_solver]. eexists. split; [done|]. rewrite (ns_has _ _ _ Hxs). by apply bool_decide_eq_true.
    + intros [(f' & [= <-] & Hh) Hn]. eexists. split; [done|]. rewrite (ns_has _ _ _ Hr).
      rewrite (ns_has _ _ _ Hxs) in Hh. apply bool_decide_eq_true in Hh. apply bool_decide_eq_true, elem_of_list_filter. naive_solver.
Qed.

Lemma nm_labels_ok n m ls : lab_wf m ->
  lab_wf (fold_left (nm_label n) ls m) /\
  forall l' n', in_lab (fold_left (nm_label n) ls m) l' n' <-> in_lab m l' n' \/ (l' ∈ ls /\ n' = n).
Proof.
  revert m; induction ls as [|l ls IH]; intros m Hwf; simpl; [split; [done|]; set_solver|].
  destruct (IH _ (nm_label_wf n m l Hwf)) as [H1 H2]. split; [done|].
  intros l' n'. rewrite H2, nm_label_in by done. rewrite elem_of_cons. tauto.
Qed.
Lemma nm_unlabels_ok n m ls : lab_wf m ->
  lab_wf (fold_left (nm_unlabel n) ls m) /\
  forall l' n', in_lab (fold_left (nm_unlabel n) ls m) l' n' <-> in_lab m l' n' /\ ~ (l' ∈ ls /\ n' = n).
Proof.
  revert m; induction ls as [|l ls IH]; intros m Hwf; simpl; [split; [done|]; set_solver|].
  destruct (IH _ (nm_unlabel_wf n m l Hwf)) as [H1 H2]. split; [done|].
  intros l' n'. rewrite H2, nm_unlabel_in by done. rewrite elem_of_cons. tauto.
Qed.

(** the three operations of maps.go *)
Lemma nm_add_lab nm n labels ord : lab_wf (nm_m nm) -> order_of labels ord ->
  lab_wf (nm_m (nm_add nm n labels ord)) /\
  forall l' n', in_lab (nm_m (nm_add nm n labels ord)) l' n' <-> in_lab (nm_m nm) l' n' \/ (l' ∈ labels /\ n' = n).
Proof.
  intros Hwf [_ Ho]. unfold nm_add. destruct (decide (labels = ∅)) as [->|]; simpl.
  - split; [done|]. set_solver.
  - destruct (nm_labels_ok n _ ord Hwf) as [H1 H2]. split; [done|]. intros l' n'. rewrite H2, Ho. done.
Qed.
Lemma nm_remove_lab nm n labels ord : lab_wf (nm_m nm) -> order_of labels ord ->
  lab_wf (nm_m (nm_remove nm n labels ord)) /\
  forall l' n', in_lab (nm_m (nm_remove nm n labels ord)) l' n' <-> in_lab (nm_m nm) l' n' /\ ~ (l' ∈ labels /\ n' = n).
Proof.
  intros Hwf [_ Ho]. unfold nm_remove. destruct (decide (labels = ∅)) as [->|]; simpl.
  - split; [done|]. set_solver.
  - destruct (nm_unlabels_ok n _ ord Hwf) as [H1 H2]. split; [done|]. intros l' n'. rewrite H2, Ho. done.
Qed.
Lemma nm_replace_lab nm n old new ordo ordn : lab_wf (nm_m nm) -> order_of old ordo -> order_of new ordn ->
  lab_wf (nm_m (nm_replace nm n old new ordo ordn)) /\
  forall l' n', in_lab (nm_m (nm_replace nm n old new ordo ordn)) l' n' <->
    (in_lab (nm_m nm) l' n' /\ ~ (n' = n /\ l' ∈ old ∖ new /\ new <> ∅)) \/ (n' = n /\ l' ∈ new ∖ old).
Proof.
  intros Hwf [_ Ho] [_ Hn]. unfold nm_replace. destruct (decide (old = ∅ /\ new = ∅)) as [[-> ->]|Hne]; simpl.
  { split; [done|]. intros. set_solver. }
  destruct (decide (new = ∅)) as [->|Hnew]; simpl.
  { split; [done|]. intros. set_solver. }
  destruct (nm_unlabels_ok n _ (filter (fun l => l ∉ new) ordo) Hwf) as [H1 H2].
  destruct (nm_labels_ok n _ (filter (fun l => l ∉ old) ordn) H1) as [H3 H4].
  split; [done|]. intros l' n'. rewrite H4, H2. rewrite !elem_of_list_filter, Ho, Hn, !elem_of_difference. tauto.
Qed.

(** ** Queries *)
Lemma nm_min_ok m ord cur : 
  match nm_min m ord cur with
  | None => exists l, l ∈ ord /\ bk_get m l = None
  | Some None => ord = [] /\ cur = None
  | Some (Some s) => (cur = Some s \/ exists l, l ∈ ord /\ bk_get m l = Some s)
  end.
Proof.
  revert cur; induction ord as [|l ord IH]; intros cur; simpl.
  - destruct cur; [by left|done].
  - destruct (bk_get m l) as [s|] eqn:Hg; [|exists l; set_solver].
    specialize (IH (match cur with None => Some s | Some c => if decide (fs_size s < fs_size c) then Some s else Some c end)).
    destruct (nm_min m ord _) as [[x|]|].
    + destruct IH as [Hx|(l' & Hl & Hx)]; [|right; exists l'; set_solver].
      destruct cur as [c|].
      * destruct (decide _); [right; exists l|left]; set_solver.
      * right; exists l; set_solver.
    + destruct IH as [_ IH]. destruct cur as [c|]; [destruct (decide _)|]; done.
    + destruct IH as (l' & Hl & Hx). exists l'. set_solver.
Qed.

(** [live]: the nodes that should be found *)
Lemma nm_iter_all_ok (lof : nat -> gset string) (live : nat -> Prop) nm labels ord :
  lab_wf (nm_m nm) -> order_of labels ord -> labels <> ∅ ->
  (forall n l, live n -> l ∈ lof n -> in_lab (nm_m nm) l n) ->
  (forall n l, in_lab (nm_m nm) l n -> l ∈ lof n -> live n) ->
  exists xs sz, nm_iter_all lof nm labels ord = Ok (xs, sz) /\
    lists (fun n => live n /\ labels ⊆ lof n) xs /\ (Z.of_nat (length xs) <= sz)%Z.
Proof.
  intros [Hnd Hf] [Hno Ho] Hne H1 H2. unfold nm_iter_all.
  pose proof (nm_min_ok (nm_m nm) ord None) as Hm. destruct (nm_min (nm_m nm) ord None) as [[s|]|].
  - destruct Hm as [?|(l & Hl & Hg)]; [done|]. destruct (Hf _ _ Hg) as (xs & Hxs & _).
    eexists _, _. split; [done|]. rewrite (ns_iter _ _ Hxs). split; [split|].
    + apply NoDup_filter. by eapply ns_rep_NoDup.
    + assert (forall n, n ∈ xs <-> in_lab (nm_m nm) l n) as Hin.
      { intros n. unfold in_lab. rewrite Hg. split.
        - intros Hn. exists s. split; [done|]. rewrite (ns_has _ _ _ Hxs). by apply bool_decide_eq_true.
        - intros (f & [= <-] & Hh). rewrite (ns_has _ _ _ Hxs) in Hh. by apply bool_decide_eq_true in Hh. }
      intros n. rewrite elem_of_list_filter, Hin. apply Ho in Hl. split.
      * intros [Hsub Hi]. split; [|done]. eapply H2; [done|]. set_solver.
      * intros [Hlive Hsub]. split; [done|]. apply H1; [done|]. set_solver.
    + rewrite (ns_size _ _ Hxs). apply inj_le. apply filter_length.
  - destruct Hm as [-> _]. exfalso. apply Hne. apply set_eq. intros l. rewrite <- Ho. set_solver.
  - destruct Hm as (l & Hl & Hg). eexists _, _. split; [done|]. split; [split|].
    + constructor.
    + intros n. split; [set_solver|]. intros [Hlive Hsub]. apply Ho in Hl. exfalso.
      destruct (H1 n l Hlive) as (f & Hf' & _); [set_solver|]. congruence.
    + done.
Qed.
