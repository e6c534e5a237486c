(** The order of GetNodesWithAllLabels. *)
From Verif Require Import Base Assoc AssocProofs Value FastSet FastSetProofs NodeMap NodeMapProofs Index Graph GraphSpec.
From Verif Require Import CoreProofs CoreStep AdjProofs ReadProofs NodeListProofs LabelProofs OrderSpec QueryOrderSpec.

(** the set of label [l] lists [f l] *)
Definition seq_rep (m : list (string * fastset nat)) (f : string -> list nat) : Prop :=
  NoDup m.*1 /\ forall l, match bk_get m l with Some s => ns_rep s (f l) /\ f l <> [] | None => f l = [] end.

Definition push (n : nat) (xs : list nat) : list nat := if decide (n ∈ xs) then xs else xs ++ [n].
Lemma push_ne n xs : push n xs <> [].
Proof. unfold push. destruct (decide (n ∈ xs)) as [H|]; [|by destruct xs]. intros ->. by apply elem_of_nil in H. Qed.
Lemma push_idem n xs : push n (push n xs) = push n xs.
Proof. unfold push. destruct (decide (n ∈ xs)); [by rewrite decide_True|]. rewrite decide_True; [done|]. set_solver. Qed.
Lemma unfile_idem n xs : unfile n (unfile n xs) = unfile n xs.
Proof. unfold unfile. rewrite list_filter_filter. apply list_filter_iff. tauto. Qed.

Lemma filter_ext_at (P Q : nat -> Prop) `{!forall x, Decision (P x), !forall x, Decision (Q x)} (l : list nat) :
  (forall x, x ∈ l -> P x <-> Q x) -> filter P l = filter Q l.
Proof.
  induction l as [|x l IH]; intros He; [done|]. rewrite !filter_cons, IH by (intros y Hy; apply He; set_solver).
  destruct (He x ltac:(set_solver)). destruct (decide (P x)), (decide (Q x)); naive_solver.
Qed.

Lemma seq_rep_ext m f h : seq_rep m f -> (forall l, f l = h l) -> seq_rep m h.
Proof. intros [Hnd H] He. split; [done|]. intros l. rewrite <- He. apply H. Qed.
Lemma nm_label_seq n m l f : seq_rep m f ->
  seq_rep (nm_label n m l) (fun l' => if decide (l' = l) then push n (f l') else f l').
Proof.
  intros [Hnd H]. unfold nm_label. pose proof (H l) as Hl. destruct (bk_get m l) as [s|] eqn:Hg.
  - split; [by rewrite bk_set_keys|]. intros l'. rewrite bk_get_set by eauto. destruct (decide (l' = l)) as [->|]; [|apply H].
    destruct Hl as [Hs _]. split; [by apply ns_add|apply push_ne].
  - split.
    + rewrite fmap_app. apply NoDup_app. split; [done|]. split; [|apply NoDup_singleton].
      apply bk_get_None in Hg. simpl. set_solver.
    + intros l'. rewrite bk_get_app. destruct (decide (l' = l)) as [->|].
      * rewrite Hg, Hl. split; [|done]. apply (ns_add fs_new []). apply ns_rep_new.
      * specialize (H l'). by destruct (bk_get m l').
Qed.
Lemma nm_unlabel_seq n m l f : seq_rep m f ->
  seq_rep (nm_unlabel n m l) (fun l' => if decide (l' = l) then unfile n (f l') else f l').
Proof.
  intros [Hnd H]. unfold nm_unlabel. pose proof (H l) as Hl. destruct (bk_get m l) as [s|] eqn:Hg.
  - destruct Hl as [Hs _]. pose proof (ns_remove _ _ n Hs) as Hr. change (filter (fun m => m <> n) (f l)) with (unfile n (f l)) in Hr.
    rewrite (ns_size _ _ Hr). destruct (decide (length (unfile n (f l)) = 0)) as [Hz|Hz].
    + split; [by apply bk_del_NoDup|]. intros l'. rewrite bk_get_del by done.
      destruct (decide (l' = l)) as [->|]; [by apply nil_length_inv|apply H].
    + split; [by rewrite bk_set_keys|]. intros l'. rewrite bk_get_set by eauto. destruct (decide (l' = l)) as [->|]; [|apply H].
      split; [done|]. by intros E; rewrite E in Hz.
  - split; [done|]. intros l'. destruct (decide (l' = l)) as [->|]; [|apply H]. by rewrite Hg, Hl.
Qed.
Lemma nm_labels_seq n ls m f : seq_rep m f ->
  seq_rep (fold_left (nm_label n) ls m) (fun l => if decide (l ∈ ls) then push n (f l) else f l).
Proof.
  revert m f. induction ls as [|l ls IH]; intros m f H; simpl; [done|].
  eapply seq_rep_ext; [apply IH, nm_label_seq, H|]. intros l'. cbv beta.
  destruct (decide (l' = l)) as [->|Hne].
  - rewrite (decide_True (P := l ∈ l :: ls)) by set_solver. destruct (decide (l ∈ ls)); [apply push_idem|done].
  - destruct (decide (l' ∈ ls)); [rewrite decide_True by set_solver|rewrite decide_False by set_solver]; done.
Qed.
Lemma nm_unlabels_seq n ls m f : seq_rep m f ->
  seq_rep (fold_left (nm_unlabel n) ls m) (fun l => if decide (l ∈ ls) then unfile n (f l) else f l).
Proof.
  revert m f. induction ls as [|l ls IH]; intros m f H; simpl; [done|].
  eapply seq_rep_ext; [apply IH, nm_unlabel_seq, H|]. intros l'. cbv beta.
  destruct (decide (l' = l)) as [->|Hne].
  - rewrite (decide_True (P := l ∈ l :: ls)) by set_solver. destruct (decide (l ∈ ls)); [apply unfile_idem|done].
  - destruct (decide (l' ∈ ls)); [rewrite decide_True by set_solver|rewrite decide_False by set_solver]; done.
Qed.

Lemma label_order_snoc ops o l :
  label_order (ops ++ [o]) l = label_step l (srun ops) o (label_order ops l).
Proof.
  unfold label_order. rewrite fold_left_app. simpl.
  assert ((fold_left (fun p o => (sstep p.1 o, label_step l p.1 o p.2)) ops (s_empty, [])).1 = srun ops) as ->; [|done].
  unfold srun. generalize s_empty, (@nil nat). induction ops as [|o' ops IH]; intros s xs; simpl; [done|]. apply IH.
Qed.

Lemma label_seq_run ops g : valid_history ops -> run ops = Ok g -> seq_rep (nm_m (g_lab g)) (label_order ops).
Proof.
  revert ops g. apply history_ind; [split; [constructor|done]|].
  intros ops g o g' Hv Hr IH Ho Hs. pose proof (core_run _ _ Hv Hr) as Hc.
  destruct (step_lab _ _ _ Hs) as [Hlab _].
  assert (forall h, (forall l, h l = label_step l (srun ops) o (label_order ops l)) ->
            seq_rep (nm_m (g_lab g')) h -> seq_rep (nm_m (g_lab g')) (label_order (ops ++ [o]))) as Hgoal.
  { intros h Hh H. eapply seq_rep_ext; [exact H|]. intros l. by rewrite label_order_snoc, Hh. }
  destruct o; simpl in Hlab, Ho; try (by apply (Hgoal (label_order ops)); [|by rewrite Hlab]).
  - (* NewNode *)
    assert (forall l, g_next g ∉ label_order ops l) as Hfresh.
    { intros l Hin. destruct IH as [_ IH]. specialize (IH l). destruct (bk_get _ l) as [f|] eqn:Hg; [|rewrite IH in Hin; by apply elem_of_nil in Hin].
      destruct IH as [Hrep _]. destruct (lab_inv_run _ _ Hv Hr) as (_ & _ & H2). destruct (H2 (g_next g) l) as [H _].
      { exists f. split; [done|]. rewrite (ns_has _ _ _ Hrep). by apply bool_decide_eq_true. }
      destruct Hc as (_ & _ & _ & Hlt & _). apply Hlt in H. lia. }
    pose proof Hc as (_ & Hnext & _).
    destruct Ho as [_ Ho]. destruct (decide (labels = ∅)) as [->|Hne].
    + apply (Hgoal (label_order ops)); [|by rewrite Hlab; unfold nm_add; rewrite decide_True by done].
      intros l. simpl. rewrite decide_False; [done|]. set_solver.
    + eapply Hgoal; [|rewrite Hlab; unfold nm_add; rewrite decide_False by done; apply nm_labels_seq, IH].
      intros l. simpl. destruct (decide (l ∈ ord)) as [Hl|Hl].
      * rewrite decide_True by (by apply Ho). unfold push. by rewrite decide_False, Hnext by apply Hfresh.
      * rewrite decide_False; [done|]. by rewrite <- Ho.
  - (* SetLabels *)
    destruct Ho as [[_ Hon] (sn & Hsn & [_ Hoo])].
    destruct (read_node _ _ Hc _ _ Hsn) as [Hold _]. rewrite Hold in Hlab.
    unfold nm_replace in Hlab. destruct (decide (sn_labels sn = ∅ /\ labels = ∅)) as [[E1 E2]|Hne].
    { apply (Hgoal (label_order ops)); [|by rewrite Hlab]. intros l. simpl. rewrite Hsn.
      rewrite decide_False by set_solver. by rewrite decide_True. }
    destruct (decide (labels = ∅)) as [E|Hne'].
    { apply (Hgoal (label_order ops)); [|by rewrite Hlab]. intros l. simpl. rewrite Hsn.
      rewrite decide_False by set_solver. by rewrite decide_True. }
    eapply Hgoal; [|rewrite Hlab; cbn [nm_m]; apply nm_labels_seq, nm_unlabels_seq, IH].
    intros l. cbn [label_step]. rewrite Hsn.
    destruct (decide (l ∈ labels)) as [Hl|Hl].
    + rewrite (decide_False (P := l ∈ filter (fun l => l ∉ labels) ordo)) by (rewrite elem_of_list_filter; naive_solver).
      destruct (decide (l ∈ sn_labels sn)) as [Hs'|Hs'].
      * rewrite decide_False by (rewrite elem_of_list_filter; naive_solver). rewrite decide_True by by left. done.
      * rewrite decide_True. 2: { rewrite elem_of_list_filter. split; [done|]. by apply Hon. }
        unfold push. destruct (decide (n ∈ label_order ops l)); [by rewrite decide_True by by right|].
        rewrite decide_False; [done|]. naive_solver.
    + rewrite (decide_False (P := labels = ∅)) by done.
      rewrite (decide_False (P := l ∈ filter (fun l => l ∉ sn_labels sn) ordn)).
      2: { rewrite elem_of_list_filter. intros [_ Hin]. by apply Hon in Hin. }
      destruct (decide (l ∈ sn_labels sn)) as [Hs'|Hs'].
      * rewrite decide_True; [done|]. rewrite elem_of_list_filter. split; [done|]. by apply Hoo.
      * rewrite decide_False; [done|]. rewrite elem_of_list_filter. intros [_ Hin]. by apply Hoo in Hin.
  - (* DetachAndRemove *)
    destruct Ho as (sn & Hsn & [_ Hoo]). destruct (read_node _ _ Hc _ _ Hsn) as [Hold _]. rewrite Hold in Hlab.
    unfold nm_remove in Hlab. destruct (decide (sn_labels sn = ∅)) as [E|Hne].
    { apply (Hgoal (label_order ops)); [|by rewrite Hlab]. intros l. simpl. rewrite Hsn.
      rewrite decide_False; [done|]. set_solver. }
    eapply Hgoal; [|rewrite Hlab; cbn [nm_m]; apply nm_unlabels_seq, IH].
    intros l. cbn [label_step]. rewrite Hsn. destruct (decide (l ∈ sn_labels sn)) as [Hl|Hl].
    + rewrite decide_True; [done|]. by apply Hoo.
    + rewrite decide_False; [done|]. intros Hin. by apply Hoo in Hin.
Qed.

Lemma nm_min_seq m f ops ord best s :
  seq_rep m f -> (forall l, f l = label_order ops l) -> ns_rep s (f best) -> f best <> [] ->
  match nm_min m ord (Some s) with
  | None => label_order ops (rarest ops best ord) = []
  | Some None => False
  | Some (Some s') => ns_rep s' (label_order ops (rarest ops best ord)) /\ label_order ops (rarest ops best ord) <> []
  end.
Proof.
  intros [_ H] Hf. revert best s. induction ord as [|l ord IH]; intros best s Hs Hne; simpl; [by rewrite <- Hf|].
  pose proof (H l) as Hl. destruct (bk_get m l) as [s'|].
  - destruct Hl as [Hs' Hne']. rewrite (ns_size _ _ Hs), (ns_size _ _ Hs'), !Hf.
    destruct (decide (length (label_order ops l) < length (label_order ops best))); by apply IH.
  - assert (label_order ops l = []) as E by (by rewrite <- Hf).
    assert (forall best, label_order ops best = [] -> label_order ops (rarest ops best ord) = []) as Hr.
    { clear -ops. induction ord as [|l ord IH]; intros best Hb; simpl; [done|]. apply IH. rewrite Hb.
      destruct (decide _) as [Hlt|]; [simpl in Hlt; lia|done]. }
    apply Hr. rewrite E, <- (Hf best). rewrite decide_True; [done|]. destruct (f best); [done|]. simpl. lia.
Qed.

Lemma nodes_all_labels_order ops g S ord :
  valid_history ops -> run ops = Ok g -> S <> ∅ -> order_of S ord ->
  get_nodes_all_labels g S ord = Ok (labelled_order ops S ord, Z.of_nat (labelled_size ops ord)).
Proof.
  intros Hv Hr Hne [Hnd Ho]. pose proof (label_seq_run _ _ Hv Hr) as Hseq. pose proof (core_run _ _ Hv Hr) as Hc.
  unfold get_nodes_all_labels, nm_iter_all, labelled_order, labelled_size.
  destruct ord as [|l ord].
  { exfalso. apply Hne, set_eq. intros l. rewrite <- Ho. set_solver. }
  simpl. pose proof (proj2 Hseq l) as Hl.
  assert (forall n l', n ∈ label_order ops l' -> l' ∈ l :: ord -> S ⊆ labels_of g n <-> s_all_labels (srun ops) S n = true) as Hlab.
  { intros n l' Hn Hl'. unfold s_all_labels. destruct (s_nodes (srun ops) !! n) as [x|] eqn:Hx.
    - destruct (read_node _ _ Hc _ _ Hx) as [-> _]. by rewrite bool_decide_eq_true.
    - split; [|done]. intros Hsub. exfalso. destruct (lab_inv_run _ _ Hv Hr) as (_ & _ & H2).
      pose proof (proj2 Hseq l') as Hs. destruct (bk_get _ l') as [f|] eqn:Hg; [|rewrite Hs in Hn; by apply elem_of_nil in Hn].
      destruct Hs as [Hs _]. destruct (H2 n l') as [_ H].
      { exists f. split; [done|]. rewrite (ns_has _ _ _ Hs). by apply bool_decide_eq_true. }
      assert (live_node (srun ops) n) as [y Hy]; [|congruence]. apply H, Hsub. by apply Ho. }
  assert (forall best, best ∈ l :: ord -> rarest ops best ord ∈ l :: ord) as Hrare.
  { assert (forall r, (forall l', l' ∈ r -> l' ∈ l :: ord) -> forall best, best ∈ l :: ord -> rarest ops best r ∈ l :: ord) as H.
    { clear -ops. induction r as [|l' r IH]; intros Hsub best Hb; simpl; [done|]. apply IH; [set_solver|].
      destruct (decide _); [apply Hsub; set_solver|done]. }
    apply H. set_solver. }
  destruct (bk_get (nm_m (g_lab g)) l) as [s|].
  - destruct Hl as [Hs Hlne]. pose proof (nm_min_seq _ _ ops ord l s Hseq (fun _ => eq_refl) Hs Hlne) as Hm.
    destruct (nm_min _ ord (Some s)) as [[s'|]|]; [|done|].
    + destruct Hm as [Hs' _]. rewrite (ns_iter _ _ Hs'), (ns_size _ _ Hs'). do 2 f_equal.
      apply filter_ext_at. intros n Hn. eapply Hlab; [exact Hn|]. apply Hrare. set_solver.
    + by rewrite Hm.
  - enough (label_order ops (rarest ops l ord) = []) as -> by done.
    assert (forall best, label_order ops best = [] -> label_order ops (rarest ops best ord) = []) as Hr'.
    { clear -ops. induction ord as [|l ord IH]; intros best Hb; simpl; [done|]. apply IH. rewrite Hb.
      destruct (decide _) as [Hlt|]; [simpl in Hlt; lia|done]. }
    by apply Hr'.
Qed.
