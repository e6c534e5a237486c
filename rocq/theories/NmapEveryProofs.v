(** Proofs for C22 and C54 in every history of a NodeMap. *)
From Verif Require Import Base Assoc AssocProofs FastSet FastSetProofs NodeMap NodeMapProofs GraphSpec ContainerSpec NmapEverySpec.

Definition nm_invh (s : nm_state) (L : gmap nat (gset string)) (H : nat -> gset string) : Prop :=
  ns_labels s = L /\ lab_wf (nm_m (ns_map s)) /\ (forall l n, in_lab (nm_m (ns_map s)) l n <-> l ∈ H n) /\
  (forall n X, L !! n = Some X -> X ⊆ H n) /\
  exists xs, ns_rep (nm_nolabels (ns_map s)) xs /\ forall n, n ∈ xs <-> L !! n = Some ∅.

Lemma nm_step_h s L H o : nm_invh s L H -> nm_valid L o -> nm_invh (nm_step s o) (nm_spec_step L o) (nm_sets_step L H o).
Proof.
  intros (HL & Hwf & Hin & Hsub & xs & Hxs & Hno) Hv.
  assert (forall n, ns_label_of s n = default ∅ (L !! n)) as Hof by (intros; unfold ns_label_of; by rewrite HL).
  destruct o as [n labels ord|n new ordo ordn|n ord]; simpl in *.
  - destruct Hv as [Ho Hn]. destruct (nm_add_lab (ns_map s) n _ _ Hwf Ho) as [H1 H2].
    split; [simpl; by rewrite HL|]. split; [done|]. split; [|split].
    + intros l m. cbn [ns_map]. rewrite H2, Hin. unfold put_at. destruct (decide (m = n)) as [->|Hmn]; set_solver.
    + intros m X. unfold put_at. destruct (decide (m = n)) as [->|Hmn].
      * rewrite lookup_insert. intros [= ->]. set_solver.
      * rewrite lookup_insert_ne by done. apply Hsub.
    + cbn [ns_map]. unfold nm_add. destruct (decide (labels = ∅)) as [->|Hne]; cbn [nm_nolabels].
      * eexists. split; [by apply ns_add|]. intros m. destruct (decide (m = n)) as [->|Hmn].
        -- rewrite lookup_insert. destruct (decide (n ∈ xs)); set_solver.
        -- rewrite lookup_insert_ne by done. rewrite <- Hno. destruct (decide (n ∈ xs)); set_solver.
      * exists xs. split; [done|]. intros m. rewrite Hno. destruct (decide (m = n)) as [->|Hmn].
        -- rewrite lookup_insert. destruct Hn as [Hn|Hn]; rewrite Hn; naive_solver.
        -- by rewrite lookup_insert_ne.
  - destruct Hv as [Hon (old & Hold & Hoo)]. rewrite Hof, Hold. cbn [default]. unfold id.
    destruct (nm_replace_lab (ns_map s) n _ _ _ _ Hwf Hoo Hon) as [H1 H2]. pose proof (Hsub _ _ Hold) as Hso.
    split; [simpl; by rewrite HL|]. split; [done|]. split; [|split].
    + intros l m. cbn [ns_map]. rewrite H2, Hin. destruct (decide (new = ∅)) as [->|Hne]; [set_solver|]. unfold put_at. destruct (decide (m = n)) as [->|Hmn].
      * rewrite elem_of_union, !elem_of_difference. destruct (decide (l ∈ old)) as [D|D], (decide (l ∈ new)) as [D2|D2]; set_solver.
      * naive_solver.
    + intros m X. destruct (decide (m = n)) as [->|Hmn].
      * rewrite lookup_insert. intros [= ->]. unfold put_at. destruct (decide (X = ∅)) as [->|]; [set_solver|]. rewrite decide_True by done. set_solver.
      * rewrite lookup_insert_ne by done. unfold put_at. destruct (decide (new = ∅)); [apply Hsub|]. rewrite decide_False by done. apply Hsub.
    + cbn [ns_map]. unfold nm_replace. destruct (decide (old = ∅ /\ new = ∅)) as [[-> ->]|Hne].
      { exists xs. split; [done|]. intros m. rewrite Hno. destruct (decide (m = n)) as [->|]; [by rewrite lookup_insert, Hold|by rewrite lookup_insert_ne]. }
      destruct (decide (new = ∅)) as [->|Hnew].
      { cbn [nm_nolabels]. rewrite decide_False by tauto. eexists. split; [by apply ns_add|]. intros m. destruct (decide (m = n)) as [->|Hmn].
        - rewrite lookup_insert. destruct (decide (n ∈ xs)); set_solver.
        - rewrite lookup_insert_ne by done. rewrite <- Hno. destruct (decide (n ∈ xs)); set_solver. }
      cbn [nm_nolabels]. destruct (decide (old = ∅)) as [->|Hold'].
      * eexists. split; [by apply ns_remove|]. intros m. rewrite elem_of_list_filter, Hno.
        destruct (decide (m = n)) as [->|]; [rewrite lookup_insert|rewrite lookup_insert_ne by done]; naive_solver.
      * exists xs. split; [done|]. intros m. rewrite Hno. destruct (decide (m = n)) as [->|].
        -- rewrite lookup_insert, Hold. naive_solver.
        -- by rewrite lookup_insert_ne.
  - destruct Hv as (old & Hold & Hoo). rewrite Hof, Hold. cbn [default]. unfold id.
    destruct (nm_remove_lab (ns_map s) n _ _ Hwf Hoo) as [H1 H2].
    split; [simpl; by rewrite HL|]. split; [done|]. split; [|split].
    + intros l m. cbn [ns_map]. rewrite H2, Hin. unfold put_at. destruct (decide (m = n)) as [->|Hmn]; set_solver.
    + intros m X. unfold put_at. destruct (decide (m = n)) as [->|Hmn]; [by rewrite lookup_delete|]. rewrite lookup_delete_ne by done. apply Hsub.
    + cbn [ns_map]. unfold nm_remove. destruct (decide (old = ∅)) as [->|Hne]; cbn [nm_nolabels].
      * eexists. split; [by apply ns_remove|]. intros m. rewrite elem_of_list_filter, Hno.
        destruct (decide (m = n)) as [->|]; [rewrite lookup_delete|rewrite lookup_delete_ne by done]; naive_solver.
      * exists xs. split; [done|]. intros m. rewrite Hno. destruct (decide (m = n)) as [->|].
        -- rewrite lookup_delete, Hold. naive_solver.
        -- by rewrite lookup_delete_ne.
Qed.
Lemma nm_run_h ops : nm_history ops -> nm_invh (nm_run ops) (nm_spec_run ops) (nm_sets ops).
Proof.
  unfold nm_history, nm_run, nm_spec_run, nm_sets. assert (nm_invh (NMS nm_new ∅) ∅ (fun _ => ∅)) as Hi.
  { split; [done|]. split; [split; [constructor|done]|]. split; [|split].
    - intros l n. simpl. split; [intros (f & [=] & _)|]. set_solver.
    - intros n X HX. by rewrite lookup_empty in HX.
    - exists []. split; [apply ns_rep_new|]. intros n. rewrite lookup_empty. set_solver. }
  revert Hi. generalize (NMS nm_new ∅) as s. generalize (∅ : gmap nat (gset string)) as L. generalize (fun _ : nat => (∅ : gset string)) as H.
  induction ops as [|o ops IH]; intros H L s Hi Hv; simpl in *; [done|]. destruct Hv as [Hv1 Hv2]. apply IH; [|done]. by apply nm_step_h.
Qed.

Lemma times_app n xs ys : times n (xs ++ ys) = times n xs + times n ys.
Proof. unfold times. by rewrite filter_app, app_length. Qed.
Lemma times_in n xs : 1 <= times n xs <-> n ∈ xs.
Proof.
  unfold times. split.
  - destruct (filter (fun x => x = n) xs) as [|y r] eqn:E; cbn; [lia|]. intros _.
    assert (y ∈ filter (fun x => x = n) xs) as Hy by (rewrite E; left). apply elem_of_list_filter in Hy as [-> Hy]. done.
  - intros Hn. destruct (filter (fun x => x = n) xs) as [|y r] eqn:E; cbn; [|lia].
    assert (n ∈ filter (fun x => x = n) xs) as Hy by (by apply elem_of_list_filter). rewrite E in Hy. by apply elem_of_nil in Hy.
Qed.
Lemma times_nodup n xs : NoDup xs -> times n xs = if decide (n ∈ xs) then 1 else 0.
Proof.
  induction 1 as [|x xs Hx Hnd IH]; [done|]. change (x :: xs) with ([x] ++ xs). rewrite times_app, IH. unfold times. rewrite filter_cons. cbn [filter list_filter].
  destruct (decide (x = n)) as [->|Hne]; cbn [length].
  - rewrite !decide_False by done. rewrite decide_True by set_solver. done.
  - destruct (decide (n ∈ xs)) as [D|D]; [by rewrite decide_True by set_solver|rewrite decide_False by set_solver; done].
Qed.
Lemma times_filter (P : nat -> Prop) `{forall x, Decision (P x)} n xs : NoDup xs -> times n (filter P xs) = if decide (n ∈ xs /\ P n) then 1 else 0.
Proof. intros Hnd. rewrite times_nodup by by apply NoDup_filter. apply decide_ext. rewrite elem_of_list_filter. tauto. Qed.

(** the sets of [m] that hold [n], for all labels and for those that [n] does not have *)
Local Notation holding m n := (filter (fun p => fs_has p.2 n = true) m).
Local Notation leftover lof m n := (filter (fun p => fs_has p.2 n = true /\ p.1 ∉ lof n) m).
Lemma iter_lab_times (lof : nat -> gset string) (m : list (string * fastset nat)) : forall seen,
  (forall l f, (l, f) ∈ m -> exists xs, ns_rep f xs /\ xs <> []) ->
  (forall n l f, (l, f) ∈ m -> l ∈ lof n -> fs_has f n = true) ->
  exists ys, nm_iter_lab lof seen m = Ok ys /\
    (forall n, lof n = ∅ -> times n ys = length (holding m n)) /\
    (forall n, times n ys <= (if decide (n_seen lof seen n = 0) then 1 else 0) + length (leftover lof m n)) /\
    (forall n, n_seen lof seen n = 0 -> holding m n <> [] -> 1 <= times n ys).
Proof.
  induction m as [|[l f] m IH]; intros seen Hm Hall; simpl.
  { exists []. split; [done|]. split; [done|]. split; [|done]. intros n. unfold times. cbn. lia. }
  destruct (Hm l f) as (xs & Hxs & Hne); [left|].
  assert (n_seen_snoc : forall n, n_seen lof (seen ++ [l]) n = n_seen lof seen n + if decide (l ∈ lof n) then 1 else 0).
  { intros n. unfold n_seen. rewrite filter_app, app_length. f_equal. rewrite filter_cons. by destruct (decide (l ∈ lof n)). }
  destruct (IH (seen ++ [l])) as (ys & Hys & H1 & H2 & H3).
  { intros l' f' ?. apply (Hm l'). by right. }
  { intros n l' f' ?. apply Hall. by right. }
  rewrite (ns_iter _ _ Hxs). rewrite Hys. exists (filter (fun n => n_seen lof (seen ++ [l]) n <= 1) xs ++ ys).
  split; [by destruct xs|].
  assert (forall n, n ∈ xs <-> fs_has f n = true) as Hxf by (intros n; rewrite (ns_has _ _ _ Hxs); by rewrite bool_decide_eq_true).
  assert (NoDup xs) as Hnd by by eapply ns_rep_NoDup.
  assert (forall n, l ∈ lof n -> fs_has f n = true) as Hl by (intros n; apply Hall; left).
  split; [|split]; intros n; rewrite times_app, times_filter by done; rewrite !filter_cons; cbn [fst snd].
  - intros He. rewrite H1 by done.
    assert (forall k, n_seen lof k n = 0) as Hz.
    { intros k. unfold n_seen. rewrite He. induction k as [|y k IHk]; [done|]. rewrite filter_cons. rewrite decide_False by set_solver. done. }
    destruct (decide (fs_has f n = true)) as [D|D].
    + rewrite decide_True by (split; [by apply Hxf|]; rewrite Hz; lia). done.
    + rewrite decide_False by (rewrite Hxf; tauto). done.
  - specialize (H2 n). rewrite n_seen_snoc in *. specialize (Hl n).
    destruct (decide (l ∈ lof n)) as [D|D].
    + rewrite (decide_False (P := fs_has f n = true /\ l ∉ lof n)) by tauto. rewrite decide_False in H2 by lia.
      destruct (decide (n_seen lof seen n = 0)) as [Z|Z]; [destruct (decide (n ∈ xs /\ _)); lia|]. rewrite decide_False by lia. lia.
    + replace (n_seen lof seen n + 0) with (n_seen lof seen n) in * by lia. destruct (decide (fs_has f n = true)) as [D2|D2].
      * rewrite (decide_True (P := fs_has f n = true /\ l ∉ lof n)) by done. cbn [length]. destruct (decide (n ∈ xs /\ _)); lia.
      * rewrite (decide_False (P := fs_has f n = true /\ l ∉ lof n)) by tauto. rewrite decide_False by (rewrite Hxf; tauto). lia.
  - intros Hz. destruct (decide (fs_has f n = true)) as [D|D].
    + intros _. rewrite decide_True; [lia|]. split; [by apply Hxf|]. rewrite n_seen_snoc, Hz. destruct (decide (l ∈ lof n)); lia.
    + intros Hh. pose proof (H3 n) as H3n. rewrite n_seen_snoc, Hz in H3n. rewrite decide_False in H3n by (intros ?; by apply D, Hl). specialize (H3n eq_refl Hh). lia.
Qed.

Lemma keys_size (m : list (string * fastset nat)) (P : string * fastset nat -> Prop) `{forall p, Decision (P p)} (X : gset string) :
  NoDup m.*1 -> (forall l f, (l, f) ∈ m -> P (l, f) -> l ∈ X) -> (forall l, l ∈ X -> exists f, (l, f) ∈ m /\ P (l, f)) -> length (filter P m) = size X.
Proof.
  intros Hnd H1 H2. rewrite <-(fmap_length fst). assert (X = list_to_set (filter P m).*1) as ->.
  { apply set_eq. intros l. rewrite elem_of_list_to_set, elem_of_list_fmap. split.
    - intros (f & Hf & HP)%H2. exists (l, f). split; [done|]. by apply elem_of_list_filter.
    - intros ([l' f] & -> & [HP Hf]%elem_of_list_filter). by eapply H1. }
  rewrite size_list_to_set; [done|]. clear H1 H2. induction m as [|p m IH]; [constructor|]. cbn in Hnd. apply NoDup_cons in Hnd as [Hp Hnd].
  rewrite filter_cons. destruct (decide (P p)); [|by apply IH]. cbn. apply NoDup_cons. split; [|by apply IH].
  intros (q & Eq & [_ Hq]%elem_of_list_filter)%elem_of_list_fmap. apply Hp. rewrite Eq. by apply elem_of_list_fmap_1.
Qed.

Theorem nm_iter_every ops : nm_history ops -> exists xs, nm_iter (ns_label_of (nm_run ops)) (ns_map (nm_run ops)) = Ok xs /\
  (forall n, n ∈ xs <-> is_Some (nm_spec_run ops !! n) \/ nm_sets ops n <> ∅) /\
  (forall n, nm_spec_run ops !! n = None -> times n xs = size (nm_sets ops n)) /\
  (forall n, nm_spec_run ops !! n = Some ∅ -> times n xs = S (size (nm_sets ops n))) /\
  (forall n X, nm_spec_run ops !! n = Some X -> X <> ∅ -> 1 <= times n xs <= S (size (nm_sets ops n ∖ X))).
Proof.
  intros Hv. destruct (nm_run_h ops Hv) as (HL & [Hnd Hwf] & Hin & Hsub & xs & Hxs & Hno). set (s := nm_run ops) in *. set (L := nm_spec_run ops) in *. set (H := nm_sets ops) in *.
  assert (forall n, ns_label_of s n = default ∅ (L !! n)) as Hof by (intros; unfold ns_label_of; by rewrite HL).
  assert (forall l f n, (l, f) ∈ nm_m (ns_map s) -> fs_has f n = true <-> l ∈ H n) as Hlf.
  { intros l f n Hf. rewrite <- Hin. unfold in_lab. apply bk_get_elem in Hf; [|done]. rewrite Hf. naive_solver. }
  assert (forall l n, l ∈ H n -> exists f, (l, f) ∈ nm_m (ns_map s) /\ fs_has f n = true) as Hex.
  { intros l n (f & Hf & Hh)%Hin. exists f. split; [by apply bk_get_Some_elem|done]. }
  assert (forall n l, l ∈ ns_label_of s n -> l ∈ H n) as Hlh.
  { intros n l. rewrite Hof. destruct (L !! n) as [X|] eqn:E; cbn; [|set_solver]. by apply (Hsub n X). }
  destruct (iter_lab_times (ns_label_of s) (nm_m (ns_map s)) []) as (ys & Hys & H1 & H2 & H3).
  { intros l f Hf. apply (Hwf l). by apply bk_get_elem. }
  { intros n l f Hf Hl. apply (Hlf l f n Hf). by apply Hlh. }
  assert (forall n, length (holding (nm_m (ns_map s)) n) = size (H n)) as Hsz.
  { intros n. apply keys_size; [done| |]; cbn [snd]; [intros l f Hf; by apply Hlf|intros l Hl; destruct (Hex l n Hl) as (f & ? & ?); by exists f]. }
  assert (forall n, length (leftover (ns_label_of s) (nm_m (ns_map s)) n) = size (H n ∖ ns_label_of s n)) as Hsz2.
  { intros n. apply keys_size; [done| |]; cbn [fst snd].
    - intros l f Hf [Hh Hn]. apply elem_of_difference. split; [by apply (Hlf l f n)|done].
    - intros l [(f & Hf & Hh)%Hex Hn]%elem_of_difference. by exists f. }
  unfold nm_iter. rewrite Hys. cbn [rbind]. rewrite (ns_iter _ _ Hxs). exists (ys ++ xs). split; [done|].
  assert (forall n, times n xs = if decide (L !! n = Some ∅) then 1 else 0) as Hnx.
  { intros n. rewrite times_nodup by by eapply ns_rep_NoDup. apply decide_ext. apply Hno. }
  assert (A : forall n, L !! n = None -> times n (ys ++ xs) = size (H n)).
  { intros n E. rewrite times_app, Hnx, decide_False by (by rewrite E). rewrite H1 by (by rewrite Hof, E). rewrite Hsz. lia. }
  assert (B : forall n, L !! n = Some ∅ -> times n (ys ++ xs) = S (size (H n))).
  { intros n E. rewrite times_app, Hnx, decide_True by done. rewrite H1 by (by rewrite Hof, E). rewrite Hsz. lia. }
  assert (C : forall n X, L !! n = Some X -> X <> ∅ -> 1 <= times n (ys ++ xs) <= S (size (H n ∖ X))).
  { intros n X E HX. rewrite times_app, Hnx, decide_False by (rewrite E; congruence). specialize (H2 n). rewrite Hsz2 in H2.
    rewrite Hof, E in H2. cbn [default] in H2. unfold id in H2. rewrite decide_True in H2 by done. assert (1 <= times n ys); [|lia].
    apply H3; [done|]. apply set_choose_L in HX as [l Hl]. pose proof (Hsub n X E l Hl) as Hh. intros Ez. pose proof (Hsz n) as Hs. rewrite Ez in Hs. cbn in Hs.
    symmetry in Hs. apply size_empty_inv in Hs. set_solver. }
  split; [|done]. intros n. rewrite <-times_in. destruct (L !! n) as [X|] eqn:E.
  - split; [intros _; left; by eexists|]. intros _. destruct (decide (X = ∅)) as [->|HX]; [rewrite B by done; lia|by apply (C n X)].
  - rewrite A by done. split.
    + intros Hs. right. intros He. rewrite He, size_empty in Hs. lia.
    + intros [[? [=]]|Hne]. destruct (decide (size (H n) = 0)) as [Z|Z]; [|lia]. apply size_empty_inv in Z. destruct Hne. by apply leibniz_equiv.
Qed.
Theorem nm_is_empty_every ops : nm_history ops -> nm_is_empty (ns_map (nm_run ops)) = true <-> forall n, nm_sets ops n = ∅.
Proof.
  intros Hv. destruct (nm_run_h ops Hv) as (_ & [Hnd Hwf] & Hin & _). unfold nm_is_empty. rewrite bool_decide_eq_true. split.
  - intros He n. apply set_eq. intros l. rewrite <-Hin, He. split; [by intros (f & [=] & _)|set_solver].
  - intros Hall. destruct (nm_m (ns_map (nm_run ops))) as [|[l f] m] eqn:Hm; [done|].
    destruct (Hwf l f) as (xs & Hxs & Hne); [cbn; by rewrite decide_True|]. destruct xs as [|x xs]; [done|].
    assert (l ∈ nm_sets ops x) as Hl; [|rewrite Hall in Hl; set_solver]. apply Hin. exists f. split; [cbn; by rewrite decide_True|].
    rewrite (ns_has _ _ _ Hxs). apply bool_decide_eq_true. left.
Qed.
(** [nm_keeps_from]: then the sets are those of the labels *)
Theorem nm_sets_keep ops : nm_history ops -> nm_keeps_from ∅ ops -> forall n, nm_sets ops n = default ∅ (nm_spec_run ops !! n).
Proof.
  unfold nm_history, nm_sets, nm_spec_run. assert (forall n, (fun _ : nat => (∅ : gset string)) n = default ∅ ((∅ : gmap nat (gset string)) !! n)) as Hi by (intros n; by rewrite lookup_empty).
  revert Hi. generalize (fun _ : nat => (∅ : gset string)) as H. generalize (∅ : gmap nat (gset string)) as L.
  induction ops as [|o ops IH]; intros L H Hi Hv Hk; [done|]. destruct Hv as [Hv1 Hv2], Hk as [Hk1 Hk2]. cbn [nm_sets_from fold_left]. apply IH; [|done|done].
  intros m. destruct o as [n labels ord|n new ordo ordn|n ord]; cbn in *; unfold put_at.
  - destruct (decide (m = n)) as [->|]; [rewrite lookup_insert|by rewrite lookup_insert_ne]. rewrite Hi. cbn. unfold id. destruct Hv1 as [_ [->| ->]]; cbn; unfold id; set_solver.
  - destruct Hv1 as (_ & old & E & _). destruct (decide (new = ∅)) as [->|Hn].
    + specialize (Hk1 eq_refl). destruct (decide (m = n)) as [->|]; [rewrite lookup_insert|by rewrite lookup_insert_ne]. by rewrite Hi, Hk1.
    + destruct (decide (m = n)) as [->|]; [rewrite lookup_insert|by rewrite lookup_insert_ne]. rewrite Hi. cbn. unfold id. set_solver.
  - destruct (decide (m = n)) as [->|]; [rewrite lookup_delete|by rewrite lookup_delete_ne]. rewrite Hi. cbn. set_solver.
Qed.
