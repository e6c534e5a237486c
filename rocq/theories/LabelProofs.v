(** GetNodesWithAllLabels: the label map of reachable graphs. *)
From Verif Require Import Base Assoc AssocProofs Value FastSet FastSetProofs Links EdgeMap NodeMap NodeMapProofs Index Graph GraphSpec.
From Verif Require Import LinksProofs EdgeMapProofs CoreProofs CoreStep AdjProofs ReadProofs NodeListProofs.

Lemma step_lab g o g' : step g o = Ok g' ->
  g_lab g' =
    match o with
    | ONewNode labels _ ord => nm_add (g_lab g) (g_next g) labels ord
    | OSetLabels n labels ordo ordn => nm_replace (g_lab g) n (labels_of g n) labels ordo ordn
    | ODetachRemove n ord => nm_remove (g_lab g) n (labels_of g n) ord
    | _ => g_lab g
    end /\
  forall m, labels_of g' m =
    match o with
    | ONewNode labels _ _ => if decide (m = g_next g) then labels else labels_of g m
    | OSetLabels n labels _ _ => if decide (m = n) then labels else labels_of g m
    | _ => labels_of g m
    end.
Proof.
  assert (forall g g' m, data g' m = data g m -> labels_of g' m = labels_of g m) as Hd.
  { intros g1 g2 m. unfold data, labels_of. destruct (g_nodes g2 !! m), (g_nodes g1 !! m); simpl; try done.
    unfold nd_data. naive_solver. }
  intros H. destruct o; simpl in *.
  - inv_ok H. destruct a as [g1 n]. injection H as <-.
    apply new_node_shape in Ha as (->&HN&_&_&_&_&_&_&?&_). split; [done|]. intros m. unfold labels_of. simpl. rewrite HN.
    destruct (decide (m = g_next g)) as [->|]; [by rewrite lookup_insert|by rewrite lookup_insert_ne].
  - inv_ok H. destruct a as [g1 n]. injection H as <-.
    apply new_edge_shape in Ha as (->&HN&_&_&_&?&_). split; [done|]. intros m. by apply Hd.
  - unfold set_labels in H. inv_ok H. injection H as <-. unfold deref_node in Ha.
    destruct (g_nodes g !! n) as [nd|] eqn:Hn; [|done]. injection Ha as <-. simpl.
    split; [by unfold labels_of; rewrite Hn|]. intros m. unfold labels_of. simpl.
    destruct (decide (m = n)) as [->|]; [by rewrite lookup_insert|by rewrite lookup_insert_ne].
  - unfold set_node_prop in H. inv_ok H. injection H as <-. split; [done|]. intros m.
    unfold deref_node in Ha. destruct (g_nodes g !! n) as [nd|] eqn:Hn; [|done]. injection Ha as <-.
    unfold labels_of. simpl. destruct (decide (m = n)) as [->|]; [by rewrite lookup_insert, Hn|by rewrite lookup_insert_ne].
  - unfold rem_node_prop in H. inv_ok H.
    unfold deref_node in Ha. destruct (g_nodes g !! n) as [nd|] eqn:Hn; [|done]. injection Ha as <-.
    destruct (n_props nd !! k); [inv_ok H|]; injection H as <-; (split; [done|]); intros m; [|done].
    unfold labels_of. simpl. destruct (decide (m = n)) as [->|]; [by rewrite lookup_insert, Hn|by rewrite lookup_insert_ne].
  - apply detach_shape in H as (_&_&_&->&_&_&H). split; [done|]. intros m. by apply Hd.
  - apply detach_remove_shape in H as (g1 & nd & H & Hnd & HN & _ & _ & _ & _ & _ & _ & _ & _ & -> & _).
    apply detach_shape in H as (_&_&_&->&_&_&H). split.
    + rewrite <- (Hd _ _ n (H n)). unfold labels_of. by rewrite Hnd.
    + intros m. rewrite <- (Hd _ _ m (H m)). unfold labels_of. by rewrite HN.
  - apply set_edge_label_shape in H as (?&_&_&HN&_&_&_&_&->&_). split; [done|]. intros m. by apply Hd.
  - unfold set_edge_prop in H. inv_ok H. by injection H as <-.
  - unfold rem_edge_prop in H. inv_ok H. destruct (_ !! _); [inv_ok H|]; by injection H as <-.
  - apply remove_edge_shape in H as ((_&_&_&->&_&_&HN)&_). split; [done|]. intros m. by apply Hd.
  - unfold add_node_index in H. destruct (_ !! _); [by injection H as <-|]. inv_ok H. by injection H as <-.
  - unfold add_edge_index in H. destruct (_ !! _); [by injection H as <-|]. inv_ok H. by injection H as <-.
Qed.

Lemma step_nodes_mono g o g' n : step g o = Ok g' -> is_Some (g_nodes g !! n) -> is_Some (g_nodes g' !! n).
Proof.
  intros H Hn. destruct o; simpl in *.
  - inv_ok H. destruct a as [g1 m]. injection H as <-.
    apply new_node_shape in Ha as (->&HN&_). simpl. rewrite HN.
    destruct (decide (n = g_next g)) as [->|]; [rewrite lookup_insert; eauto|by rewrite lookup_insert_ne].
  - inv_ok H. destruct a as [g1 m]. injection H as <-.
    apply new_edge_shape in Ha as (->&HN&_). by apply (data_props _ _ _ (HN n)).
  - unfold set_labels in H. inv_ok H. injection H as <-. simpl.
    destruct (decide (n = n0)) as [->|]; [rewrite lookup_insert; eauto|by rewrite lookup_insert_ne].
  - unfold set_node_prop in H. inv_ok H. injection H as <-. simpl.
    destruct (decide (n = n0)) as [->|]; [rewrite lookup_insert; eauto|by rewrite lookup_insert_ne].
  - unfold rem_node_prop in H. inv_ok H. destruct (_ !! _); [inv_ok H|]; injection H as <-; simpl; [|done].
    destruct (decide (n = n0)) as [->|]; [rewrite lookup_insert; eauto|by rewrite lookup_insert_ne].
  - apply detach_shape in H as (_&_&_&_&_&_&H). by apply (data_props _ _ _ (H n)).
  - apply detach_remove_shape in H as (g1 & nd & H & Hnd & HN & _). rewrite HN.
    apply detach_shape in H as (_&_&_&_&_&_&H). by apply (data_props _ _ _ (H n)).
  - apply set_edge_label_shape in H as (?&_&_&HN&_). by apply (data_props _ _ _ (HN n)).
  - unfold set_edge_prop in H. inv_ok H. by injection H as <-.
  - unfold rem_edge_prop in H. inv_ok H. destruct (_ !! _); [inv_ok H|]; by injection H as <-.
  - apply remove_edge_shape in H as ((_&_&_&_&_&_&HN)&_). by apply (data_props _ _ _ (HN n)).
  - unfold add_node_index in H. destruct (_ !! _); [by injection H as <-|]. inv_ok H. by injection H as <-.
  - unfold add_edge_index in H. destruct (_ !! _); [by injection H as <-|]. inv_ok H. by injection H as <-.
Qed.

Definition lab_inv (g : graph) (s : sgraph) : Prop :=
  lab_wf (nm_m (g_lab g)) /\ (forall n l, live_node s n -> l ∈ labels_of g n -> in_lab (nm_m (g_lab g)) l n) /\ (forall n l, in_lab (nm_m (g_lab g)) l n ->
     is_Some (g_nodes g !! n) /\ (l ∈ labels_of g n -> live_node s n)).

Lemma lab_inv_step g s o g' :
  core g s -> lab_inv g s -> valid s o -> step g o = Ok g' -> lab_inv g' (sstep s o).
Proof.
  intros Hc (Hwf & H1 & H2) Ho Hs. destruct (step_lab _ _ _ Hs) as [Hlab Hlof].
  pose proof (fun n => step_nodes_mono _ _ _ n Hs) as Hmono.
  assert (match o with ONewNode _ _ _ | ODetachRemove _ _ | OSetLabels _ _ _ _ => False | _ => True end ->
          lab_inv g' (sstep s o)) as Hother.
  { intros Hno. unfold lab_inv.
    assert (g_lab g' = g_lab g) as -> by (by destruct o).
    assert (forall m, labels_of g' m = labels_of g m) as Hl by (by destruct o).
    assert (forall m, live_node (sstep s o) m <-> live_node s m) as Hli.
    { intros m. apply live_other. by destruct o. }
    split; [done|]. setoid_rewrite Hl. setoid_rewrite Hli. split; [done|].
    intros n l Hin. destruct (H2 _ _ Hin) as [Hn Hn']. split; [|done]. by apply Hmono. }
  destruct o; try (by apply Hother); clear Hother; simpl in Hlab, Hlof, Ho.
  - (* NewNode *)
    destruct (nm_add_lab (g_lab g) (g_next g) labels ord Hwf Ho) as [Hwf' Hin].
    unfold lab_inv. rewrite Hlab. split; [done|].
    pose proof Hc as (_ & Hnext & _ & Hlt & _).
    assert (forall n l, in_lab (nm_m (g_lab g)) l n -> n <> g_next g) as Hfresh.
    { intros n l Hin'. apply H2 in Hin' as [Hs' _]. apply Hlt in Hs'. lia. }
    split.
    + intros n l Hn Hl. apply Hin. rewrite Hlof in Hl. destruct (decide (n = g_next g)) as [->|].
      * by right.
      * left. apply H1; [|done]. unfold live_node in *. simpl in Hn. rewrite lookup_insert_ne in Hn; [done|congruence].
    + intros n l Hin'. apply Hin in Hin' as [Hin'|[Hl ->]].
      * destruct (H2 _ _ Hin') as [Hn Hn']. split; [by apply Hmono|]. rewrite Hlof.
        rewrite decide_False by by eapply Hfresh. intros Hl. apply Hn' in Hl. unfold live_node. simpl.
        rewrite lookup_insert_ne; [done|]. apply Hfresh in Hin'. congruence.
      * split.
        -- simpl in Hs. inv_ok Hs. destruct a as [g1 m]. injection Hs as <-.
           apply new_node_shape in Ha as (->&HN&_). simpl. rewrite HN, lookup_insert. eauto.
        -- intros _. unfold live_node. simpl. rewrite <- Hnext, lookup_insert. eauto.
  - (* SetLabels *)
    destruct Ho as [Hon (sn & Hsn & Hoo)].
    assert (live_node s n) as Hlive by by exists sn.
    destruct (read_node _ _ Hc _ _ Hsn) as [Hold _]. rewrite <- Hold in Hoo.
    destruct (nm_replace_lab (g_lab g) n (labels_of g n) labels ordo ordn Hwf Hoo Hon) as [Hwf' Hin].
    unfold lab_inv. rewrite Hlab. split; [done|].
    assert (forall m, live_node (sstep s (OSetLabels n labels ordo ordn)) m <-> live_node s m) as Hli.
    { intros m. by apply live_other. }
    setoid_rewrite Hli. split.
    + intros m l Hm Hl. apply Hin. rewrite Hlof in Hl. destruct (decide (m = n)) as [->|].
      * destruct (decide (l ∈ labels_of g n)); [|right; set_solver]. left. split; [by apply H1|]. set_solver.
      * left. split; [by apply H1|]. naive_solver.
    + intros m l Hin'. apply Hin in Hin' as [[Hin' _]|[-> _]].
      * destruct (H2 _ _ Hin') as [Hm Hm']. split; [by apply Hmono|]. rewrite Hlof.
        destruct (decide (m = n)) as [->|]; [done|]. auto.
      * split; [|done]. apply Hmono. destruct (core_node _ _ _ _ Hc Hsn) as (nd & -> & _). eauto.
  - (* DetachAndRemove *)
    destruct Ho as (sn & Hsn & Hoo).
    destruct (read_node _ _ Hc _ _ Hsn) as [Hold _]. rewrite <- Hold in Hoo.
    destruct (nm_remove_lab (g_lab g) n (labels_of g n) ord Hwf Hoo) as [Hwf' Hin].
    unfold lab_inv. rewrite Hlab. split; [done|]. setoid_rewrite Hlof. split.
    + intros m l Hm Hl. unfold live_node in Hm. simpl in Hm.
      destruct (decide (m = n)) as [->|Hne]; [rewrite lookup_delete in Hm; by destruct Hm|].
      rewrite lookup_delete_ne in Hm by done. apply Hin. split; [by apply H1|]. naive_solver.
    + intros m l Hin'. apply Hin in Hin' as [Hin' Hnot]. destruct (H2 _ _ Hin') as [Hm Hm'].
      split; [by apply Hmono|]. intros Hl. assert (m <> n) by naive_solver.
      unfold live_node. simpl. rewrite lookup_delete_ne by done. by apply Hm'.
Qed.

Lemma lab_inv_run ops g : valid_history ops -> run ops = Ok g -> lab_inv g (srun ops).
Proof.
  revert ops g. apply history_ind.
  { split; [split; [constructor|done]|]. split.
    - intros n l Hn. unfold live_node in Hn. simpl in Hn. rewrite lookup_empty in Hn. by destruct Hn.
    - intros n l (f & Hf & _). done. }
  intros ops g o g' Hv Hr IH Ho Hs. rewrite srun_snoc. eapply lab_inv_step; eauto using core_run.
Qed.

Definition has_labels (s : sgraph) (L : gset string) (n : nat) : Prop :=
  exists sn, s_nodes s !! n = Some sn /\ L ⊆ sn_labels sn.

Lemma get_nodes_all_labels_ok ops g labels ord :
  valid_history ops -> run ops = Ok g -> labels <> ∅ -> order_of labels ord ->
  exists xs sz, get_nodes_all_labels g labels ord = Ok (xs, sz) /\
    lists (has_labels (srun ops) labels) xs /\ (Z.of_nat (length xs) <= sz)%Z.
Proof.
  intros Hv Hr Hne Hord. pose proof (core_run _ _ Hv Hr) as Hc.
  destruct (lab_inv_run _ _ Hv Hr) as (Hwf & H1 & H2).
  destruct (nm_iter_all_ok (labels_of g) (live_node (srun ops)) (g_lab g) labels ord) as (xs & sz & He & Hl & Hz);
    [done..| |].
  { intros n l Hin Hl. by eapply H2. }
  exists xs, sz. split; [done|]. split; [|done]. eapply lists_ext; [|exact Hl]. intros n. unfold has_labels. split.
  - intros [[sn Hsn] Hsub]. exists sn. split; [done|]. by destruct (read_node _ _ Hc _ _ Hsn) as [<- _].
  - intros (sn & Hsn & Hsub). destruct (read_node _ _ Hc _ _ Hsn) as [-> _]. split; [by exists sn|done].
Qed.
