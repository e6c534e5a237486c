(** Reading back what was written; ids. *)
From Verif Require Import Base Assoc Value FastSet Links EdgeMap NodeMap Index Graph GraphSpec.
From Verif Require Import LinksProofs EdgeMapProofs CoreProofs CoreStep AdjProofs.

Section core.
  Context (g : graph) (s : sgraph) (Hc : core g s).
  Lemma read_node n sn : s_nodes s !! n = Some sn ->
    labels_of g n = sn_labels sn /\ forall k, node_prop g n k = sn_props sn !! k.
  Proof.
    intros Hn. destruct (core_node _ _ _ _ Hc Hn) as (nd & Hnd & Hl & Hp).
    unfold labels_of, node_prop, get_property. rewrite Hnd, Hl, Hp. done.
  Qed.
  Lemma read_edge e ed : s_edges s !! e = Some ed ->
    g_edges g !! e = Some ed.
  Proof. intros He. by destruct (core_edge _ _ _ _ Hc He) as (? & _). Qed.
End core.

(** the abstract frame *)
Lemma sstep_node_frame s o m : live_node (sstep s o) m -> live_node s m -> node_target o <> Some m ->
  s_next s <> m -> s_nodes (sstep s o) !! m = s_nodes s !! m.
Proof.
  intros Hl' Hl Hne Hf. destruct o; simpl in *; try done.
  - by rewrite lookup_insert_ne.
  - rewrite lookup_alter_ne; congruence.
  - rewrite lookup_alter_ne; congruence.
  - rewrite lookup_alter_ne; congruence.
  - unfold live_node in Hl'. simpl in Hl'. destruct (decide (m = n)) as [->|].
    + rewrite lookup_delete in Hl'. by destruct Hl'.
    + by rewrite lookup_delete_ne.
Qed.
Lemma sstep_edge_frame s o m : live_edge (sstep s o) m -> live_edge s m -> edge_target o <> Some m ->
  s_next s <> m -> s_edges (sstep s o) !! m = s_edges s !! m.
Proof.
  intros Hl' Hl Hne Hf. destruct o; simpl in *; try done; unfold live_edge in *; simpl in *.
  - by rewrite lookup_insert_ne.
  - destruct Hl' as [x Hx]. rewrite Hx. apply s_detach_lookup in Hx. naive_solver.
  - destruct Hl' as [x Hx]. rewrite Hx. apply s_detach_lookup in Hx. naive_solver.
  - rewrite lookup_alter_ne; congruence.
  - rewrite lookup_alter_ne; congruence.
  - rewrite lookup_alter_ne; congruence.
  - destruct (decide (m = e)) as [->|].
    + rewrite lookup_delete in Hl'. by destruct Hl'.
    + by rewrite lookup_delete_ne.
Qed.
Lemma core_live_lt g s m : core g s -> live_node s m -> m < s_next s.
Proof.
  intros Hc [sn Hm]. destruct (core_node _ _ _ _ Hc Hm) as (nd & Hnd & _).
  destruct Hc as (_ & <- & _ & Hlt & _). apply Hlt. by exists nd.
Qed.
Lemma core_live_edge_lt g s m : core g s -> live_edge s m -> m < s_next s.
Proof.
  intros Hc [sn Hm]. destruct (core_edge _ _ _ _ Hc Hm) as (Hnd & _).
  destruct Hc as (_ & <- & _ & _ & Hlt & _). apply Hlt. by exists sn.
Qed.

Lemma node_frame ops g o g' m :
  valid_history ops -> run ops = Ok g -> valid (srun ops) o -> step g o = Ok g' ->
  live_node (srun ops) m -> live_node (srun (ops ++ [o])) m -> node_target o <> Some m ->
  labels_of g' m = labels_of g m /\ forall k, node_prop g' m k = node_prop g m k.
Proof.
  intros Hv Hr Ho Hs Hm Hm' Hne. pose proof (core_run _ _ Hv Hr) as Hc.
  pose proof (core_step _ _ _ _ Hs Ho Hc) as Hc'. rewrite srun_snoc in Hm'.
  assert (s_nodes (sstep (srun ops) o) !! m = s_nodes (srun ops) !! m) as Heq.
  { apply sstep_node_frame; [done..|]. apply (core_live_lt _ _ _ Hc) in Hm. lia. }
  destruct Hm as [sn Hsn]. rewrite Hsn in Heq.
  destruct (read_node _ _ Hc _ _ Hsn) as [H1 H2]. destruct (read_node _ _ Hc' _ _ Heq) as [H3 H4].
  split; [congruence|]. intros k. congruence.
Qed.
Lemma edge_frame ops g o g' e :
  valid_history ops -> run ops = Ok g -> valid (srun ops) o -> step g o = Ok g' ->
  live_edge (srun ops) e -> live_edge (srun (ops ++ [o])) e -> edge_target o <> Some e ->
  g_edges g' !! e = g_edges g !! e.
Proof.
  intros Hv Hr Ho Hs Hm Hm' Hne. pose proof (core_run _ _ Hv Hr) as Hc.
  pose proof (core_step _ _ _ _ Hs Ho Hc) as Hc'. rewrite srun_snoc in Hm'.
  assert (s_edges (sstep (srun ops) o) !! e = s_edges (srun ops) !! e) as Heq.
  { apply sstep_edge_frame; [done..|]. apply (core_live_edge_lt _ _ _ Hc) in Hm. lia. }
  destruct Hm as [sn Hsn]. rewrite Hsn in Heq.
  rewrite (read_edge _ _ Hc _ _ Hsn), (read_edge _ _ Hc' _ _ Heq). done.
Qed.

Lemma wrote_set_labels ops g n labels ordo ordn g' :
  valid_history ops -> run ops = Ok g -> valid (srun ops) (OSetLabels n labels ordo ordn) ->
  step g (OSetLabels n labels ordo ordn) = Ok g' ->
  labels_of g' n = labels /\ forall k, node_prop g' n k = node_prop g n k.
Proof.
  intros Hv Hr Ho Hs. pose proof (core_run _ _ Hv Hr) as Hc.
  pose proof (core_step _ _ _ _ Hs Ho Hc) as Hc'. destruct Ho as (_ & sn & Hsn & _).
  destruct (read_node _ _ Hc _ _ Hsn) as [H1 H2].
  destruct (read_node _ _ Hc' n (SNode labels (sn_props sn))) as [H3 H4].
  { simpl. by rewrite lookup_alter, Hsn. }
  split; [done|]. intros k. by rewrite H2, H4.
Qed.
Lemma wrote_node_prop ops g n k v g' :
  valid_history ops -> run ops = Ok g -> live_node (srun ops) n ->
  step g (OSetNodeProp n k v) = Ok g' ->
  labels_of g' n = labels_of g n /\
  forall k', node_prop g' n k' = if decide (k' = k) then Some v else node_prop g n k'.
Proof.
  intros Hv Hr Ho Hs. pose proof (core_run _ _ Hv Hr) as Hc.
  pose proof (core_step _ _ _ _ Hs Ho Hc) as Hc'. destruct Ho as (sn & Hsn).
  destruct (read_node _ _ Hc _ _ Hsn) as [H1 H2].
  destruct (read_node _ _ Hc' n (SNode (sn_labels sn) (<[k:=v]> (sn_props sn)))) as [H3 H4].
  { simpl. by rewrite lookup_alter, Hsn. }
  split; [by rewrite H1, H3|]. intros k'. rewrite H4. simpl. destruct (decide (k' = k)) as [->|].
  - by rewrite lookup_insert.
  - by rewrite lookup_insert_ne, H2.
Qed.
Lemma removed_node_prop ops g n k g' :
  valid_history ops -> run ops = Ok g -> live_node (srun ops) n ->
  step g (ORemNodeProp n k) = Ok g' ->
  labels_of g' n = labels_of g n /\
  forall k', node_prop g' n k' = if decide (k' = k) then None else node_prop g n k'.
Proof.
  intros Hv Hr Ho Hs. pose proof (core_run _ _ Hv Hr) as Hc.
  pose proof (core_step _ _ _ _ Hs Ho Hc) as Hc'. destruct Ho as (sn & Hsn).
  destruct (read_node _ _ Hc _ _ Hsn) as [H1 H2].
  destruct (read_node _ _ Hc' n (SNode (sn_labels sn) (delete k (sn_props sn)))) as [H3 H4].
  { simpl. by rewrite lookup_alter, Hsn. }
  split; [by rewrite H1, H3|]. intros k'. rewrite H4. simpl. destruct (decide (k' = k)) as [->|].
  - by rewrite lookup_delete.
  - by rewrite lookup_delete_ne, H2.
Qed.
Lemma wrote_edge ops g o g' e :
  valid_history ops -> run ops = Ok g -> live_edge (srun ops) e -> edge_target o = Some e ->
  step g o = Ok g' ->
  exists ed, g_edges g !! e = Some ed /\
    g_edges g' !! e = Some (match o with
      | OSetEdgeLabel _ l => Edge (e_from ed) (e_to ed) l (e_props ed)
      | OSetEdgeProp _ k v => Edge (e_from ed) (e_to ed) (e_label ed) (<[k := v]> (e_props ed))
      | ORemEdgeProp _ k => Edge (e_from ed) (e_to ed) (e_label ed) (delete k (e_props ed))
      | _ => ed end).
Proof.
  intros Hv Hr Ho Ht Hs. pose proof (core_run _ _ Hv Hr) as Hc.
  assert (valid (srun ops) o) as Hval by (destruct o; simpl in *; try done; congruence).
  pose proof (core_step _ _ _ _ Hs Hval Hc) as Hc'. destruct Ho as (ed & Hed).
  exists ed. split; [by eapply read_edge|]. apply (read_edge _ _ Hc').
  destruct o; simpl in *; try done; injection Ht as ->; by rewrite lookup_alter, Hed.
Qed.

(** ids *)
Lemma detach_next g n g' : detach_node g n = Ok g' -> g_next g' = g_next g.
Proof.
  unfold detach_node. intros H. inv_ok H. injection H as <-. simpl.
  apply drop_edges_shape in Ha1 as ((_&_&_&_&_&E&_)&_).
  apply drop_edges_shape in Ha5 as ((_&_&_&_&_&E'&_)&_). simpl in *. congruence.
Qed.
Lemma step_next g o g' : step g o = Ok g' ->
  exists xs, created g o = Ok xs /\
    (xs = [] /\ g_next g' = g_next g \/ xs = [g_next g] /\ g_next g' = S (g_next g)).
Proof.
  intros H. destruct o; simpl in *.
  - inv_ok H. destruct a as [g1 n]. injection H as <-. rewrite Ha. simpl. eexists. split; [done|]. right.
    apply new_node_shape in Ha as (->&_&_&_&_&_&_&_&_&_&_&?). done.
  - inv_ok H. destruct a as [g1 n]. injection H as <-. rewrite Ha. simpl. eexists. split; [done|]. right.
    apply new_edge_shape in Ha as (->&_&_&_&_&_&_&_&_&?). done.
  - eexists. split; [done|]. left. split; [done|].
    unfold set_labels in H. inv_ok H. by injection H as <-.
  - eexists. split; [done|]. left. split; [done|].
    unfold set_node_prop in H. inv_ok H. by injection H as <-.
  - eexists. split; [done|]. left. split; [done|].
    unfold rem_node_prop in H. inv_ok H. destruct (_ !! _); [inv_ok H|]; by injection H as <-.
  - eexists. split; [done|]. left. split; [done|]. by eapply detach_next.
  - eexists. split; [done|]. left. split; [done|].
    apply detach_remove_shape in H as (g1 & nd & Hd & _ & _ & _ & _ & _ & _ & _ & _ & -> & _).
    by eapply detach_next.
  - eexists. split; [done|]. left. split; [done|].
    apply set_edge_label_shape in H as (?&_&_&_&_&_&_&_&_&_&_&?). done.
  - eexists. split; [done|]. left. split; [done|].
    unfold set_edge_prop in H. inv_ok H. by injection H as <-.
  - eexists. split; [done|]. left. split; [done|].
    unfold rem_edge_prop in H. inv_ok H. destruct (_ !! _); [inv_ok H|]; by injection H as <-.
  - eexists. split; [done|]. left. split; [done|].
    apply remove_edge_shape in H as ((_&_&_&_&_&?&_)&_). done.
  - eexists. split; [done|]. left. split; [done|].
    unfold add_node_index in H. destruct (_ !! _); [by injection H as <-|]. inv_ok H. by injection H as <-.
  - eexists. split; [done|]. left. split; [done|].
    unfold add_edge_index in H. destruct (_ !! _); [by injection H as <-|]. inv_ok H. by injection H as <-.
Qed.
Lemma created_sorted ops g xs :
  created_from g ops = Ok xs -> StronglySorted lt xs /\ Forall (fun x => g_next g <= x) xs.
Proof.
  revert g xs; induction ops as [|o ops IH]; intros g xs H; simpl in H.
  - injection H as <-. split; constructor.
  - inv_ok H. injection H as <-. apply IH in Ha1 as [Hs Hf].
    destruct (step_next _ _ _ Ha0) as (xs & Hx & Hcase). assert (xs = a) as -> by congruence.
    destruct Hcase as [[-> Hn]|[-> Hn]]; rewrite Hn in Hf; simpl.
    + done.
    + split; constructor; try done. eapply Forall_impl; [exact Hf|]. simpl. intros; lia.
Qed.
Lemma created_run ops g : run ops = Ok g -> exists xs, created_ids ops = Ok xs.
Proof.
  unfold run, created_ids. generalize new_graph. induction ops as [|o ops IH]; intros g0 H; simpl in *; [eauto|].
  inv_ok H. destruct (step_next _ _ _ Ha) as (xs & -> & _). simpl. rewrite Ha. simpl.
  destruct (IH _ H) as (ys & ->). simpl. eauto.
Qed.
(** a fresh id has never been used before *)
Lemma created_ids_increase ops g :
  run ops = Ok g -> exists ids, created_ids ops = Ok ids /\ StronglySorted lt ids.
Proof.
  intros H. destruct (created_run _ _ H) as (ids & Hids). exists ids. split; [done|].
  by apply created_sorted in Hids as [? _].
Qed.

(** Detach *)
Lemma detach_effect ops g n g' :
  valid_history ops -> run ops = Ok g -> live_node (srun ops) n -> step g (ODetach n) = Ok g' ->
  (forall d, node_edges g' n d = Ok []) /\
  (forall e, live_edge (srun ops) e -> ~ incident (srun ops) n e -> g_edges g' !! e = g_edges g !! e) /\
  (forall m d, live_node (srun ops) m -> exists xs ys,
     node_edges g m d = Ok xs /\ node_edges g' m d = Ok ys /\
     ys ≡ₚ filter (fun e => ~ incident (srun ops) n e) xs) /\
  (forall m, live_node (srun ops) m ->
     labels_of g' m = labels_of g m /\ forall k, node_prop g' m k = node_prop g m k).
Proof.
  intros Hv Hr Hn Hs. pose proof (core_run _ _ Hv Hr) as Hc.
  pose proof (core_step _ _ _ _ Hs Hn Hc) as Hc'.
  split; [|split; [|split]].
  - destruct (node_edges_both _ _ Hc' n Hn) as (i & o & Hi & Ho & Hio & [_ Li] & [_ Lo]).
    assert (i = []) as ->.
    { destruct i as [|e i]; [done|]. destruct (proj1 (Li e) ltac:(set_solver)) as (x & Hx & Hx').
      simpl in Hx. apply s_detach_lookup in Hx. naive_solver. }
    assert (o = []) as ->.
    { destruct o as [|e o]; [done|]. destruct (proj1 (Lo e) ltac:(set_solver)) as (x & Hx & Hx').
      simpl in Hx. apply s_detach_lookup in Hx. naive_solver. }
    intros []; done.
  - intros e [ed Hed] Hni. unfold incident in Hni. rewrite Hed in Hni.
    rewrite (read_edge _ _ Hc _ _ Hed). apply (read_edge _ _ Hc'). simpl. apply s_detach_lookup. naive_solver.
  - intros m d Hm. by eapply adj_detach.
  - intros m Hm. eapply (node_frame ops g (ODetach n)); [exact Hv|done|exact Hn|done|done| |done]. by rewrite srun_snoc.
Qed.
Lemma detach_remove_effect ops g n ord g' :
  valid_history ops -> run ops = Ok g -> valid (srun ops) (ODetachRemove n ord) ->
  step g (ODetachRemove n ord) = Ok g' ->
  (forall e, live_edge (srun ops) e -> ~ incident (srun ops) n e -> g_edges g' !! e = g_edges g !! e) /\
  (forall m d, live_node (srun ops) m -> m <> n -> exists xs ys,
     node_edges g m d = Ok xs /\ node_edges g' m d = Ok ys /\
     ys ≡ₚ filter (fun e => ~ incident (srun ops) n e) xs) /\
  (forall m, live_node (srun ops) m -> m <> n ->
     labels_of g' m = labels_of g m /\ forall k, node_prop g' m k = node_prop g m k) /\
  num_nodes g' = (num_nodes g - 1)%Z.
Proof.
  intros Hv Hr Hn Hs. pose proof (core_run _ _ Hv Hr) as Hc.
  pose proof (core_step _ _ _ _ Hs Hn Hc) as Hc'.
  assert (forall m, live_node (srun ops) m -> m <> n -> live_node (sstep (srun ops) (ODetachRemove n ord)) m) as Hl.
  { intros m Hm Hne. unfold live_node. simpl. by rewrite lookup_delete_ne. }
  split; [|split; [|split]].
  - intros e [ed Hed] Hni. unfold incident in Hni. rewrite Hed in Hni.
    rewrite (read_edge _ _ Hc _ _ Hed). apply (read_edge _ _ Hc'). simpl. apply s_detach_lookup. naive_solver.
  - intros m d Hm Hne. eapply adj_detach; [done|exact Hc'|done|done|]. auto.
  - intros m Hm Hne. eapply (node_frame ops g (ODetachRemove n ord)); [exact Hv|done|exact Hn|done|done| |done]. rewrite srun_snoc. auto.
  - simpl in Hs. apply detach_remove_shape in Hs as (g1 & nd & Hd & _ & _ & _ & _ & _ & _ & _ & _ & _ & Hl' & _).
    eapply core_detach in Hd as [_ (dr & (_&_&El&_) & _)]; [|by destruct Hn as (? & ? & _); eexists|done].
    unfold num_nodes. rewrite <- El. unfold nl_remove in Hl'.
    destruct (el_prev _); destruct (el_next _); injection Hl' as -> _; done.
Qed.
