(** Removed nodes (C92, C93). *)
From Verif Require Import Base Value ValueProofs FastSet FastSetProofs Links EdgeMap NodeMap Index Graph GraphSpec.
From Verif Require Import LinksProofs EdgeMapProofs IndexProofs CoreProofs CoreStep AdjProofs ReadProofs NodeListProofs EdgeListProofs IndexGraphProofs ListedSpec ListedProofs HeldSpec.

Lemma ghosts_snoc ops o : ghosts (ops ++ [o]) = ghosts ops ++ [ghost o].
Proof. unfold ghosts. by rewrite map_app. Qed.
Definition over (s s' : sgraph) : Prop :=
  s_edges s' = s_edges s /\ s_next s' = s_next s /\ forall n x, s_nodes s !! n = Some x -> s_nodes s' !! n = Some x.
Lemma over_step s s' o : over s s' -> over (sstep s o) (sstep s' (ghost o)).
Proof.
  intros (He & Hn & Hx). destruct o; simpl; (split; [|split]; simpl; try congruence); intros m x; rewrite ?He, ?Hn; try apply Hx.
  - rewrite !lookup_insert_Some. intros [?|[? ?]]; [by left|right; auto].
  - rewrite !lookup_alter_Some. intros [(-> & y & Hy & ->)|[? ?]]; [left|right; auto]. eauto.
  - rewrite !lookup_alter_Some. intros [(-> & y & Hy & ->)|[? ?]]; [left|right; auto]. eauto.
  - rewrite !lookup_alter_Some. intros [(-> & y & Hy & ->)|[? ?]]; [left|right; auto]. eauto.
  - rewrite lookup_delete_Some. intros [_ ?]. auto.
Qed.
Lemma over_valid s s' o : over s s' -> valid s o -> valid s' (ghost o).
Proof.
  intros (He & Hn & Hx). assert (forall n, live_node s n -> live_node s' n) as Hl by (intros n [x ?]; exists x; auto).
  assert (forall e, live_edge s e -> live_edge s' e) as Hle by (intros e; unfold live_edge; by rewrite He).
  destruct o; simpl; auto.
  - intros [? ?]. auto.
  - intros (? & x & ? & ?). eauto.
  - intros (x & ? & ?). apply Hl. by exists x.
Qed.
Lemma ghosts_over ops : over (srun ops) (srun (ghosts ops)).
Proof.
  induction ops as [|o ops IH] using rev_ind; [done|]. rewrite ghosts_snoc, !srun_snoc. by apply over_step.
Qed.
Lemma ghosts_core ops g : valid_history ops -> run ops = Ok g -> core g (srun (ghosts ops)).
Proof.
  revert ops g. apply history_ind; [apply core_init|]. intros ops g o g' Hv Hr IH Ho Hs. rewrite ghosts_snoc, srun_snoc.
  assert (valid (srun (ghosts ops)) (ghost o)) as Ho' by (eapply over_valid; [apply ghosts_over|done]).
  destruct o; try (eapply core_step; [exact Hs|exact Ho'|exact IH]).
  simpl in Hs. apply detach_remove_shape in Hs as (g1 & nd & Hd & _ & En & Ee & _ & E1 & E2 & _ & _ & Ex & _).
  pose proof (core_step g _ (ODetach n) g1 Hd Ho' IH) as ([Ha1 Ha2] & H2 & H3 & H4 & H5 & H6). unfold ghost.
  assert (lbl g' = lbl g1) as El by (unfold lbl; by rewrite Ee).
  split; [split|].
  - intros m Hm. rewrite En, El, E1, E2. by apply Ha1.
  - rewrite Ee. done.
  - unfold data. rewrite En, Ee, Ex. done.
Qed.

Lemma ghosts_edges ops g n d : valid_history ops -> run ops = Ok g -> removed_node ops n -> forall e, ~ at_node (srun (ghosts ops)) n d e.
Proof.
  intros Hv Hr [_ Hn] e He. destruct (ghosts_over ops) as (Ee & _). pose proof (core_run _ _ Hv Hr) as Hc.
  assert (forall e, ~ is_in (srun ops) n e /\ ~ is_out (srun ops) n e) as H.
  { intros e'. split; intros (x & Hx & <-); apply Hn; eapply core_edge in Hx as (_ & ? & ? & _); eauto. }
  destruct (H e) as [H1 H2]. unfold is_in, is_out in *. destruct d; simpl in He; unfold is_in, is_out in He; rewrite Ee in He; tauto.
Qed.

Lemma created_snoc ops o n : live_node (srun (ghosts ops)) n -> live_node (srun (ghosts (ops ++ [o]))) n.
Proof.
  rewrite ghosts_snoc, srun_snoc. unfold live_node. destruct o; simpl; rewrite ?lookup_alter_is_Some; try done. intros H. rewrite lookup_insert_is_Some. destruct (decide (s_next (srun (ghosts ops)) = n)); auto.
Qed.
Lemma listed_created ops g : valid_history ops -> run ops = Ok g -> forall n, n ∈ listed ops -> live_node (srun (ghosts ops)) n.
Proof.
  revert ops g. apply (history_ind (fun ops g => forall n, n ∈ listed ops -> live_node (srun (ghosts ops)) n)); [by intros n ?%elem_of_nil|].
  intros ops g o g' Hv Hr IH Ho Hs n Hn. destruct (decide (n ∈ listed ops)) as [Hin|Hin]; [by apply created_snoc, IH|].
  unfold listed in Hn, Hin. rewrite rows_of_snoc in Hn. rewrite ghosts_snoc, srun_snoc. destruct o; cbn [rows_step] in Hn; try done.
  - destruct (rows_add_listing (rows_of ops) (s_next (srun ops))) as [E|E]; rewrite E in Hn; [done|]. apply elem_of_app in Hn as [?|Hn%elem_of_list_singleton]; [done|]. subst n.
    destruct (ghosts_over ops) as (_ & <- & _). unfold live_node. simpl. rewrite lookup_insert. eauto.
  - exfalso. destruct (rows_run _ _ Hv Hr) as ((Hnd & _) & Hm & _). destruct Ho as (x & Hx & _).
    destruct (listing_remove (rows_of ops) n0 Hnd) as [E|E]; [apply Hm; by exists x|by rewrite E in Hn|]. rewrite E in Hn. apply elem_of_without in Hn as [_ ?]. done.
Qed.
Lemma last_prop ops g k n : valid_history ops -> run ops = Ok g -> live_node (srun (ghosts ops)) n -> node_prop g n k = last_value ops k n.
Proof.
  intros Hv Hr [x Hx]. unfold last_value. rewrite Hx. simpl. destruct (read_node _ _ (ghosts_core _ _ Hv Hr) _ _ Hx) as [_ E]. apply E.
Qed.
Lemma last_live ops k v n : live_node (srun ops) n -> last_value ops k n = Some v <-> node_has (srun ops) k v n.
Proof.
  intros [x Hx]. destruct (ghosts_over ops) as (_ & _ & H). unfold last_value, node_has. rewrite (H _ _ Hx), Hx. simpl. naive_solver.
Qed.
Lemma last_given ops k n v : last_value ops k n = Some v -> given ops k v.
Proof.
  unfold last_value. intros H. destruct (s_nodes (srun (ghosts ops)) !! n) as [x|] eqn:E; [|done].
  destruct (node_has_written (ghosts ops) k v n) as (o & Ho & Hw); [by exists x|]. unfold ghosts in Ho. apply elem_of_list_fmap in Ho as (o' & -> & Ho). exists o'. split; [done|]. by destruct o'.
Qed.
