(** Proofs for C93. *)
From Verif Require Import Base Value Links EdgeMap Index Graph GraphSpec Alg AlgSpec.
From Verif Require Import CoreProofs CoreStep AdjProofs ReadProofs Sizes VPathProofs AlgProofs ListedSpec ListedProofs HeldSpec GhostProofs.

Lemma nothing_in_at ops n : nothing_in (srun ops) n <-> forall e, ~ at_node (srun (ghosts ops)) n Incoming e.
Proof.
  destruct (ghosts_over ops) as (Ee & _). unfold at_node, is_in, nothing_in. rewrite Ee. split.
  - intros H e (x & Hx & Hn). by apply (H e x Hx).
  - intros H e x Hx Hn. apply (H e). eauto.
Qed.
Lemma nothing_out_at ops n : nothing_out (srun ops) n <-> forall e, ~ at_node (srun (ghosts ops)) n Outgoing e.
Proof.
  destruct (ghosts_over ops) as (Ee & _). unfold at_node, is_out, nothing_out. rewrite Ee. split.
  - intros H e (x & Hx & Hn). by apply (H e x Hx).
  - intros H e x Hx Hn. apply (H e). eauto.
Qed.
Lemma removed_edges ops g n d : valid_history ops -> run ops = Ok g -> removed_node ops n -> node_edges g n d = Ok [].
Proof.
  intros Hv Hr Hn. destruct (node_edges_at g _ (ghosts_core _ _ Hv Hr) n d (proj1 Hn)) as (xs & -> & Hin). f_equal.
  destruct xs as [|e xs]; [done|]. exfalso. eapply (ghosts_edges ops g n d Hv Hr Hn e). apply Hin. left.
Qed.
Lemma removed_read ops g n x : valid_history ops -> run ops = Ok g -> s_nodes (srun (ghosts ops)) !! n = Some x ->
  labels_of g n = sn_labels x /\ forall k, node_prop g n k = sn_props x !! k.
Proof. intros Hv Hr. apply (read_node g _ (ghosts_core _ _ Hv Hr)). Qed.
Lemma filter_listed ops g d (P : nat -> Prop) `{!forall n, Decision (P n)} : valid_history ops -> run ops = Ok g ->
  (forall n, P n <-> forall e, ~ at_node (srun (ghosts ops)) n d e) -> rfilter (no_edges g d) (listed ops) = Ok (filter P (listed ops)).
Proof.
  intros Hv Hr HP. pose proof (listed_created _ _ Hv Hr) as Hc. induction (listed ops) as [|n ns IH]; [done|]. cbn [rfilter].
  destruct (no_edges_ok g _ (ghosts_core _ _ Hv Hr) d n) as (b & -> & Hb); [apply Hc; left|]. rewrite IH by (intros m Hm; apply Hc; by right). simpl.
  rewrite filter_cons. destruct (decide (P n)) as [Hp|Hp], b; try done.
  - exfalso. pose proof (proj2 Hb (proj1 (HP n) Hp)). done.
  - exfalso. exact (Hp (proj2 (HP n) (proj1 Hb eq_refl))).
Qed.
Lemma sources_listed ops g : valid_history ops -> run ops = Ok g -> sources g = Ok (filter (nothing_in (srun ops)) (listed ops)).
Proof.
  intros Hv Hr. unfold sources. rewrite (get_nodes_listed _ _ Hv Hr). simpl. apply (filter_listed ops g Incoming); [done|done|]. intros n. apply nothing_in_at.
Qed.
Lemma sinks_listed ops g : valid_history ops -> run ops = Ok g -> sinks g = Ok (filter (nothing_out (srun ops)) (listed ops)).
Proof.
  intros Hv Hr. unfold sinks. rewrite (get_nodes_listed _ _ Hv Hr). simpl. apply (filter_listed ops g Outgoing); [done|done|]. intros n. apply nothing_out_at.
Qed.
Lemma each_listed {T} ops g (pred : nat -> T -> bool * T) t : valid_history ops -> run ops = Ok g -> 
  exists x, for_each_node g pred t = Ok x /\ in_turn pred (listed ops) t x.
Proof. intros Hv Hr. exists (each_node pred (listed ops) t). split; [|apply each_in_turn]. unfold for_each_node. by rewrite (get_nodes_listed _ _ Hv Hr). Qed.
Lemma removed_everywhere ops g n : valid_history ops -> run ops = Ok g -> n ∈ l_dead (rows_of ops) ->
  removed_node ops n /\ nothing_in (srun ops) n /\ nothing_out (srun ops) n.
Proof.
  intros Hv Hr Hn. destruct (listed_parts _ _ Hv Hr) as (_ & _ & _ & Hd & _). apply Hd in Hn as [Hl Hn].
  assert (removed_node ops n) as H by (split; [by eapply listed_created|done]). split; [done|]. rewrite nothing_in_at, nothing_out_at.
  split; intros e; by eapply ghosts_edges.
Qed.
