(** Graphs that are the same but for the ids of nodes and edges, and what is found in them. *)
From Verif Require Import Base Value Graph GraphSpec AlgSpec Pattern PatternSpec.

(** [f] (on nodes) and [h] (on edges) are bijections that keep labels, properties and ends *)
Record same_graph (f h : nat -> nat) (s1 s2 : sgraph) : Prop := SameGraph {
  sg_nodes : bijection (live_node s1) (live_node s2) f;
  sg_edges : bijection (live_edge s1) (live_edge s2) h;
  sg_node : forall n x, s_nodes s1 !! n = Some x -> s_nodes s2 !! f n = Some x;
  sg_edge : forall e x, s_edges s1 !! e = Some x -> s_edges s2 !! h e = Some (Edge (f (e_from x)) (f (e_to x)) (e_label x) (e_props x))
}.
(** a match in the one graph, and the symbols given, as seen in the other *)
Definition move_steps (f h : nat -> nat) (w : list (nat * nat)) : list (nat * nat) := map (fun x => (h x.1, f x.2)) w.
Definition move_match (f h : nat -> nat) (m : pmatch) : pmatch := PM (f (pm_first m)) (map (move_steps f h) (pm_hops m)).
Definition move_sym (f h : nat -> nat) (x : psym) : psym := PSym (map f <$> ps_nodes x) (map h <$> ps_edges x).
(** equivalences for CheckIsomorphism: the same labels and properties *)
Definition nodes_equal (g1 g2 : graph) (a b : nat) : bool :=
  match g_nodes g1 !! a, g_nodes g2 !! b with
  | Some x, Some y => bool_decide (n_labels x = n_labels y) && bool_decide (n_props x = n_props y)
  | _, _ => false
  end.
Definition edges_equal (g1 g2 : graph) (a b : nat) : bool :=
  match g_edges g1 !! a, g_edges g2 !! b with
  | Some x, Some y => bool_decide (e_label x = e_label y) && bool_decide (e_props x = e_props y)
  | _, _ => false
  end.
