(** Model of MaxSize of the iterators returned by the graph (the sizes of edgeMap iterators are
    in EdgeMap.v, of index iterators in Index.v), and of the functions that collect the end nodes
    of edges. *)
From Verif Require Import Base Value Assoc Links EdgeMap Index Graph Itr.

(** node.go:57-67 *)
Definition node_edges_size (g : graph) (n : nat) (d : dir) : res Z :=
  let! nd := deref_node g n in
  Ok (match d with
      | Incoming => em_iter_size (n_in nd)
      | Outgoing => em_iter_size (n_out nd)
      | AnyDir => em_iter_size (n_in nd) + em_iter_size (n_out nd)
      end)%Z.
(** node.go:70-80 *)
Definition node_edges_label_size (g : graph) (n : nat) (d : dir) (l : string) : res Z :=
  let! nd := deref_node g n in
  Ok (match d with
      | Incoming => em_iter_label_size (lbl g) (n_in nd) l
      | Outgoing => em_iter_label_size (lbl g) (n_out nd) l
      | AnyDir => em_iter_label_size (lbl g) (n_in nd) l + em_iter_label_size (lbl g) (n_out nd) l
      end)%Z.
(** node.go:83-99 *)
Definition em_any_or_all_size (g : graph) (em : emap) (ord : list string) : Z :=
  if decide (ord = []) then em_iter_size em else em_iter_any_size (lbl g) em ord.
Definition node_edges_any_size (g : graph) (n : nat) (d : dir) (ord1 ord2 : list string) : res Z :=
  let! nd := deref_node g n in
  Ok (match d with
      | Incoming => em_any_or_all_size g (n_in nd) ord1
      | Outgoing => em_any_or_all_size g (n_out nd) ord2
      | AnyDir => em_any_or_all_size g (n_in nd) ord1 + em_any_or_all_size g (n_out nd) ord2
      end)%Z.
(** graph.go:127-129 (list.go:148-150), 144-146, 153-155 *)
Definition get_nodes_size (g : graph) : Z := ll_n (g_list g).
Definition get_edges_size (g : graph) : Z := em_iter_size (g_all g).
Definition get_edges_any_label_size (g : graph) (ord : list string) : Z := em_iter_any_size (lbl g) (g_all g) ord.
(** graph.go:173-189, 197-214; a filter has the MaxSize of what it filters (itr.go:121) *)
Definition get_nodes_with_property_size (g : graph) (k : string) : Z :=
  match g_nix g !! k with Some ix => (ix_values ix).2 | None => get_nodes_size g end.
Definition get_edges_with_property_size (g : graph) (k : string) : Z :=
  match g_eix g !! k with Some ix => (ix_values ix).2 | None => get_edges_size g end.

(** edge.go:56-59 *)
Definition edge_from (g : graph) (e : nat) : nat := match g_edges g !! e with Some x => e_from x | None => 0 end.
Definition edge_to (g : graph) (e : nat) : nat := match g_edges g !! e with Some x => e_to x | None => 0 end.
(** node.go:139-147 over itr.go:67-91: the set built there; the returned slice lists it in some order *)
Definition next_nodes_with (g : graph) (n : nat) (l : string) : res (gset nat) :=
  let! nd := deref_node g n in
  let! s := label_start (lbl g) (n_out nd) l in
  node_set_loop (label_machine (g_l1 g)) (edge_to g) (S (fuel g)) (S (fuel g)) s ∅.
Definition prev_nodes_with (g : graph) (n : nat) (l : string) : res (gset nat) :=
  let! nd := deref_node g n in
  let! s := label_start (lbl g) (n_in nd) l in
  node_set_loop (label_machine (g_l2 g)) (edge_from g) (S (fuel g)) (S (fuel g)) s ∅.
