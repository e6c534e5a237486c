(** Model of cursor.go. *)
From Verif Require Import Base Graph Sizes Path ItrSpec.

(** cursor.go:18-21; [None] is nil *)
Record cursor := Cursor { c_node : option nat; c_path : option path }.
(** cursor.go:24-27 *)
Definition c_set (c : cursor) (n : option nat) : cursor := Cursor n (c_path c).
(** cursor.go:30-33 over path.go:46-53 *)
Definition c_start_path (c : cursor) : res cursor :=
  match c_node c with Some n => Ok (Cursor (Some n) (Some (path_from_node n))) | None => Panic end.
(** cursor.go:38-44 *)
Definition c_push (g : graph) (c : cursor) (e : nat) : res cursor :=
  match c_path c with
  | None => Panic
  | Some p =>
      let! p' := path_append (edge_from g) (edge_to g) p [PE e false] in
      Ok (Cursor (Some (edge_to g e)) (Some p'))
  end.
(** cursor.go:53-56 *)
Definition c_pop (g : graph) (c : cursor) : res (graph * cursor) :=
  match c_path c with
  | None => Panic
  | Some p => let! r := path_remove_last g p in Ok (r.1, Cursor (c_node c) (Some r.2))
  end.
(** cursor.go:60-65, 70-75 *)
Definition c_edges (g : graph) (c : cursor) (d : dir) : res (list nat) :=
  match c_node c with None => Ok [] | Some n => node_edges g n d end.
Definition c_edges_with (g : graph) (c : cursor) (d : dir) (l : string) : res (list nat) :=
  match c_node c with None => Ok [] | Some n => node_edges_label g n d l end.
(** itr.go:253-292: what the iterator of Itr.v yields (C50) *)
Definition nodes_from_edges (g : graph) (d : dir) (es : list nat) : list nat :=
  firsts [] (map (match d with Incoming => edge_from g | _ => edge_to g end) es).
(** cursor.go:80-85, 90-95 *)
Definition c_nodes (g : graph) (c : cursor) (d : dir) : res (list nat) :=
  match c_node c with
  | None => Ok []
  | Some n => let! es := node_edges g n d in Ok (nodes_from_edges g d es)
  end.
Definition c_nodes_with (g : graph) (c : cursor) (d : dir) (l : string) : res (list nat) :=
  match c_node c with
  | None => Ok []
  | Some n => let! es := node_edges_label g n d l in Ok (nodes_from_edges g d es)
  end.
(** cursor.go:47-50: the path itself, not a copy *)
Definition c_get_path (c : cursor) : option path := c_path c.
(** cursor.go:99, 103, 107, 112 *)
Definition c_forward (g : graph) (c : cursor) := c_edges g c Outgoing.
Definition c_backward (g : graph) (c : cursor) := c_edges g c Incoming.
Definition c_forward_with (g : graph) (c : cursor) (l : string) := c_edges_with g c Outgoing l.
Definition c_backward_with (g : graph) (c : cursor) (l : string) := c_edges_with g c Incoming l.
(** cursor.go:116, 120, 124, 128 *)
Definition c_next_nodes (g : graph) (c : cursor) := c_nodes g c Outgoing.
Definition c_next_nodes_with (g : graph) (c : cursor) (l : string) := c_nodes_with g c Outgoing l.
Definition c_prev_nodes (g : graph) (c : cursor) := c_nodes g c Incoming.
Definition c_prev_nodes_with (g : graph) (c : cursor) (l : string) := c_nodes_with g c Incoming l.
