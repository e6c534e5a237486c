(** Specification: the places where matching can start (pattern.go:113-216). *)
From Verif Require Import Base Value Index Graph Sizes Pattern.
Local Open Scope string_scope.
Local Open Scope list_scope.

(** a way to enumerate candidates for a node: these, with this MaxSize (-1: unknown) *)
Inductive node_special (g : graph) (syms : symbols) (it : pitem) (lord : list string) : list nat -> Z -> Prop :=
| node_labels xs m : pi_labels it <> ∅ -> get_nodes_all_labels g (pi_labels it) lord = Ok (xs, m) -> node_special g syms it lord xs m
| node_indexed k v ix xs m : pi_props it !! k = Some v -> g_nix g !! k = Some ix -> ix_find ix v = Ok (xs, m) -> node_special g syms it lord xs m
| node_given x : pi_name it <> "" -> syms !! pi_name it = Some x ->
    node_special g syms it lord (default [] (ps_nodes x)) (Z.of_nat (length (default [] (ps_nodes x)))).
(** all nodes, if there is no other *)
Inductive node_source (g : graph) (syms : symbols) (it : pitem) (lord : list string) : list nat -> Z -> Prop :=
| node_special_source xs m : node_special g syms it lord xs m -> node_source g syms it lord xs m
| node_all xs : (forall ys m, node_special g syms it lord ys m -> m = (-1)%Z) -> get_nodes g = Ok xs -> node_source g syms it lord xs (get_nodes_size g).

(** the same for relationships of one edge *)
Definition one_edge (it : pitem) : Prop := (pi_min it <= 1 /\ pi_max it <= 1 /\ pi_min it <> -1 /\ pi_max it <> -1)%Z.
Inductive edge_special (g : graph) (syms : symbols) (it : pitem) (lord : list string) : list nat -> Z -> Prop :=
| edge_labels xs : pi_labels it <> ∅ -> get_edges_any_label g lord = Ok xs -> edge_special g syms it lord xs (get_edges_any_label_size g lord)
| edge_given x : pi_name it <> "" -> syms !! pi_name it = Some x ->
    edge_special g syms it lord (default [] (ps_edges x)) (Z.of_nat (length (default [] (ps_edges x)))).
Definition edge_indexed (g : graph) (it : pitem) (xs : list nat) (m : Z) : Prop :=
  exists k v ix, pi_props it !! k = Some v /\ g_eix g !! k = Some ix /\ ix_find ix v = Ok (xs, m).
Inductive edge_source (g : graph) (syms : symbols) (it : pitem) (lord : list string) : list nat -> Z -> Prop :=
| edge_special_source xs m : one_edge it -> edge_special g syms it lord xs m -> edge_source g syms it lord xs m
| edge_all xs : one_edge it -> (forall ys m, edge_special g syms it lord ys m -> m = (-1)%Z) -> get_edges g = Ok xs -> edge_source g syms it lord xs (get_edges_size g).

(** for item [i] of the pattern, without indexes for edges *)
Definition item_source (g : graph) (syms : symbols) (pat : list pitem) (lord : nat -> list string) (i : nat) (xs : list nat) (m : Z) : Prop :=
  exists it, pat !! i = Some it /\ if Nat.even i then node_source g syms it (lord i) xs m else edge_source g syms it (lord i) xs m.
Definition item_indexed (g : graph) (pat : list pitem) (i : nat) (xs : list nat) (m : Z) : Prop :=
  exists it, pat !! i = Some it /\ Nat.even i = false /\ one_edge it /\ edge_indexed g it xs m.
