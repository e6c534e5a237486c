(** Specification: variables that name both nodes and relationships (pattern.go:65-87). *)
From Verif Require Import Base Pattern.
Local Open Scope string_scope.
Local Open Scope list_scope.

(** [v] is the name of node item [i] of the pattern *)
Definition names_node (pat : list pitem) (v : string) (i : nat) : Prop := v <> "" /\ Nat.even i = true /\ exists it, pat !! i = Some it /\ pi_name it = v.
Definition names_rel (pat : list pitem) (v : string) (i : nat) : Prop := v <> "" /\ Nat.odd i = true /\ exists it, pat !! i = Some it /\ pi_name it = v.
(** it is given as a set of edges *)
Definition edges_given (syms : symbols) (v : string) : Prop := exists x es, syms !! v = Some x /\ ps_edges x = Some es.
(** a variable for nodes and relationships *)
Definition clash (syms : symbols) (pat : list pitem) (v : string) : Prop :=
  exists i, names_node pat v i /\ (edges_given syms v \/ syms !! v = None /\ exists j, names_rel pat v j).
(** if matching starts at item [start], item [j] is matched before [i]: the items after the start in their order, then
    those before it *)
Definition before (start j i : nat) : Prop := (start <= j /\ j < i) \/ (i < start /\ i < j).
(** the same where the order matters *)
Definition clash_from (syms : symbols) (pat : list pitem) (start : nat) (v : string) : Prop :=
  exists i, names_node pat v i /\ (edges_given syms v \/ syms !! v = None /\ exists j, names_rel pat v j /\ before start j i).
