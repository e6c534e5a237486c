(** C88: hash indexes.  Which calls and queries panic, without assumptions about the values written. *)
From Verif Require Import Base Value Index Graph GraphSpec.

(** a value that cannot be a key of a Go map, after one unwrapping *)
Definition unhashable (v : value) : Prop := hashable (once v) = false.
(** all indexes the history asks for are hash indexes *)
Definition hash_only (ops : list op) : Prop :=
  Forall (fun o => match o with OAddNodeIndex _ it | OAddEdgeIndex _ it => it = HashIndex | _ => True end) ops.
(** the call gives an index a value that cannot be hashed *)
Definition files_unhashable (ops : list op) (o : op) : Prop :=
  exists k v, unhashable v /\ (files_node ops o k v \/ files_edge ops o k v).
(** the lists from which indexes are built are right, and so is the list of edges *)
Definition lists_safe (ops : list op) : Prop :=
  edge_list_safe ops /\ forall k, node_scan_safe ops k.
