(** C92: what GetNodesWithProperty lists in every graph, also where the list of nodes is wrong (C01, C91). *)
From Verif Require Import Base Value Index Graph GraphSpec ListedSpec.

(** The history without the removals of nodes (their edges go): its graph has all nodes ever created, with the labels and properties
    they had last. *)
Definition ghost (o : op) : op := match o with ODetachRemove n _ => ODetach n | _ => o end.
Definition ghosts (ops : list op) : list op := map ghost ops.
(** created and no longer in the graph *)
Definition removed_node (ops : list op) (n : nat) : Prop := live_node (srun (ghosts ops)) n /\ ~ live_node (srun ops) n.
(** the value of property [k] of a node, removed or not *)
Definition last_value (ops : list op) (k : string) (n : nat) : option value := s_nodes (srun (ghosts ops)) !! n ≫= (fun x => sn_props x !! k).

(** some call of [ops] writes property [k] of node [n] *)
Definition set_in (ops : list op) (k : string) (n : nat) : Prop := exists v, OSetNodeProp n k v ∈ ops.
(** What the index on [k] holds if it was made after [ops1] and [ops2] came later: the live nodes with the property, except those that
    were not listed when the index was made and have not been given the property since, and the removed nodes that were listed then. *)
Definition held (ops1 ops2 : list op) (it : index_type) (k : string) (n : nat) (v : value) : Prop :=
  let ops := ops1 ++ OAddNodeIndex k it :: ops2 in
  node_has (srun ops) k v n /\ (n ∈ hidden ops1 -> set_in ops2 k n) \/
  n ∈ l_dead (rows_of ops1) /\ last_value ops1 k n = Some v.
(** all values of [k] that nodes were given *)
Definition given (ops : list op) (k : string) (v : value) : Prop := exists o, o ∈ ops /\ writes_node o k v.

(** no edge ends / starts at [n] *)
Definition nothing_in (s : sgraph) (n : nat) : Prop := map_Forall (fun _ x => e_to x <> n) (s_edges s).
Definition nothing_out (s : sgraph) (n : nat) : Prop := map_Forall (fun _ x => e_from x <> n) (s_edges s).
Global Instance nothing_in_dec s n : Decision (nothing_in s n) := _.
Global Instance nothing_out_dec s n : Decision (nothing_out s n) := _.
