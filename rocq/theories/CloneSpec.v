(** Specification of clone.go. *)
From Verif Require Import Base Value Index Graph GraphSpec.

(** every value of [p], transformed by [f], under the same key *)
Definition mapped (f : string -> value -> value) (p q : props) : Prop := forall k, q !! k = f k <$> p !! k.
(** [y] is the copy of node [x]; [y] the copy of edge [x] between copies *)
Definition node_copy (f : string -> value -> value) (x y : snode) : Prop :=
  sn_labels y = sn_labels x /\ mapped f (sn_props x) (sn_props y).
Definition edge_copy (f : string -> value -> value) (m : gmap nat nat) (x y : edge) : Prop :=
  m !! e_from x = Some (e_from y) /\ m !! e_to x = Some (e_to y) /\ e_label y = e_label x /\ mapped f (e_props x) (e_props y).

(** [t'] is [t] with copies of nodes and edges of [s] added: of the nodes in [m] but not in [m0] and
    of the edges in [h], one for each. *)
Record extended (f : string -> value -> value) (s t t' : sgraph) (m0 m h : gmap nat nat) : Prop := Extended {
  ex_keep : m0 ⊆ m;
  ex_nodes_old : s_nodes t ⊆ s_nodes t';
  ex_edges_old : s_edges t ⊆ s_edges t';
  ex_node : forall n n', m !! n = Some n' -> m0 !! n = None ->
    s_nodes t !! n' = None /\ exists x y, s_nodes s !! n = Some x /\ s_nodes t' !! n' = Some y /\ node_copy f x y;
  ex_edge : forall e e', h !! e = Some e' ->
    s_edges t !! e' = None /\ exists x y, s_edges s !! e = Some x /\ s_edges t' !! e' = Some y /\ edge_copy f m x y;
  ex_node_inj : forall n1 n2 n', m !! n1 = Some n' -> m !! n2 = Some n' -> m0 !! n1 = None -> n1 = n2;
  ex_edge_inj : forall e1 e2 e', h !! e1 = Some e' -> h !! e2 = Some e' -> e1 = e2;
  ex_nodes_only : forall n', live_node t' n' -> live_node t n' \/ exists n, m !! n = Some n' /\ m0 !! n = None;
  ex_edges_only : forall e', live_edge t' e' -> live_edge t e' \/ exists e, h !! e = Some e'
}.
(** [t'] is [t] with a copy of [s] added *)
Definition copied (f : string -> value -> value) (s t t' : sgraph) (m h : gmap nat nat) : Prop :=
  extended f s t t' ∅ m h /\ (forall n, is_Some (m !! n) <-> live_node s n) /\ (forall e, is_Some (h !! e) <-> live_edge s e).

(** [x] is reachable from [n] through nodes outside [m0] *)
Inductive reach (s : sgraph) (m0 : gmap nat nat) (n : nat) : nat -> Prop :=
| reach_start : m0 !! n = None -> reach s m0 n n
| reach_next y z e x : reach s m0 n y -> s_edges s !! e = Some x -> e_from x = y -> e_to x = z -> m0 !! z = None -> reach s m0 n z.
(** [t'] is [t] with a copy of the part of [s] reachable from [n] added *)
Definition copied_part (f : string -> value -> value) (s t t' : sgraph) (n : nat) (m0 m h : gmap nat nat) : Prop :=
  extended f s t t' m0 m h /\
  (forall x, is_Some (m !! x) <-> is_Some (m0 !! x) \/ reach s m0 n x) /\
  (forall e, is_Some (h !! e) <-> exists x, s_edges s !! e = Some x /\ reach s m0 n (e_from x)).

(** calls creating a node or edge of a copy *)
Definition clone_op (f : string -> value -> value) (s : sgraph) (o : op) : Prop :=
  match o with
  | ONewNode L p _ => exists n x, s_nodes s !! n = Some x /\ node_copy f x (SNode L p)
  | ONewEdge _ _ l p => exists e x, s_edges s !! e = Some x /\ l = e_label x /\ mapped f (e_props x) p
  | _ => False
  end.
(** values of property [k] in the copy *)
Definition cloned_node_value (f : string -> value -> value) (s : sgraph) (k : string) (v : value) : Prop :=
  exists n w, node_has s k w n /\ v = f k w.
Definition cloned_edge_value (f : string -> value -> value) (s : sgraph) (k : string) (v : value) : Prop :=
  exists e w, edge_has s k w e /\ v = f k w.
(** the property indexes of the target can hold the copied values as well *)
Definition can_hold (ops : list op) (f : string -> value -> value) (s : sgraph) : Prop :=
  (forall k it, node_index ops k = Some it -> storable it (fun v => node_filed ops k v \/ cloned_node_value f s k v)) /\
  (forall k it, edge_index ops k = Some it -> storable it (fun v => edge_filed ops k v \/ cloned_edge_value f s k v)).
