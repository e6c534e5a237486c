(** Specification of Encode and Decode with marshalers that leave properties out or rename them (json.go:125-135). *)
From Verif Require Import Base Value Graph GraphSpec JsonText Json JsonSpec.
Local Open Scope string_scope.
Local Open Scope list_scope.

(** [JSON.PropertyMarshaler]: an error, or a key and a value *)
Definition user_marshaler := string -> value -> option (string * json).
(** a property [k], [v] that is written and read back comes back as [k2], [v2] *)
Definition comes_back (f : user_marshaler) (pu : unmarshaler) (k : string) (v : value) (k2 : string) (v2 : value) : Prop :=
  exists k' d, f k v = Some (k', d) /\ k' <> "" /\ pu k' d = Some (k2, v2) /\ k2 <> "".
(** the properties [q] are those of [p] that come back: neither function fails, the names given are text, and no name
    is given twice *)
Record kept (f : user_marshaler) (pu : unmarshaler) (p q : props) : Prop := Kept {
  kept_fine : forall k v, p !! k = Some v -> exists k' d, f k v = Some (k', d) /\ (k' <> "" -> utf8 k' /\ is_Some (pu k' d));
  kept_names : forall k1 v1 k2 v2 k' d1 d2, p !! k1 = Some v1 -> p !! k2 = Some v2 ->
    f k1 v1 = Some (k', d1) -> f k2 v2 = Some (k', d2) -> k' <> "" -> k1 = k2;
  kept_keys : forall k1 v1 k2 v2 k w1 w2, p !! k1 = Some v1 -> p !! k2 = Some v2 ->
    comes_back f pu k1 v1 k w1 -> comes_back f pu k2 v2 k w2 -> k1 = k2;
  kept_props : forall k v, q !! k = Some v <-> exists k0 v0, p !! k0 = Some v0 /\ comes_back f pu k0 v0 k v
}.
(** [s2] is [s] with only the properties that come back; all labels are text *)
Definition kept_graph (f : user_marshaler) (pu : unmarshaler) (s s2 : sgraph) : Prop :=
  (forall n, live_node s2 n <-> live_node s n) /\ (forall e, live_edge s2 e <-> live_edge s e) /\
  (forall n x y, s_nodes s !! n = Some x -> s_nodes s2 !! n = Some y ->
     (forall l, l ∈ sn_labels x -> utf8 l) /\ sn_labels y = sn_labels x /\ kept f pu (sn_props x) (sn_props y)) /\
  (forall e x y, s_edges s !! e = Some x -> s_edges s2 !! e = Some y ->
     utf8 (e_label x) /\ e_from y = e_from x /\ e_to y = e_to x /\ e_label y = e_label x /\ kept f pu (e_props x) (e_props y)).
(** [f] fails for a property of a node or an edge *)
Definition some_error (f : user_marshaler) (s : sgraph) : Prop :=
  (exists n x k v, s_nodes s !! n = Some x /\ sn_props x !! k = Some v /\ f k v = None) \/
  (exists e x k v, s_edges s !! e = Some x /\ e_props x !! k = Some v /\ f k v = None).
