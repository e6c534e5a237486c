(** C90: which calls panic, for any mixture of hash and B-tree indexes, from what the indexes hold at
    that moment. *)
From Verif Require Import Base Value Index Graph GraphSpec QueryOrderSpec HashOnlySpec.

(** ** Values *)
Inductive kind_name := AnInt | AString | Ints | Strings.
Global Instance kind_name_eq_dec : EqDecision kind_name.
Proof. solve_decision. Defined.
(** the kinds of values that can be compared among themselves; nothing can be compared with a value
    of another type ([]interface{} is excluded by [plain]) *)
Fixpoint kind (v : value) : option kind_name :=
  match v with
  | VInt _ => Some AnInt
  | VStr _ => Some AString
  | VInts _ => Some Ints
  | VStrs _ => Some Strings
  | VNative w => kind w
  | VNil | VList _ | VOther _ _ => None
  end.
(** no []interface{}: whether two of those compare depends on their elements *)
Fixpoint plain (v : value) : Prop :=
  match v with VList _ => False | VNative w => plain w | _ => True end.
Definition fit (v w : value) : Prop := kind v = kind w /\ kind v <> None.

(** ** One index, of type [it], with the contents [c] *)
(** putting [v] in panics *)
Definition jams_in (it : index_type) (c : gmap nat value) (v : value) : Prop :=
  match it with
  | HashIndex => unhashable v
  | BtreeIndex => exists i w, c !! i = Some w /\ ~ fit v w
  end.
(** taking item [i] out panics: its value cannot even be compared with itself *)
Definition jams_out (it : index_type) (c : gmap nat value) (i : nat) : Prop :=
  match it with
  | HashIndex => False
  | BtreeIndex => exists v, c !! i = Some v /\ kind v = None
  end.
(** building an index with the contents [c] panics *)
Definition jams_all (it : index_type) (c : gmap nat value) : Prop :=
  match it with
  | HashIndex => exists i v, c !! i = Some v /\ unhashable v
  | BtreeIndex => exists i j v w, i <> j /\ c !! i = Some v /\ c !! j = Some w /\ ~ fit v w
  end.

(** ** Calls *)
(** the call panics in the index on property [k] of nodes *)
Definition jams_node (ops : list op) (o : op) (k : string) : Prop :=
  let c := node_vals (srun ops) k in
  match node_index ops k with
  | Some it =>
      match o with
      | ONewNode _ p _ => exists v, p !! k = Some v /\ jams_in it c v
      | OSetNodeProp n k' v => k' = k /\ (jams_out it c n \/ jams_in it (delete n c) v)
      | ORemNodeProp n k' => k' = k /\ jams_out it c n
      | ODetachRemove n _ => jams_out it c n
      | _ => False
      end
  | None => match o with OAddNodeIndex k' it => k' = k /\ jams_all it c | _ => False end
  end.
(** ... of edges; Edge.Remove does not touch the indexes *)
Definition jams_edge (ops : list op) (o : op) (k : string) : Prop :=
  let c := edge_entries ops k in
  match edge_index ops k with
  | Some it =>
      match o with
      | ONewEdge _ _ _ p => exists v, p !! k = Some v /\ jams_in it c v
      | OSetEdgeProp e k' v => k' = k /\ (jams_out it c e \/ jams_in it (delete e c) v)
      | ORemEdgeProp e k' => k' = k /\ jams_out it c e
      | ODetach n | ODetachRemove n _ => exists e, incident (srun ops) n e /\ jams_out it c e
      | _ => False
      end
  | None => match o with OAddEdgeIndex k' it => k' = k /\ jams_all it c | _ => False end
  end.
Definition jams (ops : list op) (o : op) : Prop := exists k, jams_node ops o k \/ jams_edge ops o k.
(** B-tree indexes are given no []interface{} *)
Definition plain_trees (ops : list op) : Prop := forall k v,
  node_index ops k = Some BtreeIndex /\ node_filed ops k v \/ edge_index ops k = Some BtreeIndex /\ edge_filed ops k v -> plain v.

(** ** Queries *)
(** asking an index with the contents [c], to which the values [F] were ever given, for [v] panics *)
Definition jams_ask (it : option index_type) (F : value -> Prop) (c : gmap nat value) (v : value) : Prop :=
  match it with
  | None => False
  | Some HashIndex => unhashable v /\ ~ (forall w, ~ F w)
  | Some BtreeIndex => exists i w, c !! i = Some w /\ ~ fit v w
  end.
(** FindNodes or FindEdges with the properties [p] panics *)
Definition jams_find (it : string -> option index_type) (F : string -> value -> Prop) (C : string -> gmap nat value) (p : props) : Prop :=
  exists k v, p !! k = Some v /\ jams_ask (it k) (F k) (C k) v.
