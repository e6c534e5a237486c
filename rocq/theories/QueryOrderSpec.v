(** The order in which nodes and edges with a property, and nodes with labels, are enumerated, from
    the history of the calls alone. *)
From Verif Require Import Base Value Index Graph GraphSpec OrderSpec.

(** ** Properties *)
(** the values of property [k], by node or edge *)
Definition node_vals (s : sgraph) (k : string) : gmap nat value :=
  omap (fun x => sn_props x !! k) (s_nodes s).
Definition edge_vals (s : sgraph) (k : string) : gmap nat value :=
  omap (fun x => e_props x !! k) (s_edges s).
(** the value of [i] is less than that of [j] *)
Definition lower (c : gmap nat value) (i j : nat) : Prop :=
  match c !! i, c !! j with
  | Some v, Some w => match compare_value v w with Some Lt => True | _ => False end
  | _, _ => False
  end.
Global Instance lower_dec c i j : Decision (lower c i j).
Proof. unfold lower. destruct (c !! i), (c !! j); try apply _. destruct (compare_value _ _) as [[]|]; apply _. Defined.
(** [x] before the first element with a greater value *)
Fixpoint put_in (c : gmap nat value) (x : nat) (ys : list nat) : list nat :=
  match ys with
  | [] => [x]
  | y :: r => if decide (lower c x y) then x :: y :: r else y :: put_in c x r
  end.
(** [xs] by ascending value; those with the same value stay in order *)
Definition by_value (c : gmap nat value) (xs : list nat) : list nat :=
  fold_left (fun ys x => put_in c x ys) xs [].

(** The nodes with property [k], in the order in which a hash index has them: the nodes in the order
    of their creation when the index is added; from then on a node goes last whenever the property
    is set.  [idx]: there is an index. *)
Definition with_prop (c : gmap nat value) (xs : list nat) : list nat := filter (fun n => is_Some (c !! n)) xs.
Definition prop_step (k : string) (idx : bool) (s : sgraph) (o : op) (xs : list nat) : list nat :=
  let s' := sstep s o in
  if idx then
    match o with
    | ONewNode _ p _ => if decide (is_Some (p !! k)) then xs ++ [s_next s] else xs
    | OSetNodeProp n k' _ => if decide (k' = k) then unfile n xs ++ [n] else xs
    | _ => with_prop (node_vals s' k) xs
    end
  else with_prop (node_vals s' k) (seq 0 (s_next s')).
Fixpoint prop_from (k : string) (idx : bool) (s : sgraph) (xs : list nat) (ops : list op) : list nat :=
  match ops with
  | [] => xs
  | o :: r => prop_from k (idx || match o with OAddNodeIndex k' _ => bool_decide (k' = k) | _ => false end)
                (sstep s o) (prop_step k idx s o xs) r
  end.
Definition node_prop_order (ops : list op) (k : string) : list nat := prop_from k false s_empty [] ops.

(** Edge.Remove leaves its edge in the indexes (graph.go:530-533): the values with which removed
    edges still are in the index of [k]. *)
Definition stale_step (k : string) (idx : bool) (s : sgraph) (o : op) (st : gmap nat value) : gmap nat value :=
  match o with
  | ORemoveEdge e => if idx then match edge_vals s k !! e with Some v => <[e := v]> st | None => st end else st
  | _ => st
  end.
Definition adds_edge_index (k : string) (o : op) : bool :=
  match o with OAddEdgeIndex k' _ => bool_decide (k' = k) | _ => false end.
Fixpoint stale_from (k : string) (idx : bool) (s : sgraph) (st : gmap nat value) (ops : list op) : gmap nat value :=
  match ops with
  | [] => st
  | o :: r => stale_from k (idx || adds_edge_index k o) (sstep s o) (stale_step k idx s o st) r
  end.
Definition stale (ops : list op) (k : string) : gmap nat value := stale_from k false s_empty ∅ ops.
(** the values by which edges are found *)
Definition edge_entries (ops : list op) (k : string) : gmap nat value := edge_vals (srun ops) k ∪ stale ops k.

(** The order for edges, with [st] the values of the removed ones; without an index the order is
    that of GetEdges. *)
Definition edge_prop_step (k : string) (s : sgraph) (st : gmap nat value) (o : op) (xs : list nat) : list nat :=
  match o with
  | ONewEdge _ _ _ p => if decide (is_Some (p !! k)) then xs ++ [s_next s] else xs
  | OSetEdgeProp e k' _ => if decide (k' = k) then unfile e xs ++ [e] else xs
  | _ => with_prop (edge_vals (sstep s o) k ∪ st) xs
  end.
(** [all]: the edges of the graph in order, [F] the labels under which they are filed *)
Fixpoint edge_prop_from (k : string) (idx : bool) (F : gmap nat string) (s : sgraph) (st : gmap nat value)
    (all xs : list nat) (ops : list op) : list nat :=
  match ops with
  | [] => xs
  | o :: r =>
      let all' := all_order_step F s o all in
      let st' := stale_step k idx s o st in
      edge_prop_from k (idx || adds_edge_index k o) (filed_step F s o) (sstep s o) st' all'
        (if idx then edge_prop_step k s st' o xs else with_prop (edge_vals (sstep s o) k) all') r
  end.
Definition edge_prop_order (ops : list op) (k : string) : list nat :=
  edge_prop_from k false ∅ s_empty ∅ [] [] ops.

(** the order of an index: that of the B-tree is by value *)
Definition arranged (it : option index_type) (c : gmap nat value) (xs : list nat) : list nat :=
  match it with Some BtreeIndex => by_value c xs | _ => xs end.

(** ** Labels *)
(** The nodes filed under label [l] (maps.go:36-113).  A node that loses all its labels at once stays
    where it was filed (maps.go:60-63), and keeps its place if it gets the label again. *)
Definition label_step (l : string) (s : sgraph) (o : op) (xs : list nat) : list nat :=
  match o with
  | ONewNode labels _ _ => if decide (l ∈ labels) then xs ++ [s_next s] else xs
  | OSetLabels n labels _ _ =>
      match s_nodes s !! n with
      | Some x =>
          if decide (l ∈ labels) then
            if decide (l ∈ sn_labels x \/ n ∈ xs) then xs else xs ++ [n]
          else if decide (labels = ∅) then xs else
            if decide (l ∈ sn_labels x) then unfile n xs else xs
      | None => xs
      end
  | ODetachRemove n _ =>
      match s_nodes s !! n with
      | Some x => if decide (l ∈ sn_labels x) then unfile n xs else xs
      | None => xs
      end
  | _ => xs
  end.
Definition label_order (ops : list op) (l : string) : list nat :=
  (fold_left (fun p o => (sstep p.1 o, label_step l p.1 o p.2)) ops (s_empty, [])).2.
(** the label with the fewest nodes filed under it, the first such in [ord] *)
Fixpoint rarest (ops : list op) (best : string) (ord : list string) : string :=
  match ord with
  | [] => best
  | l :: r => rarest ops (if decide (length (label_order ops l) < length (label_order ops best)) then l else best) r
  end.
(** live nodes with all labels of [S] *)
Definition s_all_labels (s : sgraph) (S : gset string) (n : nat) : bool :=
  match s_nodes s !! n with Some x => bool_decide (S ⊆ sn_labels x) | None => false end.
Definition labelled_order (ops : list op) (S : gset string) (ord : list string) : list nat :=
  match ord with
  | [] => []
  | l :: r => filter (fun n => s_all_labels (srun ops) S n = true) (label_order ops (rarest ops l r))
  end.
(** an upper bound of their number, the MaxSize of the iterator *)
Definition labelled_size (ops : list op) (ord : list string) : nat :=
  match ord with [] => 0 | l :: r => length (label_order ops (rarest ops l r)) end.
