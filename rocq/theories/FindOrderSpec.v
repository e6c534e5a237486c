(** What FindNodes and FindEdges find and in which order, from the history of the calls alone. *)
From Verif Require Import Base Value Index Graph GraphSpec OrderSpec QueryOrderSpec.

(** an index of type [it] gives [w] when asked for [v] *)
Definition asked (it : index_type) (v w : value) : bool :=
  match it with
  | BtreeIndex => match compare_value v w with Some Eq => true | _ => false end
  | HashIndex => bool_decide (once w = once v)
  end.
(** those of [xs] with such a value *)
Definition found (it : index_type) (c : gmap nat value) (v : value) (xs : list nat) : list nat :=
  filter (fun i => match c !! i with Some w => asked it v w | None => false end = true) xs.

(** the shortest of the lists that there are for the keys, the first such in [ord] *)
Fixpoint shortest (lists : string -> option (list nat)) (best : option (list nat)) (ord : list string)
  : option (list nat) :=
  match ord with
  | [] => best
  | k :: r =>
      shortest lists
        match lists k, best with
        | Some xs, Some ys => if decide (length xs < length ys) then Some xs else Some ys
        | Some xs, None => Some xs
        | None, _ => best
        end r
  end.

(** the requested properties are there *)
Definition has_all (p q : props) : bool :=
  forallb (fun kv => match q !! kv.1 with Some w => asked BtreeIndex kv.2 w | None => false end) (map_to_list p).

(** ** Nodes *)
Definition node_fits (s : sgraph) (L : gset string) (p : props) (n : nat) : bool :=
  match s_nodes s !! n with Some x => bool_decide (L ⊆ sn_labels x) && has_all p (sn_props x) | None => false end.
(** what the index of [k] gives *)
Definition node_answer (ops : list op) (p : props) (k : string) : option (list nat) :=
  match p !! k, node_index ops k with
  | Some v, Some it => Some (found it (node_vals (srun ops) k) v (node_prop_order ops k))
  | _, _ => None
  end.
(** the nodes that are looked at: those filed under the rarest label if they are fewer than what
    every index gives *)
Definition node_choice (ops : list op) (p : props) (lord qord : list string) : list nat :=
  let lab := match lord with [] => [] | l :: r => label_order ops (rarest ops l r) end in
  match shortest (node_answer ops p) None qord with
  | Some xs => if decide (length lab < length xs) then lab else xs
  | None => lab
  end.
(** the values of the indexed properties can be asked for *)
Definition node_findable (ops : list op) (p : props) : Prop :=
  forall k v it, p !! k = Some v -> node_index ops k = Some it ->
    storable it (fun w => node_filed ops k w \/ w = v) /\ node_scan_safe ops k.

(** ** Edges *)
(** the label and properties of all edges there ever were: a removed edge keeps those it had *)
Definition edge_data (ops : list op) : gmap nat edge :=
  (fold_left (fun p o => (sstep p.1 o, s_edges (sstep p.1 o) ∪ p.2)) ops (s_empty, ∅)).2.
Definition edge_fits (M : gmap nat edge) (L : gset string) (p : props) (e : nat) : bool :=
  match M !! e with Some x => bool_decide (e_label x ∈ L) && has_all p (e_props x) | None => false end.
(** what the index of [k] gives, removed edges included *)
Definition edge_answer (ops : list op) (p : props) (k : string) : option (list nat) :=
  match p !! k, edge_index ops k with
  | Some v, Some it => Some (found it (edge_entries ops k) v (edge_prop_order ops k))
  | _, _ => None
  end.
(** What is found, and MaxSize.  The labels are looked at first only if there is at most one edge;
    otherwise the number of edges with them is unknown (edgemap.go:160-186).  Without an index
    nothing is filtered then. *)
Definition edge_found (ops : list op) (L : gset string) (p : props) (qord : list string) : list nat * nat :=
  let all := all_order ops in
  let lab := filter (fun e => s_label (srun ops) e ∈ L) all in
  let fits xs := (filter (fun e => edge_fits (edge_data ops) L p e = true) xs, length xs) in
  match shortest (edge_answer ops p) None qord with
  | Some xs => if decide (length all <= 1 /\ length lab < length xs) then fits lab else fits xs
  | None => if decide (length all <= 1) then fits lab else (all, length all)
  end.
Definition edge_findable (ops : list op) (p : props) : Prop :=
  forall k v it, p !! k = Some v -> edge_index ops k = Some it ->
    storable it (fun w => edge_filed ops k w \/ w = v) /\ edge_scan_safe ops k.
