(** Calls that panic in a property index, as seen by a caller that recovers the panic and goes on.
    [step_st] runs a call of Graph.v and gives the state in which it leaves the graph, together with
    [true] if it returns and [false] if it panics in an index or (NewEdge) for a foreign node.
    [Panic] and [Diverge] remain for nil dereferences and endless loops elsewhere. *)
From Verif Require Import Base Assoc Value FastSet Links EdgeMap NodeMap Index Graph.

(** The order in which [range] goes over the properties of an object (indexes.go:112, 124, 158, 168). *)
Notation porder := (nat -> props -> list (string * value)) (only parsing).

(** hashindex.go:28-30, 36: the map is made and the item put into [elements] before the map access of
    line 37 panics.  btreeindex.go:30: [Get] panics before anything is changed; the first item is never
    refused. *)
Definition ix_add_st (ix : index) (v : value) (id : nat) : index * bool :=
  match ix_add ix v id with
  | Ok ix' => (ix', true)
  | _ => (match ix with
          | IHash vals els fresh => IHash vals (els ++ [(fresh, id)]) (S fresh)
          | IBtree t => IBtree t
          end, false)
  end.
(** hashindex.go:52, btreeindex.go:43: nothing is changed before *)
Definition ix_remove_st (ix : index) (v : value) (id : nat) : index * bool :=
  match ix_remove ix v id with Ok ix' => (ix', true) | _ => (ix, false) end.

(** indexes.go:112-118, 124-130, 157-163, 167-173: the loops end at the first panic *)
Fixpoint ixs_loop (f : index -> value -> index * bool) (l : list (string * value)) (ixs : gmap string index)
  : gmap string index * bool :=
  match l with
  | [] => (ixs, true)
  | (k, v) :: r =>
      match ixs !! k with
      | None => ixs_loop f r ixs
      | Some ix =>
          let '(ix', b) := f ix v in
          if b then ixs_loop f r (<[k := ix']> ixs) else (<[k := ix']> ixs, false)
      end
  end.
Definition ixs_add_st (ixs : gmap string index) (l : list (string * value)) (id : nat) :=
  ixs_loop (fun ix v => ix_add_st ix v id) l ixs.
Definition ixs_remove_st (ixs : gmap string index) (l : list (string * value)) (id : nat) :=
  ixs_loop (fun ix v => ix_remove_st ix v id) l ixs.

(** graph.go:49-73, 450-453, indexes.go:109-119: the index loop comes last *)
Definition new_node_st (po : porder) (g : graph) (labels : gset string) (p : props) (ord : list string) : graph * bool :=
  let n := g_next g in
  let g1 := bump (set_nodes g (<[n := Node labels p em_empty em_empty]> (g_nodes g))) in
  let '(l, L) := nl_add (g_list g1) (g_nl g1) n in
  let g2 := set_list g1 l L in
  let g3 := set_lab g2 (nm_add (g_lab g2) n labels ord) in
  let '(nix, b) := ixs_add_st (g_nix g3) (po n p) n in
  (set_nix g3 nix, b).

(** graph.go:77-111, indexes.go:156-164 *)
Definition new_edge_st (po : porder) (g : graph) (from to : nat) (label : string) (p : props) : res (graph * bool) :=
  match g_nodes g !! from, g_nodes g !! to with
  | Some _, Some _ =>
      let e := g_next g in
      let g1 := bump (set_edges g (<[e := Edge from to label p]> (g_edges g))) in
      let! g2 := all_add g1 e in
      let! g3 := connect g2 e in
      let '(eix, b) := ixs_add_st (g_eix g3) (po e p) e in
      Ok (set_eix g3 eix, b)
  | _, _ => Ok (g, false)
  end.

(** graph.go:418-434, 535-551, 455-468, 553-566: the old value is removed from the index; then the
    property is set (deleted); then the new value is added to the index.  The second component tells
    whether the property was set (deleted). *)
Definition ix_update_st (ixs : gmap string index) (k : string) (old new : option value) (id : nat)
  : gmap string index * bool * bool :=
  match ixs !! k with
  | None => (ixs, true, true)
  | Some ix =>
      let '(ix1, b1) := match old with Some v => ix_remove_st ix v id | None => (ix, true) end in
      if b1 then
        let '(ix2, b2) := match new with Some v => ix_add_st ix1 v id | None => (ix1, true) end in
        (<[k := ix2]> ixs, true, b2)
      else (<[k := ix1]> ixs, false, false)
  end.

(** graph.go:418-434 *)
Definition set_node_prop_st (g : graph) (n : nat) (k : string) (v : value) : res (graph * bool) :=
  let! nd := deref_node g n in
  let '(nix, w, b) := ix_update_st (g_nix g) k (n_props nd !! k) (Some v) n in
  let p := if (w : bool) then <[k := v]> (n_props nd) else n_props nd in
  Ok (set_nix (set_nodes g (<[n := Node (n_labels nd) p (n_in nd) (n_out nd)]> (g_nodes g))) nix, b).
(** graph.go:455-468 *)
Definition rem_node_prop_st (g : graph) (n : nat) (k : string) : res (graph * bool) :=
  let! nd := deref_node g n in
  match n_props nd !! k with
  | None => Ok (g, true)
  | Some v =>
      let '(nix, w, b) := ix_update_st (g_nix g) k (Some v) None n in
      let p := if (w : bool) then delete k (n_props nd) else n_props nd in
      Ok (set_nix (set_nodes g (<[n := Node (n_labels nd) p (n_in nd) (n_out nd)]> (g_nodes g))) nix, b)
  end.
(** graph.go:535-551 *)
Definition set_edge_prop_st (g : graph) (e : nat) (k : string) (v : value) : res (graph * bool) :=
  let! ed := deref_edge g e in
  let '(eix, w, b) := ix_update_st (g_eix g) k (e_props ed !! k) (Some v) e in
  let p := if (w : bool) then <[k := v]> (e_props ed) else e_props ed in
  Ok (set_eix (set_edges g (<[e := Edge (e_from ed) (e_to ed) (e_label ed) p]> (g_edges g))) eix, b).
(** graph.go:553-566 *)
Definition rem_edge_prop_st (g : graph) (e : nat) (k : string) : res (graph * bool) :=
  let! ed := deref_edge g e in
  match e_props ed !! k with
  | None => Ok (g, true)
  | Some v =>
      let '(eix, w, b) := ix_update_st (g_eix g) k (Some v) None e in
      let p := if (w : bool) then delete k (e_props ed) else e_props ed in
      Ok (set_eix (set_edges g (<[e := Edge (e_from ed) (e_to ed) (e_label ed) p]> (g_edges g))) eix, b)
  end.

(** graph.go:477-481 and 483-487: the edge is out of all lists before the indexes are changed *)
Definition drop_edge_st (po : porder) (g : graph) (e : nat) : res (graph * bool) :=
  let! g1 := disconnect g e in
  let g2 := all_remove g1 e in
  let! ed := deref_edge g2 e in
  let '(eix, b) := ixs_remove_st (g_eix g2) (po e (e_props ed)) e in
  Ok (set_eix g2 eix, b).
Fixpoint drop_edges_st (po : porder) (es : list nat) (g : graph) : res (graph * bool) :=
  match es with
  | [] => Ok (g, true)
  | e :: r =>
      let! x := drop_edge_st po g e in
      if (x.2 : bool) then drop_edges_st po r x.1 else Ok x
  end.
(** graph.go:476-489 *)
Definition detach_node_st (po : porder) (g : graph) (n : nat) : res (graph * bool) :=
  let! nd := deref_node g n in
  let! ins := em_iter (fuel g) (g_l2 g) (n_in nd) in
  let! x1 := drop_edges_st po ins g in
  if (x1.2 : bool) then
    let g1 := x1.1 in
    let! nd1 := deref_node g1 n in
    let g2 := set_nodes g1 (<[n := Node (n_labels nd1) (n_props nd1) em_empty (n_out nd1)]> (g_nodes g1)) in
    let! nd2 := deref_node g2 n in
    let! outs := em_iter (fuel g2) (g_l1 g2) (n_out nd2) in
    let! x3 := drop_edges_st po outs g2 in
    if (x3.2 : bool) then
      let g3 := x3.1 in
      let! nd3 := deref_node g3 n in
      Ok (set_nodes g3 (<[n := Node (n_labels nd3) (n_props nd3) (n_in nd3) em_empty]> (g_nodes g3)), true)
    else Ok x3
  else Ok x1.
(** graph.go:470-474, indexes.go:121-131: the node is out of the list and the label map before the
    property indexes are changed *)
Definition detach_remove_node_st (po : porder) (g : graph) (n : nat) (ord : list string) : res (graph * bool) :=
  let! x := detach_node_st po g n in
  if (x.2 : bool) then
    let g1 := x.1 in
    let! nd := deref_node g1 n in
    let '(l, L) := nl_remove (g_list g1) (g_nl g1) n in
    let g2 := set_list g1 l L in
    let g3 := set_lab g2 (nm_remove (g_lab g2) n (n_labels nd) ord) in
    let '(nix, b) := ixs_remove_st (g_nix g3) (po n (n_props nd)) n in
    Ok (set_nix g3 nix, b)
  else Ok x.

(** indexes.go:47-67, 134-154: the index is in the map before the loop fills it; [get_nodes] (as in
    Graph.v) yields the nodes before the loop, which does not change the list *)
Fixpoint fill_st (prop : nat -> res (option value)) (xs : list nat) (ix : index) : res (index * bool) :=
  match xs with
  | [] => Ok (ix, true)
  | x :: r =>
      let! o := prop x in
      match o with
      | None => fill_st prop r ix
      | Some v =>
          let '(ix', b) := ix_add_st ix v x in
          if b then fill_st prop r ix' else Ok (ix', false)
      end
  end.
Definition add_node_index_st (g : graph) (k : string) (it : index_type) : res (graph * bool) :=
  match g_nix g !! k with
  | Some _ => Ok (g, true)
  | None =>
      let! ns := get_nodes g in
      let! x := fill_st (fun n => let! nd := deref_node g n in Ok (n_props nd !! k)) ns (ix_new it) in
      Ok (set_nix g (<[k := x.1]> (g_nix g)), x.2)
  end.
Definition add_edge_index_st (g : graph) (k : string) (it : index_type) : res (graph * bool) :=
  match g_eix g !! k with
  | Some _ => Ok (g, true)
  | None =>
      let! es := get_edges g in
      let! x := fill_st (fun e => let! ed := deref_edge g e in Ok (e_props ed !! k)) es (ix_new it) in
      Ok (set_eix g (<[k := x.1]> (g_eix g)), x.2)
  end.

(** One call; the panic, if there is one, is recovered.  Labels are not indexed by value: SetLabels,
    SetLabel and Edge.Remove touch no property index. *)
Definition step_st (po : porder) (g : graph) (o : op) : res (graph * bool) :=
  let returns r := let! g' := r in Ok (g', true) in
  match o with
  | ONewNode labels p ord => Ok (new_node_st po g labels p ord)
  | ONewEdge from to label p => new_edge_st po g from to label p
  | OSetLabels n labels ordo ordn => returns (set_labels g n labels ordo ordn)
  | OSetNodeProp n k v => set_node_prop_st g n k v
  | ORemNodeProp n k => rem_node_prop_st g n k
  | ODetach n => detach_node_st po g n
  | ODetachRemove n ord => detach_remove_node_st po g n ord
  | OSetEdgeLabel e label => returns (set_edge_label g e label)
  | OSetEdgeProp e k v => set_edge_prop_st g e k v
  | ORemEdgeProp e k => rem_edge_prop_st g e k
  | ORemoveEdge e => returns (remove_edge g e)
  | OAddNodeIndex k it => add_node_index_st g k it
  | OAddEdgeIndex k it => add_edge_index_st g k it
  end.

(** A program of calls, each with the orders its loops happen to use; every panic is recovered. *)
Definition run_st_from (g : graph) (calls : list (porder * op)) : res graph :=
  rfold (fun g c => let! x := step_st c.1 g c.2 in Ok x.1) calls g.
Definition run_st (calls : list (porder * op)) : res graph := run_st_from new_graph calls.
