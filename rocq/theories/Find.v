(** Model of graph.go:216-411: FindNodes, FindEdges and the filter functions. *)
From Verif Require Import Base Value FastSet EdgeMap NodeMap Index Graph.

(** graph.go:368-379, 398-409: the loop over the requested properties; [get] is
    [node.GetProperty], [l] the requested properties in the order Go's map iteration happens to
    produce.  A panic of ComparePropertyValue is recovered and gives false (lines 363-367, 393-397). *)
Fixpoint props_match (get : string -> option value) (l : list (string * value)) : bool :=
  match l with
  | [] => true
  | (k, v) :: r =>
      let nv := default VNil (get k) in
      if decide (get k = None /\ v <> VNil) then false
      else match compare_value v nv with
           | Some Eq => props_match get r
           | _ => false
           end
  end.
(** graph.go:356-381 GetNodeFilterFunc *)
Definition node_filter (g : graph) (labels : gset string) (l : list (string * value)) (n : nat) : bool :=
  if decide (labels <> ∅ /\ ~ labels ⊆ labels_of g n) then false
  else props_match (node_prop g n) l.
(** graph.go:386-411 GetEdgeFilterFunc *)
Definition edge_filter (g : graph) (labels : gset string) (l : list (string * value)) (e : nat) : bool :=
  if decide (labels <> ∅ /\ lbl g e ∉ labels) then false
  else props_match (edge_prop g e) l.

(** graph.go:232-241, 301-310: the iterators for the indexed properties among the requested ones;
    [ord]: iteration order of [properties] *)
Definition prop_iters (ixs : gmap string index) (p : props) (ord : list string)
  : res (gmap string (list nat * Z)) :=
  rfold (fun m k =>
    match p !! k, ixs !! k with
    | Some v, Some ix => let! r := ix_find ix v in Ok (<[k := r]> m)
    | _, _ => Ok m
    end) ord ∅.
(** graph.go:242-253, 311-322: the one with the smallest MaxSize; [ord]: iteration order of
    [propertyIterators] *)
Definition min_iter (m : gmap string (list nat * Z)) (ord : list string) : option (list nat * Z) :=
  fold_left (fun cur k =>
    match m !! k with
    | None => cur
    | Some (xs, sz) =>
        if decide (sz = -1)%Z then cur
        else match cur with
             | None => Some (xs, sz)
             | Some (_, sz0) => if decide (sz < sz0)%Z then Some (xs, sz) else cur
             end
    end) ord None.
(** graph.go:255-281, 324-350: which iterator is filtered and returned *)
Definition choose (lab : list nat * Z) (best : option (list nat * Z)) (flt : nat -> bool) (all : res (list nat * Z))
  : res (list nat * Z) :=
  let by_label :=
    match best with
    | None => bool_decide (lab.2 <> -1)%Z
    | Some (_, sz) => bool_decide (lab.2 <> -1 /\ lab.2 < sz)%Z
    end in
  if by_label then Ok (filter (fun n => flt n = true) lab.1, lab.2)
  else match best with
       | Some (xs, sz) => Ok (filter (fun n => flt n = true) xs, sz)
       | None => all
       end.

(** graph.go:220-282 FindNodes: elements and MaxSize.
    [lord]: iteration order of [allLabels]; [pord], [qord]: iteration orders of the property maps
    (in [qord] keys without iterator are skipped); [ford n]: order in the filter call for [n].
    [Panic] without labels: MaxSize of the nil [nodesByLabelItr], line 231. *)
Definition find_nodes (g : graph) (labels : gset string) (p : props)
    (lord pord qord : list string) (ford : nat -> list (string * value)) : res (list nat * Z) :=
  let all := let! ns := get_nodes g in Ok (ns, num_nodes g) in
  if decide (labels = ∅ /\ p = ∅) then all
  else if decide (labels = ∅) then Panic
  else
    let! lab := get_nodes_all_labels g labels lord in
    let! its := prop_iters (g_nix g) p pord in
    choose lab (min_iter its qord) (fun n => node_filter g labels (ford n) n) all.

(** graph.go:289-351 FindEdges *)
Definition find_edges (g : graph) (labels : gset string) (p : props)
    (lord pord qord : list string) (ford : nat -> list (string * value)) : res (list nat * Z) :=
  let all := let! es := get_edges g in Ok (es, em_iter_size (g_all g)) in
  if decide (labels = ∅ /\ p = ∅) then all
  else if decide (labels = ∅) then Panic
  else
    let! lab := get_edges_any_label g lord in
    let! its := prop_iters (g_eix g) p pord in
    choose (lab, em_iter_any_size (lbl g) (g_all g) lord) (min_iter its qord)
           (fun e => edge_filter g labels (ford e) e) all.
