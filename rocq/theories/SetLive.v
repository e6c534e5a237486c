(** Iterators over label sets, over hash indexes, and over the nodes or edges with a property, used while the graph
    changes (as in ItrLive.v, the body of the loop runs between two calls of Next).

    The sets and the indexes are container/list lists; FastSet.v and Index.v give every element a handle that is not
    used again in that list.  An iterator keeps a pointer to the element that comes next. *)
From Verif Require Import Base Assoc Value FastSet Links EdgeMap NodeMap Index Graph EdgeMapPtr ItrLive.

(** The elements of the list [l] behind the one with handle [h].  container/list: [Remove] clears the links of the
    element and keeps its value, so that a removed element has no [Next()]. *)
Fixpoint behind (h : nat) (l : list (nat * nat)) : list (nat * nat) :=
  match l with [] => [] | p :: r => if decide (p.1 = h) then r else behind h r end.
(** itr.go:229-246 listIterator: what it would still visit if the list stayed as it is.  [next] has its value even if it
    has been removed. *)
Definition upcoming (l : list (nat * nat)) (next : option (nat * nat)) : list (nat * nat) :=
  match next with None => [] | Some p => p :: behind p.1 l end.
(** itr.go:99-121 filterIterator.Next over a listIterator: what it returns, and [next] of the listIterator then *)
Fixpoint l_next (P : nat -> bool) (l : list (nat * nat)) : option nat * option (nat * nat) :=
  match l with
  | [] => (None, None)
  | p :: r => if P p.2 then (Some p.2, head r) else l_next P r
  end.

(** The loop.  [src g]: the list that the graph holds in the place where the iterator found its list; when it has none
    there, the list has been emptied and dropped ([there = false]), and a list found there later is another one.
    [P]: the filter, evaluated on the graph as it is.  [vis], [body]: as in ItrLive.v. *)
Section loop.
  Context (src : graph -> option (list (nat * nat))) (P : graph -> nat -> bool) (body : list nat -> list op).
  Definition src_step (s : graph * bool) (o : op) : res (graph * bool) :=
    let! g := step s.1 o in Ok (g, s.2 && bool_decide (is_Some (src g))).
  Fixpoint s_loop (fuel : nat) (g : graph) (there : bool) (next : option (nat * nat)) (vis : list nat) : res (list nat * graph) :=
    match fuel with
    | O => Diverge
    | S f =>
        let p := l_next (P g) (upcoming (if there then default [] (src g) else []) next) in
        match p.1 with
        | None => Ok (vis, g)
        | Some x =>
            let! s := rfold src_step (body (vis ++ [x])) (g, there) in
            s_loop f s.1 s.2 p.2 (vis ++ [x])
        end
    end.
End loop.

(** maps.go:186-196, as [nm_min] in NodeMap.v, with the label of the set that is chosen *)
Fixpoint nm_min_label (m : list (string * fastset nat)) (ord : list string) (cur : option (string * fastset nat))
  : option (option (string * fastset nat)) :=
  match ord with
  | [] => Some cur
  | l :: r =>
      match bk_get m l with
      | None => None
      | Some s =>
          let cur' := match cur with
                      | None => Some (l, s)
                      | Some c => if decide (fs_size s < fs_size c.2) then Some (l, s) else Some c
                      end in
          nm_min_label m r cur'
      end
  end.
(** the list of the set of label [l]; maps.go:56-58, 108-110 drop the set when it is empty, 66-70, 86-90 make a new one *)
Definition lab_els (l : string) (g : graph) : option (list (nat * nat)) := fs_l <$> bk_get (nm_m (g_lab g)) l.
(** graph.go:136-138 GetNodesWithAllLabels, maps.go:184-206 IteratorAllLabels *)
Definition labels_loop (fuel : nat) (body : list nat -> list op) (g : graph) (labels : gset string) (ord : list string) : res (list nat * graph) :=
  match nm_min_label (nm_m (g_lab g)) ord None with
  | None => Ok ([], g)
  | Some None => Panic
  | Some (Some (l, s)) =>
      s_loop (lab_els l) (fun g n => bool_decide (labels ⊆ labels_of g n)) body fuel g true (head (fs_l s)) []
  end.

(** [hashIndex.elements]; an index is never replaced (indexes.go:51, 138) *)
Definition hash_els (ixs : gmap string index) (k : string) : option (list (nat * nat)) :=
  match ixs !! k with Some (IHash _ els _) => Some els | _ => None end.
(** itr.go:99-121 filterIterator over the nodeListIterator (list.go:125-138).  [fuel] bounds the number of steps of the
    inner iterator. *)
Fixpoint np_loop (fuel : nat) (P : graph -> nat -> bool) (body : list nat -> list op) (g : graph) (next : option nat) (vis : list nat)
  : res (list nat * graph) :=
  match fuel with
  | O => Diverge
  | S f =>
      match next with
      | None => Ok (vis, g)
      | Some n =>
          let next' := el_next (lk (g_nl g) n) in
          if P g n then
            let! g' := rfold step (body (vis ++ [n])) g in
            np_loop f P body g' next' (vis ++ [n])
          else np_loop f P body g next' vis
      end
  end.
(** graph.go:173-189 GetNodesWithProperty, for a property without index *)
Definition scan_loop (fuel : nat) (body : list nat -> list op) (g : graph) (k : string) : res (list nat * graph) :=
  np_loop fuel (fun g n => bool_decide (is_Some (node_prop g n k))) body g (ll_head (g_list g)) [].
(** graph.go:173-176 and 197-200, GetNodesWithProperty and GetEdgesWithProperty, for a property with a hash index
    (indexes.go:89-107, hashindex.go:80-85).  [ixs]: the node or the edge indexes.  The iterator of a B-tree
    index is one of the gods library, and is not modelled for graphs that change. *)
Definition hash_loop (ixs : graph -> gmap string index) (fuel : nat) (body : list nat -> list op) (g : graph) (k : string) : res (list nat * graph) :=
  s_loop (fun g => hash_els (ixs g) k) (fun _ _ => true) body fuel g true (head (default [] (hash_els (ixs g) k))) [].
(** itr.go:99-121 filterIterator over the iterator of GetEdges (ItrLive.v).  [P]: the filter, on the graph as it is. *)
Fixpoint xf_loop (fuel : nat) (P : graph -> nat -> bool) (body : list nat -> list op) (x : xgraph) (its : xitrs) (vis : list nat)
  : res (list nat * xgraph) :=
  match fuel with
  | O => Diverge
  | S f =>
      let! p := xs_next (x_a x) its in
      match p.1 with
      | None => Ok (vis, x)
      | Some e =>
          if P (x_g x) e then
            let! x' := rfold x_step (body (vis ++ [e])) x in
            xf_loop f P body x' p.2 (vis ++ [e])
          else xf_loop f P body x p.2 vis
      end
  end.
(** graph.go:197-214 GetEdgesWithProperty, for a property without index *)
Definition escan_loop (fuel : nat) (body : list nat -> list op) (x : xgraph) (k : string) : res (list nat * xgraph) :=
  let! its := x_graph_edges x QAll in xf_loop fuel (fun g e => bool_decide (is_Some (edge_prop g e k))) body x its [].
