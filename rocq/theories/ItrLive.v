(** Edge and node iterators used while the graph changes: the body of the loop
      [for itr.Next() { ... itr.Edge() ... }]
    runs between two calls of Next, and may call any method of the graph.  The iterators keep what the Go objects keep
    (pointers into the lists, EdgeMapPtr.v), and Next reads the graph as it then is. *)
From Verif Require Import Base Value Links EdgeMap Graph EdgeMapPtr.

(** An edge iterator between two calls of Next.  The [current] fields are what Next returned last; MaxSize is not
    modelled here (Sizes.v). *)
Inductive xitr :=
| XEmpty                                        (* itr.go:93-97 emptyIterator *)
| XSingle (e : option nat) (over : bool)        (* edgemap.go:109-124 singleEdgeIterator *)
| XList (next : option nat)                     (* list.go:60-73 edgeListIterator *)
| XAll (lnext next : option nat)                (* edgemap.go:188-193 allEdgesItr: labelListNext, next *)
| XAny (lab : option nat) (strings : list string) (cur : option (option nat)).
    (* edgemap.go:171-185 with itr.go:157-161 funcIterator: [em.labelMap] of the copy of the edge map that the closure
       holds, the labels left, and [next] of the current edgeListIterator if there is one *)

(** edgemap.go:195-211 allEdgesItr.Next *)
Fixpoint all_next (fuel : nat) (h : xheap) (L : links) (lnext next : option nat) : res (option nat * xitr) :=
  match next with
  | Some e => Ok (Some e, XAll lnext (el_next (lk L e)))
  | None =>
      match lnext with
      | None => Ok (None, XAll None None)
      | Some el =>
          match fuel with
          | O => Diverge
          | S f => all_next f h L (elem_next h el) (ll_head (elem_list h el))
          end
      end
  end.
(** itr.go:163-176 and edgemap.go:173-183, when the current iterator is exhausted.  iteratorLabel (145-158) is called
    on the copy of the edge map, where [n] is at least 2. *)
Fixpoint any_next (h : xheap) (L : links) (lab : option nat) (strings : list string) : option nat * xitr :=
  match strings with
  | [] => (None, XAny lab [] None)
  | s :: r =>
      match lab_get h lab s with
      | None => any_next h L lab r
      | Some el =>
          match ll_head (elem_list h el) with
          | Some e => (Some e, XAny lab r (Some (el_next (lk L e))))
          | None => any_next h L lab r
          end
      end
  end.
(** Next, and the edge then returned by Edge(); [Panic]: that edge is nil and the body dereferences it.
    [L]: the link fields with the index of the iterator.  [xh_next] bounds the number of elements of a list. *)
Definition x_next (h : xheap) (L : links) (it : xitr) : res (option nat * xitr) :=
  match it with
  | XEmpty => Ok (None, XEmpty)
  | XSingle e true => Ok (None, XSingle e true)
  | XSingle (Some e) false => Ok (Some e, XSingle (Some e) true)
  | XSingle None false => Panic
  | XList None => Ok (None, XList None)
  | XList (Some e) => Ok (Some e, XList (el_next (lk L e)))
  | XAll lnext next => all_next (xh_next h) h L lnext next
  | XAny lab r (Some (Some e)) => Ok (Some e, XAny lab r (Some (el_next (lk L e))))
  | XAny lab r _ => Ok (any_next h L lab r)
  end.

(** which edges of an edge map are asked for *)
Inductive query := QAll | QLabel (l : string) | QAny (ord1 ord2 : list string).
(** edgemap.go:126-143 iterator; [Panic]: nil list *)
Definition x_iter (h : xheap) (m : xmap) : res xitr :=
  if decide (xm_n m = 0)%Z then Ok XEmpty
  else if decide (xm_n m = 1)%Z then Ok (XSingle (xm_only m) false)
  else
    match xm_list m with
    | None => Panic
    | Some a =>
        match head (default [] (xh_lists h !! a)) with
        | Some el => Ok (XAll (elem_next h el) (ll_head (elem_list h el)))
        | None => Ok (XAll None None)
        end
    end.
(** edgemap.go:145-158 iteratorLabel; [Panic]: [em.only] is nil *)
Definition x_iter_label (lb : nat -> string) (h : xheap) (m : xmap) (l : string) : res xitr :=
  if decide (xm_n m = 0)%Z then Ok XEmpty
  else
    let rest := match lab_get h (xm_lab m) l with
                | None => XEmpty
                | Some el => XList (ll_head (elem_list h el))
                end in
    if decide (xm_n m = 1)%Z then
      match xm_only m with
      | None => Panic
      | Some e => Ok (if decide (l = lb e) then XSingle (Some e) false else rest)
      end
    else Ok rest.
(** edgemap.go:160-186 iteratorAnyLabel; [ord]: the order of [labels.Slice()] *)
Definition x_iter_any (lb : nat -> string) (h : xheap) (m : xmap) (ord : list string) : res xitr :=
  if decide (xm_n m = 0)%Z then Ok XEmpty
  else if decide (xm_n m = 1)%Z then
    match xm_only m with
    | None => Panic
    | Some e => Ok (if decide (lb e ∈ ord) then XSingle (Some e) false else XEmpty)
    end
  else Ok (XAny (xm_lab m) ord None).

(** An iterator over the edges of one or two edge maps, one after the other.  node.go:65-66, 78-79, 96-98:
    MultiIterator over iterators that are all made before the loop starts; an iterator over one edge map is
    here the same with one component. *)
Notation xitrs := (list (owner * xitr)) (only parsing).
Definition x_iterator (x : xgraph) (o : owner) (q : query) : res xitr :=
  let h := st_h (x_a x) in
  let m := st_map (x_a x) o in
  match q with
  | QAll => x_iter h m
  | QLabel l => x_iter_label (lbl (x_g x)) h m l
  | QAny ord1 ord2 =>
      (* node.go:86-88, 91-93; Graph.GetEdgesWithAnyLabel (graph.go:153-155) has no such test *)
      match o with
      | OAll => x_iter_any (lbl (x_g x)) h m ord1
      | OIn _ => if decide (ord1 = []) then x_iter h m else x_iter_any (lbl (x_g x)) h m ord1
      | OOut _ => if decide (ord2 = []) then x_iter h m else x_iter_any (lbl (x_g x)) h m ord2
      end
  end.
(** node.go:57-67, 70-80, 83-99 *)
Definition x_node_edges (x : xgraph) (n : nat) (d : dir) (q : query) : res xitrs :=
  rmap (fun o => let! it := x_iterator x o q in Ok (o, it))
    match d with Incoming => [OIn n] | Outgoing => [OOut n] | AnyDir => [OIn n; OOut n] end.
(** graph.go:144-146, 153-155 *)
Definition x_graph_edges (x : xgraph) (q : query) : res xitrs :=
  let! it := x_iterator x OAll q in Ok [(OAll, it)].

(** itr.go:163-176, 182-193 *)
Fixpoint xs_next (a : store) (its : xitrs) : res (option nat * xitrs) :=
  match its with
  | [] => Ok (None, [])
  | (o, it) :: r =>
      let! p := x_next (st_h a) (st_links a o) it in
      match p.1 with
      | Some e => Ok (Some e, (o, p.2) :: r)
      | None => xs_next a r
      end
  end.
(** The loop.  [vis]: the edges visited so far; [body vis]: the calls made by the body of the loop after visiting the
    last edge of [vis].  (What the body does can depend on all it has seen; the graph at the start is fixed.)
    Result: the edges visited, and the graph at the end. *)
Fixpoint x_loop (fuel : nat) (body : list nat -> list op) (x : xgraph) (its : xitrs) (vis : list nat) : res (list nat * xgraph) :=
  match fuel with
  | O => Diverge
  | S f =>
      let! p := xs_next (x_a x) its in
      match p.1 with
      | None => Ok (vis, x)
      | Some e =>
          let! x' := rfold x_step (body (vis ++ [e])) x in
          x_loop f body x' p.2 (vis ++ [e])
      end
  end.
(** a loop over the edges of a node, or all edges *)
Definition node_loop (fuel : nat) (body : list nat -> list op) (x : xgraph) (n : nat) (d : dir) (q : query) : res (list nat * xgraph) :=
  let! its := x_node_edges x n d q in x_loop fuel body x its [].
Definition graph_loop (fuel : nat) (body : list nat -> list op) (x : xgraph) (q : query) : res (list nat * xgraph) :=
  let! its := x_graph_edges x q in x_loop fuel body x its [].

(** The same for graph.go:127-129 GetNodes: list.go:125-138 nodeListIterator. *)
Fixpoint n_loop (fuel : nat) (body : list nat -> list op) (g : graph) (next : option nat) (vis : list nat) : res (list nat * graph) :=
  match fuel with
  | O => Diverge
  | S f =>
      match next with
      | None => Ok (vis, g)
      | Some n =>
          let next' := el_next (lk (g_nl g) n) in
          let! g' := rfold step (body (vis ++ [n])) g in
          n_loop f body g' next' (vis ++ [n])
      end
  end.
Definition nodes_loop (fuel : nat) (body : list nat -> list op) (g : graph) : res (list nat * graph) :=
  n_loop fuel body g (ll_head (g_list g)) [].
