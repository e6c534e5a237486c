(** Model of edgemap.go with its list and map objects: the edge map of EdgeMap.v has one association list for
    [edgeLabelLists] and [labelMap]; here these are objects of a heap, to which iterators hold pointers. *)
From Verif Require Import Base Value Links EdgeMap Graph.

(** edgemap.go:26-34 [edgeMap]: pointers to the list and the map (both nil until lazyInit) *)
Record xmap := XM { xm_list : option nat; xm_lab : option nat; xm_only : option nat; xm_n : Z }.
Definition xm_empty : xmap := XM None None None 0.
(** The heap of list.List, list.Element and map objects.  edgemap.go:21-24: the value of an
    element is a pointer to an edgeLabelList that no one else points to; its field [elem] is that element. *)
Record xheap := XH {
  xh_next : nat;                            (* next free address *)
  xh_lists : gmap nat (list nat);           (* List: its elements, front to back *)
  xh_in : gmap nat nat;                     (* Element.list; no entry: nil *)
  xh_ell : gmap nat llist;                  (* field edges of Element.Value *)
  xh_maps : gmap nat (gmap string nat)      (* map objects *)
}.
Definition xh_new : xheap := XH 0 ∅ ∅ ∅ ∅.

(** container/list Element.Next: nil for a removed element *)
Fixpoint succ_in (el : nat) (els : list nat) : option nat :=
  match els with [] => None | x :: r => if decide (x = el) then head r else succ_in el r end.
Definition elem_next (h : xheap) (el : nat) : option nat :=
  match xh_in h !! el with
  | Some a => match xh_lists h !! a with Some els => succ_in el els | None => None end
  | None => None
  end.
(** the edges of an element *)
Definition elem_list (h : xheap) (el : nat) : llist := default ll_empty (xh_ell h !! el).
Definition set_elem (h : xheap) (el : nat) (l : llist) : xheap :=
  XH (xh_next h) (xh_lists h) (xh_in h) (<[el := l]> (xh_ell h)) (xh_maps h).
(** container/list Remove *)
Definition list_remove (h : xheap) (a el : nat) : xheap :=
  XH (xh_next h) (alter (filter (fun x => x <> el)) a (xh_lists h)) (delete el (xh_in h)) (xh_ell h) (xh_maps h).
(** [m[l]]; reading a nil map gives nil *)
Definition lab_get (h : xheap) (c : option nat) (l : string) : option nat :=
  match c with
  | Some c => match xh_maps h !! c with Some mp => mp !! l | None => None end
  | None => None
  end.
Definition lab_delete (h : xheap) (c : nat) (l : string) : xheap :=
  XH (xh_next h) (xh_lists h) (xh_in h) (xh_ell h) (alter (delete l) c (xh_maps h)).

(** edgemap.go:36-39 *)
Definition x_lazy_init (h : xheap) (m : xmap) : xheap * xmap :=
  let a := xh_next h in
  (XH (S (S a)) (<[a := []]> (xh_lists h)) (xh_in h) (xh_ell h) (<[S a := ∅]> (xh_maps h)),
   XM (Some a) (Some (S a)) (xm_only m) (xm_n m)).

Section with_labels.
  (** [e.label] in the heap *)
  Variable lbl : nat -> string.

  (** edgemap.go:48-60; [Panic]: nil list or nil map *)
  Definition x_do_add (h : xheap) (m : xmap) (L : links) (e : nat) : res (xheap * links) :=
    match lab_get h (xm_lab m) (lbl e) with
    | None =>
        match xm_list m, xm_lab m with
        | Some a, Some c =>
            let el := xh_next h in
            let '(l', L') := el_add ll_empty L e in
            Ok (XH (S el) (alter (fun els => els ++ [el]) a (xh_lists h)) (<[el := a]> (xh_in h)) (<[el := l']> (xh_ell h))
                   (alter (insert (lbl e) el) c (xh_maps h)), L')
        | _, _ => Panic
        end
    | Some el =>
        let '(l', L') := el_add (elem_list h el) L e in Ok (set_elem h el l', L')
    end.
  (** edgemap.go:41-71 *)
  Definition x_add (h : xheap) (m : xmap) (L : links) (e : nat) : res (xheap * xmap * links) :=
    if decide (xm_n m = 0)%Z then Ok (h, XM (xm_list m) (xm_lab m) (Some e) 1, L)
    else if decide (xm_n m = 1)%Z then
      let '(h1, m1) := x_lazy_init h m in
      match xm_only m1 with
      | None => Panic
      | Some o =>
          let! r := x_do_add h1 m1 L o in
          let m2 := XM (xm_list m1) (xm_lab m1) None (xm_n m1) in
          let! r' := x_do_add r.1 m2 r.2 e in
          Ok (r'.1, XM (xm_list m2) (xm_lab m2) None 2, r'.2)
      end
    else
      let! r := x_do_add h m L e in
      Ok (r.1, XM (xm_list m) (xm_lab m) (xm_only m) (xm_n m + 1), r.2).

  (** edgemap.go:73-103.  Line 98 ranges over the map in any order; there is one entry (the counters of the lists are
      positive and add up to [n]). *)
  Definition x_remove (h : xheap) (m : xmap) (L : links) (e : nat) : xheap * xmap * links :=
    if decide (xm_n m = 0)%Z then (h, m, L)
    else if decide (xm_n m = 1)%Z then
      if decide (Some e = xm_only m) then (h, XM (xm_list m) (xm_lab m) None 0, L) else (h, m, L)
    else
      match lab_get h (xm_lab m) (lbl e) with
      | None => (h, m, L)
      | Some el =>
          let '(l', L') := el_remove (elem_list h el) L e in
          let h1 := set_elem h el l' in
          let h2 := if decide (ll_n l' = 0)%Z then
                      match xm_list m, xm_lab m with
                      | Some a, Some c => lab_delete (list_remove h1 a el) c (lbl e)
                      | _, _ => h1
                      end
                    else h1 in
          let n' := (xm_n m - 1)%Z in
          if decide (n' = 1)%Z then
            let entries := match xm_lab m with Some c => default ∅ (xh_maps h2 !! c) | None => ∅ end in
            let only := fold_left (fun _ p => ll_head (elem_list h2 p.2)) (map_to_list entries) (xm_only m) in
            let '(h3, m3) := x_lazy_init h2 m in
            (h3, XM (xm_list m3) (xm_lab m3) only n', L')
          else (h2, XM (xm_list m) (xm_lab m) (xm_only m) n', L')
      end.
End with_labels.

(** EdgeSlice(em.iterator(ix)), itr.go:59-65: the iterator is drained before anything changes (edgemap.go:126-143,
    195-211) *)
Definition x_slice (fuel : nat) (h : xheap) (L : links) (m : xmap) : res (list nat) :=
  if decide (xm_n m = 0)%Z then Ok []
  else if decide (xm_n m = 1)%Z then match xm_only m with Some e => Ok [e] | None => Panic end
  else
    match xm_list m with
    | Some a =>
        let! ls := rmap (fun el => walk fuel L (ll_head (elem_list h el))) (default [] (xh_lists h !! a)) in Ok (concat ls)
    | None => Panic
    end.

(** ** The edge maps of a graph *)
(** an edge map: Graph.allEdges, Node.outgoing, Node.incoming *)
Inductive owner := OAll | OOut (n : nat) | OIn (n : nat).
Global Instance owner_eq : EqDecision owner.
Proof. solve_decision. Defined.
(** all edge maps, the objects they point to, and the link fields of the edges (list.go:23-26, edge.go:28-31) *)
Record store := Store {
  st_h : xheap; st_all : xmap; st_out : gmap nat xmap; st_in : gmap nat xmap;
  st_l0 : links; st_l1 : links; st_l2 : links
}.
Definition st_new : store := Store xh_new xm_empty ∅ ∅ ∅ ∅ ∅.
Definition st_map (a : store) (o : owner) : xmap :=
  match o with
  | OAll => st_all a
  | OOut n => default xm_empty (st_out a !! n)
  | OIn n => default xm_empty (st_in a !! n)
  end.
Definition st_links (a : store) (o : owner) : links :=
  match o with OAll => st_l0 a | OOut _ => st_l1 a | OIn _ => st_l2 a end.
Definition st_put (a : store) (o : owner) (h : xheap) (m : xmap) (L : links) : store :=
  match o with
  | OAll => Store h m (st_out a) (st_in a) L (st_l1 a) (st_l2 a)
  | OOut n => Store h (st_all a) (<[n := m]> (st_out a)) (st_in a) (st_l0 a) L (st_l2 a)
  | OIn n => Store h (st_all a) (st_out a) (<[n := m]> (st_in a)) (st_l0 a) (st_l1 a) L
  end.
Definition st_add (lb : nat -> string) (a : store) (o : owner) (e : nat) : res store :=
  let! r := x_add lb (st_h a) (st_map a o) (st_links a o) e in Ok (st_put a o r.1.1 r.1.2 r.2).
Definition st_remove (lb : nat -> string) (a : store) (o : owner) (e : nat) : store :=
  let r := x_remove lb (st_h a) (st_map a o) (st_links a o) e in st_put a o r.1.1 r.1.2 r.2.
(** graph.go:514-517 *)
Definition st_connect (lb : nat -> string) (a : store) (ed : edge) (e : nat) : res store :=
  let! a1 := st_add lb a (OIn (e_to ed)) e in st_add lb a1 (OOut (e_from ed)) e.
(** graph.go:519-522 *)
Definition st_disconnect (lb : nat -> string) (a : store) (ed : edge) (e : nat) : store :=
  st_remove lb (st_remove lb a (OIn (e_to ed)) e) (OOut (e_from ed)) e.
(** graph.go:530-533, 478-479 *)
Definition st_drop (g : graph) (a : store) (e : nat) : res store :=
  let! ed := deref_edge g e in Ok (st_remove (lbl g) (st_disconnect (lbl g) a ed e) OAll e).
(** graph.go:476-489 *)
Definition st_detach (g : graph) (a : store) (n : nat) : res store :=
  let! ins := x_slice (fuel g) (st_h a) (st_l2 a) (st_map a (OIn n)) in
  let! a1 := rfold (st_drop g) ins a in
  let a2 := st_put a1 (OIn n) (st_h a1) xm_empty (st_l2 a1) in
  let! outs := x_slice (fuel g) (st_h a2) (st_l1 a2) (st_map a2 (OOut n)) in
  let! a3 := rfold (st_drop g) outs a2 in
  Ok (st_put a3 (OOut n) (st_h a3) xm_empty (st_l1 a3)).

(** The effect of the calls of Graph.v on the edge maps; [g], [g']: the graph before and after. *)
Definition st_step (g g' : graph) (a : store) (o : op) : res store :=
  match o with
  | ONewEdge from to label p =>
      let! a1 := st_add (lbl g') a OAll (g_next g) in
      st_connect (lbl g') a1 (Edge from to label p) (g_next g)
  | OSetEdgeLabel e label =>
      let! ed := deref_edge g e in
      if decide (label = e_label ed) then Ok a
      else st_connect (lbl g') (st_disconnect (lbl g) a ed e) ed e
  | ORemoveEdge e => st_drop g a e
  | ODetach n | ODetachRemove n _ => st_detach g a n
  | _ => Ok a
  end.
(** a graph with its edge maps in both representations *)
Record xgraph := XG { x_g : graph; x_a : store }.
Definition x_new : xgraph := XG new_graph st_new.
Definition x_step (x : xgraph) (o : op) : res xgraph :=
  let! g' := step (x_g x) o in
  let! a' := st_step (x_g x) g' (x_a x) o in Ok (XG g' a').
Definition x_run (ops : list op) : res xgraph := rfold x_step ops x_new.
