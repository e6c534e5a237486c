(** Model of path.go at the level of memory: the elements of a path are a Go slice, and slices may
    share an array.  Path.v is the model with paths as values; C57 relates the two. *)
From Verif Require Import Base Graph Sizes Path.

(** Go slices of path elements: array, offset, length, capacity.  A nil slice has capacity 0. *)
Record slice := Slice { sl_arr : nat; sl_off : nat; sl_len : nat; sl_cap : nat }.
Definition nil_slice : slice := Slice 0 0 0 0.
(** the arrays, and the address of the next one *)
Record pheap := PHeap { ph_arr : gmap nat (list pelem); ph_next : nat }.
Definition array (h : pheap) (a : nat) : list pelem := default [] (ph_arr h !! a).
(** the contents of a slice *)
Definition sl_read (h : pheap) (s : slice) : list pelem := take (sl_len s) (drop (sl_off s) (array h (sl_arr s))).
(** a new array with [xs], followed by [extra] further places: a literal, or make and copy *)
Definition sl_make (h : pheap) (xs : list pelem) (extra : nat) : pheap * slice :=
  (PHeap (<[ph_next h := xs ++ replicate extra (PE 0 false)]> (ph_arr h)) (S (ph_next h)),
   Slice (ph_next h) 0 (length xs) (length xs + extra)).
(** overwrite places of an array from [i] on *)
Definition overwrite (l : list pelem) (i : nat) (xs : list pelem) : list pelem := take i l ++ xs ++ drop (i + length xs) l.
Definition sl_write (h : pheap) (s : slice) (i : nat) (xs : list pelem) : pheap :=
  PHeap (<[sl_arr s := overwrite (array h (sl_arr s)) (sl_off s + i) xs]> (ph_arr h)) (ph_next h).
(** append(s, xs...): in place if the capacity allows, otherwise into a new array, whose size Go does
    not specify ([extra]) *)
Definition sl_append (h : pheap) (s : slice) (xs : list pelem) (extra : nat) : pheap * slice :=
  if decide (sl_len s + length xs <= sl_cap s) then
    (sl_write h s (sl_len s) xs, Slice (sl_arr s) (sl_off s) (sl_len s + length xs) (sl_cap s))
  else sl_make h (sl_read h s ++ xs) extra.
(** s[i:j] *)
Definition sl_slice (s : slice) (i j : nat) : res slice :=
  if decide (i <= j /\ j <= sl_cap s) then Ok (Slice (sl_arr s) (sl_off s + i) (j - i) (sl_cap s - i)) else Panic.

(** path.go:23-26 *)
Record mpath := MPath { mp_only : option nat; mp_path : slice }.
Definition mp_view (h : pheap) (p : mpath) : path := Path (mp_only p) (sl_read h (mp_path p)).

Section ends.
  Variables from to : nat -> nat.
  (** path.go:116-142 *)
  Definition mp_append (h : pheap) (p : mpath) (els : list pelem) (extra : nat) : res (pheap * mpath) :=
    if decide (els = []) then Ok (h, p)
    else if decide (num_path_nodes (mp_view h p) = 0)%Z then
      let r := sl_make h els 0 in Ok (r.1, MPath (mp_only p) r.2)
    else
      match path_last from to (mp_view h p) with
      | None => Panic
      | Some l =>
          if links_up from to l els then let r := sl_append h (mp_path p) els extra in Ok (r.1, MPath None r.2) else Panic
      end.
  (** path.go:146-167 *)
  Definition mp_append_path (h : pheap) (p q : mpath) (extra : nat) : res (pheap * mpath * mpath) :=
    let n := num_path_nodes (mp_view h p) in
    let m := num_path_nodes (mp_view h q) in
    if decide (n = 0)%Z then
      let r := sl_make h (sl_read h (mp_path q)) 0 in Ok (r.1, MPath (mp_only p) r.2, q)
    else if decide (n = 1)%Z then
      let! r := mp_append h (MPath None (mp_path p)) (sl_read h (mp_path q)) extra in Ok (r, q)
    else if decide (m = 0)%Z then Ok (h, p, q)
    else
      let q' := if decide (m = 1)%Z then MPath None (mp_path q) else q in
      let! r := mp_append h p (sl_read h (mp_path q)) extra in Ok (r, q').
  (** path.go:259-290 *)
  Definition mp_slice (h : pheap) (p : mpath) (i j : Z) : res (pheap * mpath) :=
    let n := num_path_nodes (mp_view h p) in
    if decide (n = 0)%Z then Panic
    else if decide (i = 0 /\ j = 0)%Z then Ok (h, MPath (path_first from to (mp_view h p)) nil_slice)
    else if decide (i > n)%Z then Panic
    else
      let j' := if decide (j > n \/ j = -1)%Z then n else j in
      if decide (j' < i)%Z then Panic
      else if decide (i = j')%Z then
        let! x := pe_at (mp_view h p) i in Ok (h, MPath (Some (pe_src from to x)) nil_slice)
      else if decide (i = n - 1)%Z then Ok (h, MPath (path_last from to (mp_view h p)) nil_slice)
      else if decide (i < 0)%Z then Panic
      else
        let r := sl_make h (take (Z.to_nat (j' - i - 1)) (drop (Z.to_nat i) (sl_read h (mp_path p)))) 0 in
        Ok (r.1, MPath None r.2).
End ends.
(** path.go:295-305, 309-319 *)
Definition mp_remove_last (g : graph) (h : pheap) (p : mpath) : res (graph * mpath) :=
  match mp_only p with
  | Some _ => Ok (g, MPath None (mp_path p))
  | None =>
      match last (sl_read h (mp_path p)) with
      | Some x =>
          let! g' := remove_edge g (pe_edge x) in
          let! s := sl_slice (mp_path p) 0 (sl_len (mp_path p) - 1) in Ok (g', MPath None s)
      | None => Ok (g, p)
      end
  end.
Definition mp_remove_first (g : graph) (h : pheap) (p : mpath) : res (graph * mpath) :=
  match mp_only p with
  | Some _ => Ok (g, MPath None (mp_path p))
  | None =>
      match head (sl_read h (mp_path p)) with
      | Some x =>
          let! g' := remove_edge g (pe_edge x) in
          let! s := sl_slice (mp_path p) 1 (sl_len (mp_path p)) in Ok (g', MPath None s)
      | None => Ok (g, p)
      end
  end.

(** Programs with variables for paths ([x], [y]) and for slices of elements ([v], [w]).  A path
    variable stands for one Path object. *)
Inductive pm_op :=
| PNew (x v : nat)                              (* x = NewPathFromElements(v...) *)
| PNewLit (x : nat) (els : list pelem)          (* x = NewPathFromElements(a, b, c) *)
| PFromNode (x n : nat)                         (* x = PathFromNode(n); x.SetOnlyNode(n) *)
| PClear (x : nat)                              (* x = &Path{}; x.Clear() *)
| PClone (x y : nat)                            (* x = y.Clone() *)
| PAppend (x : nat) (els : list pelem) (extra : nat)   (* x.Append(a, b, c) *)
| PAppendSlice (x v : nat) (extra : nat)        (* x.Append(v...) *)
| PAppendPath (x y : nat) (extra : nat)         (* x.AppendPath(y) *)
| PSlice (x y : nat) (i j : Z)                  (* x = y.Slice(i, j) *)
| PRemoveLast (x : nat)
| PRemoveFirst (x : nat)
| SMake (v : nat) (els : list pelem) (extra : nat)     (* v = a literal, NewPathElementsFromEdges(es), or make *)
| SSlice (v w : nat) (i j : nat)                (* v = w[i:j] *)
| SSet (v i : nat) (el : pelem)                 (* v[i] = el *)
| SAppend (v w : nat) (els : list pelem) (extra : nat).  (* v = append(w, a, b, c) *)

Record pm_state := PM { pm_graph : graph; pm_heap : pheap; pm_path : gmap nat mpath; pm_slice : gmap nat slice }.
Definition pm_init (g : graph) : pm_state := PM g (PHeap ∅ 0) ∅ ∅.
(** variables start as &Path{} and nil *)
Definition pm_var (s : pm_state) (x : nat) : mpath := default (MPath None nil_slice) (pm_path s !! x).
Definition pm_sl (s : pm_state) (v : nat) : slice := default nil_slice (pm_slice s !! v).
Definition put_path (s : pm_state) (x : nat) (hp : pheap * mpath) : pm_state :=
  PM (pm_graph s) hp.1 (<[x := hp.2]> (pm_path s)) (pm_slice s).
Definition put_slice (s : pm_state) (v : nat) (hs : pheap * slice) : pm_state :=
  PM (pm_graph s) hs.1 (pm_path s) (<[v := hs.2]> (pm_slice s)).
Definition pm_step (s : pm_state) (o : pm_op) : res pm_state :=
  let h := pm_heap s in
  let from := edge_from (pm_graph s) in
  let to := edge_to (pm_graph s) in
  match o with
  | PNew x v => Ok (put_path s x (h, MPath None (pm_sl s v)))
  | PNewLit x els => let r := sl_make h els 0 in Ok (put_path s x (r.1, MPath None r.2))
  | PFromNode x n => Ok (put_path s x (h, MPath (Some n) nil_slice))
  | PClear x => Ok (put_path s x (h, MPath None nil_slice))
  | PClone x y =>
      let r := sl_make h (sl_read h (mp_path (pm_var s y))) 0 in Ok (put_path s x (r.1, MPath (mp_only (pm_var s y)) r.2))
  | PAppend x els extra => let! r := mp_append from to h (pm_var s x) els extra in Ok (put_path s x r)
  | PAppendSlice x v extra => let! r := mp_append from to h (pm_var s x) (sl_read h (pm_sl s v)) extra in Ok (put_path s x r)
  | PAppendPath x y extra =>
      let! r := mp_append_path from to h (pm_var s x) (pm_var s y) extra in
      Ok (put_path (put_path s y (h, r.2)) x r.1)
  | PSlice x y i j => let! r := mp_slice from to h (pm_var s y) i j in Ok (put_path s x r)
  | PRemoveLast x =>
      let! r := mp_remove_last (pm_graph s) h (pm_var s x) in
      Ok (PM r.1 h (<[x := r.2]> (pm_path s)) (pm_slice s))
  | PRemoveFirst x =>
      let! r := mp_remove_first (pm_graph s) h (pm_var s x) in
      Ok (PM r.1 h (<[x := r.2]> (pm_path s)) (pm_slice s))
  | SMake v els extra => Ok (put_slice s v (sl_make h els extra))
  | SSlice v w i j => let! r := sl_slice (pm_sl s w) i j in Ok (put_slice s v (h, r))
  | SSet v i el =>
      if decide (i < sl_len (pm_sl s v)) then Ok (PM (pm_graph s) (sl_write h (pm_sl s v) i [el]) (pm_path s) (pm_slice s)) else Panic
  | SAppend v w els extra => Ok (put_slice s v (sl_append h (pm_sl s w) els extra))
  end.
Definition pm_run (g : graph) (ops : list pm_op) : res pm_state := rfold pm_step ops (pm_init g).

(** What is seen through the variables. *)
Definition pm_view (s : pm_state) (x : nat) : path := mp_view (pm_heap s) (pm_var s x).
Definition pm_elems (s : pm_state) (v : nat) : list pelem := sl_read (pm_heap s) (pm_sl s v).
