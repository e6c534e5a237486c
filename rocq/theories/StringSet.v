(** Model of stringset.go: StringSet, a struct holding one Go map (a pointer).

    A StringSet value is [option nat]: nil or the address of a map on the heap; copying a
    StringSet copies the address.  Writing [set.M[x]] directly (the field is exported) is not
    modelled: only the methods are.  Go map iteration orders are arguments named [ord...].
    MarshalJSON/UnmarshalJSON (144-155) are [Slice] and [NewStringSet] under encoding/json,
    see Json.v. *)
From Verif Require Import Base Value.

(** the heap of Go maps of type map[string]struct{} *)
Record sheap := SH { sh_maps : gmap nat (gset string); sh_next : nat }.
Definition sh_empty : sheap := SH ∅ 0.
Notation sset := (option nat).

(** contents of [set.M]; reading a nil map is allowed *)
Definition ss_at (h : sheap) (v : sset) : gset string :=
  match v with None => ∅ | Some a => default ∅ (sh_maps h !! a) end.
(** [make(map[string]struct{})] *)
Definition sh_make (h : sheap) : sheap * nat :=
  (SH (<[sh_next h := ∅]> (sh_maps h)) (S (sh_next h)), sh_next h).
(** [set.M[x] = struct{}{}] *)
Definition sh_put (a : nat) (h : sheap) (x : string) : sheap :=
  SH (alter (fun m => {[x]} ∪ m) a (sh_maps h)) (sh_next h).

(** stringset.go:27-33 *)
Definition ss_new (h : sheap) (ss : list string) : sheap * sset :=
  let '(h1, a) := sh_make h in (fold_left (sh_put a) ss h1, Some a).
(** stringset.go:35-37 *)
Definition ss_clone (v : sset) : sset := v.
(** stringset.go:43-46 *)
Definition ss_has (h : sheap) (v : sset) (x : string) : bool := bool_decide (x ∈ ss_at h v).
(** stringset.go:48-55, and 57-64 with the iteration order of the argument *)
Fixpoint ss_has_any (h : sheap) (v : sset) (xs : list string) : bool :=
  match xs with
  | [] => false
  | x :: r => if bool_decide (x ∈ ss_at h v) then true else ss_has_any h v r
  end.
(** stringset.go:66-73, and 75-82 with the iteration order of the argument *)
Fixpoint ss_has_all (h : sheap) (v : sset) (xs : list string) : bool :=
  match xs with
  | [] => true
  | x :: r => if bool_decide (x ∈ ss_at h v) then ss_has_all h v r else false
  end.
(** stringset.go:157 *)
Definition ss_len (h : sheap) (v : sset) : nat := size (ss_at h v).
(** stringset.go:39-41; [ord]: iteration order of [s] *)
Definition ss_is_equal (h : sheap) (v s : sset) (ord : list string) : bool :=
  if decide (ss_len h v = ss_len h s) then ss_has_all h v ord else false.
(** stringset.go:84-94 and 96-106 ([xs]: the iteration order of the argument set);
    [ord]: iteration order of the receiver.  The result is the new value of [set.M]. *)
Definition ss_add (h : sheap) (v : sset) (ord xs : list string) : sheap * sset :=
  let '(h1, a) := sh_make h in
  let h2 := fold_left (sh_put a) ord h1 in
  (fold_left (sh_put a) xs h2, Some a).
(** stringset.go:112-118 *)
Fixpoint str_in (x : string) (ys : list string) : bool :=
  match ys with
  | [] => false
  | y :: r => if decide (y = x) then true else str_in x r
  end.
(** stringset.go:108-124 *)
Definition ss_remove (h : sheap) (v : sset) (ord xs : list string) : sheap * sset :=
  let '(h1, a) := sh_make h in
  (fold_left (fun h x => if str_in x xs then h else sh_put a h x) ord h1, Some a).
(** stringset.go:126-132 *)
Definition ss_slice (ord : list string) : list string := fold_left (fun ret k => ret ++ [k]) ord [].
(** [sort.Strings] of the Go library, by insertion *)
Fixpoint str_insert (x : string) (l : list string) : list string :=
  match l with
  | [] => [x]
  | y :: r => match str_cmp x y with Gt => y :: str_insert x r | _ => x :: y :: r end
  end.
Definition str_sort (l : list string) : list string := foldr str_insert [] l.
(** stringset.go:134-138 *)
Definition ss_sorted (ord : list string) : list string := str_sort (ss_slice ord).
(** stringset.go:140-142 *)
Definition ss_string (ord : list string) : string := String.concat ", " (ss_slice ord).

(** Programs: StringSet variables (including the [labels] fields of nodes) and the calls that
    assign them. *)
Inductive ss_op :=
| SSZero (x : nat)                              (* x = StringSet{} *)
| SSNew (x : nat) (ss : list string)            (* x = NewStringSet(ss...) *)
| SSCopy (x y : nat)                            (* x = y *)
| SSClone (x y : nat)                           (* x = y.Clone(); node.go:47, graph.go:415 *)
| SSAdd (x : nat) (ord ss : list string)        (* x.Add(ss...) *)
| SSAddSet (x y : nat) (ord ord' : list string) (* x.AddSet(y) *)
| SSRemove (x : nat) (ord ss : list string).    (* x.Remove(ss...) *)

Record ss_state := SSt { st_heap : sheap; st_var : gmap nat sset }.
Definition st_empty : ss_state := SSt sh_empty ∅.
Definition st_val (s : ss_state) (x : nat) : sset := default None (st_var s !! x).
Definition ss_step (s : ss_state) (o : ss_op) : ss_state :=
  let put x hv := SSt hv.1 (<[x := hv.2]> (st_var s)) in
  match o with
  | SSZero x => put x (st_heap s, None)
  | SSNew x ss => put x (ss_new (st_heap s) ss)
  | SSCopy x y => put x (st_heap s, st_val s y)
  | SSClone x y => put x (st_heap s, ss_clone (st_val s y))
  | SSAdd x ord ss => put x (ss_add (st_heap s) (st_val s x) ord ss)
  | SSAddSet x y ord ord' => put x (ss_add (st_heap s) (st_val s x) ord ord')
  | SSRemove x ord ss => put x (ss_remove (st_heap s) (st_val s x) ord ss)
  end.
Definition ss_run (ops : list ss_op) : ss_state := fold_left ss_step ops st_empty.
(** what is seen through variable [x] *)
Definition ss_view (s : ss_state) (x : nat) : gset string := ss_at (st_heap s) (st_val s x).
