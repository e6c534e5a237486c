(** Model of sets.go: fastSet, NodeSet, EdgeSet.

    container/list is modelled by a list of (handle, value) pairs: [PushBack] appends a fresh
    handle, [Remove] drops the element with that handle, iteration is list order. *)
From Verif Require Import Base.

(** sets.go:23-26 *)
Record fastset (A : Type) := FS { fs_m : gmap nat nat; fs_l : list (nat * A); fs_fresh : nat }.
Global Arguments FS {_} _ _ _.
Global Arguments fs_m {_} _.
Global Arguments fs_l {_} _.
Global Arguments fs_fresh {_} _.

(** sets.go:28-38 *)
Definition fs_new {A} : fastset A := FS ∅ [] 0.
(** sets.go:40 *)
Definition fs_size {A} (f : fastset A) : nat := size (fs_m f).
(** sets.go:43-51 *)
Definition fs_add {A} (f : fastset A) (id : nat) (x : A) : fastset A * bool :=
  match fs_m f !! id with
  | Some _ => (f, false)
  | None => (FS (<[id := fs_fresh f]> (fs_m f)) (fs_l f ++ [(fs_fresh f, x)]) (S (fs_fresh f)), true)
  end.
(** sets.go:53-59 *)
Definition fs_get {A} (f : fastset A) (id : nat) : option A :=
  match fs_m f !! id with
  | None => None
  | Some h => match list_find (fun hx : nat * A => hx.1 = h) (fs_l f) with
              | Some (_, (_, x)) => Some x
              | None => None
              end
  end.
(** sets.go:62-70 *)
Definition fs_remove {A} (f : fastset A) (id : nat) : fastset A * bool :=
  match fs_m f !! id with
  | None => (f, false)
  | Some h => (FS (delete id (fs_m f)) (filter (fun hx : nat * A => hx.1 <> h) (fs_l f)) (fs_fresh f), true)
  end.
(** sets.go:72-75 *)
Definition fs_has {A} (f : fastset A) (id : nat) : bool := bool_decide (is_Some (fs_m f !! id)).
(** sets.go:77-79 *)
Definition fs_iter {A} (f : fastset A) : list A := (fs_l f).*2.

(** NodeSet (sets.go:81-114) and EdgeSet (sets.go:117-146): a fastSet keyed by the id of the
    node or edge.  Ids are unique within a graph only, so the id is a function of the element
    ([N]: node or edge pointers).  EdgeSet has no [Has]. *)
Section idset.
  Context {N : Type} (nid : N -> nat).
  Inductive is_op := ISAdd (x : N) | ISRemove (x : N).
  (** sets.go:91-97, 127-133 *)
  Definition is_step (f : fastset N) (o : is_op) : fastset N :=
    match o with
    | ISAdd x => (fs_add f (nid x) x).1
    | ISRemove x => (fs_remove f (nid x)).1
    end.
  (** sets.go:85-89, 121-125 *)
  Definition is_run (ops : list is_op) : fastset N := fold_left is_step ops fs_new.
  (** sets.go:99-101 *)
  Definition is_has (f : fastset N) (x : N) : bool := fs_has f (nid x).
  (** sets.go:103-105, 135-137 *)
  Definition is_len (f : fastset N) : nat := fs_size f.
  (** sets.go:107-114, 139-146 *)
  Definition is_slice (f : fastset N) : list N := fs_iter f.
End idset.
Global Arguments ISAdd {_} _.
Global Arguments ISRemove {_} _.
