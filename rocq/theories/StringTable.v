(** Model of stringtable.go. *)
From Verif Require Import Base.

(** stringtable.go:24-33; [c] is the reference count of a string in use, and the next free slot
    (or -1) of a free one *)
Record rcstring := RC { rc_str : string; rc_c : Z }.
Record strtab := StrTab { st_strs : list rcstring; st_map : gmap string nat; st_free : Z }.
(** stringtable.go:35-39 *)
Definition st_init : strtab := StrTab [] ∅ (-1).

(** [table.strs[i]]: panics if the index is out of range *)
Definition slot (t : strtab) (i : Z) : res (nat * rcstring) :=
  if decide (0 <= i)%Z then match st_strs t !! Z.to_nat i with Some x => Ok (Z.to_nat i, x) | None => Panic end else Panic.

(** stringtable.go:42-64 *)
Definition st_allocate (t : strtab) (s : string) : res (strtab * nat) :=
  match st_map t !! s with
  | Some i =>
      let! x := slot t (Z.of_nat i) in
      Ok (StrTab (<[i := RC (rc_str x.2) (rc_c x.2 + 1)]> (st_strs t)) (st_map t) (st_free t), i)
  | None =>
      if decide (st_free t <> -1)%Z then
        let! x := slot t (st_free t) in
        Ok (StrTab (<[x.1 := RC s 1]> (st_strs t)) (<[s := x.1]> (st_map t)) (rc_c x.2), x.1)
      else
        Ok (StrTab (st_strs t ++ [RC s 1]) (<[s := length (st_strs t)]> (st_map t)) (st_free t), length (st_strs t))
  end.
(** stringtable.go:67-73 *)
Definition st_lookup (t : strtab) (s : string) : option nat := st_map t !! s.
(** stringtable.go:75-82 *)
Definition st_str (t : strtab) (i : nat) : res string := let! x := slot t (Z.of_nat i) in Ok (rc_str x.2).
(** stringtable.go:84-95 *)
Definition st_release (t : strtab) (i : nat) : res strtab :=
  let! x := slot t (Z.of_nat i) in
  if decide (rc_c x.2 - 1 > 0)%Z then
    Ok (StrTab (<[i := RC (rc_str x.2) (rc_c x.2 - 1)]> (st_strs t)) (st_map t) (st_free t))
  else
    Ok (StrTab (<[i := RC (rc_str x.2) (st_free t)]> (st_strs t)) (delete (rc_str x.2) (st_map t)) (Z.of_nat i)).

(** Histories of calls, with the references handed out and not yet freed: (string asked for, index got). *)
Inductive st_op := Allocate (s : string) | Release (i : nat).
Fixpoint drop_ref (i : nat) (held : list (string * nat)) : list (string * nat) :=
  match held with
  | [] => []
  | p :: r => if decide (p.2 = i) then r else p :: drop_ref i r
  end.
Definition st_step (x : strtab * list (string * nat)) (o : st_op) : res (strtab * list (string * nat)) :=
  match o with
  | Allocate s => let! r := st_allocate x.1 s in Ok (r.1, (s, r.2) :: x.2)
  | Release i => let! t := st_release x.1 i in Ok (t, drop_ref i x.2)
  end.
(** only references that are held are freed *)
Fixpoint st_run (x : strtab * list (string * nat)) (ops : list st_op) : res (strtab * list (string * nat)) :=
  match ops with
  | [] => Ok x
  | o :: r => let! y := st_step x o in st_run y r
  end.
Fixpoint st_valid (x : strtab * list (string * nat)) (ops : list st_op) : Prop :=
  match ops with
  | [] => True
  | o :: r =>
      match o with Release i => i ∈ x.2.*2 | Allocate _ => True end /\
      forall y, st_step x o = Ok y -> st_valid y r
  end.
