(** Insertion ordered association lists with string keys.  They model
    - Go maps [map[string]*X] whose values are updated through the pointer,
    - gods linkedhashmap (used by maps.go), and
    - the pair (labelMap, edgeLabelLists) of edgemap.go. *)
From Verif Require Import Base.

Section assoc.
  Context {V : Type}.
  Implicit Types (b : list (string * V)).

  (** lookup [m[l]] *)
  Fixpoint bk_get b (l : string) : option V :=
    match b with
    | [] => None
    | (l', x) :: r => if decide (l = l') then Some x else bk_get r l
    end.
  (** update of the value found under an existing key [l] *)
  Fixpoint bk_set b (l : string) (y : V) : list (string * V) :=
    match b with
    | [] => []
    | (l', x) :: r => if decide (l = l') then (l', y) :: r else (l', x) :: bk_set r l y
    end.
  (** delete key [l] *)
  Fixpoint bk_del b (l : string) : list (string * V) :=
    match b with
    | [] => []
    | (l', x) :: r => if decide (l = l') then r else (l', x) :: bk_del r l
    end.
  (** linkedhashmap Put: existing keys keep their position, new keys go last *)
  Definition bk_put b (l : string) (y : V) : list (string * V) :=
    match bk_get b l with Some _ => bk_set b l y | None => b ++ [(l, y)] end.
End assoc.
