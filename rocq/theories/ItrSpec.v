(** What it means that an iterator yields a list: repeatedly calling Next returns true as often
    as the list is long, Value is the next element each time, and then Next returns false. *)
From Verif Require Import Base Itr.

Inductive yields {S A} (m : machine S A) (k : nat) : S -> list A -> Prop :=
| yields_end s s' : m_next m k s = Ok (false, s') -> yields m k s []
| yields_next s s' a l :
    m_next m k s = Ok (true, s') -> m_value m s' = Ok a -> yields m k s' l -> yields m k s (a :: l).

(** the first occurrence of each item that is not in [seen] *)
Fixpoint firsts {A} `{EqDecision A} (seen l : list A) : list A :=
  match l with
  | [] => []
  | a :: r => if decide (a ∈ seen) then firsts seen r else a :: firsts (a :: seen) r
  end.

(** MaxSize [m] of an iterator over [xs] is right *)
Definition bounds {A} (m : Z) (xs : list A) : Prop := (m = -1 \/ Z.of_nat (length xs) <= m)%Z.
