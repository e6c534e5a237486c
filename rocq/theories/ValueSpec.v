(** Specification vocabulary for C17, independent of the comparison function. *)
From Verif Require Import Base Value.

(** The values the documentation of [ComparePropertyValue] (properties.go:56-68) declares
    supported. *)
Inductive supported : value -> Prop :=
| sup_int z : supported (VInt z)
| sup_str s : supported (VStr s)
| sup_strs l : supported (VStrs l)
| sup_ints l : supported (VInts l)
| sup_list l : Forall supported l -> supported (VList l)
| sup_native v : supported v -> supported (VNative v).

(** What a value denotes: an integer, a string or a sequence, wrappers removed. *)
Inductive meaning : Type := MNone | MInt (z : Z) | MStr (s : string) | MSeq (l : list meaning).
Fixpoint mean (v : value) : meaning :=
  match v with
  | VNil | VOther _ _ => MNone
  | VInt z => MInt z
  | VStr s => MStr s
  | VStrs l => MSeq (map MStr l)
  | VInts l => MSeq (map MInt l)
  | VList l => MSeq (map mean l)
  | VNative v => mean v
  end.

(** Byte-wise string order: the first differing byte decides, a proper prefix is smaller. *)
Definition bytes_lt (a b : string) : Prop :=
  (exists c r, b = String.append a (String c r)) \/
  (exists p x y ra rb, a = String.append p (String x ra) /\ b = String.append p (String y rb) /\
     (Ascii.N_of_ascii x < Ascii.N_of_ascii y)%N).

(** Lexicographic order over an element order. *)
Definition seq_lt {A} (lt : A -> A -> Prop) (a b : list A) : Prop :=
  (exists y r, b = a ++ y :: r) \/
  (exists p x y ra rb, a = p ++ x :: ra /\ b = p ++ y :: rb /\ lt x y).
