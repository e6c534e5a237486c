(** Model of properties.go: property values and [ComparePropertyValue]. *)
From Verif Require Import Base.
From Coq Require Import Ascii.

(** Property values ([interface{}]).
    [VNative v] models a value implementing [WithNativeValue] whose [GetNativeValue] returns [v]
    (properties.go:48-54); an infinite chain of native values is not modelled.
    [VOther h n] models every dynamic type [ComparePropertyValue] does not know
    (float64, bool, structs, ...); [h] tells whether Go can hash it. *)
Inductive value : Type :=
| VNil
| VInt (z : Z)
| VStr (s : string)
| VStrs (l : list string)      (* []string *)
| VInts (l : list Z)           (* []int *)
| VList (l : list value)       (* []interface{} *)
| VNative (v : value)
| VOther (hashable : bool) (n : nat).

(** Go's byte-wise string order: [<], [>] on strings. *)
Fixpoint str_cmp (a b : string) : comparison :=
  match a, b with
  | EmptyString, EmptyString => Eq
  | EmptyString, String _ _ => Lt
  | String _ _, EmptyString => Gt
  | String x a', String y b' =>
      match N.compare (N_of_ascii x) (N_of_ascii y) with
      | Eq => str_cmp a' b'
      | c => c
      end
  end.

(** The element loops of properties.go:103-119, 122-138, 143-159, 162-178, 183-199:
    compare element-wise up to the shorter length, return at the first difference,
    then compare the lengths.  [None] is a panic of the element comparison. *)
Definition lex {A B} (f : A -> B -> option comparison) :=
  fix go (l1 : list A) (l2 : list B) {struct l1} : option comparison :=
    match l1, l2 with
    | [], [] => Some Eq
    | [], _ :: _ => Some Lt
    | _ :: _, [] => Some Gt
    | x :: l1', y :: l2' =>
        match f x y with
        | Some Lt => Some Lt
        | Some Gt => Some Gt
        | Some Eq => go l1' l2'
        | None => None
        end
    end.

(** properties.go:71-76, the recursion through [GetNativeValue]: the value finally compared. *)
Fixpoint strip (v : value) : value :=
  match v with VNative w => strip w | _ => v end.

(** properties.go:79-88 / 90-99 with [a] a string / an int ([b] is unwrapped first, lines 74-76). *)
Definition cmp_str (s : string) (b : value) : option comparison :=
  match strip b with VStr t => Some (str_cmp s t) | _ => None end.
Definition cmp_int (z : Z) (b : value) : option comparison :=
  match strip b with VInt w => Some (Z.compare z w) | _ => None end.

(** properties.go:69-209 [ComparePropertyValue].  Results -1, 0, 1 are [Lt], [Eq], [Gt];
    [None] is the panic of line 208 (or of an element comparison).
    Simplification: chains of native values are unwrapped at once by [strip]; the calls
    [-ComparePropertyValue(v2, v1)] of lines 202 and 205 are inlined. *)
Fixpoint compare_value (a b : value) {struct a} : option comparison :=
  match a with
  | VNative n => compare_value n b
  | VStr s => cmp_str s b
  | VInt z => cmp_int z b
  | VStrs l1 =>
      match strip b with
      | VStrs l2 => lex (fun x y => Some (str_cmp x y)) l1 l2
      | VList l2 => lex cmp_str l1 l2
      | _ => None
      end
  | VInts l1 =>
      match strip b with
      | VInts l2 => lex (fun x y => Some (Z.compare x y)) l1 l2
      | VList l2 => lex cmp_int l1 l2
      | _ => None
      end
  | VList l1 =>
      match strip b with
      | VList l2 => lex compare_value l1 l2
      | VStrs l2 => option_map CompOpp (lex cmp_str l2 l1)
      | VInts l2 => option_map CompOpp (lex cmp_int l2 l1)
      | _ => None
      end
  | VNil | VOther _ _ => None
  end.

(** Property maps: [properties] = map[string]any (properties.go:22).  A nil map and an empty map
    are observationally equal here (properties.go:26-46) and both modelled by the empty map. *)
Notation props := (gmap string value).

(** properties.go:26-32 *)
Definition get_property (p : props) (k : string) : option value := p !! k.

(** Go's [==] on interface values as used for map keys; [false] for types that
    cannot be map keys (slices), where Go panics. *)
Definition hashable (v : value) : bool :=
  match v with
  | VNil | VInt _ | VStr _ => true
  | VStrs _ | VInts _ | VList _ => false
  | VNative _ => true
  | VOther h _ => h
  end.

Global Instance value_eq_dec : EqDecision value.
Proof.
  refine (fix go (a b : value) {struct a} : Decision (a = b) :=
    match a, b with
    | VNil, VNil => left eq_refl
    | VInt x, VInt y => cast_if (decide (x = y))
    | VStr x, VStr y => cast_if (decide (x = y))
    | VStrs x, VStrs y => cast_if (decide (x = y))
    | VInts x, VInts y => cast_if (decide (x = y))
    | VList x, VList y => cast_if (@list_eq_dec value go x y)
    | VNative x, VNative y => cast_if (go x y)
    | VOther h x, VOther h' y => cast_if_and (decide (h = h')) (decide (x = y))
    | _, _ => right _
    end); try clear go; congruence.
Defined.
