(** C17: [ComparePropertyValue] (properties.go:56-209). [None] is a panic. *)
From Verif Require Import Base Value ValueSpec ValueProofs.

(** Antisymmetric; panics are symmetric too. *)
Theorem C17_antisymmetric (a b : value) :
  compare_value b a = option_map CompOpp (compare_value a b).
Proof. exact (compare_value_opp a b). Qed.
Print Assumptions C17_antisymmetric.

(** Reflexive exactly on the documented types. *)
Theorem C17_reflexive (v : value) : compare_value v v = Some Eq <-> supported v.
Proof. exact (compare_refl_iff v). Qed.
Print Assumptions C17_reflexive.
Example C17_reflexive_ex : supported (VList [VInt 1; VNative (VStrs ["a"%string]); VList []]).
Proof. repeat constructor. Qed.

(** Transitive (on triples that are comparable). *)
Theorem C17_transitive (a b c : value) (x y z : comparison) :
  compare_value a b = Some x -> compare_value b c = Some y -> compare_value a c = Some z ->
  (x = Lt -> y <> Gt -> z = Lt) /\ (x <> Gt -> y = Lt -> z = Lt) /\ (x = Eq -> y = Eq -> z = Eq).
Proof. exact (compare_value_trans_gen a b c x y z). Qed.
Print Assumptions C17_transitive.
Example C17_transitive_ex :
  let a := VList [VInt 1] in let b := VInts [1; 2]%Z in let c := VList [VNative (VInt 2)] in
  compare_value a b = Some Lt /\ compare_value b c = Some Lt /\ compare_value a c = Some Lt.
Proof. vm_compute. auto. Qed.

(** Values that compare equal denote the same value ... *)
Theorem C17_equal_means_equal (a b : value) : compare_value a b = Some Eq -> mean a = mean b.
Proof. exact (compare_eq_mean a b). Qed.
Print Assumptions C17_equal_means_equal.
(** ... and can replace each other in comparisons. *)
Theorem C17_equal_congruent (a b c : value) (x y : comparison) :
  compare_value a b = Some Eq -> compare_value a c = Some x -> compare_value b c = Some y -> x = y.
Proof. exact (compare_value_congr a b c x y). Qed.
Print Assumptions C17_equal_congruent.
Example C17_equal_ex : compare_value (VStrs ["a"%string]) (VList [VStr "a"]) = Some Eq.
Proof. reflexivity. Qed.

(** Native values are transparent. *)
Theorem C17_native (a b : value) :
  compare_value (VNative a) b = compare_value a b /\ compare_value a (VNative b) = compare_value a b.
Proof. exact (conj (compare_value_native_l a b) (compare_value_native_r a b)). Qed.
Print Assumptions C17_native.

(** The order itself: integers, byte-wise strings, lexicographic slices. *)
Theorem C17_ints (x y : Z) : compare_value (VInt x) (VInt y) = Some (Z.compare x y).
Proof. exact eq_refl. Qed.
Print Assumptions C17_ints.
Theorem C17_strings (a b : string) : compare_value (VStr a) (VStr b) = Some Lt <-> bytes_lt a b.
Proof. exact (compare_value_str_lt a b). Qed.
Print Assumptions C17_strings.
Theorem C17_int_slices (a b : list Z) :
  compare_value (VInts a) (VInts b) = Some Lt <-> seq_lt Z.lt a b.
Proof. exact (compare_value_ints_lt a b). Qed.
Print Assumptions C17_int_slices.
Theorem C17_string_slices (a b : list string) :
  compare_value (VStrs a) (VStrs b) = Some Lt <-> seq_lt bytes_lt a b.
Proof. exact (compare_value_strs_lt a b). Qed.
Print Assumptions C17_string_slices.

(** Being comparable is not transitive: the middle value may be too short to meet the
    incomparable elements, so transitivity needs the third comparison to be defined. *)
Theorem C17_comparability_transitive_refuted :
  exists a b c x y, supported a /\ supported b /\ supported c /\
    compare_value a b = Some x /\ compare_value b c = Some y /\ compare_value a c = None.
Proof. exact comparability_not_transitive. Qed.
Print Assumptions C17_comparability_transitive_refuted.
