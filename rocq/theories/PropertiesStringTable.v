(** C49: stringtable.go. *)
From Verif Require Import Base StringTable StringTableProofs GraphExamples.
Local Open Scope string_scope.

(** Every sequence of allocations and frees of references that are held returns.  Afterwards every
    reference that is held, whenever it was handed out, still denotes its string, and is what lookup and
    another allocation give; references are equal exactly if their strings are; a string without
    references is not found. *)
Theorem C49_string_table ops : st_valid (st_init, []) ops -> exists t held, st_run (st_init, []) ops = Ok (t, held) /\
  (forall s i, (s, i) ∈ held -> st_str t i = Ok s /\ st_lookup t s = Some i) /\
  (forall s i s' i', (s, i) ∈ held -> (s', i') ∈ held -> (s = s' <-> i = i')) /\
  (forall s, (forall i, (s, i) ∉ held) -> st_lookup t s = None).
Proof. exact (strtab_ok ops). Qed.
Print Assumptions C49_string_table.
(** Freed slots are reused: an allocation adds a slot only if every slot is in use by another string. *)
Theorem C49_reuse ops t held s t' i : st_valid (st_init, []) ops -> st_run (st_init, []) ops = Ok (t, held) ->
  st_allocate t s = Ok (t', i) ->
  length (st_strs t') = max (length (st_strs t)) (size (list_to_set (s :: held.*1) : gset string)).
Proof. exact (strtab_slots ops t held s t' i). Qed.
Print Assumptions C49_reuse.

Definition C49_ops := [Allocate "a"; Allocate "b"; Allocate "a"; Allocate "c"; Release 1; Release 0; Release 2; Allocate "d"; Release 0; Allocate "e"].
Example C49_valid : st_valid (st_init, []) C49_ops.
Proof.
  unfold C49_ops.
  repeat first [ exact I
    | split; [first [exact I | vm_compute; repeat first [apply elem_of_list_here | apply elem_of_list_further]]|];
      let y := fresh in let E := fresh in intros y E; vm_compute in E; injection E as <- ].
Qed.
(** "d" and "e" reuse the slots of "c" and "a"; three slots are enough for five strings *)
Example C49_example : exists t, st_run (st_init, []) C49_ops = Ok (t, [("e", 0); ("d", 2)]) /\
  st_str t 0 = Ok "e" /\ st_str t 2 = Ok "d" /\ st_lookup t "a" = None /\ length (st_strs t) = 3.
Proof. eexists. split; [vm_compute; reflexivity|]. split_and!; vm_compute; reflexivity. Qed.

(** The references must be held: freeing one twice makes two strings share a slot. *)
Theorem C49_double_free : exists ops t held, st_run (st_init, []) ops = Ok (t, held) /\
  ("b", 0) ∈ held /\ ("c", 0) ∈ held /\ st_str t 0 = Ok "c".
Proof.
  exists [Allocate "a"; Release 0; Release 0; Allocate "b"; Allocate "c"]. eexists. eexists. split; [vm_compute; reflexivity|].
  split; [right; left|]. split; [left|]. vm_compute. reflexivity.
Qed.
Print Assumptions C49_double_free.
