(** Patterns for the examples of errors. *)
From Verif Require Import Base Value Graph GraphSpec Path Pattern PatternErrSpec GraphExamples PatternExamples.
Local Open Scope string_scope.
Local Open Scope list_scope.

(** (a:x)-[a]->(b) *)
Definition err_pat : list pitem := [ndl "x" "a"; rel 1 1 false false "a"; nd "b"].
Lemma err_clash : clash ∅ err_pat "a".
Proof.
  exists 0. split; [split; [done|]; split; [done|]; by exists (ndl "x" "a")|]. right. split; [apply lookup_empty|].
  exists 1. split; [done|]. split; [done|]. by exists (rel 1 1 false false "a").
Qed.
Definition one_result (r : res (option string * list match_result)) : bool := match r with Ok (None, [_]) => true | _ => false end.
Lemma one_result_ok r : one_result r = true -> exists x, r = Ok (None, [x]).
Proof. destruct r as [[[?|] [|x [|? ?]]]| |]; try done. intros _. by exists x. Qed.
Lemma one_found : exists r, find_paths (result chain_ops) ∅ err_pat (lords err_pat) (pords err_pat) (fun _ => lords err_pat) = Ok (None, [r]).
Proof. apply one_result_ok. vm_compute. reflexivity. Qed.
