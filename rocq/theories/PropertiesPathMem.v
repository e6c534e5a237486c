(** C57: the slices in which paths are stored (path.go). *)
From Verif Require Import Base Value Graph CoreProofs Sizes Path PathMem PathMemSpec PathMemProofs GraphExamples.

(** C57 in full: in every program, a call on paths has the result it has for values, and changes no other
    path and no slice of the caller; what the caller does with its slices changes no path. *)
Definition C57_statement : Prop := forall g ops o s, pm_run g ops = Ok s ->
  (slice_op o = false ->
   match pm_step s o with
   | Ok s' => exists ch, value_step (pm_graph s) (pm_view s) (pm_elems s) o = Ok (pm_graph s', ch) /\
       (forall y, pm_view s' y = changed (pm_view s) ch y) /\ forall v, pm_elems s' v = pm_elems s v
   | Panic => value_step (pm_graph s) (pm_view s) (pm_elems s) o = Panic
   | Diverge => value_step (pm_graph s) (pm_view s) (pm_elems s) o = Diverge
   end) /\
  (slice_op o = true -> forall s', pm_step s o = Ok s' -> pm_graph s' = pm_graph s /\ forall y, pm_view s' y = pm_view s y).

(** What a program leaves in path variable [x]. *)
Definition seen (g : graph) (ops : list pm_op) (x : nat) : res path := let! s := pm_run g ops in Ok (pm_view s x).
(** edges 5: 1 -> 2, 7: 2 -> 0, 6: 0 -> 0;
    els := ...; p0 := NewPathFromElements(els...); p1 := NewPathFromElements(els[:1]...) *)
Definition shared_ops : list pm_op := [SMake 0 [PE 5 false; PE 7 false] 0; PNew 0 0; SSlice 1 0 0 1; PNew 1 1].
(** False: NewPathFromElements keeps the slice of the caller, and Append to one path overwrites the other; *)
Theorem C57_refuted :
  seen ex_graph shared_ops 0 = Ok (Path None [PE 5 false; PE 7 false]) /\
  seen ex_graph (shared_ops ++ [PAppend 1 [PE 5 true] 0]) 0 = Ok (Path None [PE 5 false; PE 5 true]).
Proof. split; vm_compute; reflexivity. Qed.
Print Assumptions C57_refuted.
Example C57_refutes : ~ C57_statement.
Proof.
  intros H. destruct C57_refuted as [H1 H2]. unfold seen in *.
  destruct (pm_run ex_graph shared_ops) as [s| |] eqn:E; [|clear -H1; discriminate H1..].
  cbn [rbind] in H1. assert (pm_view s 0 = Path None [PE 5 false; PE 7 false]) as Hs by congruence.
  unfold pm_run in H2. rewrite rfold_app in H2. unfold pm_run in E. rewrite E in H2. cbn [rbind rfold] in H2.
  destruct (H ex_graph shared_ops (PAppend 1 [PE 5 true] 0) s E) as [H3 _]. specialize (H3 eq_refl).
  destruct (pm_step s _) as [s'| |]; [|discriminate H2..]. cbn [rbind] in H2. assert (pm_view s' 0 = Path None [PE 5 false; PE 5 true]) as Hs' by congruence.
  destruct H3 as (ch & Hc & Hd & _). specialize (Hd 0). cbn [value_step] in Hc.
  destruct (path_append _ _ _ _) as [p| |]; [|discriminate Hc..]. cbn [rbind] in Hc. injection Hc as _ <-.
  rewrite changed_one, decide_False in Hd by lia. rewrite Hs, Hs' in Hd. discriminate Hd.
Qed.
(** the caller can also write into the path. *)
Theorem C57_caller_refuted :
  seen ex_graph (shared_ops ++ [SSet 0 1 (PE 6 false)]) 0 = Ok (Path None [PE 5 false; PE 6 false]).
Proof. vm_compute. reflexivity. Qed.
Print Assumptions C57_caller_refuted.

(** It holds for all programs that hand over slices to NewPathFromElements only if nothing else
    refers to their arrays, and do not use them afterwards. *)
Theorem C57_partial g ops o s :
  private (pm_init g) ∅ (ops ++ [o]) -> pm_run g ops = Ok s ->
  (slice_op o = false ->
   match pm_step s o with
   | Ok s' => exists ch, value_step (pm_graph s) (pm_view s) (pm_elems s) o = Ok (pm_graph s', ch) /\
       (forall y, pm_view s' y = changed (pm_view s) ch y) /\ forall v, v ∉ gone ops -> pm_elems s' v = pm_elems s v
   | Panic => value_step (pm_graph s) (pm_view s) (pm_elems s) o = Panic
   | Diverge => value_step (pm_graph s) (pm_view s) (pm_elems s) o = Diverge
   end) /\
  (slice_op o = true -> forall s', pm_step s o = Ok s' -> pm_graph s' = pm_graph s /\ forall y, pm_view s' y = pm_view s y).
Proof. exact (paths_are_values g ops o s). Qed.
Print Assumptions C57_partial.
(** In particular for all programs that list the elements in calls of NewPathFromElements. *)
Theorem C57_no_sharing g ops : no_shared_slices ops -> private (pm_init g) ∅ ops.
Proof. exact (no_shared_private (pm_init g) ops). Qed.
Print Assumptions C57_no_sharing.

(** p0 := NewPathFromElements(5); p1 := p0.Clone(); p0.Append(7) with room for more; p2 := p0.Slice(0, 2);
    p0.RemoveFirst(); p0.Append(6) in place *)
Definition ex_mem_ops : list pm_op :=
  [PNewLit 0 [PE 5 false]; PClone 1 0; PAppend 0 [PE 7 false] 4; PSlice 2 0 0 2; PRemoveFirst 0].
Example C57_ex :
  no_shared_slices (ex_mem_ops ++ [PAppend 0 [PE 6 false] 0]) /\
  (exists s s', pm_run ex_graph ex_mem_ops = Ok s /\ pm_step s (PAppend 0 [PE 6 false] 0) = Ok s' /\
     ph_next (pm_heap s') = ph_next (pm_heap s)) /\
  seen ex_graph (ex_mem_ops ++ [PAppend 0 [PE 6 false] 0]) 0 = Ok (Path None [PE 7 false; PE 6 false]) /\
  seen ex_graph (ex_mem_ops ++ [PAppend 0 [PE 6 false] 0]) 1 = Ok (Path None [PE 5 false]) /\
  seen ex_graph (ex_mem_ops ++ [PAppend 0 [PE 6 false] 0]) 2 = Ok (Path None [PE 5 false]).
Proof.
  split; [repeat constructor|]. split; [|split_and!; vm_compute; reflexivity].
  assert (match pm_run ex_graph ex_mem_ops with
          | Ok s => match pm_step s (PAppend 0 [PE 6 false] 0) with Ok s' => Nat.eqb (ph_next (pm_heap s')) (ph_next (pm_heap s)) | _ => false end
          | _ => false end = true) as H by (vm_compute; reflexivity).
  destruct (pm_run ex_graph ex_mem_ops) as [s| |]; [|clear -H; done..]. exists s.
  destruct (pm_step s _) as [s'| |]; [|clear -H; done..]. exists s'.
  split; [reflexivity|]. split; [reflexivity|]. apply Nat.eqb_eq. exact H.
Qed.
(** els := [5, 7]; p0 := NewPathFromElements(els...); els = nil; p0.Append(6) *)
Example C57_private_ex : private (pm_init ex_graph) ∅ [SMake 0 [PE 5 false; PE 7 false] 3; PNew 0 0; SMake 0 [] 0; PAppend 0 [PE 6 false] 0] /\
  seen ex_graph [SMake 0 [PE 5 false; PE 7 false] 3; PNew 0 0; SMake 0 [] 0; PAppend 0 [PE 6 false] 0] 0 =
    Ok (Path None [PE 5 false; PE 7 false; PE 6 false]).
Proof.
  split; [|vm_compute; reflexivity]. cbn [private used gone_after]. split_and!; [set_solver|done|].
  intros s [= <-]. split_and!; [set_solver| |].
  - intros w t Hw Hne Hl. exfalso. cbn [put_slice pm_init pm_slice] in Hl. rewrite lookup_insert_ne in Hl by done. by rewrite lookup_empty in Hl.
  - intros s' Hs. clear Hs. split_and!; [set_solver|done|]. intros s'' Hs. clear Hs. split_and!; [set_solver|done|]. done.
Qed.
