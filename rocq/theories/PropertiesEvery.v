(** C94, C95: CopyGraph and the dot renderer in every graph, also where the list of nodes is wrong (clone.go:22-53, dotrenderer.go). *)
From Verif Require Import Base Value Index Graph GraphSpec Clone CloneSpec Dot DotSpec ListedSpec ListedProofs HeldSpec EverySpec EveryProofs GraphExamples.
From Verif Require Import PropertiesHeld.

(** C94.  CopyGraph copies the nodes that GetNodes lists, removed ones too, and the edges between these; what it copies has the labels,
    properties and ends it should have. *)
Theorem C94_copy sops tops src tgt f ord m tgt' :
  valid_history sops -> run sops = Ok src -> valid_history tops -> run tops = Ok tgt ->
  (forall n x, s_nodes (srun (ghosts sops)) !! n = Some x -> order_of (sn_labels x) (ord n)) ->
  edge_list_safe sops -> copy_graph src tgt f ord = Ok (m, tgt') ->
  exists ops' h, valid_history (tops ++ ops') /\ run (tops ++ ops') = Ok tgt' /\ Forall (clone_op f (srun (ghosts sops))) ops' /\
    extended f (srun (ghosts sops)) (srun tops) (srun (tops ++ ops')) ∅ m h /\
    (forall n, is_Some (m !! n) <-> n ∈ listed sops) /\ (forall e, is_Some (h !! e) <-> between sops e).
Proof. exact (fun Hs Hr Ht Hr' Ho He => copy_every sops tops src tgt f ord Hs Hr Ht Hr' Ho He m tgt'). Qed.
Print Assumptions C94_copy.
Theorem C94_returns sops tops src tgt f ord :
  valid_history sops -> run sops = Ok src -> valid_history tops -> run tops = Ok tgt ->
  (forall n x, s_nodes (srun (ghosts sops)) !! n = Some x -> order_of (sn_labels x) (ord n)) ->
  edge_list_safe sops -> calls_safe tops -> can_hold tops f (srun (ghosts sops)) -> exists r, copy_graph src tgt f ord = Ok r.
Proof. exact (copy_every_returns sops tops src tgt f ord). Qed.
Print Assumptions C94_returns.
(** So the result is a copy of the source if and only if GetNodes is right in the source (C91): the converse of C33_partial too. *)
Theorem C94_right sops tops src tgt f ord m tgt' :
  valid_history sops -> run sops = Ok src -> valid_history tops -> run tops = Ok tgt ->
  (forall n x, s_nodes (srun (ghosts sops)) !! n = Some x -> order_of (sn_labels x) (ord n)) ->
  edge_list_safe sops -> copy_graph src tgt f ord = Ok (m, tgt') ->
  ((exists ops' h, valid_history (tops ++ ops') /\ run (tops ++ ops') = Ok tgt' /\ copied f (srun sops) (srun tops) (srun (tops ++ ops')) m h) <->
   l_dead (rows_of sops) = [] /\ hidden sops = []).
Proof. exact (fun Hs Hr Ht Hr' Ho He => copy_every_right sops tops src tgt f ord Hs Hr Ht Hr' Ho He m tgt'). Qed.
Print Assumptions C94_right.
(** The removed node 4 is listed, the live node 2 is not; the edge from 2 to 5 is left out, that from 5 to 6 is copied. *)
Definition C94_ops : list op := C93_ops ++ [ONewNode ∅ ∅ []; ONewEdge 5 8 "F" {["w" := VInt 1]}]%string.
Definition C94_ord (n : nat) : list string := if decide (n = 4) then ["L"]%string else [].
Example C94_ex : (valid_history C94_ops /\ run C94_ops = Ok (result C94_ops)) /\ edge_list_safe C94_ops /\
  (forall n x, s_nodes (srun (ghosts C94_ops)) !! n = Some x -> order_of (sn_labels x) (C94_ord n)) /\
  calls_safe [] /\ can_hold [] (fun _ v => v) (srun (ghosts C94_ops)) /\
  listed C94_ops = [4; 5; 8] /\ between C94_ops 9 /\ ~ between C94_ops 7 /\ live_edge (srun C94_ops) 7 /\
  match copy_graph (result C94_ops) new_graph (fun _ v => v) C94_ord with
  | Ok (m, g) => bool_decide (m = {[4 := 0; 5 := 1; 8 := 2]}) = true /\ get_nodes g = Ok [0; 1; 2] /\ get_edges g = Ok [3] /\ labels_of g 0 = {["L"]}%string
  | _ => False
  end.
Proof.
  split; [split; [by_compute|apply run_result; vm_compute; reflexivity]|]. split; [by_compute|]. split.
  { change (map_Forall (fun n x => order_of (sn_labels x) (C94_ord n)) (s_nodes (srun (ghosts C94_ops)))). by_compute. }
  split; [split; [by_compute|]; split; by intros k it ?|]. split; [split; by intros k it ?|]. split; [by_compute|]. split.
  { exists (Edge 5 8 "F" {["w" := VInt 1]})%string. by_compute. }
  split; [|split; [by_compute|vm_compute; split_and!; reflexivity]]. intros (x & Hx & H1 & _). assert (e_from <$> s_edges (srun C94_ops) !! 7 = Some 2) as E by by_compute.
  rewrite Hx in E. injection E as E. rewrite E in H1. revert H1. by_compute.
Qed.

(** C95.  Render with the default renderers, for all writers, which may fail: the texts that it writes, in order, and it stops at the
    first failure.  The nodes are those that GetNodes lists, removed ones too; the edges are those between them. *)
Theorem C95_text ops g : valid_history ops -> run ops = Ok g -> edge_list_safe ops ->
  exists es lines, lists (between ops) es /\ edge_lines (srun ops) (listed ops) es lines /\
    forall T (write : string -> T -> bool * T) name t, render g (default_node write) (default_edge g write) write name t =
      Ok (writes write (first_line name :: second_line :: map node_line (seq 0 (length (listed ops))) ++ lines ++ [last_line]) t).
Proof. exact (text_every ops g). Qed.
Print Assumptions C95_text.
(** a writer with room for [n] more texts *)
Definition room (w : string) (t : nat * list string) : bool * (nat * list string) :=
  match t.1 with 0 => (false, t) | S n => (true, (n, t.2 ++ [w])) end.
Example C95_ex : let go k := render (result C94_ops) (default_node room) (default_edge (result C94_ops) room) room "g" (k, []) in
  go 9 = Ok (true, (2, [first_line "g"; second_line; node_line 0; node_line 1; node_line 2; edge_line 1 2 "F"; last_line])) /\
  go 4 = Ok (false, (0, [first_line "g"; second_line; node_line 0; node_line 1])).
Proof. split; vm_compute; reflexivity. Qed.
