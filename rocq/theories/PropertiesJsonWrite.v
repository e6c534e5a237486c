(** C75: json.go, Encode with a writer or a marshaler that fails. *)
From Verif Require Import Base Value Graph GraphSpec Sizes JsonText Json JsonSpec JsonWrite JsonWriteSpec JsonWriteProofs GraphExamples JsonExamples.
Local Open Scope string_scope.
Local Open Scope list_scope.

(** ** C75: a failed Encode returns the error, and does not leave a complete text *)
(** For all graphs for which Encode returns with a writer that does not fail, and all writers: Encode gives the writer the
    same texts, one after the other, until it fails ([feed]).  It returns an error if and only if the writer or a marshaler
    did; the text of all is the one of C39-C43; and what was written before an error is no JSON text. *)
Theorem C75 g pm sep ord lord o : encode g pm sep ord lord = Ok o -> exists cs,
  (forall (T : Type) (w : writer T) t, encode_to w g pm sep ord lord t =
     Ok (let '(ok, t) := feed w cs t in (if ok then match o with Some _ => None | None => Some EMarshal end else Some EWrite, t))) /\
  (forall ts, o = Some ts -> concat cs = ts) /\
  (forall p, p `prefix_of` cs -> p <> cs \/ o = None -> incomplete (concat p)).
Proof. exact (encode_writes g pm sep ord lord o). Qed.
Print Assumptions C75.
(** In terms of what a writer is given and takes: *)
Theorem C75_recorded (T : Type) (w : writer T) g pm sep ord lord o t e s : encode g pm sep ord lord = Ok o ->
  encode_to (recording w) g pm sep ord lord (t, []) = Ok (e, s) ->
  match e with
  | None => Forall (fun p => p.2 = true) s.2 /\ o = Some (taken s.2)
  | Some EMarshal => Forall (fun p => p.2 = true) s.2 /\ o = None /\ incomplete (taken s.2)
  | Some EWrite => (exists l c, s.2 = l ++ [(c, false)] /\ Forall (fun p => p.2 = true) l) /\ incomplete (taken s.2)
  end.
Proof. exact (encode_recorded w g pm sep ord lord o t e s). Qed.
Print Assumptions C75_recorded.
(** For graphs whose lists of nodes and edges are right, Encode always returns, and the error is one of the marshaler
    only if it refuses some property of a node or an edge. *)
Theorem C75_history (T : Type) (w : writer T) ops g pm sep ord lord t :
  valid_history ops -> run ops = Ok g -> node_list_safe ops -> (sep = true -> edge_list_safe ops) -> node_order g ord ->
  exists e u l, encode_to (recording w) g pm sep ord lord (t, []) = Ok (e, (u, l)) /\
  match e with
  | None => Forall (fun p => p.2 = true) l /\ ~ refused pm (srun ops) /\ encode g pm sep ord lord = Ok (Some (taken l))
  | Some EMarshal => Forall (fun p => p.2 = true) l /\ refused pm (srun ops) /\ incomplete (taken l)
  | Some EWrite => (exists l0 c, l = l0 ++ [(c, false)] /\ Forall (fun p => p.2 = true) l0) /\ incomplete (taken l)
  end.
Proof. exact (encode_history w ops g pm sep ord lord t). Qed.
Print Assumptions C75_history.
(** two nodes with a label and a property, and an edge; a writer that takes [n] texts; a marshaler that refuses "bad" *)
Definition C75_ops : list op :=
  [ONewNode {["P"]} {["k" := VStr "a"]} ["P"]; ONewNode ∅ ∅ []; ONewEdge 0 1 "A" ∅].
Definition C75_bad : list op := C75_ops ++ [OSetEdgeProp 2 "bad" VNil].
Definition C75_lord (n : nat) : list string := if decide (n = 0) then ["P"] else [].
Definition takes : writer nat := fun _ n => match n with O => (false, 0) | S n => (true, n) end.
Definition C75_pm : marshaler := fun k v => if decide (k = "bad") then None else dm k v.
(** the error, and the numbers of texts given and of tokens taken *)
Definition C75_run (ops : list op) (sep : bool) (n : nat) : option (option werr * nat * nat) :=
  match encode_to (recording takes) (result ops) C75_pm sep [1; 0] C75_lord (n, []) with
  | Ok (e, (_, l)) => Some (e, length l, length (taken l))
  | _ => None
  end.
Example C75_ex : (valid_history C75_bad /\ run C75_bad = Ok (result C75_bad)) /\ node_list_safe C75_bad /\ edge_list_safe C75_bad /\
  run C75_ops = Ok (result C75_ops) /\ node_order (result C75_bad) [1; 0] /\ refused C75_pm (srun C75_bad) /\
  C75_run C75_ops false 100 = Some (None, 25, 45) /\ C75_run C75_ops false 20 = Some (Some EWrite, 21, 32) /\
  C75_run C75_ops true 100 = Some (None, 25, 49) /\ C75_run C75_ops true 0 = Some (Some EWrite, 1, 0) /\
  C75_run C75_bad false 100 = Some (Some EMarshal, 20, 32) /\ C75_run C75_bad true 3 = Some (Some EWrite, 4, 4).
Proof.
  split; [split; [by_compute|apply run_result; vm_compute; reflexivity]|]. split; [by_compute|]. split; [by_compute|].
  split; [apply run_result; vm_compute; reflexivity|]. split; [apply (check_node_order _ _ [0; 1]); [vm_compute; reflexivity|by_compute]|].
  split. { right. exists 2. eexists. split; [vm_compute; reflexivity|]. exists "bad", VNil. split; vm_compute; reflexivity. }
  vm_compute. repeat split; reflexivity.
Qed.
