(** C76: json.go, what a Decode that fails leaves behind. *)
From Verif Require Import Base Value Graph GraphSpec JsonText Json JsonSpec JsonDecProofs JsonAddProofs JsonFailSpec JsonFailProofs JsonTripProofs GraphExamples JsonExamples.
Local Open Scope string_scope.
Local Open Scope list_scope.

(** ** C76: Decode into a graph that already has nodes *)
(** In full: if Decode returns an error the graph is as before. *)
Definition C76_statement : Prop := forall pu lord tops g ts g', (forall i X, order_of X (lord i X)) ->
  valid_history tops -> run tops = Ok g -> decode pu lord g ts = Ok (g', false) ->
  get_nodes g' = get_nodes g /\ get_edges g' = get_edges g.
(** False: nodes and edges are added while the document is read.  Here the second edge refers to a missing node. *)
Definition C76_tops : list op := [ONewNode {["A"]} {["p" := VStr "a"]} ["A"]; ONewNode ∅ ∅ []; ONewEdge 0 1 "L" ∅; ONewEdge 1 0 "M" ∅].
Definition C76_doc : list (string * json) :=
  [("nodes", JArr [JObj [("n", JS (SNum 0))]; JObj [("n", JS (SNum 1)); ("edges", JArr [JObj [("to", JS (SNum 0))]])]]);
   ("edges", JArr [JObj [("from", JS (SNum 1)); ("to", JS (SNum 7))]]); ("nodes", JArr [JObj [("n", JS (SNum 3))]])].
Theorem C76_refuted : exists g1, decode du sorted (result C76_tops) (toks (JObj C76_doc)) = Ok (g1, false) /\
  get_nodes (result C76_tops) = Ok [0; 1] /\ get_nodes g1 = Ok [0; 1; 4; 5; 7] /\
  get_edges (result C76_tops) = Ok [2; 3] /\ get_edges g1 = Ok [2; 3; 6].
Proof. eexists. split_and!; vm_compute; reflexivity. Qed.
Print Assumptions C76_refuted.
(** What holds, on any input at all and whether or not there is an error: Decode only adds; the nodes and edges of the graph
    are there as before, and new edges are between new nodes (missing: nothing is added if there is an error). *)
Theorem C76_adds_partial pu lord tops g ts g' b : (forall i X, order_of X (lord i X)) ->
  valid_history tops -> run tops = Ok g -> decode pu lord g ts = Ok (g', b) ->
  exists ops', valid_history (tops ++ ops') /\ run (tops ++ ops') = Ok g' /\ only_adds (srun tops) (srun (tops ++ ops')).
Proof. exact (fun Hl Hv Hr => decode_only_adds pu lord Hl tops g Hv Hr ts g' b). Qed.
Print Assumptions C76_adds_partial.
(** The old nodes have the same edges. *)
Theorem C76_edges_partial pu lord tops g ts g' b n d : (forall i X, order_of X (lord i X)) ->
  valid_history tops -> run tops = Ok g -> decode pu lord g ts = Ok (g', b) -> live_node (srun tops) n ->
  exists xs ys, node_edges g n d = Ok xs /\ node_edges g' n d = Ok ys /\ xs ≡ₚ ys.
Proof. exact (fun Hl Hv Hr Hd => decode_old_edges pu lord Hl tops g Hv Hr ts g' b n d Hd). Qed.
Print Assumptions C76_edges_partial.
(** What is added is a part of the document, if the values of unknown keys pass [skip]: of the nodes, those up to some
    point; edges between these. *)
Theorem C76_partial pu lord tops g ms r g' b : (forall i X, order_of X (lord i X)) ->
  valid_history tops -> run tops = Ok g -> skippable ms -> decode pu lord g (toks (JObj ms) ++ r) = Ok (g', b) ->
  exists ops' nds eds ids es, valid_history (tops ++ ops') /\ run (tops ++ ops') = Ok g' /\ Forall adds ops' /\
    decoded pu nds eds (srun tops) (srun (tops ++ ops')) ids es /\ begun ms nds eds.
Proof. exact (fun Hl Hv Hr => decode_begun pu lord Hl tops g Hv Hr ms r g' b). Qed.
Print Assumptions C76_partial.
(** the document above; one cut off in the second member, one with a node of the wrong type in the third *)
Definition C76_wrong : list (string * json) := firstn 1 C76_doc ++ [("x", JS SNull); ("nodes", JArr [JObj [("n", JS (SNum 2))]; JObj [("n", JS SNull)]; JS (SNum 5)])].
Example C76_ex : (forall i X, order_of X (sorted i X)) /\ valid_history C76_tops /\ run C76_tops = Ok (result C76_tops) /\
  skippable C76_doc /\ skippable C76_wrong /\ live_node (srun C76_tops) 0 /\
  match decode du sorted (result C76_tops) (toks (JObj C76_doc)) with
  | Ok (g, b) => b = false /\ node_edges g 0 Outgoing = Ok [2] /\ node_edges g 0 AnyDir = Ok [3; 2] /\ node_edges g 5 Outgoing = Ok [6] /\ node_prop g 0 "p" = Some (VStr "a")
  | _ => False end /\
  match decode du sorted (result C76_tops) (firstn 40 (toks (JObj C76_doc))) with
  | Ok (g, b) => b = false /\ get_nodes g = Ok [0; 1; 4; 5] /\ get_edges g = Ok [2; 3; 6]
  | _ => False end /\
  match decode du sorted (result C76_tops) (toks (JObj C76_wrong)) with
  | Ok (g, b) => b = false /\ get_nodes g = Ok [0; 1; 4; 5] /\ get_edges g = Ok [2; 3; 6]
  | _ => False end.
Proof.
  assert (Hsk : forall ms : list (string * json), forallb (fun p => bool_decide (p.1 = "nodes" \/ p.1 = "edges" \/ skip 1 (dtoks p.2) = Some 0)) ms = true -> skippable ms).
  { intros ms H key v Hin N1 N2. rewrite forallb_forall in H. apply elem_of_list_In in Hin. specialize (H _ Hin).
    apply bool_decide_eq_true in H. cbn [fst snd] in H. tauto. }
  split_and!; [exact elements_order|by_compute|apply run_result; vm_compute; reflexivity|apply Hsk; vm_compute; reflexivity|apply Hsk; vm_compute; reflexivity|by_compute| | |];
    vm_compute; split_and!; reflexivity.
Qed.
