(** C79: marshalers that leave properties out or rename them. *)
From Verif Require Import Base Value Index Graph GraphSpec ProgressProofs AlgSpec CloneSpec CloneProofs JsonText Json JsonSpec JsonTripProofs
  JsonKeepSpec JsonKeepProofs GraphExamples JsonExamples JsonKeepExamples.
From Verif Require Import PropertiesNodes.
Local Open Scope string_scope.
Local Open Scope list_scope.

(** C79 in full: for a PropertyMarshaler [f] and an unmarshaler [pu] that do not fail and give no name twice, Encode
    succeeds, and Decode of the text into any graph adds a copy of [s2]: the graph with just the properties that come
    back.  A property for which [f] gives the empty key is not written, and one for which [pu] gives the empty key is not
    read (json.go:125-135). *)
Definition C79_statement : Prop := forall sops src tops tgt f pu s2 sep ord lord lord' r,
  valid_history sops -> run sops = Ok src -> valid_history tops -> run tops = Ok tgt ->
  kept_graph f pu (srun sops) s2 -> node_order src ord -> label_order (srun sops) lord -> (forall i X, order_of X (lord' i X)) ->
  exists ts, encode src (user f) sep ord lord = Ok (Some ts) /\
    forall g' b, decode pu lord' tgt (ts ++ r) = Ok (g', b) -> b = true /\
       exists ops' m h, valid_history (tops ++ ops') /\ run (tops ++ ops') = Ok g' /\ Forall adds ops' /\ copied (fun _ v => v) s2 (srun tops) (srun (tops ++ ops')) m h.
(** False for the graphs of C39_refuted. *)
Theorem C79_refuted : exists sops src ord lord ts g',
  (valid_history sops /\ run sops = Ok src) /\ kept_graph ex_f ex_u (srun sops) (with_props ex_q (srun sops)) /\ node_order src ord /\
  label_order (srun sops) lord /\ encode src (user ex_f) false ord lord = Ok (Some ts) /\ decode ex_u sorted new_graph ts = Ok (g', true) /\
  size (s_nodes (with_props ex_q (srun sops))) = 3 /\ size (g_nodes g') = 2.
Proof.
  exists C01_witness, (result C01_witness), [0; 1], (fun _ => []), (written_by C01_witness ex_f false [0; 1] (fun _ => [])),
    (decoded_by [] ex_u (written_by C01_witness ex_f false [0; 1] (fun _ => []))).1.
  split; [split; [by_compute|apply run_result; vm_compute; reflexivity]|].
  split; [apply check_kept_graph_ok; by_compute|]. split; [apply (check_node_order _ _ [0; 1]); [vm_compute; reflexivity|reflexivity]|].
  split; [apply check_label_order; by_compute|]. split; [apply written_by_ok; vm_compute; reflexivity|].
  split; [apply (decoded_by_ok []); vm_compute; reflexivity|]. split; vm_compute; reflexivity.
Qed.
Print Assumptions C79_refuted.
(** What holds: the statement for all graphs whose list of nodes is right and, if edges are written separately, that have
    nodes and whose list of edges is right (missing: other graphs); Decode returns if adding to the target does and its
    property indexes can hold the values that come back. *)
Theorem C79_partial sops src tops tgt f pu s2 sep ord lord lord' r :
  valid_history sops -> run sops = Ok src -> valid_history tops -> run tops = Ok tgt ->
  node_list_safe sops -> (sep = true -> edge_list_safe sops /\ s_nodes (srun sops) <> ∅) ->
  kept_graph f pu (srun sops) s2 -> node_order src ord -> label_order (srun sops) lord -> (forall i X, order_of X (lord' i X)) ->
  exists ts, encode src (user f) sep ord lord = Ok (Some ts) /\
    (forall g' b, decode pu lord' tgt (ts ++ r) = Ok (g', b) -> b = true /\
       exists ops' m h, valid_history (tops ++ ops') /\ run (tops ++ ops') = Ok g' /\ Forall adds ops' /\ copied (fun _ v => v) s2 (srun tops) (srun (tops ++ ops')) m h) /\
    (calls_safe tops -> can_hold tops (fun _ v => v) s2 -> exists x, decode pu lord' tgt (ts ++ r) = Ok x).
Proof. exact (kept_trip sops src tops tgt f pu s2 sep ord lord lord' r). Qed.
Print Assumptions C79_partial.
(** What comes back is determined. *)
Theorem C79_unique f pu p q q' : kept f pu p q -> kept f pu p q' -> q = q'.
Proof. exact (kept_unique f pu p q q'). Qed.
Print Assumptions C79_unique.
(** Encode fails exactly if the marshaler does, for a property of some node or edge. *)
Theorem C79_error_partial sops src f sep ord lord : valid_history sops -> run sops = Ok src ->
  node_list_safe sops -> (sep = true -> edge_list_safe sops) -> node_order src ord ->
  (encode src (user f) sep ord lord = Ok None <-> some_error f (srun sops)) /\ exists o, encode src (user f) sep ord lord = Ok o.
Proof. exact (encode_error sops src f sep ord lord). Qed.
Print Assumptions C79_error_partial.
(** "secret" is not written, "tmp" not read, "name" comes back as "label", the rest as it is; on a node and an edge, read
    into a graph with a node *)
Definition C79_sops : list op :=
  [ONewNode {["P"]} {["secret" := VStr "s"; "name" := VStr "a"; "k" := VList [VNil]]} ["P"]; ONewNode ∅ {["secret" := VStr "t"]} [];
   ONewEdge 0 1 "A" {["tmp" := VStr "x"; "w" := VStr "y"]}].
Definition C79_lord (n : nat) : list string := if decide (n = 0) then ["P"] else [].
Example C79_ex : valid_history C79_sops /\ run C79_sops = Ok (result C79_sops) /\ node_list_safe C79_sops /\ edge_list_safe C79_sops /\
  kept_graph ex_f ex_u (srun C79_sops) (with_props ex_q (srun C79_sops)) /\ node_order (result C79_sops) [1; 0] /\ label_order (srun C79_sops) C79_lord /\
  (forall i X, order_of X (sorted i X)) /\
  (sn_props <$> s_nodes (with_props ex_q (srun C79_sops)) !! 0) = Some {["label" := VStr "a"; "k" := VList [VNil]]} /\
  match decode ex_u sorted (result [ONewNode ∅ ∅ []]) (written_by C79_sops ex_f true [1; 0] C79_lord) with
  | Ok (g, b) => b = true /\ get_nodes g = Ok [0; 1; 2] /\ bool_decide ((n_props <$> g_nodes g !! 1) = Some ∅) = true /\
      bool_decide ((n_props <$> g_nodes g !! 2) = Some {["label" := VStr "a"; "k" := VList [VNil]]}) = true /\
      bool_decide ((e_props <$> g_edges g !! 3) = Some {["w" := VStr "y"]}) = true
  | _ => False
  end.
Proof.
  split; [by_compute|]. split; [apply run_result; vm_compute; reflexivity|]. split; [by_compute|]. split; [by_compute|].
  split; [apply check_kept_graph_ok; by_compute|]. split; [apply (check_node_order _ _ [0; 1]); [vm_compute; reflexivity|by_compute]|].
  split; [apply check_label_order; by_compute|]. split; [exact elements_order|]. split; [by_compute|]. vm_compute. split_and!; reflexivity.
Qed.
(** an error for a property of an edge *)
Example C79_error_ex : some_error ex_f (srun (C79_sops ++ [OSetEdgeProp 2 "bad" VNil])) /\
  encode (result (C79_sops ++ [OSetEdgeProp 2 "bad" VNil])) (user ex_f) false [1; 0] C79_lord = Ok None.
Proof.
  split; [|vm_compute; reflexivity]. right. exists 2. eexists. exists "bad", VNil. split; [vm_compute; reflexivity|]. split; vm_compute; reflexivity.
Qed.
