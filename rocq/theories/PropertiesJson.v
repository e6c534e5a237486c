(** C39-C43: json.go. *)
From Verif Require Import Base Value Index Graph GraphSpec Sizes AlgSpec CloneSpec CloneProofs JsonText JsonTextProofs Json JsonSpec
  JsonEncProofs JsonDecProofs JsonAddProofs JsonUtf8Proofs JsonTripProofs GraphExamples JsonExamples.
From Verif Require Import PropertiesNodes.
From Coq Require Import Ascii NArith.
Local Open Scope string_scope.
Local Open Scope list_scope.

(** C39 (for [sep] = false) and C40 (for [sep] = true) in full: if labels are text and properties survive the
    marshalers ([writable]), Encode succeeds and Decode of the text into any graph adds a copy: one node for
    each node and one edge for each edge, with the same labels and properties ([copied], CloneSpec.v; for an
    empty target this is an isomorphism, C33_isomorphic).  For all orders of the maps ranged over, and
    whatever follows the text. *)
Definition C39_statement (sep : bool) : Prop := forall sops src tops tgt pm pu ord lord lord' r,
  valid_history sops -> run sops = Ok src -> valid_history tops -> run tops = Ok tgt ->
  writable pm pu (srun sops) -> node_order src ord -> label_order (srun sops) lord -> (forall i X, order_of X (lord' i X)) ->
  exists ts, encode src pm sep ord lord = Ok (Some ts) /\
    forall g' b, decode pu lord' tgt (ts ++ r) = Ok (g', b) -> b = true /\
       exists ops' m h, valid_history (tops ++ ops') /\ run (tops ++ ops') = Ok g' /\ Forall adds ops' /\ copied (fun _ v => v) (srun sops) (srun tops) (srun (tops ++ ops')) m h.
Definition C40_statement : Prop := C39_statement true.
(** False for a graph as in C01, whose last node GetNodes does not list: it is not written. *)
Theorem C39_refuted : exists sops src ord lord ts g',
  (valid_history sops /\ run sops = Ok src) /\ writable dm du (srun sops) /\ node_order src ord /\ label_order (srun sops) lord /\
  encode src dm false ord lord = Ok (Some ts) /\ decode du sorted new_graph ts = Ok (g', true) /\
  size (s_nodes (srun sops)) = 3 /\ size (g_nodes g') = 2.
Proof.
  exists C01_witness, (result C01_witness), [0; 1], (fun _ => []), (written C01_witness false [0; 1] (fun _ => [])),
    (decoded_into [] (written C01_witness false [0; 1] (fun _ => []))).1.
  split; [split; [by_compute|apply run_result; vm_compute; reflexivity]|].
  split; [apply check_writable; by_compute|]. split; [apply (check_node_order _ _ [0; 1]); [vm_compute; reflexivity|reflexivity]|].
  split; [apply check_label_order; by_compute|]. split; [apply written_ok; vm_compute; reflexivity|].
  split; [apply (decoded_into_ok []); vm_compute; reflexivity|]. split; vm_compute; reflexivity.
Qed.
Print Assumptions C39_refuted.
(** Labels that are not valid UTF-8 are changed: here two labels become the same one. *)
Theorem C39_labels_refuted : exists sops src ord lord ts g',
  (valid_history sops /\ run sops = Ok src) /\ node_order src ord /\ label_order (srun sops) lord /\
  encode src dm false ord lord = Ok (Some ts) /\ decode du sorted new_graph ts = Ok (g', true) /\
  (size ∘ sn_labels <$> s_nodes (srun sops) !! 0) = Some 2 /\ (size ∘ n_labels <$> g_nodes g' !! 0) = Some 1.
Proof.
  pose (l1 := String (ascii_of_N 128) ""). pose (l2 := String (ascii_of_N 129) "").
  pose (ops := [ONewNode {[l1; l2]} ∅ [l1; l2]]).
  exists ops, (result ops), [0], (fun _ => [l1; l2]), (written ops false [0] (fun _ => [l1; l2])),
    (decoded_into [] (written ops false [0] (fun _ => [l1; l2]))).1.
  split; [split; [by_compute|apply run_result; vm_compute; reflexivity]|].
  split; [apply (check_node_order _ _ [0]); [vm_compute; reflexivity|reflexivity]|].
  split; [apply check_label_order; by_compute|]. split; [apply written_ok; vm_compute; reflexivity|].
  split; [apply (decoded_into_ok []); vm_compute; reflexivity|]. split; vm_compute; reflexivity.
Qed.
Print Assumptions C39_labels_refuted.
(** Without marshalers a property with the empty key is written but not read, and a number is read as
    another type of value ([VNil] stands for it here). *)
Theorem C39_properties_refuted : exists sops src ts g',
  (valid_history sops /\ run sops = Ok src) /\ node_order src [0] /\
  encode src dm false [0] (fun _ => []) = Ok (Some ts) /\ decode du sorted new_graph ts = Ok (g', true) /\
  node_prop src 0 "" = Some (VStr "a") /\ node_prop g' 0 "" = None /\
  node_prop src 0 "k" = Some (VInt 1) /\ node_prop g' 0 "k" = Some VNil.
Proof.
  pose (ops := [ONewNode ∅ {["" := VStr "a"; "k" := VInt 1]} []]).
  exists ops, (result ops), (written ops false [0] (fun _ => [])), (decoded_into [] (written ops false [0] (fun _ => []))).1.
  split; [split; [by_compute|apply run_result; vm_compute; reflexivity]|].
  split; [apply (check_node_order _ _ [0]); [vm_compute; reflexivity|reflexivity]|].
  split; [apply written_ok; vm_compute; reflexivity|].
  split; [apply (decoded_into_ok []); vm_compute; reflexivity|]. split_and!; vm_compute; reflexivity.
Qed.
Print Assumptions C39_properties_refuted.
(** What holds: the statement for all graphs whose list of nodes is right (missing: other graphs), and
    Decode returns if adding to the target does (C53) and its property indexes can hold the values. *)
Theorem C39_partial sops src tops tgt pm pu ord lord lord' r :
  valid_history sops -> run sops = Ok src -> valid_history tops -> run tops = Ok tgt ->
  node_list_safe sops -> writable pm pu (srun sops) -> node_order src ord -> label_order (srun sops) lord -> (forall i X, order_of X (lord' i X)) ->
  exists ts, encode src pm false ord lord = Ok (Some ts) /\
    (forall g' b, decode pu lord' tgt (ts ++ r) = Ok (g', b) -> b = true /\
       exists ops' m h, valid_history (tops ++ ops') /\ run (tops ++ ops') = Ok g' /\ Forall adds ops' /\ copied (fun _ v => v) (srun sops) (srun tops) (srun (tops ++ ops')) m h) /\
    (calls_safe tops -> can_hold tops (fun _ v => v) (srun sops) -> exists x, decode pu lord' tgt (ts ++ r) = Ok x).
Proof. exact (json_trip_embedded sops src tops tgt pm pu ord lord lord' r). Qed.
Print Assumptions C39_partial.
(** UTF-8 strings are written as they are; without marshalers, nil, strings and lists of such values survive. *)
Theorem C39_utf8 s : utf8 s -> json_str s = s.
Proof. exact (json_str_utf8 s). Qed.
Print Assumptions C39_utf8.
(** [json_str] as a whole: code points are kept, a byte that does not start one becomes U+FFFD; the result is UTF-8. *)
Theorem C39_kept c s : code_point c -> json_str (bytes (utf8_bytes c) +:+ s) = bytes (utf8_bytes c) +:+ json_str s.
Proof. exact (json_str_keeps c s). Qed.
Print Assumptions C39_kept.
Theorem C39_replaced a s : (forall c r, code_point c -> String a s <> bytes (utf8_bytes c) +:+ r) ->
  json_str (String a s) = bytes (utf8_bytes 65533) +:+ json_str s.
Proof. exact (json_str_replaces a s). Qed.
Print Assumptions C39_replaced.
Theorem C39_valid s : utf8 (json_str s).
Proof. exact (json_str_valid s). Qed.
Print Assumptions C39_valid.
(** the euro sign, a lone continuation byte, an encoded surrogate, and a cut off sequence *)
Example C39_utf8_ex : (json_str (bytes [226%N; 130%N; 172%N; 65%N]) = bytes [226%N; 130%N; 172%N; 65%N]) /\ (utf8_bytes 8364 = [226%N; 130%N; 172%N]) /\
  (json_str (bytes [130%N; 65%N]) = bytes [239%N; 191%N; 189%N; 65%N]) /\
  (json_str (bytes [237%N; 160%N; 128%N]) = bytes [239%N; 191%N; 189%N; 239%N; 191%N; 189%N; 239%N; 191%N; 189%N]) /\
  (json_str (bytes [240%N; 159%N; 152%N]) = bytes [239%N; 191%N; 189%N; 239%N; 191%N; 189%N; 239%N; 191%N; 189%N]).
Proof. vm_compute. done. Qed.
Theorem C39_plain other other' p : (forall k v, p !! k = Some v -> k <> "" /\ utf8 k /\ plain v) ->
  survives (default_marshal other) (default_unmarshal other') p.
Proof. exact (plain_survives other other' p). Qed.
Print Assumptions C39_plain.
(** two labels, a list as value, a forward and a backward edge, a loop, parallel edges and a removed node; written in
    the order 3, 0, 2 and read into a graph that has a node *)
Definition C39_sops : list op :=
  [ONewNode {["P"; "Q"]} {["k" := VList [VStr "a"; VNil]; "m" := VStr "b"]} ["P"; "Q"]; ONewNode ∅ ∅ []; ONewNode ∅ ∅ [];
   ODetachRemove 1 []; ONewNode {["P"]} ∅ ["P"];
   ONewEdge 0 2 "A" {["w" := VStr "x"]}; ONewEdge 2 0 "" ∅; ONewEdge 3 3 "B" ∅; ONewEdge 0 2 "A" ∅].
Definition C39_lord (n : nat) : list string := if decide (n = 0) then ["Q"; "P"] else if decide (n = 3) then ["P"] else [].
Definition C39_tops : list op := [ONewNode ∅ ∅ []].
Example C39_ex : valid_history C39_sops /\ run C39_sops = Ok (result C39_sops) /\ node_list_safe C39_sops /\ edge_list_safe C39_sops /\
  writable dm du (srun C39_sops) /\ node_order (result C39_sops) [3; 0; 2] /\ label_order (srun C39_sops) C39_lord /\
  (forall i X, order_of X (sorted i X)) /\ valid_history C39_tops /\
  match decode du sorted (result C39_tops) (written C39_sops false [3; 0; 2] C39_lord) with
  | Ok (g, b) => b = true /\ get_nodes g = Ok [0; 1; 3; 4] /\ node_edges g 1 Outgoing = Ok [2] /\ node_edges g 3 Incoming = Ok [5] /\
      node_edges g 4 Incoming = Ok [6; 7] /\ node_prop g 3 "k" = Some (VList [VStr "a"; VNil]) /\ edge_prop g 6 "w" = Some (VStr "x")
  | _ => False
  end.
Proof.
  split; [by_compute|]. split; [apply run_result; vm_compute; reflexivity|]. split; [by_compute|]. split; [by_compute|].
  split; [apply check_writable; by_compute|]. split; [apply (check_node_order _ _ [0; 2; 3]); [vm_compute; reflexivity|by_compute]|].
  split; [apply check_label_order; by_compute|]. split; [exact elements_order|]. split; [by_compute|]. vm_compute. split_and!; reflexivity.
Qed.

(** C40: false for the graphs of C39_refuted, and for the empty graph: what Encode writes is no JSON text
    and Decode fails. *)
Theorem C40_refuted : exists ts, encode new_graph dm true [] (fun _ => []) = Ok (Some ts) /\
  decode du sorted new_graph ts = Ok (new_graph, false).
Proof. eexists. split; [apply encode_empty|]. vm_compute. reflexivity. Qed.
Print Assumptions C40_refuted.
(** What holds: the statement for all graphs with nodes whose lists of nodes and edges are right (missing:
    other graphs). *)
Theorem C40_partial sops src tops tgt pm pu ord lord lord' r :
  valid_history sops -> run sops = Ok src -> valid_history tops -> run tops = Ok tgt ->
  node_list_safe sops -> edge_list_safe sops -> s_nodes (srun sops) <> ∅ ->
  writable pm pu (srun sops) -> node_order src ord -> label_order (srun sops) lord -> (forall i X, order_of X (lord' i X)) ->
  exists ts, encode src pm true ord lord = Ok (Some ts) /\
    (forall g' b, decode pu lord' tgt (ts ++ r) = Ok (g', b) -> b = true /\
       exists ops' m h, valid_history (tops ++ ops') /\ run (tops ++ ops') = Ok g' /\ Forall adds ops' /\ copied (fun _ v => v) (srun sops) (srun tops) (srun (tops ++ ops')) m h) /\
    (calls_safe tops -> can_hold tops (fun _ v => v) (srun sops) -> exists x, decode pu lord' tgt (ts ++ r) = Ok x).
Proof. exact (json_trip_separate sops src tops tgt pm pu ord lord lord' r). Qed.
Print Assumptions C40_partial.
Example C40_ex : bool_decide (s_nodes (srun C39_sops) = ∅) = false /\
  match decode du sorted (result C39_tops) (written C39_sops true [3; 0; 2] C39_lord) with
  | Ok (g, b) => b = true /\ get_nodes g = Ok [0; 1; 2; 3] /\ node_edges g 1 Outgoing = Ok [7] /\ node_edges g 3 Incoming = Ok [4; 5] /\
      node_edges g 2 Incoming = Ok [6] /\ node_prop g 2 "k" = Some (VList [VStr "a"; VNil]) /\ edge_prop g 4 "w" = Some (VStr "x")
  | _ => False
  end.
Proof. split; [vm_compute; reflexivity|]. vm_compute. split_and!; reflexivity. Qed.

(** C41 in full *)
Definition C41_statement : Prop := forall g pm sep ord lord ts, encode g pm sep ord lord = Ok (Some ts) -> object_text ts.
(** False without nodes, if edges are written separately: the text is [{,"edges":[]}]. *)
Theorem C41_refuted : exists ts, encode new_graph dm true [] (fun _ => []) = Ok (Some ts) /\ forall v, ts <> toks v.
Proof. eexists. split; [apply encode_empty|]. exact (encode_no_text new_graph dm [] (fun _ => []) _ (encode_empty _ _) eq_refl). Qed.
Print Assumptions C41_refuted.
(** What holds, for all values a graph can have and all marshalers: it is true in all other cases (missing: a
    graph without nodes with edges written separately, where it never holds). *)
Theorem C41_partial g pm sep ord lord ts : encode g pm sep ord lord = Ok (Some ts) -> sep = false \/ get_nodes g <> Ok [] -> object_text ts.
Proof. exact (encode_text g pm sep ord lord ts). Qed.
Print Assumptions C41_partial.
Theorem C41_no_nodes g pm ord lord ts : encode g pm true ord lord = Ok (Some ts) -> get_nodes g = Ok [] -> forall v, ts <> toks v.
Proof. exact (encode_no_text g pm ord lord ts). Qed.
Print Assumptions C41_no_nodes.
Example C41_ex : encode new_graph dm false [] (fun _ => []) = Ok (Some [TObj; TObjEnd]) /\
  encode (result C39_tops) dm true [0] (fun _ => []) = Ok (Some (toks (JObj [("nodes", JArr [JObj [("n", JS (SNum 0))]]); ("edges", JArr [])]))).
Proof. split; vm_compute; reflexivity. Qed.

(** C42 in full: [known] removes the other keys. *)
Definition C42_statement : Prop := forall pu lord g ms r,
  decode pu lord g (toks (JObj ms) ++ r) = decode pu lord g (toks (JObj (known ms)) ++ r).
(** False: after an object as value the rest of the document is ignored ... *)
Definition C42_doc (v : json) : list (string * json) := [("x", v); ("nodes", JArr [JObj [("n", JS (SNum 0))]])].
Theorem C42_refuted : exists g1 g2,
  decode du sorted new_graph (toks (JObj (C42_doc (JObj [("a", JS (SNum 1))])))) = Ok (g1, true) /\
  decode du sorted new_graph (toks (JObj (known (C42_doc (JObj [("a", JS (SNum 1))]))))) = Ok (g2, true) /\
  get_nodes g1 = Ok [] /\ get_nodes g2 = Ok [0].
Proof. do 2 eexists. split_and!; vm_compute; reflexivity. Qed.
Print Assumptions C42_refuted.
(** ... an empty array or object makes Decode skip the next key and read [0] as the end of a value ... *)
Theorem C42_empty_refuted : exists g1, decode du sorted new_graph (toks (JObj (C42_doc (JArr [])))) = Ok (g1, true) /\ get_nodes g1 = Ok [].
Proof. eexists. split_and!; vm_compute; reflexivity. Qed.
Print Assumptions C42_empty_refuted.
(** ... and strings inside the value may be taken for keys. *)
Theorem C42_nested_refuted : exists g1,
  decode du sorted new_graph (toks (JObj [("x", JArr [JS SNull; JS SNull; JObj [("nodes", JArr [JObj [("n", JS (SNum 0))]])]])])) = Ok (g1, true) /\ get_nodes g1 = Ok [0].
Proof. eexists. split_and!; vm_compute; reflexivity. Qed.
Print Assumptions C42_nested_refuted.
(** What holds: it is true if the values of unknown keys pass [skip] (missing: other values).  Scalars do. *)
Theorem C42_partial pu lord g ms r : skippable ms ->
  decode pu lord g (toks (JObj ms) ++ r) = decode pu lord g (toks (JObj (known ms)) ++ r).
Proof. exact (decode_known pu lord g ms r). Qed.
Print Assumptions C42_partial.
Example C42_ex : (forall s, skip 1 (dtoks (JS s)) = Some 0) /\ (forall s, skip 1 (dtoks (JArr [JS s])) = Some 0) /\
  skip 1 (dtoks (JArr [JS (SStr "a"); JS (SStr "b"); JS (SStr "c"); JS (SNum 1)])) = Some 0 /\
  skip 1 (dtoks (JArr [JS SNull; JS SNull; JS (SStr "nodes")])) = None /\ skip 1 (dtoks (JObj [])) = Some 1.
Proof. split_and!; done. Qed.

(** C43 in full: Decode succeeds if and only if the document has the right types, properties are readable and
    every edge refers to declared nodes ([declares], [sound_doc]), and then adds exactly the declared nodes and
    edges ([decoded]). *)
Definition C43_statement : Prop := forall pu lord tops g ms r g' b, (forall i X, order_of X (lord i X)) ->
  valid_history tops -> run tops = Ok g -> decode pu lord g (toks (JObj ms) ++ r) = Ok (g', b) ->
  exists ops', valid_history (tops ++ ops') /\ run (tops ++ ops') = Ok g' /\ Forall adds ops' /\
    (b = true <-> exists nds eds, declares ms nds eds /\ sound_doc pu nds eds) /\
    (b = true -> exists nds eds ids es, declares ms nds eds /\ decoded pu nds eds (srun tops) (srun (tops ++ ops')) ids es).
(** False because of C42: here the edge to a missing node is not noticed. *)
Definition C43_bad : list (string * json) := [("x", JObj [("a", JS SNull)]); ("edges", JArr [JObj [("from", JS (SNum 1)); ("to", JS (SNum 2))]])].
Theorem C43_refuted : exists g1 nds eds, decode du sorted new_graph (toks (JObj C43_bad)) = Ok (g1, true) /\
  declares C43_bad nds eds /\ ~ sound_doc du nds eds.
Proof.
  exists new_graph, [], [JEdge 1 2 "" ∅]. split; [vm_compute; reflexivity|]. split; [by exists [JEdge 1 2 "" ∅]|].
  intros [_ H]. destruct (H _ (elem_of_list_here _ _)) as (_ & (nd & Hnd & _) & _). by apply elem_of_nil in Hnd.
Qed.
Print Assumptions C43_refuted.
(** What holds: the statement, if the values of unknown keys pass [skip] (missing: other documents). *)
Theorem C43_partial pu lord tops g ms r g' b : (forall i X, order_of X (lord i X)) ->
  valid_history tops -> run tops = Ok g -> skippable ms -> decode pu lord g (toks (JObj ms) ++ r) = Ok (g', b) ->
  exists ops', valid_history (tops ++ ops') /\ run (tops ++ ops') = Ok g' /\ Forall adds ops' /\
    (b = true <-> exists nds eds, declares ms nds eds /\ sound_doc pu nds eds) /\
    (b = true -> exists nds eds ids es, declares ms nds eds /\ decoded pu nds eds (srun tops) (srun (tops ++ ops')) ids es).
Proof. exact (fun Hl Hv Hr => decode_sound pu lord Hl tops g Hv Hr ms r g' b). Qed.
Print Assumptions C43_partial.
(** It returns, if adding nodes and edges to the graph does and its indexes can hold the values. *)
Theorem C43_returns_partial pu lord tops g ms r nds eds : (forall i X, order_of X (lord i X)) ->
  valid_history tops -> run tops = Ok g -> skippable ms -> declares ms nds eds ->
  calls_safe tops -> accepts tops (node_reads pu nds) (edge_reads pu eds) -> exists x, decode pu lord g (toks (JObj ms) ++ r) = Ok x.
Proof. exact (fun Hl Hv Hr => decode_progress pu lord Hl tops g Hv Hr ms r nds eds). Qed.
Print Assumptions C43_returns_partial.
(** On any input at all, also if it is no JSON text, the graph is as after more calls that create nodes and edges, and
    Decode returns if the graph has no property indexes. *)
Theorem C43_any_input pu lord tops g ts g' b : (forall i X, order_of X (lord i X)) ->
  valid_history tops -> run tops = Ok g -> decode pu lord g ts = Ok (g', b) ->
  exists ops', valid_history (tops ++ ops') /\ run (tops ++ ops') = Ok g' /\ Forall adds ops'.
Proof. exact (fun Hl Hv Hr => decode_any pu lord Hl tops g Hv Hr ts g' b). Qed.
Print Assumptions C43_any_input.
Theorem C43_any_input_returns_partial pu lord tops g ts : (forall i X, order_of X (lord i X)) ->
  valid_history tops -> run tops = Ok g -> edge_list_safe tops ->
  (forall k, node_index tops k = None) -> (forall k, edge_index tops k = None) -> exists r, decode pu lord g ts = Ok r.
Proof. exact (fun Hl Hv Hr => decode_returns pu lord Hl tops g Hv Hr ts). Qed.
Print Assumptions C43_any_input_returns_partial.
(** a forward reference, edges before nodes, an unknown key; the same with a missing node *)
Definition C43_doc (i : Z) : list (string * json) :=
  [("edges", JArr [JObj [("from", JS (SNum 2)); ("to", JS (SNum i)); ("label", JS (SStr "A"))]]); ("x", JArr [JS SNull]);
   ("nodes", JArr [JObj [("n", JS (SNum 5)); ("edges", JArr [JObj [("to", JS (SNum 2))]])]; JObj [("n", JS (SNum 2)); ("labels", JArr [JS (SStr "L")])]])].
Example C43_ex : (forall i, skippable (C43_doc i)) /\
  match decode du sorted (result C39_tops) (toks (JObj (C43_doc 5))) with
  | Ok (g, b) => b = true /\ get_nodes g = Ok [0; 1; 2] /\ node_edges g 1 Outgoing = Ok [4] /\ node_edges g 2 Outgoing = Ok [3] /\ get_edges g = Ok [3; 4]
  | _ => False end /\
  match decode du sorted (result C39_tops) (toks (JObj (C43_doc 3))) with Ok (g, b) => b = false /\ get_edges g = Ok [] | _ => False end.
Proof.
  split.
  - intros i key v Hin N1 N2. repeat (apply elem_of_cons in Hin as [[= -> ->]|Hin]); try done. by apply elem_of_nil in Hin.
  - split; vm_compute; split_and!; reflexivity.
Qed.
(** Two nodes with the same index: an edge that is queued is attached to the second. *)
Definition C43_twice : list (string * json) :=
  [("nodes", JArr [JObj [("n", JS (SNum 0)); ("edges", JArr [JObj [("to", JS (SNum 1))]])]; JObj [("n", JS (SNum 0))]; JObj [("n", JS (SNum 1))]])].
Example C43_twice_ex :
  match decode du sorted new_graph (toks (JObj C43_twice)) with Ok (g, b) => b = true /\ node_edges g 0 Outgoing = Ok [] /\ node_edges g 1 Outgoing = Ok [3] | _ => False end.
Proof. vm_compute. split_and!; reflexivity. Qed.
