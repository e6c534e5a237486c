(** C97: what Decode takes the values of a document for (json.go:138-160, 388-415, 455-532). *)
From Verif Require Import Base Value Index Graph GraphSpec Sizes JsonText JsonTextProofs Json JsonSpec JsonDecProofs JsonValSpec JsonValProofs JsonValDecProofs GraphExamples JsonExamples.
Local Open Scope string_scope.
Local Open Scope list_scope.

(** C97.  A node without number, or with null, is the node 0, and so are ends of edges; members may be missing or null,
    and of members that occur twice the last one counts.  C43_partial with the relations of JsonValSpec.v in place of the functions of the model. *)
Theorem C97_decode pu lord tops g ms r g' b : (forall i X, order_of X (lord i X)) ->
  valid_history tops -> run tops = Ok g -> skippable ms -> decode pu lord g (toks (JObj ms) ++ r) = Ok (g', b) ->
  exists ops', valid_history (tops ++ ops') /\ run (tops ++ ops') = Ok g' /\
    (b = true <-> exists nds eds, document_is ms nds eds /\ (forall nd, nd ∈ nds -> all_read pu (jn_props nd)) /\
       (forall ed, ed ∈ eds -> all_read pu (je_props ed) /\ declared nds (je_from ed) /\ declared nds (je_to ed))) /\
    (b = true -> exists nds eds ids es, document_is ms nds eds /\ decoded pu nds eds (srun tops) (srun (tops ++ ops')) ids es).
Proof. exact (decode_reads pu lord tops g ms r g' b). Qed.
Print Assumptions C97_decode.
Theorem C97_unique ms nds eds nds' eds' : document_is ms nds eds -> document_is ms nds' eds' -> nds' = nds /\ eds' = eds.
Proof. exact (document_unique ms nds eds nds' eds'). Qed.
Print Assumptions C97_unique.
(** The properties are those that the unmarshaler reads, under the names it gives, without those it gives the empty name. *)
Theorem C97_properties pu m p : apart pu m -> unmarshal_props pu m = Some p -> properties_are pu m p.
Proof. exact (properties_read pu m p). Qed.
Print Assumptions C97_properties.
Theorem C97_declares ms nds eds : declares ms nds eds <-> document_is ms nds eds.
Proof. exact (declares_is ms nds eds). Qed.
Print Assumptions C97_declares.
(** a node without number; one with the number twice, and null labels; edges without ends *)
Definition C97_doc : list (string * json) :=
  [("nodes", JArr [JObj [("labels", JArr [JS (SStr "a"); JS SNull])]; JObj [("n", JS (SNum 0)); ("n", JS (SNum 1)); ("labels", JS SNull); ("edges", JArr [JObj []])]]);
   ("edges", JArr [JObj [("from", JS SNull); ("to", JS (SNum 1)); ("properties", JObj [("p", JS (SStr "x")); ("p", JS (SStr "y"))])]; JS SNull]);
   ("edges", JS SNull)].
Example C97_ex : skippable C97_doc /\
  (exists nds eds, document_is C97_doc nds eds /\ map jn_n nds = [0%Z; 1%Z] /\ map jn_labels nds = [["a"; ""]; []] /\
    map je_from eds = [1%Z; 0%Z; 0%Z] /\ map je_to eds = [0%Z; 1%Z; 0%Z] /\ map (fun ed => je_props ed !! "p") eds = [None; Some (JS (SStr "y")); None]) /\
  apart du {["p" := JS (SStr "y"); "q" := JS (SStr "z")]} /\
  unmarshal_props (fun k d => Some (if decide (k = "p") then "" else k, VNil)) {["p" := JS (SStr "y"); "q" := JS (SStr "z")]} = Some {["q" := VNil]} /\
  match decode du sorted new_graph (toks (JObj C97_doc)) with
  | Ok (g, b) => b = true /\ get_nodes g = Ok [0; 1] /\ node_edges g 0 Outgoing = Ok [3; 4] /\ node_edges g 1 Outgoing = Ok [2] /\
      edge_to g 2 = 0 /\ edge_to g 3 = 1 /\ edge_to g 4 = 0 /\ edge_prop g 3 "p" = Some (VStr "y")
  | _ => False
  end.
Proof.
  split. { intros key v Hin N1 N2. repeat (apply elem_of_cons in Hin as [[= -> ->]|Hin]); try done. by apply elem_of_nil in Hin. }
  split. { eexists _, _. split; [apply declares_is; eexists; split_and!; reflexivity|]. split_and!; vm_compute; reflexivity. }
  split. { intros k1 d1 k2 d2 k v1 v2 _ _ H1 H2. unfold du, default_unmarshal in *. congruence. }
  split; [vm_compute; reflexivity|]. vm_compute. split_and!; reflexivity.
Qed.
