(** C66: which texts Decode accepts (json.go:455-532), and the order of the keys of a map that is written (C41). *)
From Verif Require Import Base Value ValueSpec Graph GraphSpec Sizes JsonText JsonTextProofs Json JsonSpec JsonReadSpec JsonReadProofs
  GraphExamples JsonExamples.
From Coq Require Import Sorted.
Local Open Scope string_scope.
Local Open Scope list_scope.

(** C66 in full: if Decode reports no error, the input begins with the text of a JSON object. *)
Definition C66_statement : Prop := forall pu lord g ts g',
  decode pu lord g ts = Ok (g', true) -> exists ms r, ts = toks (JObj ms) ++ r.
(** False: the [}] of the value of an unknown key is taken for the end of the document, which may be missing:
    [cut_text] is the text [{"x":{"a":null}] without the end of the outer object. *)
Theorem C66_refuted : exists g', decode du sorted new_graph cut_text = Ok (g', true) /\ forall ms r, cut_text <> toks (JObj ms) ++ r.
Proof. eexists. split; [vm_compute; reflexivity|exact cut_no_object]. Qed.
Print Assumptions C66_refuted.
Theorem C66_refutes : ~ C66_statement.
Proof. intros H. destruct (H du sorted new_graph cut_text new_graph eq_refl) as (ms & r & E). by apply cut_no_object in E. Qed.
Print Assumptions C66_refutes.
(** What holds: a text that is accepted begins with a JSON object where the values of unknown keys are scalars, or else
    with such members and an unknown key whose value is an object or an array.  All other texts are errors: those
    that end early, have a value missing or of the wrong form, a comma too many, and so on.
    (Missing: what is accepted after the beginning of an object or array for an unknown key.) *)
Theorem C66_partial pu lord g ts g' : decode pu lord g ts = Ok (g', true) -> scalar_text ts \/ nested_text ts.
Proof. exact (decode_accepts pu lord g ts g'). Qed.
Print Assumptions C66_partial.
(** What follows the text that is accepted is not looked at. *)
Theorem C66_rest pu lord g ts r g' : decode pu lord g ts = Ok (g', true) -> decode pu lord g (ts ++ r) = Ok (g', true).
Proof. exact (decode_more pu lord g ts r g'). Qed.
Print Assumptions C66_rest.
Definition C66_doc : list (string * json) := [("x", JS (SNum 1)); ("nodes", JArr [JObj [("n", JS (SNum 0))]])].
(** accepted; the shorter ones are errors, and so are a comma too many and a value missing *)
Example C66_ex : match decode du sorted new_graph (toks (JObj C66_doc)) with Ok (g, b) => b = true /\ get_nodes g = Ok [0] | _ => False end /\
  Forall (fun n => match decode du sorted new_graph (take n (toks (JObj C66_doc))) with Ok (_, b) => b = false | _ => False end) (seq 0 15) /\
  length (toks (JObj C66_doc)) = 15 /\
  match decode du sorted new_graph [TObj; TS (SStr "x"); TColon; TS SNull; TComma; TObjEnd] with Ok (_, b) => b = false | _ => False end /\
  match decode du sorted new_graph [TObj; TS (SStr "nodes"); TColon; TObjEnd] with Ok (_, b) => b = false | _ => False end.
Proof. split_and!; [vm_compute; by split_and!|repeat (apply Forall_cons; split; [vm_compute; reflexivity|]); by apply Forall_nil|vm_compute; reflexivity..]. Qed.
(** the graph may have changed when the error is noticed: the nodes before it are there *)
Example C66_late_ex : match decode du sorted new_graph (take 14 (toks (JObj C66_doc))) with Ok (g, b) => b = false /\ get_nodes g = Ok [0] | _ => False end.
Proof. vm_compute. by split_and!. Qed.

(** The keys of a map are written in ascending order, each once. *)
Theorem C41_keys m : exists ks, map_json m = JObj (map (fun k => (json_str k, default (JS SNull) (m !! k))) ks) /\
  StronglySorted bytes_lt ks /\ (forall k, k ∈ ks <-> is_Some (m !! k)).
Proof. exact (map_json_keys m). Qed.
Print Assumptions C41_keys.
Example C41_keys_ex : map_json (<["b" := JS (SNum 1)]> (<["a" := JS (SNum 2)]> {["ab" := JS (SNum 3)]})) =
  JObj [("a", JS (SNum 2)); ("ab", JS (SNum 3)); ("b", JS (SNum 1))].
Proof. vm_compute. reflexivity. Qed.
