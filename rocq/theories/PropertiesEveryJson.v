(** C96: Encode and Decode in every graph, also where the list of nodes is wrong (json.go:176-532). *)
From Verif Require Import Base Value Index Graph GraphSpec Clone CloneSpec Json JsonSpec JsonTripProofs ListedSpec ListedProofs HeldSpec EverySpec EveryJsonProofs GraphExamples JsonExamples Sizes.
Local Open Scope string_scope.
Local Open Scope list_scope.

(** C96.  Encode writes the nodes that GetNodes lists, removed ones too.  In place of an edge's end that is not listed it writes the first
    node of the list: Decode makes edges that the graph does not have.  If edges are written separately, all of them are written,
    otherwise those that leave a listed node. *)
Theorem C96_trip sops src tops tgt pm pu sep ord lord lord' r :
  valid_history sops -> run sops = Ok src -> valid_history tops -> run tops = Ok tgt ->
  (sep = true -> edge_list_safe sops /\ listed sops <> []) ->
  writable pm pu (srun (ghosts sops)) -> ord ≡ₚ listed sops -> label_order (srun (ghosts sops)) lord -> (forall i X, order_of X (lord' i X)) ->
  exists ts, encode src pm sep ord lord = Ok (Some ts) /\
    (forall g' b, decode pu lord' tgt (ts ++ r) = Ok (g', b) -> b = true /\
       exists ops' m h, valid_history (tops ++ ops') /\ run (tops ++ ops') = Ok g' /\ Forall adds ops' /\
         extended (fun _ v => v) (redirected (listed sops) (srun (ghosts sops))) (srun tops) (srun (tops ++ ops')) ∅ m h /\
         (forall n, is_Some (m !! n) <-> n ∈ listed sops) /\
         (forall e, is_Some (h !! e) <-> exists x, s_edges (srun sops) !! e = Some x /\ (sep = true \/ e_from x ∈ listed sops))) /\
    (calls_safe tops -> can_hold tops (fun _ v => v) (srun (ghosts sops)) -> exists x, decode pu lord' tgt (ts ++ r) = Ok x).
Proof. exact (json_every sops src tops tgt pm pu sep ord lord lord' r). Qed.
Print Assumptions C96_trip.
(** The removed node 4 is listed, the live node 2 is not.  The edges from 2 to 5 and from 5 to 2 become edges from 4 to 5 (if it is written) and from 5 to 4. *)
Definition C96_ops : list op :=
  [ONewNode ∅ ∅ []; ONewNode ∅ ∅ []; ODetachRemove 1 []; ONewNode ∅ ∅ []; ONewNode ∅ ∅ []; ODetachRemove 0 [];
   ONewNode {["L"]} {["k" := VStr "x"]} ["L"]; ONewNode ∅ ∅ []; ONewEdge 2 5 "E" ∅; ONewEdge 5 2 "F" {["w" := VStr "y"]}; ODetachRemove 4 ["L"]].
Definition C96_lord (n : nat) : list string := if decide (n = 4) then ["L"] else [].
Example C96_ex : (valid_history C96_ops /\ run C96_ops = Ok (result C96_ops)) /\ edge_list_safe C96_ops /\ listed C96_ops = [4; 5] /\
  live_node (srun C96_ops) 2 /\ ~ live_node (srun C96_ops) 4 /\ redirect [4; 5] 2 = 4 /\
  writable dm du (srun (ghosts C96_ops)) /\ label_order (srun (ghosts C96_ops)) C96_lord /\ (forall i X, order_of X (sorted i X)) /\
  match decode du sorted new_graph (written C96_ops false [5; 4] C96_lord) with
  | Ok (g, b) => b = true /\ get_nodes g = Ok [0; 1] /\ get_edges g = Ok [2] /\ edge_from g 2 = 0 /\ edge_to g 2 = 1 /\
      bool_decide (labels_of g 1 = {["L"]}) = true /\ node_prop g 1 "k" = Some (VStr "x") /\ edge_prop g 2 "w" = Some (VStr "y")
  | _ => False
  end /\
  match decode du sorted new_graph (written C96_ops true [5; 4] C96_lord) with
  | Ok (g, b) => b = true /\ get_nodes g = Ok [0; 1] /\ node_edges g 0 Outgoing = Ok [3] /\ node_edges g 1 Outgoing = Ok [2] /\ edge_to g 2 = 0 /\ edge_to g 3 = 1
  | _ => False
  end.
Proof.
  split; [split; [by_compute|apply run_result; vm_compute; reflexivity]|]. split; [by_compute|]. split; [by_compute|]. split; [by_compute|].
  split; [by_compute|]. split; [by_compute|].
  split; [apply check_writable; by_compute|]. split; [apply check_label_order; by_compute|]. split; [exact elements_order|].
  vm_compute. split_and!; reflexivity.
Qed.
