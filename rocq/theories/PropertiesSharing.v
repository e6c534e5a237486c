(** C68: label sets and property maps that the caller and the graph share (stringset.go, node.go, graph.go). *)
From Verif Require Import Base Value Index Graph GraphSpec Find Sharing SharingSpec SharingProofs SharedProofs GraphExamples SharingExamples.
Local Open Scope string_scope.
Local Open Scope list_scope.

(** ** C68: label sets and property maps given to the graph or got from it are copies *)
Definition C68_statement : Prop := forall p, same_outcome (sh_run p) (v_run p).
(** False.  A write to the set got from GetLabels ("a copy of the node labels", node.go:46) gives the node a label, and
    the index does not list the node under it. *)
Definition C68_got : list call := [CCall (ONewNode {["A"]} ∅ ["A"]); CGetLabels 0 0; CInsert 0 "B"].
Theorem C68_refuted : exists st w, sh_run C68_got = Ok st /\ v_run C68_got = Ok w /\
  labels_of (sh_g st) 0 = {["A"; "B"]} /\ labels_of (v_g w) 0 = {["A"]} /\ get_nodes_all_labels (sh_g st) {["B"]} ["B"] = Ok ([], 0%Z).
Proof. exists (sh_result C68_got), (v_result C68_got). split; [returns|]. split; [returns|]. by_compute. Qed.
Print Assumptions C68_refuted.
Example C68_refutes : ~ C68_statement.
Proof.
  intros H. specialize (H C68_got). destruct C68_refuted as (st & w & Hst & Hw & A & B & _). rewrite Hst, Hw in H. destruct H as (E & _).
  rewrite E, B in A. clear -A. assert ("B" ∈ ({["A"]} : gset string)) as H by (rewrite A; set_solver). set_solver.
Qed.
(** SetLabels and FastNewNode keep the set of the caller.  A label taken out of it while the node is removed stays in
    the index: with the label put back, the query by label gives the removed node. *)
Definition C68_given : list call :=
  [CCall (ONewNode ∅ ∅ []); CSet 0 {["A"]}; CSetLabels 0 0 [] ["A"]; CDelete 0 "A"; CCall (ODetachRemove 0 []);
   CInsert 0 "A"].
Theorem C68_removed_refuted : exists st, sh_run C68_given = Ok st /\
  get_nodes (sh_g st) = Ok [] /\ get_nodes_all_labels (sh_g st) {["A"]} ["A"] = Ok ([0], 1%Z).
Proof. exists (sh_result C68_given). split; [returns|]. by_compute. Qed.
Print Assumptions C68_removed_refuted.
(** One map given to FastNewNode twice: SetProperty on one node changes the other, and FindNodes finds one of them. *)
Definition C68_twice : list call :=
  [CCall (OAddNodeIndex "k" HashIndex); CSet 0 {["A"]}; CMap 0 {["k" := VInt 1]}; CFastNode 0 0 ["A"]; CFastNode 0 0 ["A"];
   CCall (OSetNodeProp 0 "k" (VInt 2))].
Theorem C68_props_refuted : exists st, sh_run C68_twice = Ok st /\
  node_prop (sh_g st) 0 "k" = Some (VInt 2) /\ node_prop (sh_g st) 1 "k" = Some (VInt 2) /\
  find_nodes (sh_g st) {["A"]} {["k" := VInt 2]} ["A"] ["k"] ["k"] (fun _ => [("k", VInt 2)]) = Ok ([0], 1%Z).
Proof. exists (sh_result C68_twice). split; [returns|]. by_compute. Qed.
Print Assumptions C68_props_refuted.

(** A set or map that was never made is nil: writing to it panics.  The methods of StringSet do make it. *)
Theorem C68_nil_refuted p st v q x k y : sh_run p = Ok st -> ~ has_set st v -> ~ has_map st q ->
  sh_run (p ++ [CInsert v x]) = Panic /\ sh_run (p ++ [CPut q k y]) = Panic /\
  exists st', sh_run (p ++ [CAdd v ∅; CInsert v x]) = Ok st' /\ set_in st' v = {[x]}.
Proof. exact (nil_panics p st v q x k y). Qed.
Print Assumptions C68_nil_refuted.
Example C68_nil_ex : sh_run [] = Ok sh_start /\ ~ has_set sh_start 0 /\ ~ has_map sh_start 0 /\ exists w, v_run [CInsert 0 "A"] = Ok w.
Proof. split; [reflexivity|]. split; [intros H; exact (H eq_refl)|]. split; [intros H; exact (H eq_refl)|]. eexists. reflexivity. Qed.

(** True of programs whose writes go to maps that nothing else holds at that moment. *)
Theorem C68_partial p : quiet sh_start p -> same_outcome (sh_run p) (v_run p).
Proof. exact (quiet_as_values p). Qed.
Print Assumptions C68_partial.
Example C68_hand : quiet sh_start by_hand /\ sh_run by_hand = Ok (sh_result by_hand) /\
  labels_of (sh_g (sh_result by_hand)) 0 = {["A"; "B"]} /\ node_prop (sh_g (sh_result by_hand)) 0 "k" = Some (VInt 2).
Proof. split; [apply quiet_test_ok; vm_compute; reflexivity|]. split; [returns|]. by_compute. Qed.
(** Then the graph is that of the calls made: what is proved of histories holds for it. *)
Theorem C68_history p st : quiet sh_start p -> sh_run p = Ok st -> run (made p) = Ok (sh_g st).
Proof. exact (quiet_history p st). Qed.
Print Assumptions C68_history.
Example C68_made : length (made by_hand) = 1 /\ length (made by_methods) = 3 /\ run (made by_hand) = Ok (sh_g (sh_result by_hand)).
Proof. split; [by_compute|]. split; [by_compute|]. apply C68_history; [exact (proj1 C68_hand)|returns]. Qed.
(** Programs that only use the methods of StringSet and of the graph are such: Add, AddSet and Remove make new sets. *)
Theorem C68_methods p : Forall uses_methods p -> quiet sh_start p /\ same_outcome (sh_run p) (v_run p).
Proof. exact (fun H => conj (methods_quiet p H) (methods_as_values p H)). Qed.
Print Assumptions C68_methods.
Example C68_used : Forall uses_methods by_methods /\ sh_run by_methods = Ok (sh_result by_methods) /\
  labels_of (sh_g (sh_result by_methods)) 0 = {["B"; "C"]} /\
  v_set (v_result by_methods) 2 = {["B"; "C"; "D"]} /\
  get_nodes_all_labels (sh_g (sh_result by_methods)) {["C"]} ["C"] = Ok ([0], 1%Z).
Proof. split; [repeat constructor|]. split; [returns|]. by_compute. Qed.

(** What is shared, in all programs: a write to the set [v] after GetLabels, SetLabels, FastNewNode or Clone shows on the
    other side; a write to the map [q] shows in the node or edge made with it, and SetProperty and RemoveProperty of that
    node or edge show in the map. *)
Theorem C68_shared_sets p st st' v w f : edits_set v w f ->
  (forall n, and_then p [CGetLabels v n; w] st st' -> labels_of (sh_g st') n = f (labels_of (sh_g st) n)) /\
  (forall n ordo ordn, and_then p [CSetLabels n v ordo ordn; w] st st' -> labels_of (sh_g st') n = f (set_in st v)) /\
  (forall q ord, and_then p [CFastNode v q ord; w] st st' -> labels_of (sh_g st') (g_next (sh_g st)) = f (set_in st v)) /\
  (forall u, and_then p [CClone v u; w] st st' -> set_in st' u = f (set_in st u)).
Proof. exact (shared_sets p st st' v w f). Qed.
Print Assumptions C68_shared_sets.
Theorem C68_shared_maps p st st' q w f : edits_map q w f ->
  (forall v ord k, and_then p [CFastNode v q ord; w] st st' -> node_prop (sh_g st') (g_next (sh_g st)) k = f (map_in st q) !! k) /\
  (forall from to label k, and_then p [CFastEdge from to label q; w] st st' -> edge_prop (sh_g st') (g_next (sh_g st)) k = f (map_in st q) !! k) /\
  (forall u, and_then p [CAlias q u; w] st st' -> map_in st' u = f (map_in st u)).
Proof. exact (shared_maps p st st' q w f). Qed.
Print Assumptions C68_shared_maps.
Theorem C68_shared_objects p st st' q f : has_map st q ->
  (forall v ord w, edits_node (g_next (sh_g st)) w f -> and_then p [CFastNode v q ord; w] st st' -> map_in st' q = f (map_in st q)) /\
  (forall from to label w, edits_edge (g_next (sh_g st)) w f -> and_then p [CFastEdge from to label q; w] st st' -> map_in st' q = f (map_in st q)).
Proof. exact (shared_objects p st st' q f). Qed.
Print Assumptions C68_shared_objects.
Example C68_shows : let p := [CSet 0 {["A"]}; CMap 0 {["k" := VInt 1]}] in let ws := [CFastNode 0 0 ["A"]; CCall (OSetNodeProp 0 "k" (VInt 2))] in
  and_then p ws (sh_result p) (sh_result (p ++ ws)) /\ has_map (sh_result p) 0 /\ g_next (sh_g (sh_result p)) = 0 /\
  map_in (sh_result p) 0 = {["k" := VInt 1]} /\ map_in (sh_result (p ++ ws)) 0 = {["k" := VInt 2]}.
Proof. cbn zeta. split; [split; returns|]. by_compute. Qed.

(** CopyNode within the graph: the copy has the label set of the node itself, so a write to the set got from either shows
    in both; the properties are copies. *)
Theorem C68_copies p st st' n fp ord v w f : edits_set v w f ->
  and_then p [CCopyNode n fp ord; CGetLabels v (g_next (sh_g st)); w] st st' \/ and_then p [CCopyNode n fp ord; CGetLabels v n; w] st st' ->
  labels_of (sh_g st') n = f (labels_of (sh_g st) n) /\ labels_of (sh_g st') (g_next (sh_g st)) = f (labels_of (sh_g st) n).
Proof. exact (copies_sets p st st' n fp ord v w f). Qed.
Print Assumptions C68_copies.
Theorem C68_copied_props p st st' n fp ord w f k :
  (edits_node (g_next (sh_g st)) w f -> and_then p [CCopyNode n fp ord; w] st st' -> node_prop (sh_g st') n k = node_prop (sh_g st) n k) /\
  (edits_node n w f -> and_then p [CCopyNode n fp ord; w] st st' ->
    node_prop (sh_g st') (g_next (sh_g st)) k = fp k <$> node_prop (sh_g st) n k).
Proof. exact (copies_maps p st st' n fp ord w f k). Qed.
Print Assumptions C68_copied_props.
Example C68_copied : let p := [CCall (ONewNode {["A"]} {["k" := VInt 1]} ["A"])] in
  let ws := [CCopyNode 0 (fun _ x => x) ["A"]; CGetLabels 0 1; CInsert 0 "B"] in
  let us := [CCopyNode 0 (fun _ x => x) ["A"]; CCall (OSetNodeProp 1 "k" (VInt 2))] in
  and_then p ws (sh_result p) (sh_result (p ++ ws)) /\ and_then p us (sh_result p) (sh_result (p ++ us)) /\ g_next (sh_g (sh_result p)) = 1 /\
  labels_of (sh_g (sh_result (p ++ ws))) 0 = {["A"; "B"]} /\ get_nodes_all_labels (sh_g (sh_result (p ++ ws))) {["B"]} ["B"] = Ok ([], 0%Z) /\
  node_prop (sh_g (sh_result (p ++ us))) 0 "k" = Some (VInt 1) /\ node_prop (sh_g (sh_result (p ++ us))) 1 "k" = Some (VInt 2).
Proof. cbn zeta. split; [split; returns|]. split; [split; returns|]. by_compute. Qed.
