(** C70: StringSet as JSON; C71: symbols of patterns; C72: texts of nodes and edges; C73: texts of paths; C74: MapInterner. *)
From Verif Require Import Base Value Graph GraphSpec GraphExamples Path StringSet JsonText Json JsonSpec Pattern ItrSpec PatternSym Text TextSpec TextProofs.
From Coq Require Import Ascii.
Local Open Scope string_scope.
Local Open Scope list_scope.

(** ** C70: a StringSet written as JSON, in any order, is read back. *)
Definition C70_statement : Prop := forall h v X ord, order_of X ord ->
  exists h' v', ss_unmarshal h v (ss_marshal ord) = (h', v', true) /\ ss_at h' v' = X.
(** False: json.Marshal replaces what is not UTF-8, and strings can become equal. *)
Theorem C70_refuted : ~ C70_statement.
Proof. exact ss_trip_false. Qed.
Print Assumptions C70_refuted.
Example C70_refuted_ex :
  order_of {[bytes [255%N]; bytes [254%N]]} [bytes [255%N]; bytes [254%N]] /\
  ss_view2 (ss_unmarshal sh_empty None (ss_marshal [bytes [255%N]; bytes [254%N]])) = ({[bytes [239%N; 191%N; 189%N]]}, true).
Proof. split; by_compute. Qed.
(** Exactly the sets of UTF-8 strings are read back. *)
Theorem C70_partial h v X ord : order_of X ord ->
  (exists h' v', ss_unmarshal h v (ss_marshal ord) = (h', v', true) /\ ss_at h' v' = X) <-> forall s, s ∈ X -> utf8 s.
Proof. exact (ss_trip_iff h v X ord). Qed.
Print Assumptions C70_partial.
(** Of other sets every string is read as json.Marshal writes it. *)
Theorem C70_image h v X ord : order_of X ord ->
  exists h' v', ss_unmarshal h v (ss_marshal ord) = (h', v', true) /\ ss_at h' v' = set_map json_str X.
Proof. exact (ss_trip h v X ord). Qed.
Print Assumptions C70_image.
(** The texts that are accepted, what is read from them, and that no other StringSet changes. *)
Theorem C70_reads h v ts x X : ts = toks x -> reads_set x X ->
  exists h' v', ss_unmarshal h v ts = (h', v', true) /\ ss_at h' v' = X /\
    forall w, (forall a, w = Some a -> a < sh_next h) -> ss_at h' w = ss_at h w.
Proof. exact (ss_unmarshal_frame h v ts x X). Qed.
Print Assumptions C70_reads.
(** Any other text is an error, and the set is as before. *)
Theorem C70_fails h v ts : (forall x X, ts = toks x -> ~ reads_set x X) -> ss_unmarshal h v ts = (h, v, false).
Proof. exact (ss_unmarshal_fails h v ts). Qed.
Print Assumptions C70_fails.
Example C70_ex :
  order_of {["b"; "a"; ""]} ["b"; ""; "a"] /\
  ss_view2 (ss_unmarshal sh_empty None (ss_marshal ["b"; ""; "a"])) = ({["a"; "b"; ""]}, true) /\
  ss_view2 (ss_unmarshal sh_empty None [TS SNull]) = (∅, true) /\
  ss_view2 (ss_unmarshal sh_empty None [TArr; TS SNull; TComma; TS (SStr "a"); TComma; TS (SStr "a"); TArrEnd]) = ({[""; "a"]}, true) /\
  ss_view2 (ss_unmarshal sh_empty None [TArr; TS (SNum 1); TArrEnd]) = (∅, false) /\
  ss_view2 (ss_unmarshal sh_empty None [TArr; TArrEnd; TArr; TArrEnd]) = (∅, false).
Proof. split_and!; by_compute. Qed.

(** ** C71: a path added to a symbol is what EdgeSlice returns. *)
Definition C71_statement : Prop := forall p : list (nat * bool),
  py_edge_slice (py_run (fun n : nat => n) (fun e => e) [IPath p]) = Some p.
(** False: directions are lost, and an edge is listed once. *)
Theorem C71_refuted : ~ C71_statement.
Proof. exact path_back_false. Qed.
Print Assumptions C71_refuted.
Example C71_refuted_ex :
  py_edge_slice (py_run (fun n : nat => n) (fun e => e) [IPath [(1, true); (2, false); (1, true)]]) = Some [(1, false); (2, false)].
Proof. vm_compute. reflexivity. Qed.
(** Exactly the paths without reversed and repeated edges come back, for edges of one graph. *)
Theorem C71_partial {N E : Type} `{EqDecision N} `{EqDecision E} (nid : N -> nat) (eid : E -> nat) (p : list (E * bool)) :
  (forall x y, x ∈ p.*1 -> y ∈ p.*1 -> eid x = eid y -> x = y) ->
  py_edge_slice (py_run nid eid [IPath p]) = Some p <-> (forall x, x ∈ p -> x.2 = false) /\ NoDup p.*1.
Proof. exact (path_back nid eid p). Qed.
Print Assumptions C71_partial.
(** What was added, in order of first addition; nil if nothing of the kind was. *)
Theorem C71_nodes {N E : Type} `{EqDecision N} `{EqDecision E} (nid : N -> nat) (eid : E -> nat) (l : list (@sitem N E)) :
  (forall x y, x ∈ added_nodes l -> y ∈ added_nodes l -> nid x = nid y -> x = y) ->
  (has_nodes l -> py_node_slice (py_run nid eid l) = Some (firsts [] (added_nodes l))) /\
  (~ has_nodes l -> py_node_slice (py_run nid eid l) = None).
Proof. exact (py_node_slice_ok nid eid l). Qed.
Print Assumptions C71_nodes.
Theorem C71_edges {N E : Type} `{EqDecision N} `{EqDecision E} (nid : N -> nat) (eid : E -> nat) (l : list (@sitem N E)) :
  (forall x y, x ∈ added_edges l -> y ∈ added_edges l -> eid x = eid y -> x = y) ->
  (has_edges l -> py_edge_slice (py_run nid eid l) = Some (map (fun e => (e, false)) (firsts [] (added_edges l)))) /\
  (~ has_edges l -> py_edge_slice (py_run nid eid l) = None).
Proof. exact (py_edge_slice_ok nid eid l). Qed.
Print Assumptions C71_edges.
(** The symbols that pattern matching makes of its results (Pattern.v) are those of Add. *)
Theorem C71_results r : sym_of r = sym_view (py_run (fun n : nat => n) (fun e => e) [item_of r]).
Proof. exact (sym_of_ok r). Qed.
Print Assumptions C71_results.
Theorem C71_names pat x : x ∈ get_symbol_names pat <-> x <> "" /\ exists p, p ∈ pat /\ pi_name p = x.
Proof. exact (symbol_names_ok pat x). Qed.
Print Assumptions C71_names.
Example C71_ex :
  let l := [INode 3; IEdge 7; INode 2; IPath [(8, true); (7, false)]; IOther; INode 3] in
  (forall x y : nat, x ∈ added_nodes l -> y ∈ added_nodes l -> x = y -> x = y) /\ has_nodes l /\ has_edges l /\
  py_node_slice (py_run (fun n => n) (fun e => e) l) = Some [3; 2] /\
  py_edge_slice (py_run (fun n => n) (fun e => e) l) = Some [(7, false); (8, false)] /\
  py_edge_slice (py_run (fun n : nat => n) (fun e : nat => e) [IPath []]) = Some [] /\
  py_edge_slice (py_run (fun n => n) (fun e : nat => e) [INode 3]) = None /\
  get_symbol_names [PItem ∅ ∅ 0 0 false false "b"; PItem ∅ ∅ 0 0 false false ""; PItem ∅ ∅ 0 0 false false "b"] = {["b"]}.
Proof.
  split; [done|]. split; [exists 3; left|]. split; [left; exists 7; right; left|]. split_and!; try (vm_compute; reflexivity). by_compute.
Qed.

(** ** C72: nodes with the same text have the same labels and the same printed properties. *)
Definition C72_statement : Prop := forall show X X' p p' lord lord' ord ord',
  order_of X lord -> order_of X' lord' -> order_of (dom p) ord -> order_of (dom p') ord' ->
  node_string show X p lord ord = node_string show X' p' lord' ord' -> X = X' /\ same_shown show p p'.
(** False: nothing is quoted. *)
Theorem C72_refuted : ~ C72_statement.
Proof. exact node_string_false. Qed.
Print Assumptions C72_refuted.
Example C72_refuted_ex :
  node_string show_str {["a:b"]} ∅ ["a:b"] [] = "(:a:b {})" /\ node_string show_str {["a"; "b"]} ∅ ["a"; "b"] [] = "(:a:b {})" /\
  node_string show_str ∅ {["k" := VStr "v l:w"]} [] ["k"] = "( {k:v l:w})" /\
  node_string show_str ∅ {["k" := VStr "v"; "l" := VStr "w"]} [] ["k"; "l"] = "( {k:v l:w})".
Proof. vm_compute. split_and!; reflexivity. Qed.
(** True where the punctuation does not occur: spaces and colons in labels and keys, spaces in values. *)
Theorem C72_partial show X X' p p' lord lord' ord ord' :
  order_of X lord -> order_of X' lord' -> order_of (dom p) ord -> order_of (dom p') ord' ->
  plain_labels X -> plain_labels X' -> plain_props show p -> plain_props show p' ->
  node_string show X p lord ord = node_string show X' p' lord' ord' -> X = X' /\ same_shown show p p'.
Proof. exact (node_string_inj show X X' p p' lord lord' ord ord'). Qed.
Print Assumptions C72_partial.
Theorem C72_edges_partial show l l' p p' ord ord' :
  order_of (dom p) ord -> order_of (dom p') ord' -> lacks space l -> lacks space l' -> plain_props show p -> plain_props show p' ->
  edge_string show l p ord = edge_string show l' p' ord' -> l = l' /\ same_shown show p p'.
Proof. exact (edge_string_inj show l l' p p' ord ord'). Qed.
Print Assumptions C72_edges_partial.
Example C72_ex :
  order_of {["P"; "Q"]} ["Q"; "P"] /\ order_of (dom (D := gset string) C72_p) ["k"; "n"; "l"] /\
  plain_labels {["P"; "Q"]} /\ plain_props show_str C72_p /\
  node_string show_str {["P"; "Q"]} C72_p ["Q"; "P"] ["k"; "n"; "l"] = "(:Q:P {k:v l:w})" /\
  edge_string show_str "E" C72_p ["l"; "n"; "k"] = "[:E {l:w k:v}]" /\ lacks space "E".
Proof.
  split; [by_compute|]. split; [by_compute|]. split; [apply check_labels; by_compute|]. split; [apply check_props; by_compute|].
  split; [vm_compute; reflexivity|]. split; [vm_compute; reflexivity|]. apply check_lacks. vm_compute. reflexivity.
Qed.
(** The text of one node is not the same at every call, unless it has at most one label and one property. *)
Theorem C72_order_refuted : exists X lord lord', order_of X lord /\ order_of X lord' /\
  node_string show_str X ∅ lord [] <> node_string show_str X ∅ lord' [].
Proof. exact node_string_varies. Qed.
Print Assumptions C72_order_refuted.
Theorem C72_order_partial show X p lord lord' ord ord' : size X <= 1 -> size p <= 1 ->
  order_of X lord -> order_of X lord' -> order_of (dom p) ord -> order_of (dom p) ord' ->
  node_string show X p lord ord = node_string show X p lord' ord'.
Proof. exact (node_string_stable show X p lord lord' ord ord'). Qed.
Print Assumptions C72_order_partial.
Example C72_order_ex : size (C := gset string) {["P"]} <= 1 /\ order_of {["P"]} ["P"] /\ size (∅ : props) <= 1 /\
  node_string show_str {["P"]} ∅ ["P"] [] = "(:P {})".
Proof. split_and!; by_compute. Qed.
(** As JSON, a node is this text as a string; it is read back exactly if it is UTF-8. *)
Theorem C72_json show X p lord ord :
  json_value (node_json_text show X p lord ord) = Some (JS (SStr (node_string show X p lord ord))) <-> utf8 (node_string show X p lord ord).
Proof. exact (str_json_back (node_string show X p lord ord)). Qed.
Print Assumptions C72_json.
Theorem C72_edge_json show l p ord :
  json_value (edge_json_text show l p ord) = Some (JS (SStr (edge_string show l p ord))) <-> utf8 (edge_string show l p ord).
Proof. exact (str_json_back (edge_string show l p ord)). Qed.
Print Assumptions C72_edge_json.

(** ** C73: paths with the same text have the same number of nodes. *)
Definition C73_statement : Prop := forall from to text p p', (forall k n, enclosed (text k n)) ->
  path_string from to text p = path_string from to text p' -> num_path_nodes p = num_path_nodes p'.
(** False: a path of one node has no text, as the empty path. *)
Theorem C73_refuted : ~ C73_statement.
Proof. exact path_string_false. Qed.
Print Assumptions C73_refuted.
(** The text lists the elements, separated by spaces; an element is written from the source of its edge to the target of
    its edge also if it is reversed. *)
Theorem C73_partial from to text p : (forall k n, enclosed (text k n)) -> path_string from to text p = path_text from to text p.
Proof. exact (fun H => path_string_ok from to text H p). Qed.
Print Assumptions C73_partial.
(** The texts of nodes are of this form. *)
Theorem C73_nodes show X p lord ord : enclosed (node_string show X p lord ord).
Proof. exact (node_enclosed show X p lord ord). Qed.
Print Assumptions C73_nodes.
Example C73_ex :
  (forall k n : nat, enclosed (C73_text k n)) /\
  path_string (fun e => e) S C73_text (path_from_elements [PE 0 false; PE 1 true]) = "(a)->(b) (b)->(c) Reverse" /\
  path_string (fun e => e) S C73_text (path_from_node 0) = "" /\ path_string (fun e => e) S C73_text path_empty = "".
Proof. split; [exact C73_text_ok|]. vm_compute. split_and!; reflexivity. Qed.

(** ** C74: Intern returns a string equal to its argument. *)
Definition C74_statement : Prop := forall i l, (intern_all i l).2 = l.
(** False for maps that are not filled by Intern. *)
Theorem C74_refuted : ~ C74_statement.
Proof. exact intern_false. Qed.
Print Assumptions C74_refuted.
Theorem C74_partial i l : (forall k v, i !! k = Some v -> v = k) -> (intern_all i l).2 = l.
Proof. exact (intern_all_ok i l). Qed.
Print Assumptions C74_partial.
(** Decode makes an empty map if there is none. *)
Theorem C74_empty l : (intern_all ∅ l).2 = l.
Proof. exact (intern_empty l). Qed.
Print Assumptions C74_empty.
(** With any map, what is returned for a string is the same at each call. *)
Theorem C74_given i l : (intern_all i l).2 = map (fun s => default s (i !! s)) l.
Proof. exact (intern_all_given i l). Qed.
Print Assumptions C74_given.
Example C74_ex : (intern_all ∅ ["a"; "b"; "a"]).2 = ["a"; "b"; "a"] /\
  (intern_all {["a" := "x"]} ["a"; "x"; "a"]).2 = ["x"; "x"; "x"].
Proof. vm_compute. split; reflexivity. Qed.
