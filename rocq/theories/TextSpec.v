(** What the text forms are supposed to say. *)
From Verif Require Import Base Value Graph GraphSpec Path JsonText JsonSpec Pattern PatternSym.
From Coq Require Import Ascii.
Local Open Scope string_scope.
Local Open Scope list_scope.

(** the character does not occur in the string *)
Definition lacks (c : ascii) (s : string) : Prop := forall a b, s <> a +:+ String c b.
Definition colon : ascii := ":".
Definition space : ascii := " ".

(** the properties that are printed are the same *)
Definition same_shown (show : value -> option string) (p p' : props) : Prop :=
  forall k, p !! k ≫= show = p' !! k ≫= show.
(** the property map can be read off its text: no spaces, no colons in keys *)
Definition plain_props (show : value -> option string) (p : props) : Prop :=
  forall k v s, p !! k = Some v -> show v = Some s -> lacks colon k /\ lacks space k /\ lacks space s.
Definition plain_labels (X : gset string) : Prop := forall l, l ∈ X -> lacks colon l /\ lacks space l.

(** the text of the [i]-th element of a path; the text of a node can differ from one call to the next *)
Definition element_text (from to : nat -> nat) (text : nat -> nat -> string) (i : nat) (x : pelem) : string :=
  text (2 * i) (from (pe_edge x)) +:+ "->" +:+ text (2 * i + 1) (to (pe_edge x)) +:+ (if pe_rev x then " Reverse" else "").
Definition path_text (from to : nat -> nat) (text : nat -> nat -> string) (p : path) : string :=
  String.concat " " (imap (element_text from to text) (p_path p)).
(** in parentheses *)
Definition enclosed (s : string) : Prop := exists t, s = "(" +:+ t +:+ ")".

(** the values a StringSet can be read from: null, or an array of strings and nulls; what is read *)
Definition reads_string (v : json) (s : string) : Prop := v = JS (SStr s) \/ (v = JS SNull /\ s = "").
Definition reads_set (v : json) (X : gset string) : Prop :=
  (v = JS SNull /\ X = ∅) \/ (exists l ss, v = JArr l /\ Forall2 reads_string l ss /\ X = list_to_set ss).

(** what was added to a symbol *)
Section sym.
  Context {N E : Type} `{EqDecision N} `{EqDecision E}.
  Definition added_nodes (l : list (@sitem N E)) : list N :=
    l ≫= (fun i => match i with INode n => [n] | _ => [] end).
  Definition added_edges (l : list (@sitem N E)) : list E :=
    l ≫= (fun i => match i with IEdge e => [e] | IPath p => p.*1 | _ => [] end).
  Definition has_nodes (l : list (@sitem N E)) : Prop := exists n, INode n ∈ l.
  Definition has_edges (l : list (@sitem N E)) : Prop := (exists e, IEdge e ∈ l) \/ (exists p, IPath p ∈ l).
End sym.
(** a result as an argument of Add, and a symbol as in Pattern.v *)
Definition item_of (r : sres) : @sitem nat nat :=
  match r with RNode n => INode n | RPath p => IPath (map (fun x => (pe_edge x, pe_rev x)) (p_path p)) end.
Definition sym_view (s : @patsym nat nat) : psym := PSym (py_node_slice s) (option_map (map fst) (py_edge_slice s)).
