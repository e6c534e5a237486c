(** Specification of dotrenderer.go. *)
From Verif Require Import Base Value Graph GraphSpec Dot.
Local Open Scope string_scope.
Local Open Scope list_scope.

(** calls of the renderers and of the writer, and their results *)
Inductive event := ENode (id : string) (n : nat) (r : option bool) | EEdge (a b : string) (e : nat) (r : option bool)
  | EWrite (w : string) (r : bool).
Definition failed (v : event) : Prop := match v with ENode _ _ r | EEdge _ _ _ r => r = None | EWrite _ r => r = false end.
(** renderers that log their calls *)
Definition log_node {T} (nr : node_renderer T) : node_renderer (T * list event) := fun id n t =>
  let (r, t') := nr id n t.1 in (r, (t', t.2 ++ [ENode id n r])).
Definition log_edge {T} (er : edge_renderer T) : edge_renderer (T * list event) := fun a b e t =>
  let (r, t') := er a b e t.1 in (r, (t', t.2 ++ [EEdge a b e r])).
Definition log_write {T} (write : string -> T -> bool * T) : string -> T * list event -> bool * (T * list event) := fun w t =>
  let (r, t') := write w t.1 in (r, (t', t.2 ++ [EWrite w r])).

Definition nodes_of (l : list event) : list nat := mjoin (map (fun v => match v with ENode _ n _ => [n] | _ => [] end) l).
Definition edges_of (l : list event) : list nat := mjoin (map (fun v => match v with EEdge _ _ e _ => [e] | _ => [] end) l).
(** the renderer accepted node [n] under identifier [id] *)
Definition accepted (l : list event) (id : string) (n : nat) : Prop := ENode id n (Some true) ∈ l.

(** Only live nodes and edges are rendered, none twice; accepted nodes have distinct identifiers; edges are rendered with
    the identifiers of their ends, which are accepted. *)
Record faithful (s : sgraph) (l : list event) : Prop := Faithful {
  fa_nodes : NoDup (nodes_of l) /\ forall n, n ∈ nodes_of l -> live_node s n;
  fa_ids : forall id n1 n2, accepted l id n1 -> accepted l id n2 -> n1 = n2;
  fa_edges : NoDup (edges_of l) /\
    forall a b e r, EEdge a b e r ∈ l -> exists x, s_edges s !! e = Some x /\ accepted l a (e_from x) /\ accepted l b (e_to x)
}.
(** All nodes, and all edges between accepted nodes, are rendered, without error. *)
Definition complete (s : sgraph) (l : list event) : Prop :=
  (forall n, live_node s n -> n ∈ nodes_of l) /\
  (forall e x, s_edges s !! e = Some x -> (exists a, accepted l a (e_from x)) -> (exists b, accepted l b (e_to x)) -> e ∈ edges_of l) /\
  (forall v, v ∈ l -> ~ failed v).
(** The last call failed. *)
Definition stopped (l : list event) : Prop := exists l' v, l = l' ++ [v] /\ failed v /\ forall v', v' ∈ l' -> ~ failed v'.

(** Render: two lines, the elements, the closing brace; nothing follows a failure. *)
Definition first_line (name : string) : string := "digraph " +:+ name +:+ " {" +:+ nl.
Definition second_line : string := "rankdir=" +:+ quote +:+ "LR" +:+ quote +:+ ";" +:+ nl.
Definition last_line : string := "}" +:+ nl.
Definition rendering (s : sgraph) (name : string) (ok : bool) (l : list event) : Prop :=
  if ok then
    exists l', l = EWrite (first_line name) true :: EWrite second_line true :: l' ++ [EWrite last_line true] /\ faithful s l' /\ complete s l'
  else
    l = [EWrite (first_line name) false] \/
    l = [EWrite (first_line name) true; EWrite second_line false] \/
    (exists l', l = EWrite (first_line name) true :: EWrite second_line true :: l' /\ faithful s l' /\ stopped l') \/
    exists l', l = EWrite (first_line name) true :: EWrite second_line true :: l' ++ [EWrite last_line false] /\ faithful s l' /\ complete s l'.

(** The text for the default renderers *)
Definition concat_text (l : list string) : string := foldr (fun a b => a +:+ b) "" l.
Definition node_line (i : nat) : string := "  " +:+ node_id i +:+ ";" +:+ nl.
(** the label is written as it is *)
Definition edge_line (i j : nat) (label : string) : string :=
  "  " +:+ node_id i +:+ " -> " +:+ node_id j +:+ (if decide (label = "") then "" else " [label=" +:+ quote +:+ label +:+ quote +:+ "]") +:+ ";" +:+ nl.
(** the lines of the edges [es], if the nodes are numbered as in [ns] *)
Definition edge_lines (s : sgraph) (ns es : list nat) (lines : list string) : Prop :=
  Forall2 (fun e line => exists x i j, s_edges s !! e = Some x /\ ns !! i = Some (e_from x) /\ ns !! j = Some (e_to x) /\ line = edge_line i j (e_label x)) es lines.
