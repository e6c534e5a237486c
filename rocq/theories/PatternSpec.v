(** Specification of pattern matching on abstract graphs. *)
From Verif Require Import Base Value Graph GraphSpec Path PathSpec Pattern.

(** A match: the first node and, for each relationship of the pattern, the walk matching it; a step
    (edge, node) leads over the edge to the node. *)
Record pmatch := PM { pm_first : nat; pm_hops : list (list (nat * nat)) }.
Definition hop_end (a : nat) (h : list (nat * nat)) : nat := default a (last (map snd h)).
(** the nodes matched by the node items of the pattern *)
Fixpoint hop_nodes (a : nat) (hs : list (list (nat * nat))) : list nat :=
  a :: match hs with [] => [] | h :: hs => hop_nodes (hop_end a h) hs end.
Definition pm_nodes (m : pmatch) : list nat := hop_nodes (pm_first m) (pm_hops m).

Section spec.
  Variables (s : sgraph) (syms : symbols).
  (** the edge may be taken from [a] to [b] *)
  Definition may_take (it : pitem) (ed : edge) (a b : nat) : Prop :=
    if pi_left it then e_to ed = a /\ e_from ed = b
    else if pi_undirected it then (e_from ed = a /\ e_to ed = b) \/ (e_to ed = a /\ e_from ed = b)
    else e_from ed = a /\ e_to ed = b.
  (** steps over edges with the labels and properties of the item, in its direction *)
  Inductive walks (it : pitem) : nat -> list (nat * nat) -> Prop :=
  | walks_nil a : walks it a []
  | walks_cons a e b ed h :
      s_edges s !! e = Some ed -> may_take it ed a b -> edge_match s (pi_labels it) (pi_props it) e ->
      walks it b h -> walks it a ((e, b) :: h).
  (** at least one step, no edge twice, length within the bounds (-1: none), edges among those of the
      symbol of that name, if there is one *)
  Definition hop_ok (it : pitem) (a : nat) (h : list (nat * nat)) : Prop :=
    walks it a h /\ h <> [] /\ NoDup (map fst h) /\
    (pi_min it = -1 \/ pi_min it <= Z.of_nat (length h))%Z /\ (pi_max it = -1 \/ Z.of_nat (length h) <= pi_max it)%Z /\
    (pi_name it <> "" -> forall x, syms !! pi_name it = Some x -> exists es, ps_edges x = Some es /\ forall e, e ∈ map fst h -> e ∈ es).
  (** live, with the labels and properties of the item, and among the nodes of the symbol *)
  Definition node_ok (it : pitem) (n : nat) : Prop :=
    node_match s (pi_labels it) (pi_props it) n /\
    (pi_name it <> "" -> forall x, syms !! pi_name it = Some x -> exists ns, ps_nodes x = Some ns /\ n ∈ ns).
  Inductive hops_ok : list pitem -> nat -> list (list (nat * nat)) -> Prop :=
  | hops_nil a : hops_ok [] a []
  | hops_cons ie it pat a h hs :
      hop_ok ie a h -> node_ok it (hop_end a h) -> hops_ok pat (hop_end a h) hs -> hops_ok (ie :: it :: pat) a (h :: hs).
  (** each item is matched *)
  Definition fits_items (pat : list pitem) (m : pmatch) : Prop :=
    match pat with [] => False | it :: pat => node_ok it (pm_first m) /\ hops_ok pat (pm_first m) (pm_hops m) end.
End spec.
(** nodes under the same name are the same *)
Definition same_names (pat : list pitem) (m : pmatch) : Prop :=
  forall i j it jt n k, pat !! (2 * i) = Some it -> pat !! (2 * j) = Some jt -> pi_name it <> "" -> pi_name it = pi_name jt ->
    pm_nodes m !! i = Some n -> pm_nodes m !! j = Some k -> n = k.
(** the matches of a pattern *)
Definition is_match (s : sgraph) (syms : symbols) (pat : list pitem) (m : pmatch) : Prop :=
  fits_items s syms pat m /\ same_names pat m.

(** ** What is reported for a match *)
Definition walk_rev (w : pwalk) : pwalk :=
  match w with
  | NoWalk => NoWalk
  | WalkFrom n ss =>
      match rev (n :: map snd ss) with
      | [] => NoWalk
      | b :: r => WalkFrom b (zip (rev (map fst ss)) r)
      end
  end.
Section reported.
  Variables from to : nat -> nat.
  (** [r] is the value of item [i]: its node, or its walk, as a path in either direction *)
  Definition shows (m : pmatch) (i : nat) (r : sres) : Prop :=
    match r with
    | RNode n => exists k, i = 2 * k /\ pm_nodes m !! k = Some n
    | RPath p => exists k a h, i = 2 * k + 1 /\ pm_nodes m !! k = Some a /\ pm_hops m !! k = Some h /\
                   (denotes from to p (WalkFrom a h) \/ denotes from to p (walk_rev (WalkFrom a h)))
    end.
  (** every name has the value of an item of that name; the path is the walk of the match, from its first to
      its last node *)
  Definition names_reported (pat : list pitem) (m : pmatch) (r : match_result) : Prop :=
    (forall i it, pat !! i = Some it -> pi_name it <> "" -> is_Some (r.2 !! pi_name it)) /\
    (forall v x, r.2 !! v = Some x -> v <> "" /\ exists i it, pat !! i = Some it /\ pi_name it = v /\ shows m i x).
  Definition reported (pat : list pitem) (m : pmatch) (r : match_result) : Prop :=
    denotes from to r.1 (WalkFrom (pm_first m) (concat (pm_hops m))) /\ names_reported pat m r.
End reported.

(** ** What is reported if matching starts at item [start] *)
(** the steps of a walk, with the nodes they start from *)
Fixpoint steps_from (a : nat) (h : list (nat * nat)) : list (nat * (nat * nat)) :=
  match h with [] => [] | x :: h => (a, x) :: steps_from x.2 h end.
Definition back_over (x : nat * (nat * nat)) : nat * (nat * nat) := (x.2.2, (x.2.1, x.1)).
(** What is kept of the walk of item [i]: of one before the start only the last step; the edge of a
    relationship to the left, if it is the start, is kept in its own direction. *)
Definition piece (start i : nat) (it : pitem) (a : nat) (h : list (nat * nat)) : list (nat * (nat * nat)) :=
  if decide (i < start) then option_list (last (steps_from a h))
  else if decide (i = start /\ pi_left it = true) then map back_over (steps_from a h)
  else steps_from a h.
Fixpoint pieces (pat : list pitem) (start k a : nat) (hs : list (list (nat * nat))) : list (nat * (nat * nat)) :=
  match hs with
  | [] => []
  | h :: hs => piece start (2 * k + 1) (item pat (2 * k + 1)) a h ++ pieces pat start (S k) (hop_end a h) hs
  end.
Definition pm_pieces (pat : list pitem) (start : nat) (m : pmatch) : list (nat * (nat * nat)) :=
  pieces pat start 0 (pm_first m) (pm_hops m).
(** each step starts where the one before it ends *)
Definition joined (l : list (nat * (nat * nat))) : Prop :=
  forall i x y, l !! i = Some x -> l !! S i = Some y -> x.2.2 = y.1.
Definition walk_of (n : nat) (l : list (nat * (nat * nat))) : pwalk :=
  match l with [] => WalkFrom n [] | x :: _ => WalkFrom x.1 (map snd l) end.
Definition reported_from (from to : nat -> nat) (pat : list pitem) (start : nat) (m : pmatch) (r : match_result) : Prop :=
  denotes from to r.1 (walk_of (pm_first m) (pm_pieces pat start m)) /\ names_reported from to pat m r.
(** a relationship matching starts at is taken to be one edge *)
Definition one_edge (it : pitem) : pitem :=
  PItem (pi_labels it) (pi_props it) 1 1 (pi_left it) (pi_undirected it) (pi_name it).
Definition as_started (pat : list pitem) (start : nat) : list pitem :=
  if Nat.odd start then alter one_edge start pat else pat.
(** it starts at an undirected relationship *)
Definition undirected_start (pat : list pitem) (start : nat) : Prop :=
  Nat.odd start = true /\ exists it, pat !! start = Some it /\ pi_left it = false /\ pi_undirected it = true.

(** ** Conditions *)
(** nodes at even, relationships at odd positions; nodes first and last *)
Definition well_formed (pat : list pitem) : Prop := exists k, length pat = 2 * k + 1.
(** possible orders of Go's maps *)
Definition item_orders (pat : list pitem) (lord pord : nat -> list string) (eord : nat -> nat -> list string) : Prop :=
  forall i it, pat !! i = Some it ->
    order_of (pi_labels it) (lord i) /\ order_of (dom (pi_props it)) (pord i) /\ forall c, order_of (pi_labels it) (eord c i).
(** a symbol for nodes: a set of live nodes *)
Definition node_symbol (s : sgraph) (x : psym) : Prop :=
  ps_edges x = None /\ exists ns, ps_nodes x = Some ns /\ NoDup ns /\ forall n, n ∈ ns -> live_node s n.
(** names of nodes do not name relationships; symbols are only given for nodes *)
Definition names_ok (s : sgraph) (syms : symbols) (pat : list pitem) : Prop :=
  (forall i j it jt, pat !! (2 * i) = Some it -> pat !! (2 * j + 1) = Some jt -> pi_name it <> "" -> pi_name it <> pi_name jt) /\
  (forall i it x, pat !! (2 * i) = Some it -> pi_name it <> "" -> syms !! pi_name it = Some x -> node_symbol s x) /\
  (forall i it, pat !! (2 * i + 1) = Some it -> pi_name it <> "" -> syms !! pi_name it = None).
(** ** Symbols for relationships *)
(** a set of live edges (or not a symbol for relationships at all) *)
Definition edge_symbol (s : sgraph) (x : psym) : Prop :=
  forall es, ps_edges x = Some es -> NoDup es /\ forall e, e ∈ es -> live_edge s e.
(** names of nodes do not name relationships; symbols may be given for both *)
Definition names_apart (s : sgraph) (syms : symbols) (pat : list pitem) : Prop :=
  (forall i j it jt, pat !! (2 * i) = Some it -> pat !! (2 * j + 1) = Some jt -> pi_name it <> "" -> pi_name it <> pi_name jt) /\
  (forall i it x, pat !! (2 * i) = Some it -> pi_name it <> "" -> syms !! pi_name it = Some x -> node_symbol s x) /\
  (forall i it x, pat !! (2 * i + 1) = Some it -> pi_name it <> "" -> syms !! pi_name it = Some x -> edge_symbol s x).
(** the symbols that do not name relationships *)
Definition rel_names (pat : list pitem) : list string :=
  omap (fun i => if Nat.odd i then pi_name <$> pat !! i else None) (seq 0 (length pat)).
Definition node_symbols (syms : symbols) (pat : list pitem) : symbols := filter (fun kv => kv.1 ∉ rel_names pat) syms.
(** the start, if it is a relationship, is matched with one of [xs] *)
Definition begins_in (start : nat) (xs : list nat) (m : pmatch) : Prop :=
  forall k h e, start = 2 * k + 1 -> pm_hops m !! k = Some h -> e ∈ map fst h -> e ∈ xs.
(** these are all edges with its labels and properties, or else those of the symbol of that name; none if that is
    a symbol for nodes *)
Definition edges_tried (s : sgraph) (syms : symbols) (it : pitem) (xs : list nat) : Prop :=
  (forall e, edge_match s (pi_labels it) (pi_props it) e -> e ∈ xs) \/
  exists x, pi_name it <> "" /\ syms !! pi_name it = Some x /\ (ps_edges x = Some xs \/ (ps_edges x = None /\ xs = [])).

(** the indexes can be asked for the properties in the pattern *)
Definition pattern_askable (ops : list op) (pat : list pitem) : Prop :=
  (forall i it, pat !! (2 * i) = Some it -> node_askable ops (pi_props it)) /\
  (forall i it, pat !! (2 * i + 1) = Some it -> edge_askable ops (pi_props it)).
(** Matching may start at item [start]: relationships before it have one edge, and if it is a
    relationship, it has one edge as well and points to the right. *)
Definition starts_well (pat : list pitem) (start : nat) : Prop :=
  (forall i it, pat !! (2 * i + 1) = Some it -> 2 * i + 1 < start -> pi_max it = 1%Z) /\
  (forall i it, pat !! (2 * i + 1) = Some it -> 2 * i + 1 = start ->
     pi_max it = 1%Z /\ (pi_min it <= 1)%Z /\ pi_left it = false /\ pi_undirected it = false).
(** undirected relationships of exactly one edge are not matched with loops *)
Definition no_undirected_loops (s : sgraph) (pat : list pitem) : Prop :=
  forall i it e ed, pat !! (2 * i + 1) = Some it -> pi_left it = false -> pi_undirected it = true ->
    pi_min it = 1%Z -> pi_max it = 1%Z -> s_edges s !! e = Some ed -> e_from ed <> e_to ed.
(** repeated names of nodes are symbols with one node *)
Definition repeated_fixed (syms : symbols) (pat : list pitem) : Prop :=
  forall i j it jt, i <> j -> pat !! (2 * i) = Some it -> pat !! (2 * j) = Some jt -> pi_name it <> "" -> pi_name it = pi_name jt ->
    exists x n, syms !! pi_name it = Some x /\ ps_nodes x = Some [n].
(** all relationships have one edge and point to the right *)
Definition one_edge_right (pat : list pitem) : Prop :=
  forall i it, pat !! (2 * i + 1) = Some it -> pi_max it = 1%Z /\ (pi_min it <= 1)%Z /\ pi_left it = false /\ pi_undirected it = false.
