(** Specification of json.go. *)
From Verif Require Import Base Value Graph GraphSpec JsonText Json.
From Coq Require Import Ascii NArith.
Local Open Scope string_scope.
Local Open Scope list_scope.

(** ** UTF-8: Unicode code points without the surrogates, and their encoding *)
Definition code_point (c : N) : Prop := (c < 55296 \/ 57343 < c < 1114112)%N.
Definition utf8_bytes (c : N) : list N :=
  if (c <? 128)%N then [c]
  else if (c <? 2048)%N then [192 + c / 64; 128 + c mod 64]%N
  else if (c <? 65536)%N then [224 + c / 4096; 128 + c / 64 mod 64; 128 + c mod 64]%N
  else [240 + c / 262144; 128 + c / 4096 mod 64; 128 + c / 64 mod 64; 128 + c mod 64]%N.
Fixpoint bytes (l : list N) : string := match l with [] => "" | b :: r => String (ascii_of_N b) (bytes r) end.
Definition utf8 (s : string) : Prop := exists cs, Forall code_point cs /\ s = bytes (mjoin (map utf8_bytes cs)).

(** ** Texts: a token sequence is the text of a JSON object *)
Definition object_text (ts : list jtok) : Prop := exists ms, ts = toks (JObj ms).

(** ** Documents: what the members of the top level object declare.  [None]: some part has the wrong type *)
Definition doc_nodes (ms : list (string * json)) : option (list jnode) :=
  mjoin <$> mapM (fun p => read_list read_node p.2) (filter (fun p => p.1 = "nodes") ms).
Definition doc_edges (ms : list (string * json)) : option (list jedge) :=
  mjoin <$> mapM (fun p => read_list (read_edge true) p.2) (filter (fun p => p.1 = "edges") ms).
(** the edges embedded in a node start there *)
Definition embedded (nd : jnode) : list jedge := map (fun ed => JEdge (jn_n nd) (je_to ed) (je_label ed) (je_props ed)) (jn_edges nd).
(** all nodes and edges of a document *)
Definition declares (ms : list (string * json)) (nds : list jnode) (eds : list jedge) : Prop :=
  exists es, doc_nodes ms = Some nds /\ doc_edges ms = Some es /\ eds = mjoin (map embedded nds) ++ es.

Definition readable (pu : unmarshaler) (m : gmap string json) : Prop := is_Some (unmarshal_props pu m).
Definition declared (nds : list jnode) (i : Z) : Prop := exists nd, nd ∈ nds /\ jn_n nd = i.
(** the nodes and edges of the document can be added: properties are readable and the ends of edges declared *)
Definition sound_doc (pu : unmarshaler) (nds : list jnode) (eds : list jedge) : Prop :=
  (forall nd, nd ∈ nds -> readable pu (jn_props nd)) /\
  (forall ed, ed ∈ eds -> readable pu (je_props ed) /\ declared nds (je_from ed) /\ declared nds (je_to ed)).

(** node [n] was created for a node with index [i] *)
Definition stands_for (nds : list jnode) (ids : list nat) (i : Z) (n : nat) : Prop :=
  exists k nd, nds !! k = Some nd /\ jn_n nd = i /\ ids !! k = Some n.
(** [t'] is [t] with a new node for each of [nds] and a new edge for each of [eds], and nothing else *)
Record decoded (pu : unmarshaler) (nds : list jnode) (eds : list jedge) (t t' : sgraph) (ids es : list nat) : Prop := Decoded {
  dd_nodes : Forall2 (fun nd n => exists p, unmarshal_props pu (jn_props nd) = Some p /\
    s_nodes t' !! n = Some (SNode (list_to_set (jn_labels nd)) p)) nds ids;
  dd_edges : Forall2 (fun ed e => exists from to p, unmarshal_props pu (je_props ed) = Some p /\
    stands_for nds ids (je_from ed) from /\ stands_for nds ids (je_to ed) to /\
    s_edges t' !! e = Some (Edge from to (je_label ed) p)) eds es;
  dd_ids : NoDup ids; dd_es : NoDup es;
  dd_new_nodes : forall n, n ∈ ids -> ~ live_node t n;
  dd_new_edges : forall e, e ∈ es -> ~ live_edge t e;
  dd_old_nodes : s_nodes t ⊆ s_nodes t';
  dd_old_edges : s_edges t ⊆ s_edges t';
  dd_nodes_only : forall n, live_node t' n -> live_node t n \/ n ∈ ids;
  dd_edges_only : forall e, live_edge t' e -> live_edge t e \/ e ∈ es
}.

(** ** Unknown keys.  What Decode does with the tokens after an unknown key, which it reads with depth 1: the depth
    after the tokens, or [None] if the value is mistaken for nodes, edges or the end of the document *)
Fixpoint skip (depth : nat) (ts : list dtok) : option nat :=
  match ts with
  | [] => Some depth
  | t :: r =>
      match depth, t with
      | O, DS (SStr key) => if decide (key = "nodes") then None else if decide (key = "edges") then None else skip 1 r
      | O, DObjEnd => None
      | O, _ => skip 0 r
      | S n, (DObj | DArr) => skip (S (S n)) r
      | S n, _ => skip n r
      end
  end.

(** ** Round trip: graphs whose labels are text and whose properties survive the marshalers *)
Definition survives (pm : marshaler) (pu : unmarshaler) (p : props) : Prop :=
  (forall k v, p !! k = Some v -> k <> "" /\ exists k' d, pm k v = Some (Some (k', d)) /\ utf8 k' /\ pu k' d = Some (k, v)) /\
  (forall k1 v1 k2 v2 k' d1 d2, p !! k1 = Some v1 -> p !! k2 = Some v2 ->
     pm k1 v1 = Some (Some (k', d1)) -> pm k2 v2 = Some (Some (k', d2)) -> k1 = k2).
Definition writable (pm : marshaler) (pu : unmarshaler) (s : sgraph) : Prop :=
  (forall n x, s_nodes s !! n = Some x -> (forall l, l ∈ sn_labels x -> utf8 l) /\ survives pm pu (sn_props x)) /\
  (forall e x, s_edges s !! e = Some x -> utf8 (e_label x) /\ survives pm pu (e_props x)).
(** values that survive without marshalers *)
Inductive plain : value -> Prop :=
| plain_nil : plain VNil
| plain_str s : utf8 s -> plain (VStr s)
| plain_list l : Forall plain l -> plain (VList l).

(** ** Calls that return: [o] adds a node whose property values satisfy [V] or an edge whose values satisfy [W], which
    the indexes can hold *)
Definition add_op (V W : string -> value -> Prop) (o : op) : Prop :=
  match o with
  | ONewNode _ p _ => forall k v, p !! k = Some v -> V k v
  | ONewEdge _ _ _ p => forall k v, p !! k = Some v -> W k v
  | _ => False
  end.
(** calls that create a node or an edge *)
Definition adds (o : op) : Prop := match o with ONewNode _ _ _ | ONewEdge _ _ _ _ => True | _ => False end.
Definition accepts (ops : list op) (V W : string -> value -> Prop) : Prop :=
  (forall k it, node_index ops k = Some it -> storable it (fun v => node_filed ops k v \/ V k v)) /\
  (forall k it, edge_index ops k = Some it -> storable it (fun v => edge_filed ops k v \/ W k v)).
(** the values of a document *)
Definition node_reads (pu : unmarshaler) (nds : list jnode) (k : string) (v : value) : Prop :=
  exists nd p, nd ∈ nds /\ unmarshal_props pu (jn_props nd) = Some p /\ p !! k = Some v.
Definition edge_reads (pu : unmarshaler) (eds : list jedge) (k : string) (v : value) : Prop :=
  exists ed p, ed ∈ eds /\ unmarshal_props pu (je_props ed) = Some p /\ p !! k = Some v.

(** ** Order of writing: the nodes GetNodes lists, in any order (json.go:253 ranges over a map of them) *)
Definition node_order (g : graph) (ord : list nat) : Prop := exists ns, get_nodes g = Ok ns /\ ord ≡ₚ ns.
Definition label_order (s : sgraph) (lord : nat -> list string) : Prop :=
  forall n x, s_nodes s !! n = Some x -> order_of (sn_labels x) (lord n).
