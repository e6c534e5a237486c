(** What the values of a document mean that Decode reads (json.go:138-160, 455-532, encoding/json): stated as relations,
    without the functions of Json.v. *)
From Verif Require Import Base Value JsonText Json.
Local Open Scope string_scope.
Local Open Scope list_scope.

(** [v] is the value of the last member [k] *)
Definition last_at (l : list (string * json)) (k : string) (v : json) : Prop := exists l1 l2, l = l1 ++ (k, v) :: l2 /\ k ∉ l2.*1.
(** there is no such member, or the last one is null *)
Definition missing (l : list (string * json)) (k : string) : Prop := k ∉ l.*1 \/ last_at l k (JS SNull).
Definition members_are (v : json) (l : list (string * json)) : Prop := v = JObj l \/ v = JS SNull /\ l = [].
Definition int_at (l : list (string * json)) (k : string) (z : Z) : Prop := missing l k /\ z = 0%Z \/ last_at l k (JS (SNum z)).
Definition str_at (l : list (string * json)) (k s : string) : Prop := missing l k /\ s = "" \/ last_at l k (JS (SStr s)).
Definition map_at (l : list (string * json)) (k : string) (m : gmap string json) : Prop :=
  missing l k /\ m = ∅ \/ exists ms, last_at l k (JObj ms) /\ forall x v, m !! x = Some v <-> last_at ms x v.
Definition str_is (v : json) (s : string) : Prop := v = JS SNull /\ s = "" \/ v = JS (SStr s).
Definition list_is {A} (R : json -> A -> Prop) (v : json) (xs : list A) : Prop :=
  v = JS SNull /\ xs = [] \/ exists vs, v = JArr vs /\ Forall2 R vs xs.
Definition list_at {A} (R : json -> A -> Prop) (l : list (string * json)) (k : string) (xs : list A) : Prop :=
  missing l k /\ xs = [] \/ exists vs, last_at l k (JArr vs) /\ Forall2 R vs xs.
(** an edge; the member "from" counts only for edges outside nodes *)
Definition edge_is (from : bool) (v : json) (ed : jedge) : Prop := exists l, members_are v l /\
  (if from then int_at l "from" (je_from ed) else je_from ed = 0%Z) /\ int_at l "to" (je_to ed) /\
  str_at l "label" (je_label ed) /\ map_at l "properties" (je_props ed).
Definition node_is (v : json) (nd : jnode) : Prop := exists l, members_are v l /\
  int_at l "n" (jn_n nd) /\ list_at str_is l "labels" (jn_labels nd) /\ map_at l "properties" (jn_props nd) /\
  list_at (edge_is false) l "edges" (jn_edges nd).
(** all lists under the key [k], one after the other *)
Definition all_at {A} (R : json -> A -> Prop) (ms : list (string * json)) (k : string) (xs : list A) : Prop :=
  exists xss, Forall2 (list_is R) (filter (fun p => p.1 = k) ms).*2 xss /\ xs = mjoin xss.
(** The nodes and edges of a document: the edges of a node leave it. *)
Definition leaving (nd : jnode) (ed : jedge) : jedge := JEdge (jn_n nd) (je_to ed) (je_label ed) (je_props ed).
Definition document_is (ms : list (string * json)) (nds : list jnode) (eds : list jedge) : Prop :=
  all_at node_is ms "nodes" nds /\
  exists es, all_at (edge_is true) ms "edges" es /\ eds = mjoin (map (fun nd => map (leaving nd) (jn_edges nd)) nds) ++ es.
(** Properties: [pu] reads every one of them; it may rename them, and a property with the empty name is dropped.  [apart]: no two get the same name. *)
Definition all_read (pu : unmarshaler) (m : gmap string json) : Prop := forall k d, m !! k = Some d -> is_Some (pu k d).
Definition apart (pu : unmarshaler) (m : gmap string json) : Prop :=
  forall k1 d1 k2 d2 k v1 v2, m !! k1 = Some d1 -> m !! k2 = Some d2 -> pu k1 d1 = Some (k, v1) -> pu k2 d2 = Some (k, v2) -> k1 = k2.
Definition properties_are (pu : unmarshaler) (m : gmap string json) (p : props) : Prop :=
  forall k v, p !! k = Some v <-> k <> "" /\ exists k0 d, m !! k0 = Some d /\ pu k0 d = Some (k, v).
