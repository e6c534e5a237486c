(** The programs of Sharing.v with label sets and property maps as values. *)
From Verif Require Import Base Value Graph Clone Sharing.

Record vals := Vals { v_g : graph; v_sets : gmap nat (gset string); v_maps : gmap nat props }.
Definition v_start : vals := Vals new_graph ∅ ∅.
Definition v_set (w : vals) (v : nat) : gset string := default ∅ (v_sets w !! v).
Definition v_map (w : vals) (p : nat) : props := default ∅ (v_maps w !! p).
Definition let_set (w : vals) (v : nat) (ls : gset string) : vals := Vals (v_g w) (<[v := ls]> (v_sets w)) (v_maps w).
Definition let_map (w : vals) (p : nat) (ps : props) : vals := Vals (v_g w) (v_sets w) (<[p := ps]> (v_maps w)).
Definition calls (w : vals) (o : op) : res vals := let! g := step (v_g w) o in Ok (Vals g (v_sets w) (v_maps w)).
(** each call changes one variable or the graph *)
Definition v_step (w : vals) (c : call) : res vals :=
  match c with
  | CSet v ls => Ok (let_set w v ls)
  | CClone v u => Ok (let_set w v (v_set w u))
  | CAdd v ls => Ok (let_set w v (v_set w v ∪ ls))
  | CAddSet v u => Ok (let_set w v (v_set w v ∪ v_set w u))
  | CRemove v ls => Ok (let_set w v (v_set w v ∖ ls))
  | CGetLabels v n => Ok (let_set w v (labels_of (v_g w) n))
  | CInsert v x => Ok (let_set w v (v_set w v ∪ {[x]}))
  | CDelete v x => Ok (let_set w v (v_set w v ∖ {[x]}))
  | CSetLabels n v ordo ordn => calls w (OSetLabels n (v_set w v) ordo ordn)
  | CMap p ps => Ok (let_map w p ps)
  | CAlias p q => Ok (let_map w p (v_map w q))
  | CPut p k x => Ok (let_map w p (<[k := x]> (v_map w p)))
  | CUnput p k => Ok (let_map w p (delete k (v_map w p)))
  | CFastNode v p ord => calls w (ONewNode (v_set w v) (v_map w p) ord)
  | CFastEdge from to label p => calls w (ONewEdge from to label (v_map w p))
  | CCopyNode n fp ord => let! nd := deref_node (v_g w) n in calls w (ONewNode (n_labels nd) (clone_props fp (n_props nd)) ord)
  | CCall o => calls w o
  end.
Definition v_run (p : list call) : res vals := rfold v_step p v_start.

(** the same graph, the same contents of all variables *)
Definition shows_values (st : shared) (w : vals) : Prop :=
  sh_g st = v_g w /\ (forall v, set_at st (sh_vset st !! v) = v_set w v) /\ (forall p, map_at st (sh_vmap st !! p) = v_map w p).
Definition same_outcome (a : res shared) (b : res vals) : Prop :=
  match a, b with
  | Ok st, Ok w => shows_values st w
  | Panic, Panic | Diverge, Diverge => True
  | _, _ => False
  end.

(** what changes a map in memory: it is that of one variable, node or edge *)
Definition variable_set (st : shared) (v r : nat) : Prop :=
  (forall u, sh_vset st !! u = Some r -> u = v) /\ forall n, sh_nset st !! n <> Some r.
Definition variable_map (st : shared) (p r : nat) : Prop :=
  (forall q, sh_vmap st !! q = Some r -> q = p) /\ (forall n, sh_nmap st !! n <> Some r) /\ forall e, sh_emap st !! e <> Some r.
Definition node_only (st : shared) (n r : nat) : Prop :=
  (forall q, sh_vmap st !! q <> Some r) /\ (forall m, sh_nmap st !! m = Some r -> m = n) /\ forall e, sh_emap st !! e <> Some r.
Definition edge_only (st : shared) (e r : nat) : Prop :=
  (forall q, sh_vmap st !! q <> Some r) /\ (forall n, sh_nmap st !! n <> Some r) /\ forall f, sh_emap st !! f = Some r -> f = e.
Definition fine (st : shared) (c : call) : Prop :=
  match c with
  | CInsert v _ => exists r, sh_vset st !! v = Some r /\ variable_set st v r
  | CDelete v _ => forall r, sh_vset st !! v = Some r -> variable_set st v r
  | CPut p _ _ => exists r, sh_vmap st !! p = Some r /\ variable_map st p r
  | CUnput p _ => forall r, sh_vmap st !! p = Some r -> variable_map st p r
  | CCall (OSetNodeProp n _ _) | CCall (ORemNodeProp n _) => forall r, sh_nmap st !! n = Some r -> node_only st n r
  | CCall (OSetEdgeProp e _ _) | CCall (ORemEdgeProp e _) => forall r, sh_emap st !! e = Some r -> edge_only st e r
  | _ => True
  end.
Fixpoint quiet (st : shared) (p : list call) : Prop :=
  match p with [] => True | c :: p => fine st c /\ forall st', sh_step st c = Ok st' -> quiet st' p end.

(** the maps of sets and properties are not used directly *)
Definition uses_methods (c : call) : Prop :=
  match c with CInsert _ _ | CDelete _ _ | CPut _ _ _ | CUnput _ _ | CMap _ _ => False | _ => True end.

(** the calls on the graph that a program with values makes *)
Definition made_by (w : vals) (c : call) : list op :=
  match c with
  | CSetLabels n v ordo ordn => [OSetLabels n (v_set w v) ordo ordn]
  | CFastNode v p ord => [ONewNode (v_set w v) (v_map w p) ord]
  | CFastEdge from to label p => [ONewEdge from to label (v_map w p)]
  | CCopyNode n fp ord =>
      match g_nodes (v_g w) !! n with Some nd => [ONewNode (n_labels nd) (clone_props fp (n_props nd)) ord] | None => [] end
  | CCall o => [o]
  | _ => []
  end.
Fixpoint made_from (w : vals) (p : list call) : list op :=
  match p with
  | [] => []
  | c :: p => made_by w c ++ match v_step w c with Ok w' => made_from w' p | _ => [] end
  end.
Definition made (p : list call) : list op := made_from v_start p.

(** what the program sees in its variables *)
Definition set_in (st : shared) (v : nat) : gset string := set_at st (sh_vset st !! v).
Definition map_in (st : shared) (p : nat) : props := map_at st (sh_vmap st !! p).
(** the writes [ws] after the program [p] *)
Definition and_then (p ws : list call) (st st' : shared) : Prop := sh_run p = Ok st /\ sh_run (p ++ ws) = Ok st'.
Definition has_set (st : shared) (v : nat) : Prop := sh_vset st !! v <> None.
Definition has_map (st : shared) (p : nat) : Prop := sh_vmap st !! p <> None.  (* not nil *)
(** writes and what they do to the map *)
Inductive edits_set (v : nat) : call -> (gset string -> gset string) -> Prop :=
| edit_insert x : edits_set v (CInsert v x) (fun ls => ls ∪ {[x]})
| edit_delete x : edits_set v (CDelete v x) (fun ls => ls ∖ {[x]}).
Inductive edits_map (p : nat) : call -> (props -> props) -> Prop :=
| edit_put k x : edits_map p (CPut p k x) (fun ps => <[k := x]> ps)
| edit_unput k : edits_map p (CUnput p k) (fun ps => delete k ps).
Inductive edits_node (n : nat) : call -> (props -> props) -> Prop :=
| edit_set_node k x : edits_node n (CCall (OSetNodeProp n k x)) (fun ps => <[k := x]> ps)
| edit_rem_node k : edits_node n (CCall (ORemNodeProp n k)) (fun ps => delete k ps).
Inductive edits_edge (e : nat) : call -> (props -> props) -> Prop :=
| edit_set_edge k x : edits_edge e (CCall (OSetEdgeProp e k x)) (fun ps => <[k := x]> ps)
| edit_rem_edge k : edits_edge e (CCall (ORemEdgeProp e k)) (fun ps => delete k ps).
