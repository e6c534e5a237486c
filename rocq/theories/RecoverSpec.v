(** Specification: what is left of a call that panicked. *)
From Verif Require Import Base Value Index Graph GraphSpec Recover.

(** [range] visits every property once *)
Definition prop_order (po : nat -> props -> list (string * value)) : Prop :=
  forall id p, po id p ≡ₚ map_to_list p.

(** The graph without its property indexes. *)
Definition noix (g : graph) : graph := set_eix (set_nix g ∅) ∅.

(** [g] is, apart from its indexes, the graph after the calls [eff], which create no index. *)
Definition index_call (o : op) : bool := match o with OAddNodeIndex _ _ | OAddEdgeIndex _ _ => true | _ => false end.
Definition reads_as (g : graph) (eff : list op) : Prop :=
  valid_history eff /\ run eff = Ok (noix g) /\ Forall (fun o => index_call o = false) eff.

(** [l]: some, not necessarily all, edges at [n] *)
Definition some_edges_at (s : sgraph) (n : nat) (l : list nat) : Prop :=
  NoDup l /\ forall e, e ∈ l -> exists x, s_edges s !! e = Some x /\ (e_from x = n \/ e_to x = n).

(** The calls that have, apart from indexes, the same effect as a call that returned ([b]) or panicked. *)
Definition effect (s : sgraph) (o : op) (b : bool) (os : list op) : Prop :=
  match o with
  | OAddNodeIndex _ _ | OAddEdgeIndex _ _ => os = []
  | OSetNodeProp _ _ _ | OSetEdgeProp _ _ _ => os = [o] \/ (b = false /\ os = [])
  | ORemNodeProp _ _ | ORemEdgeProp _ _ => os = if b then [o] else []
  | ODetach n => if b then os = [o] else exists l, l <> [] /\ some_edges_at s n l /\ os = map ORemoveEdge l
  | ODetachRemove n _ => os = [o] \/ (b = false /\ exists l, l <> [] /\ some_edges_at s n l /\ os = map ORemoveEdge l)
  | _ => os = [o]
  end.

(** there is a hash index on property [k] *)
Definition hash_indexed (ixs : gmap string index) (k : string) : Prop := exists vals els fresh, ixs !! k = Some (IHash vals els fresh).

(** "A call that panics leaves the graph as it was" *)
Definition panics_change_nothing : Prop :=
  forall calls g po o g', Forall (fun c => prop_order c.1) calls -> prop_order po ->
    run_st calls = Ok g -> step_st po g o = Ok (g', false) -> g' = g.
