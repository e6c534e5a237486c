(** Label sets and property maps as references: which calls copy them and which keep the map of the caller. *)
From Verif Require Import Base Value Graph Clone.

(** A program with variables for label sets and property maps (numbers).  An unset variable is nil. *)
Inductive call :=
| CSet (v : nat) (ls : gset string)       (* v = NewStringSet(...), stringset.go:27-33 *)
| CClone (v w : nat)                      (* v = w.Clone(), stringset.go:35-37, or v = w *)
| CAdd (v : nat) (ls : gset string)       (* v.Add(...), stringset.go:82-92 *)
| CAddSet (v w : nat)                     (* v.AddSet(w), stringset.go:94-104 *)
| CRemove (v : nat) (ls : gset string)    (* v.Remove(...), stringset.go:106-123 *)
| CGetLabels (v n : nat)                  (* v = n.GetLabels(), node.go:46-47 *)
| CInsert (v : nat) (x : string)          (* v.M[x] = struct{}{} *)
| CDelete (v : nat) (x : string)          (* delete(v.M, x) *)
| CSetLabels (n v : nat) (ordo ordn : list string)  (* n.SetLabels(v), node.go:101-104, graph.go:413-416 *)
| CMap (p : nat) (ps : props)             (* p = map[string]any{...} *)
| CAlias (p q : nat)                      (* p = q *)
| CPut (p : nat) (k : string) (x : value) (* p[k] = x *)
| CUnput (p : nat) (k : string)           (* delete(p, k) *)
| CFastNode (v p : nat) (ord : list string)         (* g.FastNewNode(v, p), graph.go:60-73 *)
| CFastEdge (from to : nat) (label : string) (p : nat)  (* g.FastNewEdge(from, to, label, p), graph.go:88-111 *)
| CCopyNode (n : nat) (fp : string -> value -> value) (ord : list string)  (* CopyNode(n, n.GetGraph(), fp), clone.go:68-71 *)
| CCall (o : op).                         (* any other call; the sets and maps in [o] are new *)

(** [sh_sets], [sh_maps]: the maps in memory; [sh_vset], [sh_vmap]: those of the variables; [sh_nset], [sh_nmap],
    [sh_emap]: Node.labels.M (node.go:26), Node.properties (node.go:27), Edge.properties (edge.go:26).  In all
    of them a missing entry is a nil map.  The copies of labels and properties in [sh_g] are those in memory
    ([refresh]). *)
Record shared := Sh {
  sh_g : graph; sh_sets : gmap nat (gset string); sh_maps : gmap nat props; sh_vset : gmap nat nat; sh_vmap : gmap nat nat;
  sh_nset : gmap nat nat; sh_nmap : gmap nat nat; sh_emap : gmap nat nat; sh_next : nat }.
Definition sh_start : shared := Sh new_graph ∅ ∅ ∅ ∅ ∅ ∅ ∅ 0.

Definition set_at (st : shared) (r : option nat) : gset string := default ∅ (r ≫= fun r => sh_sets st !! r).
Definition map_at (st : shared) (r : option nat) : props := default ∅ (r ≫= fun r => sh_maps st !! r).
(** the graph as seen through the references *)
Definition refresh (st : shared) : shared :=
  let g := sh_g st in
  let N := map_imap (fun n x => Some (Node (set_at st (sh_nset st !! n)) (map_at st (sh_nmap st !! n)) (n_in x) (n_out x))) (g_nodes g) in
  let E := map_imap (fun e x => Some (Edge (e_from x) (e_to x) (e_label x) (map_at st (sh_emap st !! e)))) (g_edges g) in
  Sh (set_edges (set_nodes g N) E) (sh_sets st) (sh_maps st) (sh_vset st) (sh_vmap st) (sh_nset st) (sh_nmap st) (sh_emap st) (sh_next st).

Definition with_graph (st : shared) (g : graph) : shared :=
  Sh g (sh_sets st) (sh_maps st) (sh_vset st) (sh_vmap st) (sh_nset st) (sh_nmap st) (sh_emap st) (sh_next st).
(** a new map, at [sh_next st] *)
Definition new_set (st : shared) (ls : gset string) : shared :=
  Sh (sh_g st) (<[sh_next st := ls]> (sh_sets st)) (sh_maps st) (sh_vset st) (sh_vmap st) (sh_nset st) (sh_nmap st) (sh_emap st) (S (sh_next st)).
Definition new_map (st : shared) (ps : props) : shared :=
  Sh (sh_g st) (sh_sets st) (<[sh_next st := ps]> (sh_maps st)) (sh_vset st) (sh_vmap st) (sh_nset st) (sh_nmap st) (sh_emap st) (S (sh_next st)).
Definition write_set (st : shared) (r : nat) (ls : gset string) : shared :=
  Sh (sh_g st) (<[r := ls]> (sh_sets st)) (sh_maps st) (sh_vset st) (sh_vmap st) (sh_nset st) (sh_nmap st) (sh_emap st) (sh_next st).
Definition write_map (st : shared) (r : nat) (ps : props) : shared :=
  Sh (sh_g st) (sh_sets st) (<[r := ps]> (sh_maps st)) (sh_vset st) (sh_vmap st) (sh_nset st) (sh_nmap st) (sh_emap st) (sh_next st).
Definition point {A} (m : gmap nat A) (i : nat) (r : option A) : gmap nat A := partial_alter (fun _ => r) i m.
Definition bind_set (st : shared) (v : nat) (r : option nat) : shared :=
  Sh (sh_g st) (sh_sets st) (sh_maps st) (point (sh_vset st) v r) (sh_vmap st) (sh_nset st) (sh_nmap st) (sh_emap st) (sh_next st).
Definition bind_map (st : shared) (v : nat) (r : option nat) : shared :=
  Sh (sh_g st) (sh_sets st) (sh_maps st) (sh_vset st) (point (sh_vmap st) v r) (sh_nset st) (sh_nmap st) (sh_emap st) (sh_next st).
Definition node_set (st : shared) (n : nat) (r : option nat) : shared :=
  Sh (sh_g st) (sh_sets st) (sh_maps st) (sh_vset st) (sh_vmap st) (point (sh_nset st) n r) (sh_nmap st) (sh_emap st) (sh_next st).
Definition node_map (st : shared) (n : nat) (r : option nat) : shared :=
  Sh (sh_g st) (sh_sets st) (sh_maps st) (sh_vset st) (sh_vmap st) (sh_nset st) (point (sh_nmap st) n r) (sh_emap st) (sh_next st).
Definition edge_map (st : shared) (e : nat) (r : option nat) : shared :=
  Sh (sh_g st) (sh_sets st) (sh_maps st) (sh_vset st) (sh_vmap st) (sh_nset st) (sh_nmap st) (point (sh_emap st) e r) (sh_next st).

(** a new set for the variable *)
Definition rebind_set (st : shared) (v : nat) (ls : gset string) : shared := bind_set (new_set st ls) v (Some (sh_next st)).
(** graph.go:50-56, 78-84: a copy, nil if there are no properties *)
Definition fresh_node_map (st : shared) (n : nat) (ps : props) : shared :=
  if decide (ps = ∅) then node_map st n None else node_map (new_map st ps) n (Some (sh_next st)).
Definition fresh_edge_map (st : shared) (e : nat) (ps : props) : shared :=
  if decide (ps = ∅) then edge_map st e None else edge_map (new_map st ps) e (Some (sh_next st)).
Definition fresh_node_set (st : shared) (n : nat) (ls : gset string) : shared := node_set (new_set st ls) n (Some (sh_next st)).

(** the references after the call [o]; [id]: the id it gives to a new object *)
Definition retarget (st : shared) (id : nat) (o : op) : shared :=
  match o with
  | ONewNode ls ps _ => fresh_node_map (fresh_node_set st id ls) id ps
  | ONewEdge _ _ _ ps => fresh_edge_map st id ps
  | OSetLabels n ls _ _ => fresh_node_set st n ls
  | OSetNodeProp n k x => (* graph.go:420-430 *)
      match sh_nmap st !! n with
      | None => fresh_node_map st n {[k := x]}
      | Some r => write_map st r (<[k := x]> (map_at st (Some r)))
      end
  | ORemNodeProp n k => (* graph.go:456-467 *)
      match sh_nmap st !! n with None => st | Some r => write_map st r (delete k (map_at st (Some r))) end
  | OSetEdgeProp e k x => (* graph.go:537-547 *)
      match sh_emap st !! e with
      | None => fresh_edge_map st e {[k := x]}
      | Some r => write_map st r (<[k := x]> (map_at st (Some r)))
      end
  | ORemEdgeProp e k => (* graph.go:554-565 *)
      match sh_emap st !! e with None => st | Some r => write_map st r (delete k (map_at st (Some r))) end
  | _ => st
  end.

Definition sh_step (st : shared) (c : call) : res shared :=
  let g := sh_g st in
  match c with
  | CSet v ls => Ok (rebind_set st v ls)
  | CClone v w => Ok (bind_set st v (sh_vset st !! w))
  | CAdd v ls => Ok (rebind_set st v (ls ∪ set_at st (sh_vset st !! v)))
  | CAddSet v w => Ok (rebind_set st v (set_at st (sh_vset st !! v) ∪ set_at st (sh_vset st !! w)))
  | CRemove v ls => Ok (rebind_set st v (set_at st (sh_vset st !! v) ∖ ls))
  | CGetLabels v n => Ok (bind_set st v (sh_nset st !! n))
  | CInsert v x =>
      match sh_vset st !! v with
      | None => Panic
      | Some r => Ok (refresh (write_set st r ({[x]} ∪ set_at st (Some r))))
      end
  | CDelete v x =>
      match sh_vset st !! v with
      | None => Ok st
      | Some r => Ok (refresh (write_set st r (set_at st (Some r) ∖ {[x]})))
      end
  | CSetLabels n v ordo ordn =>
      let! g' := step g (OSetLabels n (set_at st (sh_vset st !! v)) ordo ordn) in
      Ok (refresh (with_graph (node_set st n (sh_vset st !! v)) g'))
  | CMap p ps => Ok (bind_map (new_map st ps) p (Some (sh_next st)))
  | CAlias p q => Ok (bind_map st p (sh_vmap st !! q))
  | CPut p k x =>
      match sh_vmap st !! p with
      | None => Panic
      | Some r => Ok (refresh (write_map st r (<[k := x]> (map_at st (Some r)))))
      end
  | CUnput p k =>
      match sh_vmap st !! p with
      | None => Ok st
      | Some r => Ok (refresh (write_map st r (delete k (map_at st (Some r)))))
      end
  | CFastNode v p ord =>
      let! g' := step g (ONewNode (set_at st (sh_vset st !! v)) (map_at st (sh_vmap st !! p)) ord) in
      Ok (refresh (with_graph (node_map (node_set st (g_next g) (sh_vset st !! v)) (g_next g) (sh_vmap st !! p)) g'))
  | CFastEdge from to label p =>
      let! g' := step g (ONewEdge from to label (map_at st (sh_vmap st !! p))) in
      Ok (refresh (with_graph (edge_map st (g_next g) (sh_vmap st !! p)) g'))
  | CCopyNode n fp ord => (* graph.go:436-448: the set of the node itself; a new map, which is of the new node only *)
      let! nd := deref_node g n in
      let! g' := step g (ONewNode (n_labels nd) (clone_props fp (n_props nd)) ord) in
      Ok (refresh (with_graph (fresh_node_map (node_set st (g_next g) (sh_nset st !! n)) (g_next g) (clone_props fp (n_props nd))) g'))
  | CCall o => let! g' := step g o in Ok (refresh (with_graph (retarget st (g_next g) o) g'))
  end.
Definition sh_run_from (st : shared) (p : list call) : res shared := rfold sh_step p st.
Definition sh_run (p : list call) : res shared := sh_run_from sh_start p.
