(** Specification of CollectAllPaths: trails of the abstract graph. *)
From Verif Require Import Base Graph GraphSpec Path.

(** Element [x] leads from node [a] to node [b], over a live edge, in direction [d].  A loop counts
    as traversed forwards, whatever [d] is. *)
Definition follows (s : sgraph) (d : dir) (a : nat) (x : pelem) (b : nat) : Prop :=
  exists ed, s_edges s !! pe_edge x = Some ed /\
    if pe_rev x then e_to ed = a /\ e_from ed = b /\ a <> b /\ d <> Outgoing
    else e_from ed = a /\ e_to ed = b /\ (d = Incoming -> a = b).
(** The elements lead on from node [a], over edges accepted by the filter. *)
Inductive continues (s : sgraph) (d : dir) (filt : nat -> bool) : nat -> list pelem -> Prop :=
| continues_nil a : continues s d filt a []
| continues_cons a x b l : follows s d a x b -> filt (pe_edge x) = true -> continues s d filt b l -> continues s d filt a (x :: l).
(** The paths to report: the first edge is in [leg] and is taken away from [n] (in either
    direction, and need not satisfy the filter); no edge is repeated; the length is within bounds
    (-1: no bound). *)
Inductive trail (s : sgraph) (d : dir) (filt : nat -> bool) (n : nat) (leg : list nat) (min max : Z) : path -> Prop :=
| trail_path x b l :
    pe_edge x ∈ leg -> follows s AnyDir n x b -> continues s d filt b l ->
    NoDup (map pe_edge (x :: l)) ->
    (min = -1 \/ Z.of_nat (length (x :: l)) >= min)%Z -> (max = -1 \/ Z.of_nat (length (x :: l)) <= max)%Z ->
    trail s d filt n leg min max (Path None (x :: l)).
(** Feed the paths to the accumulator, until it returns false. *)
Fixpoint feed {T} (acc : path -> T -> bool * T) (ps : list path) (t : T) : bool * T :=
  match ps with
  | [] => (true, t)
  | p :: r => if (acc p t).1 then feed acc r (acc p t).2 else acc p t
  end.
(** An accumulator that collects the paths, and stops when [stop] says so. *)
Definition collecting (stop : list path -> bool) (p : path) (ps : list path) : bool * list path :=
  (negb (stop (ps ++ [p])), ps ++ [p]).
