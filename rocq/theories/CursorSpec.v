(** Specification of cursors. *)
From Verif Require Import Base Graph GraphSpec Path PathSpec Cursor.

(** [m] is at the other end of an edge of [n] in direction [d] whose label satisfies [P] *)
Definition neighbour (s : sgraph) (d : dir) (P : string -> Prop) (n m : nat) : Prop :=
  exists e ed, s_edges s !! e = Some ed /\ P (e_label ed) /\
    match d with
    | Outgoing => e_from ed = n /\ e_to ed = m
    | Incoming => e_to ed = n /\ e_from ed = m
    | AnyDir => e_from ed = n /\ e_to ed = m \/ e_to ed = n /\ e_from ed = m
    end.
(** the cursor is at the last node of its path, which is connected and not empty *)
Definition at_end (from to : nat -> nat) (c : cursor) : Prop :=
  exists p w, c_path c = Some p /\ denotes from to p w /\ w <> NoWalk /\ c_node c = last (walk_nodes w).
