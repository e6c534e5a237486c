(** Specification of alg.go. *)
From Verif Require Import Base Graph GraphSpec.

Section iso.
  Variables (s1 s2 : sgraph) (neq eeq : nat -> nat -> bool).
  (** [f] is a bijection between sets given by predicates *)
  Definition bijection (P Q : nat -> Prop) (f : nat -> nat) : Prop :=
    (forall x, P x -> Q (f x)) /\ (forall x y, P x -> P y -> f x = f y -> x = y) /\
    (forall z, Q z -> exists x, P x /\ f x = z).
  (** [f] (on nodes) and [h] (on edges) form an isomorphism compatible with the equivalences *)
  Definition isomorphism (f h : nat -> nat) : Prop :=
    bijection (live_node s1) (live_node s2) f /\ bijection (live_edge s1) (live_edge s2) h /\
    (forall n, live_node s1 n -> neq n (f n) = true) /\
    (forall e x, s_edges s1 !! e = Some x -> eeq e (h e) = true /\
       exists y, s_edges s2 !! h e = Some y /\ e_from y = f (e_from x) /\ e_to y = f (e_to x)).
  (** the number of edges leaving a node *)
  Definition out_degree (s : sgraph) (n : nat) : nat := size (filter (fun p => e_from p.2 = n) (s_edges s)).
  (** What CheckIsomorphism decides instead: a map of the nodes that keeps out-degrees, such that
      every edge has an equivalent edge between the images of its ends. *)
  Definition weak_match (f : nat -> nat) : Prop :=
    (forall n, live_node s1 n -> live_node s2 (f n) /\ neq n (f n) = true /\ out_degree s1 n = out_degree s2 (f n)) /\
    (forall e x, s_edges s1 !! e = Some x ->
       exists e' y, s_edges s2 !! e' = Some y /\ eeq e e' = true /\ e_from y = f (e_from x) /\ e_to y = f (e_to x)).
End iso.

(** ** ForEachNode (alg.go:181-188) *)
(** the state after [pred] was called for [vs] in turn *)
Definition after {T} (pred : nat -> T -> bool * T) (vs : list nat) (t : T) : T := fold_left (fun t n => (pred n t).2) vs t.
(** [pred] returns true for each of [vs] in turn *)
Definition goes_on {T} (pred : nat -> T -> bool * T) (vs : list nat) (t : T) : Prop :=
  forall l n r, vs = l ++ n :: r -> (pred n (after pred l t)).1 = true.
(** The result of calling [pred] for each of [ns] in turn until it returns false: whether it never did, and the state. *)
Definition in_turn {T} (pred : nat -> T -> bool * T) (ns : list nat) (t : T) (x : bool * T) : Prop :=
  goes_on pred ns t /\ x = (true, after pred ns t) \/
  exists l n r, ns = l ++ n :: r /\ goes_on pred l t /\ (pred n (after pred l t)).1 = false /\ x = (false, after pred (l ++ [n]) t).
