(** Specification of paths: a path denotes a walk, i.e. a first node and a list of steps; a step
    leads over an edge to a node. *)
From Verif Require Import Base Path.

Inductive pwalk := NoWalk | WalkFrom (n : nat) (steps : list (nat * nat)).  (* (edge, node reached) *)

Section ends.
  Variables from to : nat -> nat.
  (** edge [e] leads from [a] to [b], backwards if [rev] *)
  Definition joins (e : nat) (rev : bool) (a b : nat) : Prop :=
    if rev then to e = a /\ from e = b else from e = a /\ to e = b.
  (** the elements are connected, start at [a], and take these steps *)
  Inductive takes : nat -> list pelem -> list (nat * nat) -> Prop :=
  | takes_nil a : takes a [] []
  | takes_cons a b e rev l ss :
      joins e rev a b -> takes b l ss -> takes a (PE e rev :: l) ((e, b) :: ss).
  (** what a path denotes; a path that denotes nothing is not connected *)
  Inductive denotes : path -> pwalk -> Prop :=
  | den_nothing : denotes (Path None []) NoWalk
  | den_node n : denotes (Path (Some n) []) (WalkFrom n [])
  | den_edges a x l ss : takes a (x :: l) ss -> denotes (Path None (x :: l)) (WalkFrom a ss).
End ends.

Definition walk_nodes (w : pwalk) : list nat :=
  match w with NoWalk => [] | WalkFrom n ss => n :: map snd ss end.
Definition walk_edges (w : pwalk) : list nat :=
  match w with NoWalk => [] | WalkFrom _ ss => map fst ss end.
(** prefixes of walks *)
Definition walk_prefix (v w : pwalk) : Prop :=
  match v, w with
  | NoWalk, _ => True
  | WalkFrom n ss, WalkFrom m ts => n = m /\ exists r, ts = ss ++ r
  | WalkFrom _ _, NoWalk => False
  end.
(** concatenation of walks, if the second starts where the first ends *)
Definition walk_app (v w : pwalk) : option pwalk :=
  match v, w with
  | NoWalk, _ => Some w
  | _, NoWalk => Some v
  | WalkFrom n ss, WalkFrom m ts =>
      if decide (last (n :: map snd ss) = Some m) then Some (WalkFrom n (ss ++ ts)) else None
  end.
(** the part made of nodes [i], ..., [j-1] *)
Definition walk_slice (w : pwalk) (i j : nat) : pwalk :=
  match (walk_nodes w) !! i, w with
  | Some m, WalkFrom _ ss => if decide (i < j) then WalkFrom m (take (j - 1 - i) (drop i ss)) else NoWalk
  | _, _ => NoWalk
  end.

(** Paths made with the checks of the API: everything but Append on an empty path and
    NewPathFromElements, which do not check that the elements are connected. *)
Inductive made (from to : nat -> nat) : path -> Prop :=
| made_empty : made from to path_empty
| made_node n : made from to (path_from_node n)
| made_append p els p' : made from to p -> path_is_empty p = false -> path_append from to p els = Ok p' -> made from to p'
| made_append_one p x p' : made from to p -> path_append from to p [x] = Ok p' -> made from to p'
| made_append_path p q p' q' : made from to p -> made from to q -> path_append_path from to p q = Ok (p', q') -> made from to p'
| made_append_path_arg p q p' q' : made from to p -> made from to q -> path_append_path from to p q = Ok (p', q') -> made from to q'
| made_clone p : made from to p -> made from to (path_clone p)
| made_slice p i j p' : made from to p -> path_slice from to p i j = Ok p' -> made from to p'.
