(** What StringSet, NodeSet, EdgeSet and NodeMap are supposed to do. *)
From Verif Require Import Base Value StringSet FastSet NodeMap GraphSpec.

(** ** StringSet: each variable holds its own finite set *)
Definition ss_spec := nat -> gset string.
Definition ss_spec_step (s : ss_spec) (o : ss_op) : ss_spec :=
  let put x X := fun y => if decide (y = x) then X else s y in
  match o with
  | SSZero x => put x ∅
  | SSNew x ss => put x (list_to_set ss)
  | SSCopy x y | SSClone x y => put x (s y)
  | SSAdd x _ ss => put x (s x ∪ list_to_set ss)
  | SSAddSet x y _ _ => put x (s x ∪ s y)
  | SSRemove x _ ss => put x (s x ∖ list_to_set ss)
  end.
(** the iteration orders are orders of the sets iterated over *)
Definition ss_valid (s : ss_spec) (o : ss_op) : Prop :=
  match o with
  | SSAdd x ord _ | SSRemove x ord _ => order_of (s x) ord
  | SSAddSet x y ord ord' => order_of (s x) ord /\ order_of (s y) ord'
  | _ => True
  end.
Fixpoint ss_valid_from (s : ss_spec) (ops : list ss_op) : Prop :=
  match ops with [] => True | o :: r => ss_valid s o /\ ss_valid_from (ss_spec_step s o) r end.
Definition ss_history (ops : list ss_op) : Prop := ss_valid_from (fun _ => ∅) ops.
Definition ss_spec_run (ops : list ss_op) : ss_spec := fold_left ss_spec_step ops (fun _ => ∅).
Definition ss_target (o : ss_op) : nat :=
  match o with
  | SSZero x | SSNew x _ | SSCopy x _ | SSClone x _ | SSAdd x _ _ | SSAddSet x _ _ _ | SSRemove x _ _ => x
  end.

(** ** NodeSet and EdgeSet: the elements in order of insertion *)
Section idset.
  Context {N : Type} `{EqDecision N}.
  Definition is_spec_step (l : list N) (o : is_op) : list N :=
    match o with
    | ISAdd x => if decide (x ∈ l) then l else l ++ [x]
    | ISRemove x => filter (fun y => y <> x) l
    end.
  Definition is_spec_run (ops : list is_op) : list N := fold_left is_spec_step ops [].
  Definition is_arg (o : @is_op N) : N := match o with ISAdd x | ISRemove x => x end.
End idset.

(** ** NodeMap: the labels of the nodes in the map *)
Definition nm_spec_step (s : gmap nat (gset string)) (o : nm_op) : gmap nat (gset string) :=
  match o with
  | NMAdd n labels _ => <[n := labels]> s
  | NMReplace n new _ _ => <[n := new]> s
  | NMRemove n _ => delete n s
  end.
Definition nm_spec_run (ops : list nm_op) : gmap nat (gset string) := fold_left nm_spec_step ops ∅.
(** [Add] of a node that is not in the map, or again with the same labels; [Replace] and
    [Remove] of nodes in the map. *)
Definition nm_valid (s : gmap nat (gset string)) (o : nm_op) : Prop :=
  match o with
  | NMAdd n labels ord => order_of labels ord /\ (s !! n = None \/ s !! n = Some labels)
  | NMReplace n new ordo ordn => order_of new ordn /\ exists old, s !! n = Some old /\ order_of old ordo
  | NMRemove n ord => exists old, s !! n = Some old /\ order_of old ord
  end.
Fixpoint nm_valid_from (s : gmap nat (gset string)) (ops : list nm_op) : Prop :=
  match ops with [] => True | o :: r => nm_valid s o /\ nm_valid_from (nm_spec_step s o) r end.
Definition nm_history (ops : list nm_op) : Prop := nm_valid_from ∅ ops.
(** no node loses all its labels *)
Definition nm_keeps (s : gmap nat (gset string)) (o : nm_op) : Prop :=
  match o with
  | NMReplace n new _ _ => new = ∅ -> s !! n = Some ∅
  | _ => True
  end.
Fixpoint nm_keeps_from (s : gmap nat (gset string)) (ops : list nm_op) : Prop :=
  match ops with [] => True | o :: r => nm_keeps s o /\ nm_keeps_from (nm_spec_step s o) r end.
