(** Small specification for NodeMap in every history: the labels whose sets hold a node (maps.go:36-113).  [Replace] by no
    labels leaves the node in the sets of its old labels (maps.go:43-46). *)
From Verif Require Import Base NodeMap ContainerSpec.

(** [L]: the labels of the nodes in the map; [H n]: the labels whose sets hold [n] *)
Definition put_at (H : nat -> gset string) (n : nat) (X : gset string) (m : nat) : gset string := if decide (m = n) then X else H m.
Definition nm_sets_step (L : gmap nat (gset string)) (H : nat -> gset string) (o : nm_op) : nat -> gset string :=
  match o with
  | NMAdd n labels _ => put_at H n (H n ∪ labels)
  | NMReplace n new _ _ => if decide (new = ∅) then H else put_at H n (H n ∖ default ∅ (L !! n) ∪ new)
  | NMRemove n _ => put_at H n (H n ∖ default ∅ (L !! n))
  end.
Fixpoint nm_sets_from (L : gmap nat (gset string)) (H : nat -> gset string) (ops : list nm_op) : nat -> gset string :=
  match ops with [] => H | o :: r => nm_sets_from (nm_spec_step L o) (nm_sets_step L H o) r end.
Definition nm_sets (ops : list nm_op) : nat -> gset string := nm_sets_from ∅ (fun _ => ∅) ops.
(** how often [n] is in [xs] *)
Definition times (n : nat) (xs : list nat) : nat := length (filter (fun x => x = n) xs).
