(** Decision procedures for the examples of PropertiesContainers.v. *)
From Verif Require Import Base Value StringSet NodeMap GraphSpec ContainerSpec GraphExamples.

Global Instance nm_labelled_dec (L : gmap nat (gset string)) n ord :
  Decision (exists old, L !! n = Some old /\ order_of old ord).
Proof.
  destruct (L !! n) as [X|] eqn:HX.
  - destruct (decide (order_of X ord)) as [d|d].
    + left. abstract (by exists X).
    + right. abstract (by intros (Y & [= <-] & H)).
  - right. abstract (by intros (Y & [=] & H)).
Defined.
Global Instance nm_valid_dec L o : Decision (nm_valid L o).
Proof. destruct o; simpl; apply _. Defined.
Global Instance nm_valid_from_dec L ops : Decision (nm_valid_from L ops).
Proof. revert L; induction ops; intros L; simpl; apply _. Defined.
Global Instance nm_history_dec ops : Decision (nm_history ops).
Proof. unfold nm_history. apply _. Defined.
Global Instance nm_keeps_dec L o : Decision (nm_keeps L o).
Proof. destruct o; simpl; apply _. Defined.
Global Instance nm_keeps_from_dec L ops : Decision (nm_keeps_from L ops).
Proof. revert L; induction ops; intros L; simpl; apply _. Defined.
