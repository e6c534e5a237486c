(** What the calls on paths do if paths are values, and programs that do not give slices away
    while they use them. *)
From Verif Require Import Base Graph Sizes Path PathMem.

(** The new graph and the changed variables, from the values [P] of the path variables and [E] of the
    slice variables. *)
Definition value_step (g : graph) (P : nat -> path) (E : nat -> list pelem) (o : pm_op) : res (graph * list (nat * path)) :=
  let from := edge_from g in
  let to := edge_to g in
  match o with
  | PNew x v => Ok (g, [(x, path_from_elements (E v))])
  | PNewLit x els => Ok (g, [(x, path_from_elements els)])
  | PFromNode x n => Ok (g, [(x, path_from_node n)])
  | PClear x => Ok (g, [(x, path_empty)])
  | PClone x y => Ok (g, [(x, P y)])
  | PAppend x els _ => let! p := path_append from to (P x) els in Ok (g, [(x, p)])
  | PAppendSlice x v _ => let! p := path_append from to (P x) (E v) in Ok (g, [(x, p)])
  | PAppendPath x y _ => let! r := path_append_path from to (P x) (P y) in Ok (g, [(x, r.1); (y, r.2)])
  | PSlice x y i j => let! p := path_slice from to (P y) i j in Ok (g, [(x, p)])
  | PRemoveLast x => let! r := path_remove_last g (P x) in Ok (r.1, [(x, r.2)])
  | PRemoveFirst x => let! r := path_remove_first g (P x) in Ok (r.1, [(x, r.2)])
  | SMake _ _ _ | SSlice _ _ _ _ | SSet _ _ _ | SAppend _ _ _ _ => Ok (g, [])
  end.
Definition changed (P : nat -> path) (l : list (nat * path)) (y : nat) : path :=
  default (P y) ((list_to_map l : gmap nat path) !! y).
Definition slice_op (o : pm_op) : bool :=
  match o with SMake _ _ _ | SSlice _ _ _ _ | SSet _ _ _ | SAppend _ _ _ _ => true | _ => false end.

(** the slice variables that a call reads, or whose elements it writes *)
Definition used (o : pm_op) : gset nat :=
  match o with
  | PNew _ v | PAppendSlice _ v _ | SSet v _ _ => {[v]}
  | SSlice _ w _ _ | SAppend _ w _ _ => {[w]}
  | _ => ∅
  end.
(** [gone]: the slice variables given to a path and not assigned since.  They are not used, and
    only slices that share no array with another variable are given to a path. *)
Definition gone_after (gone : gset nat) (o : pm_op) : gset nat :=
  match o with
  | PNew _ v => {[v]} ∪ gone
  | SMake v _ _ | SSlice v _ _ _ | SAppend v _ _ _ => gone ∖ {[v]}
  | _ => gone
  end.
Definition owns (s : pm_state) (gone : gset nat) (v : nat) : Prop :=
  forall w t, w ∉ gone -> w <> v -> pm_slice s !! w = Some t -> 0 < sl_cap t -> sl_arr t <> sl_arr (pm_sl s v).
Fixpoint private (s : pm_state) (gone : gset nat) (ops : list pm_op) : Prop :=
  match ops with
  | [] => True
  | o :: r =>
      used o ## gone /\
      match o with PNew _ v => owns s gone v | _ => True end /\
      forall s', pm_step s o = Ok s' -> private s' (gone_after gone o) r
  end.
Definition gone (ops : list pm_op) : gset nat := fold_left gone_after ops ∅.

(** without calls of NewPathFromElements with a slice of the caller *)
Definition no_shared_slices (ops : list pm_op) : Prop := Forall (fun o => match o with PNew _ _ => False | _ => True end) ops.
