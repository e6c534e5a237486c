(** Model of maps.go: NodeMap, nodes indexed by label. *)
From Verif Require Import Base Assoc FastSet.

(** maps.go:22-26.  [m] is a gods linkedhashmap (insertion ordered). *)
Record nmap := NM { nm_m : list (string * fastset nat); nm_nolabels : fastset nat }.
(** maps.go:28-34 *)
Definition nm_new : nmap := NM [] fs_new.

(** maps.go:51-59 and 103-111: take [n] out of the set of one label. *)
Definition nm_unlabel (n : nat) (m : list (string * fastset nat)) (l : string)
  : list (string * fastset nat) :=
  match bk_get m l with
  | None => m
  | Some s =>
      let s' := (fs_remove s n).1 in
      if decide (fs_size s' = 0) then bk_del m l else bk_set m l s'
  end.
(** maps.go:65-72 and 85-92: put [n] into the set of one label. *)
Definition nm_label (n : nat) (m : list (string * fastset nat)) (l : string)
  : list (string * fastset nat) :=
  match bk_get m l with
  | None => m ++ [(l, (fs_add fs_new n n).1)]
  | Some s => bk_set m l (fs_add s n n).1
  end.

(** maps.go:36-75 [Replace].  [ordo], [ordn]: the orders in which Go iterates over
    [oldLabels.M] and [newLabels.M]. *)
Definition nm_replace (nm : nmap) (n : nat) (old new : gset string) (ordo ordn : list string) : nmap :=
  if decide (old = ∅ /\ new = ∅) then nm
  else
    let nl := if decide (old = ∅) then (fs_remove (nm_nolabels nm) n).1 else nm_nolabels nm in
    if decide (new = ∅) then NM (nm_m nm) (fs_add nl n n).1
    else
      let m1 := fold_left (nm_unlabel n) (filter (fun l => l ∉ new) ordo) (nm_m nm) in
      let m2 := fold_left (nm_label n) (filter (fun l => l ∉ old) ordn) m1 in
      NM m2 nl.

(** maps.go:77-94 [Add] *)
Definition nm_add (nm : nmap) (n : nat) (labels : gset string) (ord : list string) : nmap :=
  if decide (labels = ∅) then NM (nm_m nm) (fs_add (nm_nolabels nm) n n).1
  else NM (fold_left (nm_label n) ord (nm_m nm)) (nm_nolabels nm).

(** maps.go:96-113 [Remove] *)
Definition nm_remove (nm : nmap) (n : nat) (labels : gset string) (ord : list string) : nmap :=
  if decide (labels = ∅) then NM (nm_m nm) (fs_remove (nm_nolabels nm) n).1
  else NM (fold_left (nm_unlabel n) ord (nm_m nm)) (nm_nolabels nm).

(** maps.go:115-120 *)
Definition nm_is_empty (nm : nmap) : bool := bool_decide (nm_m nm = []).

Section queries.
  (** [onode.labels] in the heap *)
  Variable labels_of : nat -> gset string.

  (** maps.go:165-177: number of seen labels the node has *)
  Definition n_seen (seen : list string) (n : nat) : nat :=
    length (filter (fun l => l ∈ labels_of n) seen).
  (** maps.go:128-147, 163-178: the labelled part of the iteration.
      [Panic]: an empty label set, whose iterator has no current value. *)
  Fixpoint nm_iter_lab (seen : list string) (m : list (string * fastset nat)) : res (list nat) :=
    match m with
    | [] => Ok []
    | (l, s) :: r =>
        let seen' := seen ++ [l] in
        match fs_iter s with
        | [] => Panic
        | xs =>
            let! rest := nm_iter_lab seen' r in
            Ok (filter (fun n => n_seen seen' n <= 1) xs ++ rest)
        end
    end.
  (** maps.go:157-182 [Iterator] *)
  Definition nm_iter (nm : nmap) : res (list nat) :=
    let! xs := nm_iter_lab [] (nm_m nm) in Ok (xs ++ fs_iter (nm_nolabels nm)).

  (** maps.go:186-196: the smallest of the sets of the given labels;
      [None] = some label has no set, [Some None] = no label given (nil pointer) *)
  Fixpoint nm_min (m : list (string * fastset nat)) (ord : list string) (cur : option (fastset nat))
    : option (option (fastset nat)) :=
    match ord with
    | [] => Some cur
    | l :: r =>
        match bk_get m l with
        | None => None
        | Some s =>
            let cur' := match cur with
                        | None => Some s
                        | Some c => if decide (fs_size s < fs_size c) then Some s else Some c
                        end in
            nm_min m r cur'
        end
    end.
  (** maps.go:184-206 [IteratorAllLabels]: elements and MaxSize.  [Panic]: line 197 with
      [minSet == nil]. *)
  Definition nm_iter_all (nm : nmap) (labels : gset string) (ord : list string) : res (list nat * Z) :=
    match nm_min (nm_m nm) ord None with
    | None => Ok ([], 0%Z)
    | Some None => Panic
    | Some (Some s) => Ok (filter (fun n => labels ⊆ labels_of n) (fs_iter s), Z.of_nat (fs_size s))
    end.
End queries.

(** Histories of a NodeMap together with the labels of the nodes in it: [Replace] is called
    before the labels of the node are set (graph.go:413-416). *)
Inductive nm_op :=
| NMAdd (n : nat) (labels : gset string) (ord : list string)
| NMReplace (n : nat) (new : gset string) (ordo ordn : list string)
| NMRemove (n : nat) (ord : list string).
Record nm_state := NMS { ns_map : nmap; ns_labels : gmap nat (gset string) }.
Definition ns_label_of (s : nm_state) (n : nat) : gset string := default ∅ (ns_labels s !! n).
Definition nm_step (s : nm_state) (o : nm_op) : nm_state :=
  match o with
  | NMAdd n labels ord => NMS (nm_add (ns_map s) n labels ord) (<[n := labels]> (ns_labels s))
  | NMReplace n new ordo ordn =>
      NMS (nm_replace (ns_map s) n (ns_label_of s n) new ordo ordn) (<[n := new]> (ns_labels s))
  | NMRemove n ord => NMS (nm_remove (ns_map s) n (ns_label_of s n) ord) (delete n (ns_labels s))
  end.
Definition nm_run (ops : list nm_op) : nm_state := fold_left nm_step ops (NMS nm_new ∅).
