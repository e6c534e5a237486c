(** Model of btreeindex.go and hashindex.go: property indexes.
    The indexed items are node or edge pointers, modelled by their id. *)
From Verif Require Import Base Value FastSet.

(** ** btreeindex.go
    The gods B-tree is modelled by its in-order list of (key, set) entries, searched linearly.
    For pairwise comparable keys this is the same; when keys are incomparable the real tree
    panics only if its search path meets the incomparable key. *)
Notation btree := (list (value * fastset nat)) (only parsing).

(** [tree.Get(key)] *)
Fixpoint bt_get (t : btree) (key : value) : res (option (fastset nat)) :=
  match t with
  | [] => Ok None
  | (k, s) :: r =>
      match compare_value key k with
      | None => Panic
      | Some Eq => Ok (Some s)
      | Some Lt => Ok None
      | Some Gt => bt_get r key
      end
  end.
(** [tree.Put(key, s)]; also the in-place update of the set stored under [key], which keeps
    the stored key *)
Fixpoint bt_put (t : btree) (key : value) (s : fastset nat) : btree :=
  match t with
  | [] => [(key, s)]
  | (k, s0) :: r =>
      match compare_value key k with
      | Some Eq => (k, s) :: r
      | Some Lt => (key, s) :: (k, s0) :: r
      | _ => (k, s0) :: bt_put r key s
      end
  end.
(** [tree.Remove(key)] *)
Fixpoint bt_del (t : btree) (key : value) : btree :=
  match t with
  | [] => []
  | (k, s0) :: r =>
      match compare_value key k with
      | Some Eq => r
      | Some Lt => (k, s0) :: r
      | _ => (k, s0) :: bt_del r key
      end
  end.

(** ** hashindex.go *)
(** lines 32-34, 49-51, 69-71: one level of [GetNativeValue] *)
Definition hkey (v : value) : value := match v with VNative w => w | _ => v end.
Fixpoint h_get (t : btree) (key : value) : option (fastset nat) :=
  match t with
  | [] => None
  | (k, s) :: r => if decide (key = k) then Some s else h_get r key
  end.
Fixpoint h_put (t : btree) (key : value) (s : fastset nat) : btree :=
  match t with
  | [] => [(key, s)]
  | (k, s0) :: r => if decide (key = k) then (k, s) :: r else (k, s0) :: h_put r key s
  end.

(** [index] of indexes.go:17-22.  [IBtree None]: setTree with nil tree (btreeindex.go:22-24).
    [IHash vals els fresh]: [values] maps a value to a set of list elements (handles),
    [els] is the container/list of items, hashindex.go:22-25.  [fresh] is the number of calls
    of [add] so far; the [values] map is nil iff there was none. *)
Inductive index :=
| IBtree (t : option btree)
| IHash (vals : btree) (els : list (nat * nat)) (fresh : nat).

(** indexes.go:24-29, 53-57 *)
Inductive index_type := BtreeIndex | HashIndex.
Definition ix_new (it : index_type) : index :=
  match it with BtreeIndex => IBtree None | HashIndex => IHash [] [] 0 end.

(** btreeindex.go:26-37, hashindex.go:27-43; [Panic] for incomparable / unhashable values *)
Definition ix_add (ix : index) (v : value) (id : nat) : res index :=
  match ix with
  | IBtree ot =>
      let t := default [] ot in
      let! o := bt_get t v in
      let s := match o with Some s => s | None => fs_new end in
      Ok (IBtree (Some (bt_put t v (fs_add s id id).1)))
  | IHash vals els fresh =>
      let k := hkey v in
      if hashable k then
        let s := match h_get vals k with Some s => s | None => fs_new end in
        Ok (IHash (h_put vals k (fs_add s id fresh).1) (els ++ [(fresh, id)]) (S fresh))
      else Panic
  end.

(** btreeindex.go:39-52, hashindex.go:45-62 *)
Definition ix_remove (ix : index) (v : value) (id : nat) : res index :=
  match ix with
  | IBtree None => Ok ix
  | IBtree (Some t) =>
      let! o := bt_get t v in
      match o with
      | None => Ok ix
      | Some s =>
          let s' := (fs_remove s id).1 in
          if decide (fs_size s' = 0) then Ok (IBtree (Some (bt_del t v)))
          else Ok (IBtree (Some (bt_put t v s')))
      end
  | IHash vals els fresh =>
      if decide (fresh = 0) then Ok ix else
      let k := hkey v in
      if hashable k then
        match h_get vals k with
        | None => Ok ix
        | Some s =>
            match fs_get s id with
            | None => Ok ix
            | Some h =>
                Ok (IHash (h_put vals k (fs_remove s id).1)
                          (filter (fun p : nat * nat => p.1 <> h) els) fresh)
            end
        end
      else Panic
  end.

(** the item stored in the list element [h]: hashindex.go:76 *)
Definition el_value (els : list (nat * nat)) (h : nat) : option nat :=
  match list_find (fun p : nat * nat => p.1 = h) els with Some (_, (_, x)) => Some x | None => None end.

(** btreeindex.go:55-66, hashindex.go:65-78: elements and MaxSize *)
Definition ix_find (ix : index) (v : value) : res (list nat * Z) :=
  match ix with
  | IBtree None => Ok ([], 0%Z)
  | IBtree (Some t) =>
      let! o := bt_get t v in
      match o with
      | None => Ok ([], 0%Z)
      | Some s => Ok (fs_iter s, Z.of_nat (fs_size s))
      end
  | IHash vals els fresh =>
      if decide (fresh = 0) then Ok ([], 0%Z) else
      let k := hkey v in
      if hashable k then
        match h_get vals k with
        | None => Ok ([], 0%Z)
        | Some s => Ok (omap (el_value els) (fs_iter s), Z.of_nat (fs_size s))
        end
      else Panic
  end.

(** btreeindex.go:68-83, hashindex.go:80-85: elements and MaxSize *)
Definition ix_values (ix : index) : list nat * Z :=
  match ix with
  | IBtree None => ([], 0%Z)
  | IBtree (Some t) => (concat (map (fun p => fs_iter p.2) t), (-1)%Z)
  | IHash vals els _ => (els.*2, Z.of_nat (length els))
  end.
