(** Model of PatternSymbol (pattern.go:35-38, 218-267) and GetSymbolNames.

    [N], [E]: nodes and edges, [nid], [eid]: their ids, unique within a graph only (see FastSet.v).  A path is the
    list of its edges, each with the flag Reverse (path.go:23-31); adding a nil path panics and is not modelled. *)
From Verif Require Import Base FastSet Pattern.

Section sym.
  Context {N E : Type} (nid : N -> nat) (eid : E -> nat).
  (** pattern.go:35-38; [None] is nil *)
  Record patsym := PatSym { py_nodes : option (fastset N); py_edges : option (fastset E) }.
  Definition py_empty : patsym := PatSym None None.
  (** what can be given to Add; [IOther]: a value of any other type *)
  Inductive sitem := INode (n : N) | IEdge (e : E) | IPath (p : list (E * bool)) | IOther.

  (** pattern.go:236-241 *)
  Definition py_add_node (s : patsym) (n : N) : patsym :=
    let f := match py_nodes s with None => fs_new | Some f => f end in
    PatSym (Some (fs_add f (nid n) n).1) (py_edges s).
  (** pattern.go:243-250 *)
  Definition py_add_path (s : patsym) (p : list (E * bool)) : patsym :=
    let f := match py_edges s with None => fs_new | Some f => f end in
    PatSym (py_nodes s) (Some (fold_left (fun f x => (fs_add f (eid x.1) x.1).1) p f)).
  (** pattern.go:218-234; the result is always true *)
  Definition py_add (s : patsym) (i : sitem) : patsym :=
    match i with
    | INode n => py_add_node s n
    | IEdge e =>
        let f := match py_edges s with None => fs_new | Some f => f end in
        PatSym (py_nodes s) (Some (fs_add f (eid e) e).1)
    | IPath p => py_add_path s p
    | IOther => s
    end.
  Definition py_run (l : list sitem) : patsym := fold_left py_add l py_empty.
  (** pattern.go:252-257 *)
  Definition py_node_slice (s : patsym) : option (list N) :=
    match py_nodes s with Some f => Some (is_slice f) | None => None end.
  (** pattern.go:259-268 *)
  Definition py_edge_slice (s : patsym) : option (list (E * bool)) :=
    match py_edges s with
    | Some f => Some (fold_left (fun p e => p ++ [(e, false)]) (fs_iter f) [])
    | None => None
    end.
End sym.
Global Arguments py_empty {_ _}.
Global Arguments INode {_ _} _.
Global Arguments IEdge {_ _} _.
Global Arguments IPath {_ _} _.
Global Arguments IOther {_ _}.

(** pattern.go:373-381.  The StringSet is a set (see C20). *)
Definition get_symbol_names (pat : list pitem) : gset string :=
  fold_left (fun ret p => if decide (0 < String.length (pi_name p)) then {[pi_name p]} ∪ ret else ret) pat ∅.
