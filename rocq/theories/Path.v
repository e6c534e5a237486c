(** Model of path.go: paths.

    A path element refers to an edge by its id; [from], [to] read the ends of an edge (edge.go:56-59).
    The slice of elements is a list: simplification, the sharing of backing arrays between slices
    (path.go:34, 140, 302, 316) is not modelled.  Elements with a nil edge are not modelled. *)
From Verif Require Import Base Graph.

(** path.go:28-31 *)
Record pelem := PE { pe_edge : nat; pe_rev : bool }.
(** path.go:23-26 *)
Record path := Path { p_only : option nat; p_path : list pelem }.
Global Instance pelem_eq_dec : EqDecision pelem.
Proof. solve_decision. Defined.
Global Instance path_eq_dec : EqDecision path.
Proof. solve_decision. Defined.

(** path.go:33-35, 46-53, 66-77.  [path_from_node] is also SetOnlyNode, [path_empty] is also Clear. *)
Definition path_from_elements (els : list pelem) : path := Path None els.
Definition path_from_node (n : nat) : path := Path (Some n) [].
Definition path_empty : path := Path None [].
(** path.go:37-43 *)
Definition elements_from_edges (es : list nat) : list pelem := map (fun e => PE e false) es.
(** path.go:56-63 *)
Definition path_clone (p : path) : path := Path (p_only p) (p_path p).
(** path.go:321-323, 325-334, 336-338 *)
Definition num_path_edges (p : path) : Z := Z.of_nat (length (p_path p)).
Definition num_path_nodes (p : path) : Z :=
  match p_only p with
  | Some _ => 1
  | None => if decide (num_path_edges p = 0)%Z then 0 else num_path_edges p + 1
  end%Z.
Definition path_is_empty (p : path) : bool :=
  match p_only p, p_path p with None, [] => true | _, _ => false end.

(** [p.path[i]], panics out of range *)
Definition pe_at (p : path) (i : Z) : res pelem :=
  if decide (0 <= i)%Z then
    match p_path p !! Z.to_nat i with Some x => Ok x | None => Panic end
  else Panic.

Section ends.
  Variables from to : nat -> nat.
  (** path.go:101-113 *)
  Definition pe_src (x : pelem) : nat := if pe_rev x then to (pe_edge x) else from (pe_edge x).
  Definition pe_tgt (x : pelem) : nat := if pe_rev x then from (pe_edge x) else to (pe_edge x).
  (** path.go:80-88, 91-99; [None] is nil *)
  Definition path_last (p : path) : option nat :=
    match p_only p with Some n => Some n | None => pe_tgt <$> last (p_path p) end.
  Definition path_first (p : path) : option nat :=
    match p_only p with Some n => Some n | None => pe_src <$> head (p_path p) end.

  (** path.go:134-139 *)
  Fixpoint links_up (last : nat) (els : list pelem) : bool :=
    match els with
    | [] => true
    | x :: r => if decide (pe_src x = last) then links_up (pe_tgt x) r else false
    end.
  (** path.go:116-142.  When the path has nodes, [last] is not nil. *)
  Definition path_append (p : path) (els : list pelem) : res path :=
    if decide (els = []) then Ok p
    else if decide (num_path_nodes p = 0)%Z then Ok (Path (p_only p) els)
    else
      match path_last p with
      | None => Panic
      | Some l => if links_up l els then Ok (Path None (p_path p ++ els)) else Panic
      end.
  (** path.go:146-167: the new receiver and the new argument *)
  Definition path_append_path (p q : path) : res (path * path) :=
    if decide (num_path_nodes p = 0)%Z then Ok (Path (p_only p) (p_path q), q)
    else if decide (num_path_nodes p = 1)%Z then
      let! r := path_append (Path None (p_path p)) (p_path q) in Ok (r, q)
    else if decide (num_path_nodes q = 0)%Z then Ok (p, q)
    else
      let q' := if decide (num_path_nodes q = 1)%Z then Path None (p_path q) else q in
      let! r := path_append p (p_path q) in Ok (r, q').

  (** path.go:170-178; [None] is nil *)
  Definition path_get_edge (p : path) (n : Z) : res (option nat) :=
    match p_only p with
    | Some _ => Ok None
    | None =>
        if decide (n < num_path_edges p)%Z then let! x := pe_at p n in Ok (Some (pe_edge x)) else Ok None
    end.
  (** path.go:181-193 *)
  Definition path_get_node (p : path) (n : Z) : res nat :=
    if decide (n = 0)%Z then
      match path_first p with Some x => Ok x | None => Panic end
    else let! x := pe_at p (n - 1) in Ok (pe_tgt x).

  (** path.go:224-228 *)
  Fixpoint prefix_loop (els1 els : list pelem) : bool :=
    match els1, els with
    | [], _ => true
    | x :: r, y :: s => if decide (x = y) then prefix_loop r s else false
    | _ :: _, [] => false
    end.
  (** path.go:214-230 *)
  Definition path_has_prefix (p : path) (els : list pelem) : bool :=
    if decide (num_path_nodes p < 2)%Z then false
    else if decide (els = []) then true
    else if decide (Z.of_nat (length els) > num_path_edges p)%Z then false
    else prefix_loop els (p_path p).
  (** path.go:233-256 *)
  Definition path_has_prefix_path (p q : path) : bool :=
    if decide (num_path_nodes p = 0)%Z then bool_decide (num_path_nodes q = 0)%Z
    else if decide (num_path_nodes p = 1)%Z then
      if decide (num_path_nodes q = 0)%Z then true
      else if decide (num_path_nodes q = 1)%Z then bool_decide (p_only p = p_only q)
      else false
    else
      if decide (num_path_nodes q = 0)%Z then true
      else if decide (num_path_nodes q = 1)%Z then bool_decide (path_first p = path_first q)
      else path_has_prefix p (p_path q).

  (** path.go:259-290 *)
  Definition path_slice (p : path) (i j : Z) : res path :=
    let n := num_path_nodes p in
    if decide (n = 0)%Z then Panic
    else if decide (i = 0 /\ j = 0)%Z then Ok (Path (path_first p) [])
    else if decide (i > n)%Z then Panic
    else
      let j' := if decide (j > n \/ j = -1)%Z then n else j in
      if decide (j' < i)%Z then Panic
      else if decide (i = j')%Z then let! x := pe_at p i in Ok (Path (Some (pe_src x)) [])
      else if decide (i = n - 1)%Z then Ok (Path (path_last p) [])
      else if decide (i < 0)%Z then Panic
      else Ok (Path None (take (Z.to_nat (j' - i - 1)) (drop (Z.to_nat i) (p_path p)))).
End ends.

(** path.go:295-305, 309-319: the edge is removed from the graph (edge.go:88-90) *)
Definition path_remove_last (g : graph) (p : path) : res (graph * path) :=
  match p_only p with
  | Some _ => Ok (g, Path None (p_path p))
  | None =>
      match last (p_path p) with
      | Some x => let! g' := remove_edge g (pe_edge x) in Ok (g', Path None (take (length (p_path p) - 1) (p_path p)))
      | None => Ok (g, p)
      end
  end.
Definition path_remove_first (g : graph) (p : path) : res (graph * path) :=
  match p_only p with
  | Some _ => Ok (g, Path None (p_path p))
  | None =>
      match p_path p with
      | x :: r => let! g' := remove_edge g (pe_edge x) in Ok (g', Path None r)
      | [] => Ok (g, p)
      end
  end.
