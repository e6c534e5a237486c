(** Model of vpathitr.go: CollectAllPaths.

    The accumulator is a function that reads and writes a state of type [T] (what it closes over);
    the edge filter is a pure function.  Simplification: neither changes the graph. *)
From Verif Require Import Base Graph Sizes Path ItrSpec.

Section collect.
  Variables (T : Type) (g : graph) (from_node : nat) (filt : nat -> bool) (d : dir) (min max : Z)
    (acc : path -> T -> bool * T).
  (** vpathitr.go:24-55 *)
  Definition is_loop (p : path) (x : pelem) : bool := bool_decide (pe_edge x ∈ map pe_edge (p_path p)).
  (** vpathitr.go:77-82, 95-100 *)
  Definition pe_at_node (n e : nat) : pelem :=
    PE e (bool_decide (edge_from g e <> edge_to g e /\ edge_to g e = n)).
  (** vpathitr.go:57 *)
  Definition in_bounds (p : path) : bool :=
    bool_decide ((min = -1 \/ num_path_edges p >= min)%Z /\ (max = -1 \/ num_path_edges p <= max)%Z).
  (** vpathitr.go:75-89: [f] is the recursive call *)
  Fixpoint vp_loop (f : path -> T -> res (bool * T)) (p : path) (n : nat) (es : list nat) (t : T) : res (bool * T) :=
    match es with
    | [] => Ok (true, t)
    | e :: r =>
        let x := pe_at_node n e in
        if is_loop p x then vp_loop f p n r t
        else
          let! q := path_append (edge_from g) (edge_to g) (path_clone p) [x] in
          let! b := f q t in
          if b.1 : bool then vp_loop f p n r b.2 else Ok (false, b.2)
    end.
  (** vpathitr.go:56-90; the iterators yield what C50 says.  [k] bounds the depth. *)
  Fixpoint vp_recurse (k : nat) (p : path) (t : T) : res (bool * T) :=
    match k with
    | O => Diverge
    | S k =>
        let b := if in_bounds p then acc (path_clone p) t else (true, t) in
        if b.1 : bool then
          if decide (max <> -1 /\ num_path_edges p >= max)%Z then Ok (true, b.2)
          else
            match path_last (edge_from g) (edge_to g) p with
            | None => Panic
            | Some n =>
                let! es := node_edges g n d in
                vp_loop (vp_recurse k) p n (firsts [] (filter (fun e => filt e = true) es)) b.2
            end
        else Ok (false, b.2)
    end.
  (** vpathitr.go:92-104 *)
  Fixpoint vp_first (k : nat) (leg : list nat) (t : T) : res T :=
    match leg with
    | [] => Ok t
    | e :: r =>
        let! b := vp_recurse k (Path None [pe_at_node from_node e]) t in
        if b.1 : bool then vp_first k r b.2 else Ok b.2
    end.
  Definition collect_all_paths (k : nat) (leg : list nat) (t : T) : res T := vp_first k (firsts [] leg) t.
End collect.
