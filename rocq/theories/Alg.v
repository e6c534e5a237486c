(** Model of alg.go.  Iterators over the nodes and edges of a graph are the lists they yield (C50);
    the context of CheckIsomorphism is never cancelled, except in [check_isomorphism_ctx]. *)
From Verif Require Import Base Graph Sizes.

(** itr.go:112-131 with a filter that reads the graph *)
Fixpoint rfilter {A} (f : A -> res bool) (l : list A) : res (list A) :=
  match l with
  | [] => Ok []
  | a :: r => let! b := f a in let! r' := rfilter f r in Ok (if b : bool then a :: r' else r')
  end.
(** alg.go:22-40, 43-61 *)
Definition no_edges (g : graph) (d : dir) (n : nat) : res bool :=
  let! es := node_edges g n d in Ok (match es with [] => true | _ => false end).
Definition sources (g : graph) : res (list nat) := let! ns := get_nodes g in rfilter (no_edges g Incoming) ns.
Definition sinks (g : graph) : res (list nat) := let! ns := get_nodes g in rfilter (no_edges g Outgoing) ns.
(** alg.go:64-73 *)
Definition edges_between (g : graph) (a b : nat) : res (list nat) :=
  let! es := node_edges g a Outgoing in Ok (filter (fun e => edge_to g e = b) es).
(** alg.go:181-188; the predicate reads and writes a state *)
Fixpoint each_node {T} (pred : nat -> T -> bool * T) (ns : list nat) (t : T) : bool * T :=
  match ns with
  | [] => (true, t)
  | n :: r => if (pred n t).1 then each_node pred r (pred n t).2 else (false, (pred n t).2)
  end.
Definition for_each_node {T} (g : graph) (pred : nat -> T -> bool * T) (t : T) : res (bool * T) :=
  let! ns := get_nodes g in Ok (each_node pred ns t).

(** ** CheckIsomorphism *)
Section iso.
  Variables (g1 g2 : graph) (neq eeq : nat -> nat -> bool).
  (** the order in which Go ranges over the map [nodeMapping] (alg.go:136) *)
  Variable ord : gmap nat nat -> list nat.
  (** alg.go:95-108: the candidates of each node; [None]: a node without candidates *)
  Fixpoint candidates (ns1 ns2 : list nat) : option (list (list nat)) :=
    match ns1 with
    | [] => Some []
    | n :: r =>
        match filter (fun m => neq n m = true) ns2 with
        | [] => None
        | c => match candidates r ns2 with Some cs => Some (c :: cs) | None => None end
        end
    end.
  (** alg.go:113-121 *)
  Fixpoint build (ns1 : list nat) (cs : list (list nat)) (digits : list nat) (m : gmap nat nat) : res (gmap nat nat) :=
    match ns1, cs, digits with
    | [], [], [] => Ok m
    | n :: ns, c :: cs, i :: is => match c !! i with Some x => build ns cs is (<[n := x]> m) | None => Panic end
    | _, _, _ => Panic
    end.
  (** alg.go:124-133 *)
  Fixpoint odo_next (cs : list (list nat)) (digits : list nat) : bool * list nat :=
    match cs, digits with
    | c :: cs, i :: is =>
        if decide (S i < length c) then (true, S i :: is)
        else let r := odo_next cs is in (r.1, 0 :: r.2)
    | _, _ => (false, digits)
    end.
  (** alg.go:145-158 *)
  Definition edge_found (m : gmap nat nat) (es2 : list nat) (e1 : nat) : bool :=
    existsb (fun e2 => bool_decide (m !! edge_to g1 e1 = Some (edge_to g2 e2)) && eeq e1 e2) es2.
  (** alg.go:136-160 *)
  Fixpoint iso_loop (m : gmap nat nat) (ns : list nat) : res bool :=
    match ns with
    | [] => Ok true
    | n :: r =>
        match m !! n with
        | None => iso_loop m r
        | Some n2 =>
            let! es1 := node_edges g1 n Outgoing in
            let! es2 := node_edges g2 n2 Outgoing in
            if decide (length es1 = length es2) then
              if forallb (edge_found m es2) es1 then iso_loop m r else Ok false
            else Ok false
        end
    end.
  (** alg.go:164-175; [k] bounds the number of rounds *)
  Fixpoint iso_rounds (k : nat) (ns1 : list nat) (cs : list (list nat)) (digits : list nat) : res bool :=
    match k with
    | O => Diverge
    | S k =>
        let! m := build ns1 cs digits ∅ in
        let! b := iso_loop m (ord m) in
        if b : bool then Ok true
        else let r := odo_next cs digits in if r.1 : bool then iso_rounds k ns1 cs r.2 else Ok false
    end.
  (** alg.go:84-177 *)
  Definition check_isomorphism (k : nat) : res bool :=
    if decide (num_nodes g1 = num_nodes g2 /\ num_edges g1 = num_edges g2) then
      let! ns1 := get_nodes g1 in
      match ns1 with
      | [] => iso_rounds k [] [] []
      | _ =>
          let! ns2 := get_nodes g2 in
          match candidates ns1 ns2 with
          | None => Ok false
          | Some cs => iso_rounds k ns1 cs (map (fun _ => 0) cs)
          end
      end
    else Ok false.

  (** The same with a context: [err i] tells whether the call number [i] of ctx.Err() (alg.go:106, 172)
      returns an error.  The second result tells whether CheckIsomorphism does. *)
  Variable err : nat -> bool.
  Inductive cands := Cands (cs : list (list nat)) | NoCand | Cancelled.
  (** alg.go:95-109 *)
  Fixpoint candidates_ctx (i : nat) (ns1 ns2 : list nat) : cands :=
    match ns1 with
    | [] => Cands []
    | n :: r =>
        match filter (fun m => neq n m = true) ns2 with
        | [] => NoCand
        | c => if err i then Cancelled
               else match candidates_ctx (S i) r ns2 with Cands cs => Cands (c :: cs) | x => x end
        end
    end.
  (** alg.go:164-176 *)
  Fixpoint iso_rounds_ctx (k i : nat) (ns1 : list nat) (cs : list (list nat)) (digits : list nat) : res (bool * bool) :=
    match k with
    | O => Diverge
    | S k =>
        let! m := build ns1 cs digits ∅ in
        let! b := iso_loop m (ord m) in
        if b : bool then Ok (true, false)
        else let r := odo_next cs digits in
             if r.1 : bool then if err i then Ok (false, true) else iso_rounds_ctx k (S i) ns1 cs r.2
             else Ok (false, false)
    end.
  (** alg.go:84-177 *)
  Definition check_isomorphism_ctx (k : nat) : res (bool * bool) :=
    if decide (num_nodes g1 = num_nodes g2 /\ num_edges g1 = num_edges g2) then
      let! ns1 := get_nodes g1 in
      match ns1 with
      | [] => iso_rounds_ctx k 0 [] [] []
      | _ =>
          let! ns2 := get_nodes g2 in
          match candidates_ctx 0 ns1 ns2 with
          | NoCand => Ok (false, false)
          | Cancelled => Ok (false, true)
          | Cands cs => iso_rounds_ctx k (length ns1) ns1 cs (map (fun _ => 0) cs)
          end
      end
    else Ok (false, false).
End iso.
