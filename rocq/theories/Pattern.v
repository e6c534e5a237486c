(** Model of pattern.go and planprocessors.go.

    Sets of nodes and edges (sets.go) are lists in order of insertion (C21).  The processors of a plan
    are named by the indexes of their pattern items; their results are kept in the state of the match.
    Iterators are lists (C50): the graph does not change while a pattern is matched (simplification: the
    accumulator does not change the graph or the match context).  Go's map orders: [lord], [pord] give
    the orders of the labels and properties of each item in the size estimates, [eord] those of the
    labels in the later iterations, numbered by [m_calls].  The filters try properties in the order of
    [map_to_list]: by C18 the order does not matter. *)
From Verif Require Import Base Value EdgeMap NodeMap Index Graph Find Sizes ItrSpec Path VPath.

(** pattern.go:41-55 *)
Record pitem := PItem {
  pi_labels : gset string; pi_props : props; pi_min : Z; pi_max : Z;
  pi_left : bool; pi_undirected : bool; pi_name : string }.
Definition no_item : pitem := PItem ∅ ∅ 0 0 false false "".
Definition item (pat : list pitem) (i : nat) : pitem := nth i pat no_item.
(** pattern.go:35-38; [None] is nil *)
Record psym := PSym { ps_nodes : option (list nat); ps_edges : option (list nat) }.
(** what a processor returns from GetResult *)
Inductive sres := RNode (n : nat) | RPath (p : path).
Global Instance sres_eq_dec : EqDecision sres.
Proof. solve_decision. Defined.
Notation symbols := (gmap string psym).

(** pattern.go:57-63 *)
Definition item_nodes (g : graph) (it : pitem) (n : nat) : bool := node_filter g (pi_labels it) (map_to_list (pi_props it)) n.
Definition item_edges (g : graph) (it : pitem) (e : nat) : bool := edge_filter g (pi_labels it) (map_to_list (pi_props it)) e.

(** pattern.go:218-249: a new symbol with one result *)
Definition sym_of (r : sres) : psym :=
  match r with
  | RNode n => PSym (Some [n]) None
  | RPath p => PSym None (Some (firsts [] (map pe_edge (p_path p))))
  end.
(** pattern.go:67-87: [None] is the error ErrNodeVariableExpected, [Some None] is "not constrained" *)
Definition constrained (syms loc : symbols) (it : pitem) : option (option (list nat)) :=
  if decide (pi_name it = "") then Some None
  else match (match loc !! pi_name it with Some x => Some x | None => syms !! pi_name it end) with
       | Some x => match ps_edges x with Some _ => None | None => Some (ps_nodes x) end
       | None => Some None
       end.
(** pattern.go:299-310, 313-322 *)
Definition record_result (syms : symbols) (it : pitem) (r : sres) (loc : symbols) : symbols :=
  if decide (pi_name it = "") then loc
  else match syms !! pi_name it with Some _ => loc | None => <[pi_name it := sym_of r]> loc end.
Definition reset_result (syms : symbols) (it : pitem) (loc : symbols) : symbols :=
  if decide (pi_name it = "") then loc
  else match syms !! pi_name it with Some _ => loc | None => delete (pi_name it) loc end.

(** ** The plan *)
(** pattern.go:123-138, 184-199: the loop over the properties, [better] compares sizes *)
Definition index_sizes (ixs : gmap string index) (p : props) (better : Z -> Z -> bool) (ord : list string)
    (cur : option (list nat) * Z) : res (option (list nat) * Z) :=
  rfold (fun cur k =>
    match p !! k, ixs !! k with
    | Some v, Some ix =>
        let! r := ix_find ix v in
        Ok (if decide (r.2 = -1)%Z then cur else if better r.2 cur.2 then (Some r.1, r.2) else cur)
    | _, _ => Ok cur
    end) ord cur.
(** pattern.go:139-150, 200-211: [sel] selects the nodes or the edges of a symbol *)
Definition symbol_size (syms : symbols) (it : pitem) (sel : psym -> option (list nat)) (cur : option (list nat) * Z)
  : option (list nat) * Z :=
  if decide (pi_name it = "") then cur
  else match syms !! pi_name it with
       | None => cur
       | Some x =>
           match sel x with
           | None => (Some [], 0%Z)
           | Some xs => if decide (cur.2 = -1 \/ Z.of_nat (length xs) < cur.2)%Z then (Some xs, Z.of_nat (length xs)) else cur
           end
       end.
Definition known (r : list nat * Z) : option (list nat) * Z := if decide (r.2 = -1)%Z then (None, (-1)%Z) else (Some r.1, r.2).
(** pattern.go:113-158 *)
Definition node_size (g : graph) (syms : symbols) (it : pitem) (lord pord : list string) : res (list nat * Z) :=
  let! a := if decide (pi_labels it = ∅) then Ok (None, (-1)%Z)
            else let! r := get_nodes_all_labels g (pi_labels it) lord in Ok (known r) in
  let! b := index_sizes (g_nix g) (pi_props it) (fun sz cur => bool_decide (cur = -1 \/ sz < cur)%Z) pord a in
  let c := symbol_size syms it ps_nodes b in
  match c.1 with
  | Some xs => Ok (xs, c.2)
  | None => let! xs := get_nodes g in Ok (xs, if decide (get_nodes_size g = -1)%Z then c.2 else get_nodes_size g)
  end.
(** pattern.go:160-216 *)
Definition edge_size (g : graph) (syms : symbols) (it : pitem) (lord pord : list string) : res (list nat * Z) :=
  if decide (pi_min it > 1 \/ pi_max it > 1 \/ pi_min it = -1 \/ pi_max it = -1)%Z then
    let! xs := get_edges g in Ok (xs, (-1)%Z)
  else
    let! a := if decide (pi_labels it = ∅) then Ok (None, (-1)%Z)
              else let! xs := get_edges_any_label g lord in Ok (known (xs, get_edges_any_label_size g lord)) in
    let! b := index_sizes (g_eix g) (pi_props it) (fun sz cur => bool_decide (sz < cur)%Z) pord a in
    let c := symbol_size syms it ps_edges b in
    match c.1 with
    | Some xs => Ok (xs, c.2)
    | None => let! xs := get_edges g in Ok (xs, get_edges_size g)
    end.
(** pattern.go:350-371: iterator (nil: [None]), index; also the size so far *)
Definition fastest (g : graph) (syms : symbols) (pat : list pitem) (lord pord : nat -> list string)
  : res (option (list nat) * nat * Z) :=
  rfold (fun cur i =>
    let! r := (if Nat.even i then node_size else edge_size) g syms (item pat i) (lord i) (pord i) in
    Ok (if decide (r.2 <> -1 /\ (cur.2 = -1 \/ r.2 < cur.2))%Z then (Some r.1, i, r.2) else cur))
    (seq 0 (length pat)) (None, 0, (-1)%Z).

(** planprocessors.go:199-201 *)
Inductive use := UseFrom | UseAny | UseTo.
(** planprocessors.go:21-26, 78-83, 122-129, 203-210: the processor of item [i].  [src]: the item of the
    source processor; [prev]: the item of prevOrNextNode ([None]: nil) *)
Inductive pstep :=
| IterNodes (i : nat) (xs : list nat)
| IterEdges (i : nat) (xs : list nat)
| ConnEdges (i src : nat) (d : dir)
| ConnNodes (i src : nat) (u : use) (prev : option nat).
Definition step_item (st : pstep) : nat :=
  match st with IterNodes i _ | IterEdges i _ | ConnEdges i _ _ | ConnNodes i _ _ _ => i end.
(** pattern.go:393-423, 456-480 *)
Definition forward_step (pat : list pitem) (start i : nat) : pstep :=
  if Nat.odd i then
    ConnEdges i (i - 1)
      (if pi_left (item pat i) then Incoming else if pi_undirected (item pat i) then AnyDir else Outgoing)
  else
    let it := item pat (i - 1) in
    if pi_left it then ConnNodes i (i - 1) UseFrom None
    else if pi_undirected it then ConnNodes i (i - 1) UseAny (if decide (start <= i - 2) then Some (i - 2) else None)
    else ConnNodes i (i - 1) UseTo None.
(** pattern.go:425-450, 482-505; [Panic]: index out of range *)
Definition backward_step (pat : list pitem) (i : nat) : res pstep :=
  if Nat.odd i then
    Ok (ConnEdges i (i + 1)
      (if pi_left (item pat i) then Outgoing else if pi_undirected (item pat i) then AnyDir else Incoming))
  else
    let it := item pat (i + 1) in
    if pi_left it then Ok (ConnNodes i (i + 1) UseTo None)
    else if pi_undirected it then
      if decide (i + 2 < length pat) then Ok (ConnNodes i (i + 1) UseAny (Some (i + 2))) else Panic
    else Ok (ConnNodes i (i + 1) UseFrom None).
(** pattern.go:269-272, 384-508 *)
Record plan := Plan { pl_steps : list pstep; pl_forward : nat }.
Definition get_plan (g : graph) (syms : symbols) (pat : list pitem) (lord pord : nat -> list string) : res plan :=
  let! f := fastest g syms pat lord pord in
  match f.1.1 with
  | None => Panic
  | Some xs =>
      let index := f.1.2 in
      let! back := rmap (backward_step pat) (rev (seq 0 index)) in
      let forw := map (forward_step pat index) (seq (S index) (length pat - S index)) in
      Ok (Plan ((if Nat.even index then IterNodes index xs else IterEdges index xs) :: forw ++ back) (length forw))
  end.

(** ** Matching *)
(** pattern.go:287-296, with the results of the processors and the state of the accumulator *)
Record mstate (T : Type) := MS {
  m_local : symbols; m_vnode : option nat; m_res : gmap nat sres; m_calls : nat; m_acc : T }.
Global Arguments MS {_} _ _ _ _ _.
Global Arguments m_local {_} _.
Global Arguments m_vnode {_} _.
Global Arguments m_res {_} _.
Global Arguments m_calls {_} _.
Global Arguments m_acc {_} _.

(** pattern.go:535-559 *)
Definition current_path (g : graph) (pl : plan) (R : gmap nat sres) : res path :=
  match pl_steps pl with
  | [st] => match R !! step_item st with Some (RPath p) => Ok p | Some (RNode n) => Ok (Path (Some n) []) | None => Panic end
  | sts =>
      let! out := rfold (fun o st =>
        match R !! step_item st with
        | Some (RPath p) => let! r := path_append_path (edge_from g) (edge_to g) o p in Ok r.1
        | _ => Ok o
        end) (take (S (pl_forward pl)) sts) path_empty in
      let! back := rfold (fun o st =>
        match R !! step_item st with
        | Some (RPath p) =>
            match p_path p with
            | [] => Panic
            | x :: _ => path_append (edge_from g) (edge_to g) o [PE (pe_edge x) (negb (pe_rev x))]
            end
        | _ => Ok o
        end) (rev (drop (pl_forward pl) sts)) path_empty in
      let! r := path_append_path (edge_from g) (edge_to g) back out in Ok r.1
  end.
(** pattern.go:562-572 *)
Definition capture (pat : list pitem) (pl : plan) (R : gmap nat sres) : gmap string sres :=
  fold_left (fun ret st =>
    let v := pi_name (item pat (step_item st)) in
    if decide (v = "") then ret
    else match ret !! v, R !! step_item st with
         | None, Some r => <[v := r]> ret
         | _, _ => ret
         end) (pl_steps pl) ∅.

Section matching.
  Variables (T : Type) (g : graph) (syms : symbols) (pat : list pitem) (eord : nat -> nat -> list string)
    (store : path -> gmap string sres -> T -> T).
  Notation mst := (mstate T).
  (** a run returns an error (the name of the variable) or nil *)
  Notation out := (res (option string * mst)).

  Definition enter (i : nat) (r : sres) (m : mst) : mst :=
    MS (record_result syms (item pat i) r (m_local m)) (m_vnode m) (<[i := r]> (m_res m)) (m_calls m) (m_acc m).
  Definition leave (i : nat) (m : mst) : mst :=
    MS (reset_result syms (item pat i) (m_local m)) (m_vnode m) (m_res m) (m_calls m) (m_acc m).
  Definition with_vnode (v : option nat) (m : mst) : mst := MS (m_local m) v (m_res m) (m_calls m) (m_acc m).
  Definition called (k : nat) (m : mst) : mst := MS (m_local m) (m_vnode m) (m_res m) (k + m_calls m) (m_acc m).

  (** planprocessors.go:62-71, 102-115, 159-174 *)
  Fixpoint visit_all (i : nat) (next : mst -> out) (rs : list sres) (m : mst) : out :=
    match rs with
    | [] => Ok (None, m)
    | r :: rs =>
        let! x := next (enter i r m) in
        match x.1 with
        | Some e => Ok x
        | None => visit_all i next rs (leave i x.2)
        end
    end.
  (** planprocessors.go:179-190: the accumulator given to CollectAllPaths; a panic ends it *)
  Definition visit_path (i : nat) (next : mst -> out) (p : path) (r : out) : bool * out :=
    let r' :=
      let! x := r in
      let! y := next (with_vnode (path_last (edge_from g) (edge_to g) p) (enter i (RPath p) x.2)) in
      Ok (match y.1 with Some e => y | None => (None, leave i (with_vnode None y.2)) end) in
    (match r' with Ok (None, _) => true | _ => false end, r').

  Definition run_step (st : pstep) (next : mst -> out) (m : mst) : out :=
    match st with
    | IterNodes i xs => (* planprocessors.go:28-72 *)
        let it := item pat i in
        match constrained syms (m_local m) it with
        | None => Ok (Some (pi_name it), m)
        | Some c =>
            let ys := filter (fun n => item_nodes g it n = true) xs in
            let zs := match c with None => ys | Some ns => filter (fun n => n ∈ ns) ys end in
            visit_all i next (map RNode zs) m
        end
    | IterEdges i xs => (* planprocessors.go:85-116 *)
        visit_all i next (map (fun e => RPath (Path None [PE e false])) (filter (fun e => item_edges g (item pat i) e = true) xs)) m
    | ConnEdges i src d => (* planprocessors.go:145-193 *)
        let it := item pat i in
        match m_res m !! src with
        | Some (RNode n) =>
            let! es := node_edges_any g n d (eord (m_calls m) i) (eord (S (m_calls m)) i) in
            let leg := filter (fun e => item_edges g it e = true) es in
            let m1 := called 2 m in
            if decide (pi_min it = 1 /\ pi_max it = 1)%Z then
              visit_all i next (map (fun e => RPath (Path None [pe_at_node g n e])) leg) m1
            else
              let! r := collect_all_paths _ g n (item_edges g it) d (pi_min it) (pi_max it) (visit_path i next) (fuel g) leg (Ok (None, m1)) in
              r
        | _ => Panic
        end
    | ConnNodes i src u prev => (* planprocessors.go:225-274 *)
        let it := item pat i in
        match m_res m !! src with
        | Some (RPath p) =>
            let! eo := path_get_edge p (num_path_edges p - 1) in
            let! n := match m_vnode m, eo with
                      | Some n, _ => Ok n
                      | None, None => Panic
                      | None, Some e =>
                          match u, prev with
                          | UseTo, _ => Ok (edge_to g e)
                          | UseFrom, _ => Ok (edge_from g e)
                          | UseAny, None => Panic
                          | UseAny, Some j =>
                              match m_res m !! j with
                              | Some (RNode x) => Ok (if decide (edge_to g e = x) then edge_from g e else edge_to g e)
                              | _ => Panic
                              end
                          end
                      end in
            let deferred x := match m_vnode m with Some _ => with_vnode (m_vnode m) x | None => x end in
            if item_nodes g it n then
              match constrained syms (m_local m) it with
              | None => Ok (Some (pi_name it), m)
              | Some c =>
                  if (match c with None => true | Some ns => bool_decide (n ∈ ns) end) then
                    let! y := next (enter i (RNode n) (with_vnode None m)) in
                    Ok (match y.1 with Some e => (Some e, deferred y.2) | None => (None, deferred (leave i y.2)) end)
                  else Ok (None, m)
              end
            else Ok (None, m)
        | _ => Panic
        end
    end.
  (** pattern.go:519-532, 620-637 *)
  Fixpoint run_steps (pl : plan) (sts : list pstep) (m : mst) : out :=
    match sts with
    | [] =>
        let! p := current_path g pl (m_res m) in
        Ok (None, MS (m_local m) (m_vnode m) (m_res m) (m_calls m) (store p (capture pat pl (m_res m)) (m_acc m)))
    | st :: r => run_step st (run_steps pl r) m
    end.
  (** pattern.go:324-331: the error and the final state of the accumulator *)
  Definition pattern_run (lord pord : nat -> list string) (t : T) : res (option string * T) :=
    let! pl := get_plan g syms pat lord pord in
    let! x := run_steps pl (pl_steps pl) (MS ∅ None ∅ 0 t) in Ok (x.1, m_acc x.2).
End matching.

(** pattern.go:574-592, 333-339 *)
Definition match_result : Type := path * gmap string sres.
Definition find_paths (g : graph) (syms : symbols) (pat : list pitem) (lord pord : nat -> list string) (eord : nat -> nat -> list string)
  : res (option string * list match_result) :=
  pattern_run _ g syms pat eord (fun p s l => l ++ [(p, s)]) lord pord [].
(** pattern.go:595-605, 608-618: the nodes in the returned slice, which has no duplicates *)
Definition head_nodes (g : graph) (l : list match_result) : res (gset nat) :=
  rfold (fun X r => let! n := path_get_node (edge_from g) (edge_to g) r.1 0 in Ok ({[n]} ∪ X)) l ∅.
Definition tail_nodes (g : graph) (l : list match_result) : res (gset nat) :=
  rfold (fun X r => let! n := path_get_node (edge_from g) (edge_to g) r.1 (num_path_nodes r.1 - 1) in Ok ({[n]} ∪ X)) l ∅.
(** pattern.go:342-348: [None] is an error *)
Definition find_match_nodes (g : graph) (syms : symbols) (pat : list pitem) (lord pord : nat -> list string) (eord : nat -> nat -> list string)
  : res (option (gset nat)) :=
  let! x := find_paths g syms pat lord pord eord in
  match x.1 with
  | Some _ => Ok None
  | None => let! X := head_nodes g x.2 in Ok (Some X)
  end.
