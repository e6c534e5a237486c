(** C91: what GetNodes lists in every graph, also after the histories of C01.

    Four kinds of nodes are kept apart: those listed and live, those listed though removed, those
    live though not listed, and those neither live nor listed (not recorded).  The listing is
    [l_dead ++ l_live]. *)
From Verif Require Import Base Value Graph GraphSpec.

(** what is before the first live node of the listing: nothing, a node that is not listed, or the
    last removed node of the listing *)
Inductive front := Open | Detached | Listed.
Global Instance front_eq_dec : EqDecision front.
Proof. solve_decision. Defined.
(** where the next node goes: behind the listing, behind the newest row of unlisted nodes, or behind a
    removed node that is not listed *)
Inductive back := AtListing | AtHidden | Nowhere.
Record rows := Rows {
  l_dead : list nat;           (** listed though removed *)
  l_live : list nat;           (** listed and live *)
  l_front : front;
  l_hidden : list (list nat);  (** live and not listed, in rows, the newest first *)
  l_back : back
}.
Definition rows_new : rows := Rows [] [] Open [] AtListing.
Definition listing (r : rows) : list nat := l_dead r ++ l_live r.

Definition rows_add (r : rows) (n : nat) : rows :=
  match l_back r with
  | AtListing =>
      let f := if decide (l_live r = []) then if decide (l_dead r = []) then Open else Listed else l_front r in
      Rows (l_dead r) (l_live r ++ [n]) f (l_hidden r) AtListing
  | AtHidden =>
      Rows (l_dead r) (l_live r) (l_front r) (match l_hidden r with c :: K => (c ++ [n]) :: K | [] => [[n]] end) AtHidden
  | Nowhere =>
      if decide (listing r = []) then Rows [] [n] Detached (l_hidden r) AtListing   (** the listing starts anew *)
      else Rows (l_dead r) (l_live r) (l_front r) ([n] :: l_hidden r) AtHidden     (** the node is not listed *)
  end.
Definition without (n : nat) (c : list nat) : list nat := filter (fun m => m <> n) c.
Definition rows_remove (r : rows) (n : nat) : rows :=
  if decide (n ∈ l_live r) then
    if decide (head (l_live r) = Some n /\ l_front r = Detached) then
      (* it stays in the listing *)
      Rows (l_dead r ++ [n]) (without n (l_live r)) Detached (l_hidden r) (if decide (last (l_live r) = Some n) then AtListing else l_back r)
    else
      Rows (l_dead r) (without n (l_live r)) (l_front r) (l_hidden r) (if decide (last (l_live r) = Some n) then Nowhere else l_back r)
  else
    Rows (l_dead r) (l_live r) (l_front r) (without n <$> l_hidden r)
      (if decide (Exists (fun c => last c = Some n) (l_hidden r)) then Nowhere else l_back r).

(** [s]: the graph before the call *)
Definition rows_step (r : rows) (s : sgraph) (o : op) : rows :=
  match o with
  | ONewNode _ _ _ => rows_add r (s_next s)
  | ODetachRemove n _ => rows_remove r n
  | _ => r
  end.
Fixpoint rows_from (r : rows) (s : sgraph) (ops : list op) : rows :=
  match ops with
  | [] => r
  | o :: ops => rows_from (rows_step r s o) (sstep s o) ops
  end.
Definition rows_of (ops : list op) : rows := rows_from rows_new s_empty ops.
(** what GetNodes lists *)
Definition listed (ops : list op) : list nat := listing (rows_of ops).
(** the live nodes it does not list *)
Definition hidden (ops : list op) : list nat := concat (l_hidden (rows_of ops)).
