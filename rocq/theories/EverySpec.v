(** C94, C95: CopyGraph and the dot renderer in every graph, also where the list of nodes is wrong (C01, C91). *)
From Verif Require Import Base Value Index Graph GraphSpec ListedSpec HeldSpec.

(** a live edge both of whose ends GetNodes lists *)
Definition between (ops : list op) (e : nat) : Prop :=
  exists x, s_edges (srun ops) !! e = Some x /\ e_from x ∈ listed ops /\ e_to x ∈ listed ops.

(** the texts are written until a write fails *)
Fixpoint writes {T} (write : string -> T -> bool * T) (texts : list string) (t : T) : bool * T :=
  match texts with
  | [] => (true, t)
  | w :: r => let (ok, t') := write w t in if ok then writes write r t' else (false, t')
  end.

(** What Encode writes: the nodes of GetNodes, and edges, in which a node that is not listed is replaced by the first of the list. *)
Definition redirect (ns : list nat) (n : nat) : nat := if decide (n ∈ ns) then n else default 0 (head ns).
Definition redirected (ns : list nat) (s : sgraph) : sgraph :=
  SGraph (s_nodes s) ((fun x => Edge (redirect ns (e_from x)) (redirect ns (e_to x)) (e_label x) (e_props x)) <$> s_edges s) (s_next s).
