(** Spec for Encode with a writer that may fail. *)
From Verif Require Import Base Value Graph GraphSpec JsonText Json JsonWrite.
Local Open Scope list_scope.

(** give the texts to the writer, one by one, until it fails; whether it did not, and its state *)
Fixpoint feed {T} (write : writer T) (cs : list (list jtok)) (t : T) : bool * T :=
  match cs with
  | [] => (true, t)
  | c :: r => let '(ok, t) := write c t in if ok then feed write r t else (false, t)
  end.
(** a writer that keeps a list of what it was given, and whether it took it *)
Definition recording {T} (write : writer T) : writer (T * list (list jtok * bool)) := fun c s =>
  let '(ok, t) := write c s.1 in (ok, (t, s.2 ++ [(c, ok)])).
(** what a writer took *)
Definition taken (l : list (list jtok * bool)) : list jtok := concat (map fst (filter (fun p => p.2 = true) l)).
(** no JSON text *)
Definition incomplete (ts : list jtok) : Prop := forall v, ts <> toks v.
(** the marshaler returns an error for some property of a node or an edge *)
Definition refused_props (pm : marshaler) (p : props) : Prop := exists k v, p !! k = Some v /\ pm k v = None.
Definition refused (pm : marshaler) (s : sgraph) : Prop :=
  (exists n x, s_nodes s !! n = Some x /\ refused_props pm (sn_props x)) \/ (exists e x, s_edges s !! e = Some x /\ refused_props pm (e_props x)).
