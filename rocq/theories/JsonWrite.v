(** Model of JSON.Encode (json.go:176-386) with a writer that may fail; Json.v has the text that is written if it does not. *)
From Verif Require Import Base Value Graph Sizes JsonText Json.
Local Open Scope string_scope.
Local Open Scope list_scope.

(** the errors Encode returns: one of a marshaler, or one of the writer *)
Inductive werr := EMarshal | EWrite.
(** An io.Writer with state [T], as in Dot.v: whether it wrote what it was given without error.  What it is given are the
    tokens of one call of Write. *)
Definition writer (T : Type) : Type := list jtok -> T -> bool * T.

Section encode.
  Context {T : Type} (write : writer T).
  (** the error, if any, and the state of the writer *)
  Definition wcall : Type := T -> res (option werr * T).
  (** [if _, err := out.Write(ts); err != nil { return err }] *)
  Definition wr (ts : list jtok) : wcall := fun t => let '(ok, t) := write ts t in Ok (if ok then None else Some EWrite, t).
  Definition wnil : wcall := fun t => Ok (None, t).
  (** one after the other *)
  Definition wseq (a b : wcall) : wcall := fun t => let! r := a t in match r.1 with Some e => Ok r | None => b r.2 end.
  Fixpoint wrs (l : list (list jtok)) : wcall := match l with [] => wnil | ts :: r => wseq (wr ts) (wrs r) end.
  (** [data, err := marshalProperties(p); if err != nil { return err }], and what follows *)
  Definition wprops (pm : marshaler) (p : props) (k : gmap string json -> wcall) : wcall := fun t =>
    match marshal_props pm p with None => Ok (Some EMarshal, t) | Some m => k m t end.

  Context (g : graph) (pm : marshaler) (sep : bool) (ix : gmap nat nat).
  (** json.go:198-230 *)
  Definition w_edge (write_from : bool) (e : nat) : wcall := fun t =>
    let! ed := deref_edge g e in
    wprops pm (e_props ed) (fun p => wr (toks (edge_json ix write_from (e_from ed) (e_to ed) (e_label ed) p))) t.
  (** json.go:315-336, 363-374; [first]: what is written before the first edge *)
  Fixpoint w_edges (write_from : bool) (first : list (list jtok)) (es : list nat) : wcall :=
    match es with
    | [] => wnil
    | e :: r => wseq (wrs first) (wseq (w_edge write_from e) (w_edges write_from [[TComma]] r))
    end.
  (** json.go:261-345 *)
  Definition w_node (n : nat) (ord : list string) : wcall := fun t =>
    let! nd := deref_node g n in
    wseq (wrs [[TObj]; tkey "n"; [TS (SNum (index_of ix n))]])
   (wseq (if decide (n_labels nd = ∅) then wnil else
            wrs [[TComma]; tkey "labels"; toks (JArr (map (fun l => JS (SStr (json_str l))) ord))])
   (wseq (if decide (n_props nd = ∅) then wnil else
            wseq (wrs [[TComma]; tkey "properties"]) (wprops pm (n_props nd) (fun m => wr (toks (map_json m)))))
   (if sep then wr [TObjEnd] else fun t =>
      let! es := node_edges g n Outgoing in
      wseq (w_edges false [[TComma]; tkey "edges"; [TArr]] es)
     (wseq (if decide (es = []) then wnil else wr [TArrEnd]) (wr [TObjEnd])) t))) t.
  (** json.go:253-260 *)
  Fixpoint w_nodes (lord : nat -> list string) (first : list (list jtok)) (ns : list nat) : wcall :=
    match ns with
    | [] => wnil
    | n :: r => wseq (wrs first) (wseq (w_node n (lord n)) (w_nodes lord [[TComma]] r))
    end.
End encode.
(** json.go:232-386 *)
Definition encode_to {T} (write : writer T) (g : graph) (pm : marshaler) (sep : bool) (ord : list nat) (lord : nat -> list string) (t : T)
  : res (option werr * T) :=
  let! ns := get_nodes g in
  let ix := number ns in
  wseq (wr write [TObj])
 (wseq (if decide (ns = []) then wnil else
          wseq (wrs write [tkey "nodes"; [TArr]]) (wseq (w_nodes write g pm sep ix lord [] ord) (wr write [TArrEnd])))
 (wseq (if sep then wseq (wrs write [[TComma]; tkey "edges"; [TArr]]) (fun t =>
          let! es := get_edges g in wseq (w_edges write g pm ix true [] es) (wr write [TArrEnd]) t) else wnil)
 (wr write [TObjEnd]))) t.
