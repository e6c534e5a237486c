(** Model of dotrenderer.go. *)
From Verif Require Import Base Value Graph Sizes.
From stdpp Require Import pretty.
Local Open Scope string_scope.

(** dotrenderer.go:23-47.  A renderer may change a state [T], which includes what was written; it does not change
    the graph or panic.  The result is an error ([None]) or whether the element was rendered. *)
Definition node_renderer (T : Type) : Type := string -> nat -> T -> option bool * T.
Definition edge_renderer (T : Type) : Type := string -> string -> nat -> T -> option bool * T.
(** dotrenderer.go:79: fmt.Sprintf("n%d", x) *)
Definition node_id (x : nat) : string := "n" +:+ pretty x.

(** line feed, quotation mark *)
Definition nl : string := String (Ascii.ascii_of_nat 10) "".
Definition quote : string := String (Ascii.ascii_of_nat 34) "".

Section render.
  Context {T : Type} (g : graph) (nr : node_renderer T) (er : edge_renderer T).
  (** dotrenderer.go:77-88: the map of ids, or an error *)
  Fixpoint render_nodes (ns : list nat) (x : nat) (m : gmap nat string) (t : T) : option (gmap nat string) * T :=
    match ns with
    | [] => (Some m, t)
    | n :: r =>
        match nr (node_id x) n t with
        | (None, t) => (None, t)
        | (Some true, t) => render_nodes r (S x) (<[n := node_id x]> m) t
        | (Some false, t) => render_nodes r x m t
        end
    end.
  (** dotrenderer.go:89-99: whether there was no error *)
  Fixpoint render_edges (m : gmap nat string) (es : list nat) (t : T) : bool * T :=
    match es with
    | [] => (true, t)
    | e :: r =>
        match m !! edge_from g e, m !! edge_to g e with
        | Some a, Some b =>
            match er a b e t with
            | (None, t) => (false, t)
            | (Some _, t) => render_edges m r t
            end
        | _, _ => render_edges m r t
        end
    end.
  (** dotrenderer.go:73-101 *)
  Definition render_nodes_edges (t : T) : res (bool * T) :=
    let! ns := get_nodes g in
    match render_nodes ns 0 ∅ t with
    | (None, t) => Ok (false, t)
    | (Some m, t) => let! es := get_edges g in Ok (render_edges m es t)
    end.
  (** fmt.Fprintf to a writer, which may fail ([false]), having written something or not *)
  Context (write : string -> T -> bool * T).
  (** dotrenderer.go:104-120 *)
  Definition render (name : string) (t : T) : res (bool * T) :=
    match write ("digraph " +:+ name +:+ " {" +:+ nl) t with
    | (false, t) => Ok (false, t)
    | (true, t) =>
        match write ("rankdir=" +:+ quote +:+ "LR" +:+ quote +:+ ";" +:+ nl) t with
        | (false, t) => Ok (false, t)
        | (true, t) =>
            let! r := render_nodes_edges t in
            Ok (if r.1 then write ("}" +:+ nl) r.2 else r)
        end
    end.
End render.

(** dotrenderer.go:52-55, 59-71, 33-38, 41-46: the default renderers *)
Section default.
  Context {T : Type} (g : graph) (write : string -> T -> bool * T).
  Definition default_node : node_renderer T := fun id n t =>
    let '(ok, t) := write ("  " +:+ id +:+ ";" +:+ nl) t in (if ok then Some true else None, t).
  Definition default_edge : edge_renderer T := fun a b e t =>
    let lbl := match g_edges g !! e with Some x => e_label x | None => "" end in
    let '(ok, t) := write (if decide (lbl = "") then "  " +:+ a +:+ " -> " +:+ b +:+ ";" +:+ nl
                           else "  " +:+ a +:+ " -> " +:+ b +:+ " [label=" +:+ quote +:+ lbl +:+ quote +:+ "];" +:+ nl) t in
    (if ok then Some true else None, t).
End default.
(** a writer that collects the text, as strings.Builder *)
Definition builder (w t : string) : bool * string := (true, t +:+ w).
