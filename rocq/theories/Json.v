(** Model of json.go. *)
From Verif Require Import Base Value Graph Sizes JsonText.
Local Open Scope string_scope.
Local Open Scope list_scope.

(** ** Encode *)

(** What is written for a property: an error ([None]), nothing, or a key and a value.  This is [user f] for
    [JSON.PropertyMarshaler] = [f], and [default_marshal] below without one (json.go:182-192).
    [JSON.PropertyUnmarshaler] gives an error, or a key and a value (json.go:125-135).  All are pure. *)
Definition marshaler := string -> value -> option (option (string * json)).
Definition unmarshaler := string -> json -> option (string * value).
Definition user (f : string -> value -> option (string * json)) : marshaler := fun k v =>
  match f k v with None => None | Some (k, d) => Some (if decide (k = "") then None else Some (k, d)) end.

(** An error ends the call (json.go: all the [return err]).  What was written before it is in JsonWrite.v. *)
Notation "'let?' x := r 'in' k" := (rbind r (fun o => match o with Some x => k | None => Ok None end))
  (at level 200, x pattern, r at level 100, k at level 200, right associativity).

(** json.go:179-196; the map is ranged over in the order of [map_to_list] (the order matters only if
    the marshaler gives two keys the same name) *)
Definition marshal_props (pm : marshaler) (p : props) : option (gmap string json) :=
  foldl (fun acc kv =>
    match acc with
    | None => None
    | Some m => match pm kv.1 kv.2 with
                | None => None
                | Some None => Some m
                | Some (Some (k, d)) => Some (<[k := d]> m)
                end
    end) (Some ∅) (map_to_list p).
(** json.Marshal of a map: the keys are sorted *)
Definition key_le (a b : string * json) : Prop := str_cmp a.1 b.1 <> Gt.
Global Instance key_le_dec : RelDecision key_le.
Proof. intros a b. unfold key_le. apply _. Defined.
Definition map_json (m : gmap string json) : json :=
  JObj (map (fun p => (json_str p.1, p.2)) (merge_sort key_le (map_to_list m))).

(** json.go:208-222, and json.Marshal of the structs of json.go:146-160 with omitempty; a node without
    index gets index 0 (the zero value of the map) *)
Definition index_of (ix : gmap nat nat) (n : nat) : Z := Z.of_nat (default 0 (ix !! n)).
Definition edge_json (ix : gmap nat nat) (write_from : bool) (from to : nat) (label : string) (p : gmap string json) : json :=
  JObj ((if write_from then [("from", JS (SNum (index_of ix from)))] else []) ++ [("to", JS (SNum (index_of ix to)))] ++
        (if decide (label = "") then [] else [("label", JS (SStr (json_str label)))]) ++
        (if decide (p = ∅) then [] else [("properties", map_json p)])).
(** json.go:198-230 *)
Definition encode_edge (g : graph) (pm : marshaler) (ix : gmap nat nat) (write_from : bool) (e : nat) : res (option (list jtok)) :=
  let! ed := deref_edge g e in
  Ok (p ← marshal_props pm (e_props ed);
      Some (toks (edge_json ix write_from (e_from ed) (e_to ed) (e_label ed) p))).

(** json.go:314-337, 362-375: writes [first] before the first edge and a comma before the others *)
Fixpoint encode_edges (g : graph) (pm : marshaler) (ix : gmap nat nat) (write_from : bool) (first : list jtok) (es : list nat) : res (option (list jtok)) :=
  match es with
  | [] => Ok (Some [])
  | e :: r =>
      let? x := encode_edge g pm ix write_from e in
      let? y := encode_edges g pm ix write_from [TComma] r in
      Ok (Some (first ++ x ++ y))
  end.

Definition tkey (k : string) : list jtok := [TS (SStr k); TColon].
(** json.go:261-345; [ord] is the order in which the set of labels is ranged over (stringset.go:155-161) *)
Definition encode_node (g : graph) (pm : marshaler) (sep : bool) (ix : gmap nat nat) (n : nat) (ord : list string) : res (option (list jtok)) :=
  let! nd := deref_node g n in
  let head := TObj :: tkey "n" ++ [TS (SNum (index_of ix n))] ++
    (if decide (n_labels nd = ∅) then [] else
       TComma :: tkey "labels" ++ toks (JArr (map (fun l => JS (SStr (json_str l))) ord))) in
  let? ps := (if decide (n_props nd = ∅) then Ok (Some []) else
     Ok (m ← marshal_props pm (n_props nd); Some (TComma :: tkey "properties" ++ toks (map_json m)))) in
  if sep then Ok (Some (head ++ ps ++ [TObjEnd])) else
  let! es := node_edges g n Outgoing in
  let? te := encode_edges g pm ix false (TComma :: tkey "edges" ++ [TArr]) es in
  Ok (Some (head ++ ps ++ te ++ (if decide (es = []) then [] else [TArrEnd]) ++ [TObjEnd])).
(** json.go:252-260 *)
Fixpoint encode_nodes (g : graph) (pm : marshaler) (sep : bool) (ix : gmap nat nat) (lord : nat -> list string) (first : list jtok) (ns : list nat) : res (option (list jtok)) :=
  match ns with
  | [] => Ok (Some [])
  | n :: r =>
      let? x := encode_node g pm sep ix n (lord n) in
      let? y := encode_nodes g pm sep ix lord [TComma] r in
      Ok (Some (first ++ x ++ y))
  end.
(** json.go:232-238: the nodes are numbered in the order of GetNodes *)
Definition number (ns : list nat) : gmap nat nat := list_to_map (imap (fun i n => (n, i)) ns).
(** json.go:176-386; [sep] is MarshalEdgesSeparately, [ord] the order in which the map of node indexes is
    ranged over, and [lord n] that for the labels of [n] *)
Definition encode (g : graph) (pm : marshaler) (sep : bool) (ord : list nat) (lord : nat -> list string) : res (option (list jtok)) :=
  let! ns := get_nodes g in
  let ix := number ns in
  let? tn := (if decide (ns = []) then Ok (Some []) else
    let? x := encode_nodes g pm sep ix lord [] ord in Ok (Some (tkey "nodes" ++ [TArr] ++ x ++ [TArrEnd]))) in
  let? te := (if sep then
      let! es := get_edges g in
      let? x := encode_edges g pm ix true [] es in
      Ok (Some (TComma :: tkey "edges" ++ [TArr] ++ x ++ [TArrEnd]))
    else Ok (Some [])) in
  Ok (Some (TObj :: tn ++ te ++ [TObjEnd])).

(** ** Decode *)

(** json.go:138-160 *)
Record jedge := JEdge { je_from : Z; je_to : Z; je_label : string; je_props : gmap string json }.
Record jnode := JNode { jn_n : Z; jn_labels : list string; jn_props : gmap string json; jn_edges : list jedge }.

(** json.Unmarshal into these types.  [None] is a type error.  Simplifications: field names are matched
    exactly (Go ignores case), of fields that occur twice the last one counts, and ints are unbounded.
    A nil map is an empty one. *)
Definition field (l : list (string * json)) (k : string) : json :=
  foldl (fun acc p => if decide (p.1 = k) then p.2 else acc) (JS SNull) l.
Definition read_int (v : json) : option Z := match v with JS SNull => Some 0%Z | JS (SNum z) => Some z | _ => None end.
Definition read_str (v : json) : option string := match v with JS SNull => Some "" | JS (SStr s) => Some s | _ => None end.
Definition read_map (v : json) : option (gmap string json) :=
  match v with
  | JS SNull => Some ∅
  | JObj l => Some (foldl (fun m p => <[p.1 := p.2]> m) ∅ l)
  | _ => None
  end.
Definition read_list {A} (f : json -> option A) (v : json) : option (list A) :=
  match v with JS SNull => Some [] | JArr l => mapM f l | _ => None end.
Definition members (v : json) : option (list (string * json)) :=
  match v with JS SNull => Some [] | JObj l => Some l | _ => None end.
Definition read_edge (from : bool) (v : json) : option jedge :=
  l ← members v;
  f ← (if from then read_int (field l "from") else Some 0%Z);
  t ← read_int (field l "to");
  s ← read_str (field l "label");
  p ← read_map (field l "properties");
  Some (JEdge f t s p).
Definition read_node (v : json) : option jnode :=
  l ← members v;
  n ← read_int (field l "n");
  ls ← read_list read_str (field l "labels");
  p ← read_map (field l "properties");
  es ← read_list (read_edge false) (field l "edges");
  Some (JNode n ls p es).

(** json.go:399-415 (an interned string is the same string); see [marshal_props] for the order *)
Definition unmarshal_props (pu : unmarshaler) (m : gmap string json) : option props :=
  foldl (fun acc kd =>
    match acc with
    | None => None
    | Some p => match pu kd.1 kd.2 with
                | None => None
                | Some (k, v) => Some (if decide (k = "") then p else <[k := v]> p)
                end
    end) (Some ∅) (map_to_list m).

(** the graph, nodeMap and edgeQueue of Decode; calls return the state and whether there was no error *)
Record dstate := DState { d_graph : graph; d_map : gmap Z nat; d_queue : list jedge }.
Fixpoint dfold {A} (f : dstate -> A -> res (dstate * bool)) (l : list A) (s : dstate) : res (dstate * bool) :=
  match l with
  | [] => Ok (s, true)
  | x :: r => let! y := f s x in if y.2 then dfold f r y.1 else Ok y
  end.
(** json.go:445-452 *)
Definition add_edge (pu : unmarshaler) (s : dstate) (from to : nat) (ed : jedge) : res (dstate * bool) :=
  match unmarshal_props pu (je_props ed) with
  | None => Ok (s, false)
  | Some p =>
      let! r := new_edge (d_graph s) from to (je_label ed) p in
      Ok (DState r.1 (d_map s) (d_queue s), true)
  end.
Definition enqueue (s : dstate) (ed : jedge) : dstate := DState (d_graph s) (d_map s) (d_queue s ++ [ed]).
(** json.go:417-443; [lord i X] is the order in which the label set [X] of the node with id [i] is ranged over
    when it is created *)
Definition add_node (pu : unmarshaler) (lord : nat -> gset string -> list string) (s : dstate) (nd : jnode) : res (dstate * bool) :=
  match unmarshal_props pu (jn_props nd) with
  | None => Ok (s, false)
  | Some p =>
      let L := list_to_set (jn_labels nd) in
      let! r := new_node (d_graph s) L p (lord (g_next (d_graph s)) L) in
      dfold (fun s ed =>
          match d_map s !! je_to ed with
          | None => Ok (enqueue s (JEdge (jn_n nd) (je_to ed) (je_label ed) (je_props ed)), true)
          | Some to => add_edge pu s r.2 to ed
          end) (jn_edges nd) (DState r.1 (<[jn_n nd := r.2]> (d_map s)) (d_queue s))
  end.
(** json.go:486-501 *)
Definition add_jedge (pu : unmarshaler) (s : dstate) (ed : jedge) : res (dstate * bool) :=
  match d_map s !! je_from ed, d_map s !! je_to ed with
  | Some from, Some to => add_edge pu s from to ed
  | _, _ => Ok (enqueue s ed, true)
  end.
(** json.go:505-519 *)
Definition add_queued (pu : unmarshaler) (s : dstate) (ed : jedge) : res (dstate * bool) :=
  match d_map s !! je_from ed, d_map s !! je_to ed with
  | Some from, Some to => add_edge pu s from to ed
  | _, _ => Ok (s, false)
  end.

(** json.go:466-532; each round reads a token, so [k] rounds are enough for [k] tokens *)
Fixpoint decode_loop (pu : unmarshaler) (lord : nat -> gset string -> list string) (k : nat) (d : decoder) (depth : nat) (s : dstate) : res (dstate * bool) :=
  match k with
  | O => Diverge
  | S k =>
      match token d with
      | None => Ok (s, false)
      | Some (t, d) =>
          match depth with
          | O =>
              match t with
              | DS (SStr key) =>
                  if decide (key = "nodes") then
                    match decode_value d with
                    | None => Ok (s, false)
                    | Some (v, d) =>
                        match read_list read_node v with
                        | None => Ok (s, false)
                        | Some nds =>
                            let! r := dfold (add_node pu lord) nds s in
                            if r.2 then decode_loop pu lord k d 0 r.1 else Ok r
                        end
                    end
                  else if decide (key = "edges") then
                    match decode_value d with
                    | None => Ok (s, false)
                    | Some (v, d) =>
                        match read_list (read_edge true) v with
                        | None => Ok (s, false)
                        | Some eds =>
                            let! r := dfold (add_jedge pu) eds s in
                            if r.2 then decode_loop pu lord k d 0 r.1 else Ok r
                        end
                    end
                  else decode_loop pu lord k d 1 s
              | DObjEnd => dfold (add_queued pu) (d_queue s) s
              | _ => decode_loop pu lord k d 0 s
              end
          | S n =>
              match t with
              | DObj | DArr => decode_loop pu lord k d (S (S n)) s
              | _ => decode_loop pu lord k d n s
              end
          end
      end
  end.
(** json.go:455-532: the graph and whether there was no error *)
Definition decode (pu : unmarshaler) (lord : nat -> gset string -> list string) (g : graph) (ts : list jtok) : res (graph * bool) :=
  match token (new_decoder ts) with
  | Some (DObj, d) =>
      let! r := decode_loop pu lord (length ts) d 0 (DState g ∅ []) in Ok (d_graph r.1, r.2)
  | _ => Ok (g, false)
  end.

(** ** Properties without marshaler: json.Marshal and json.Unmarshal into interface{} (json.go:182-184, 388-396).
    [other] and [other'] do this for the values and texts that have no counterpart among the modelled
    ones (numbers become float64; see [VOther] of Value.v). *)
Section default.
  Variables (other : value -> json) (other' : json -> value).
  Fixpoint value_json (v : value) : json :=
    match v with
    | VNil => JS SNull
    | VInt z => JS (SNum z)
    | VStr s => JS (SStr (json_str s))
    | VStrs l => JArr (map (fun s => JS (SStr (json_str s))) l)
    | VInts l => JArr (map (fun z => JS (SNum z)) l)
    | VList l => JArr (map value_json l)
    | VNative _ | VOther _ _ => other v
    end.
  Fixpoint json_value (v : json) : value :=
    match v with
    | JS SNull => VNil
    | JS (SStr s) => VStr s
    | JArr l => VList (map json_value l)
    | _ => other' v
    end.
  Definition default_marshal : marshaler := fun k v => Some (Some (k, value_json v)).
  Definition default_unmarshal : unmarshaler := fun k d => Some (k, json_value d).
End default.
