(** Model of the text forms: the String and MarshalJSON methods of properties, nodes, edges and paths, StringSet as JSON,
    and MapInterner.

    Go map iteration orders are arguments named [ord...]. *)
From Verif Require Import Base Value Graph Path StringSet JsonText Json.
From Coq Require Import Ascii.
Local Open Scope string_scope.
Local Open Scope list_scope.

Section show.
  (** What fmt prints for a property value with %v.  [None] is a *Node or an *Edge, which are not printed
      (properties.go:214-219).  The text is an argument: fmt is not part of /repo. *)
  Variable show : value -> option string.

  (** properties.go:211-223; [ord]: iteration order of the property map *)
  Definition props_elements (p : props) (ord : list string) : list string :=
    fold_left (fun els k =>
      match p !! k with
      | Some v => match show v with Some s => els ++ [(k +:+ ":" +:+ s)%string] | None => els end
      | None => els
      end) ord [].
  Definition props_string (p : props) (ord : list string) : string :=
    "{" +:+ String.concat " " (props_elements p ord) +:+ "}".

  (** node.go:127-133; [lord]: iteration order of the labels *)
  Definition node_string (labels : gset string) (p : props) (lord ord : list string) : string :=
    let l := String.concat ":" (ss_slice lord) in
    let l := if decide (0 < size labels) then ":" +:+ l else l in
    "(" +:+ l +:+ " " +:+ props_string p ord +:+ ")".
  (** edge.go:93-95 *)
  Definition edge_string (label : string) (p : props) (ord : list string) : string :=
    "[:" +:+ label +:+ " " +:+ props_string p ord +:+ "]".
End show.

(** json.Marshal of a string *)
Definition str_json (s : string) : list jtok := toks (JS (SStr (json_str s))).
(** node.go:135-137 *)
Definition node_json_text show labels p lord ord : list jtok := str_json (node_string show labels p lord ord).
(** edge.go:97-99 *)
Definition edge_json_text show label p ord : list jtok := str_json (edge_string show label p ord).

(** strings.TrimSpace.  Simplification: of the Unicode white space only that of ASCII is removed; the text of a
    path starts with a parenthesis and ends with one, or with a letter, and one space. *)
Definition is_space (a : ascii) : bool := within 9 13 a || within 32 32 a.
Fixpoint trim_left (s : string) : string :=
  match s with
  | EmptyString => EmptyString
  | String a r => if is_space a then trim_left r else s
  end.
Fixpoint trim_right (s : string) : string :=
  match s with
  | EmptyString => EmptyString
  | String a r => match trim_right r with
                  | EmptyString => if is_space a then EmptyString else String a EmptyString
                  | t => String a t
                  end
  end.
Definition trim_space (s : string) : string := trim_right (trim_left s).

(** path.go:196-211; [from], [to]: the ends of an edge, [text k]: Node.String at its [k]-th call (each call has its own
    iteration orders) *)
Fixpoint path_loop (from to : nat -> nat) (text : nat -> nat -> string) (k : nat) (sb : string) (els : list pelem) : string :=
  match els with
  | [] => sb
  | x :: r =>
      let sb := sb +:+ (text k (from (pe_edge x)) +:+ "->" +:+ text (S k) (to (pe_edge x)) +:+ " ") in
      let sb := if pe_rev x then sb +:+ "Reverse " else sb in
      path_loop from to text (S (S k)) sb r
  end.
Definition path_string (from to : nat -> nat) (text : nat -> nat -> string) (p : path) : string :=
  trim_space (path_loop from to text 0 "" (p_path p)).

(** stringset.go:144-146; [ord]: iteration order of the set *)
Definition ss_marshal (ord : list string) : list jtok :=
  toks (JArr (map (fun s => JS (SStr (json_str s))) (ss_slice ord))).
(** json.Unmarshal: the text must be one value *)
Definition json_value (ts : list jtok) : option json :=
  match parse (S (length ts)) ts with Some (v, []) => Some v | _ => None end.
(** stringset.go:148-155; the last component tells whether the error is nil *)
Definition ss_unmarshal (h : sheap) (v : sset) (ts : list jtok) : sheap * sset * bool :=
  match x ← json_value ts; read_list read_str x with
  | Some arr => (ss_new h arr, true)
  | None => (h, v, false)
  end.

(** json.go:38, 41-47 *)
Notation interner := (gmap string string).
Definition intern (i : interner) (s : string) : interner * string :=
  match i !! s with
  | Some k => (i, k)
  | None => (<[s := s]> i, s)
  end.
(** calls of Intern one after another, and their results *)
Fixpoint intern_all (i : interner) (l : list string) : interner * list string :=
  match l with
  | [] => (i, [])
  | s :: r => let x := intern i s in let y := intern_all x.1 r in (y.1, x.2 :: y.2)
  end.
