(** Model of what json.go uses of Go's encoding/json: JSON texts as sequences of lexical tokens, json.Marshal,
    and the json.Decoder with Token and Decode.  encoding/json is not part of /repo; this file is written
    from its documentation and is trusted (see DESIGN.md). *)
From Verif Require Import Base.
From Coq Require Import Ascii NArith.

(** ** Strings.  json.Marshal replaces each byte that is not part of a UTF-8 encoded code point by the
    code point U+FFFD; other characters are escaped, if at all, such that the same string is read back. *)
Definition within (a b : N) (c : ascii) : bool := (a <=? N_of_ascii c)%N && (N_of_ascii c <=? b)%N.
(** the number of bytes of the code point at the start of [s]; 0 if there is none *)
Definition rune_len (s : string) : nat :=
  let cont := within 128 191 in
  match s with
  | EmptyString => 0
  | String a r =>
      if within 0 127 a then 1 else
      match r with
      | EmptyString => 0
      | String b r =>
          if within 194 223 a && cont b then 2 else
          match r with
          | EmptyString => 0
          | String c r =>
              if ((within 224 224 a && within 160 191 b) || (within 225 236 a && cont b) ||
                  (within 237 237 a && within 128 159 b) || (within 238 239 a && cont b)) && cont c then 3 else
              match r with
              | EmptyString => 0
              | String d r =>
                  if ((within 240 240 a && within 144 191 b) || (within 241 243 a && cont b) ||
                      (within 244 244 a && within 128 143 b)) && cont c && cont d then 4 else 0
              end
          end
      end
  end.
(** the string that is read back; [k] bytes of the current code point are left *)
Fixpoint json_str_at (k : nat) (s : string) : string :=
  match s with
  | EmptyString => EmptyString
  | String a r =>
      match k with
      | S k => String a (json_str_at k r)
      | O =>
          match rune_len s with
          | O => String (ascii_of_N 239) (String (ascii_of_N 191) (String (ascii_of_N 189) (json_str_at 0 r)))
          | S k => String a (json_str_at k r)
          end
      end
  end.
Definition json_str (s : string) : string := json_str_at 0 s.

(** ** Values and texts *)
(** [SNum] is a number literal without fraction and exponent, [SReal] any other *)
Inductive scalar := SNull | SBool (b : bool) | SNum (z : Z) | SReal (s : string) | SStr (s : string).
Inductive json := JS (s : scalar) | JArr (l : list json) | JObj (l : list (string * json)).
(** [TBad]: something that is no token *)
Inductive jtok := TObj | TObjEnd | TArr | TArrEnd | TComma | TColon | TS (s : scalar) | TBad.

(** a list of texts, separated by commas *)
Fixpoint commas (l : list (list jtok)) : list jtok :=
  match l with [] => [] | [x] => x | x :: r => x ++ TComma :: commas r end.
(** the text json.Marshal writes for a value *)
Fixpoint toks (v : json) : list jtok :=
  match v with
  | JS s => [TS s]
  | JArr l => TArr :: commas (map toks l) ++ [TArrEnd]
  | JObj l => TObj :: commas (map (fun p => TS (SStr p.1) :: TColon :: toks p.2) l) ++ [TObjEnd]
  end.

(** the value at the start of a text, and the rest *)
Fixpoint parse (k : nat) (ts : list jtok) : option (json * list jtok) :=
  match k with
  | O => None
  | S k =>
      match ts with
      | TS s :: r => Some (JS s, r)
      | TArr :: TArrEnd :: r => Some (JArr [], r)
      | TArr :: r => match parse_elems k r with Some (l, r) => Some (JArr l, r) | None => None end
      | TObj :: TObjEnd :: r => Some (JObj [], r)
      | TObj :: r => match parse_members k r with Some (l, r) => Some (JObj l, r) | None => None end
      | _ => None
      end
  end
with parse_elems (k : nat) (ts : list jtok) : option (list json * list jtok) :=
  match k with
  | O => None
  | S k =>
      match parse k ts with
      | Some (v, TComma :: r) => match parse_elems k r with Some (l, r) => Some (v :: l, r) | None => None end
      | Some (v, TArrEnd :: r) => Some ([v], r)
      | _ => None
      end
  end
with parse_members (k : nat) (ts : list jtok) : option (list (string * json) * list jtok) :=
  match k with
  | O => None
  | S k =>
      match ts with
      | TS (SStr key) :: TColon :: r =>
          match parse k r with
          | Some (v, TComma :: r) => match parse_members k r with Some (l, r) => Some ((key, v) :: l, r) | None => None end
          | Some (v, TObjEnd :: r) => Some ([(key, v)], r)
          | _ => None
          end
      | _ => None
      end
  end.

(** ** json.Decoder: the rest of the input, the token state and the stack of outer token states *)
Inductive tstate := TopValue | ArrayStart | ArrayValue | ArrayComma | ObjectStart | ObjectKey | ObjectColon | ObjectValue | ObjectComma.
Record decoder := Decoder { dc_in : list jtok; dc_state : tstate; dc_stack : list tstate }.
Definition value_allowed (t : tstate) : bool :=
  match t with TopValue | ArrayStart | ArrayValue | ObjectValue => true | _ => false end.
Definition value_end (t : tstate) : tstate :=
  match t with ArrayStart | ArrayValue => ArrayComma | ObjectValue => ObjectComma | t => t end.
(** what Token returns: a delimiter, or a scalar (a key is a string) *)
Inductive dtok := DObj | DObjEnd | DArr | DArrEnd | DS (s : scalar).
Definition pop (ts : list jtok) (st : list tstate) : option decoder :=
  match st with t :: st => Some (Decoder ts (value_end t) st) | [] => None end.
(** Decoder.Token; [None] is an error *)
Fixpoint token_from (ts : list jtok) (t : tstate) (st : list tstate) : option (dtok * decoder) :=
  match ts with
  | [] => None
  | TArr :: r => if value_allowed t then Some (DArr, Decoder r ArrayStart (t :: st)) else None
  | TArrEnd :: r => match t with ArrayStart | ArrayComma => d ← pop r st; Some (DArrEnd, d) | _ => None end
  | TObj :: r => if value_allowed t then Some (DObj, Decoder r ObjectStart (t :: st)) else None
  | TObjEnd :: r => match t with ObjectStart | ObjectComma => d ← pop r st; Some (DObjEnd, d) | _ => None end
  | TColon :: r => match t with ObjectColon => token_from r ObjectValue st | _ => None end
  | TComma :: r =>
      match t with ArrayComma => token_from r ArrayValue st | ObjectComma => token_from r ObjectKey st | _ => None end
  | TS s :: r =>
      match t, s with
      | (ObjectStart | ObjectKey), SStr k => Some (DS (SStr k), Decoder r ObjectColon st)
      | _, _ => if value_allowed t then Some (DS s, Decoder r (value_end t) st) else None
      end
  | TBad :: _ => None
  end.
Definition token (d : decoder) : option (dtok * decoder) := token_from (dc_in d) (dc_state d) (dc_stack d).
(** Decoder.Decode: the value that is unmarshaled; [None] is an error *)
Definition decode_value (d : decoder) : option (json * decoder) :=
  match
    match dc_state d, dc_in d with
    | ArrayComma, TComma :: r => Some (r, ArrayValue)
    | ObjectColon, TColon :: r => Some (r, ObjectValue)
    | (ArrayComma | ObjectColon), _ => None
    | t, r => Some (r, t)
    end
  with
  | None => None
  | Some (r, t) =>
      if value_allowed t then
        match parse (S (length r)) r with Some (v, r) => Some (v, Decoder r (value_end t) (dc_stack d)) | None => None end
      else None
  end.
Definition new_decoder (ts : list jtok) : decoder := Decoder ts TopValue [].
(** the tokens of a value, as Token returns them *)
Fixpoint dtoks (v : json) : list dtok :=
  match v with
  | JS s => [DS s]
  | JArr l => DArr :: concat (map dtoks l) ++ [DArrEnd]
  | JObj l => DObj :: concat (map (fun p => DS (SStr p.1) :: dtoks p.2) l) ++ [DObjEnd]
  end.
