(** Specification of the texts Decode accepts (json.go:455-532). *)
From Verif Require Import Base Value JsonText.
Local Open Scope string_scope.
Local Open Scope list_scope.

(** a member of the top level object whose value is a scalar, unless its key is one of the two known ones *)
Definition other_scalar (p : string * json) : Prop := (p.1 = "nodes" \/ p.1 = "edges") \/ exists s, p.2 = JS s.
(** the text begins with a JSON object with such members *)
Definition scalar_text (ts : list jtok) : Prop := exists ms r, Forall other_scalar ms /\ ts = toks (JObj ms) ++ r.
(** the text begins with [{], such members, and another one whose value begins with [{] or [[] *)
Definition nested_text (ts : list jtok) : Prop := exists ms key t r, Forall other_scalar ms /\
  key <> "nodes" /\ key <> "edges" /\ (t = TObj \/ t = TArr) /\
  ts = TObj :: commas (map (fun p => TS (SStr p.1) :: TColon :: toks p.2) ms ++ [[TS (SStr key); TColon; t]]) ++ r.
