(** What the examples of PropertiesJson.v use. *)
From Verif Require Import Base Value Index Graph GraphSpec Sizes JsonText Json JsonSpec JsonTripProofs GraphExamples.
From Coq Require Import Ascii NArith.
Local Open Scope string_scope.
Local Open Scope list_scope.

(** Encode and Decode without marshalers *)
Definition dm : marshaler := default_marshal (fun _ => JS SNull).
Definition du : unmarshaler := default_unmarshal (fun _ => VNil).
Definition sorted (_ : nat) (X : gset string) : list string := elements X.
Definition written (ops : list op) (sep : bool) (ord : list nat) (lord : nat -> list string) : list jtok :=
  match encode (result ops) dm sep ord lord with Ok (Some ts) => ts | _ => [] end.
Lemma written_ok ops sep ord lord : match encode (result ops) dm sep ord lord with Ok (Some _) => true | _ => false end = true ->
  encode (result ops) dm sep ord lord = Ok (Some (written ops sep ord lord)).
Proof. unfold written. by destruct (encode _ _ _ _ _) as [[ts|]| |]. Qed.
Definition decoded_into (ops : list op) (ts : list jtok) : graph * bool :=
  match decode du sorted (result ops) ts with Ok x => x | _ => (new_graph, false) end.
Lemma decoded_into_ok ops ts : match decode du sorted (result ops) ts with Ok x => x.2 | _ => false end = true ->
  decode du sorted (result ops) ts = Ok ((decoded_into ops ts).1, true).
Proof. unfold decoded_into. destruct (decode _ _ _ _) as [[g []]| |]; try done. Qed.

Definition ascii_str (s : string) : Prop := Forall (fun c => (N_of_ascii c <? 128)%N = true) (list_ascii_of_string s).
Global Instance ascii_str_dec s : Decision (ascii_str s).
Proof. unfold ascii_str. apply _. Defined.
Lemma ascii_str_utf8 s : ascii_str s -> utf8 s.
Proof. intros H. apply utf8_ascii. eapply Forall_impl; [exact H|]. intros c. by intros ?%N.ltb_lt. Qed.
Fixpoint plain_ascii (v : value) : Prop :=
  match v with
  | VNil => True
  | VStr s => ascii_str s
  | VList l => foldr (fun v P => plain_ascii v /\ P) True l
  | _ => False
  end.
Global Instance plain_ascii_dec : forall v, Decision (plain_ascii v).
Proof.
  fix IH 1. intros [| | | | |l| |]; cbn; try apply _.
  induction l as [|v l IHl]; cbn; apply _.
Defined.
Lemma plain_ascii_plain v : plain_ascii v -> plain v.
Proof.
  revert v. fix IH 1. intros [|z|s| | |l| |]; cbn; try done; intros H; constructor.
  - by apply ascii_str_utf8.
  - induction l as [|v l IHl]; [constructor|]. cbn in H. destruct H as [H1 H2]. constructor; [by apply IH|by apply IHl].
Qed.
Definition check_props (p : props) : Prop := map_Forall (fun k v => k <> "" /\ ascii_str k /\ plain_ascii v) p.
Definition check_graph (s : sgraph) : Prop :=
  map_Forall (fun _ x => Forall ascii_str (elements (sn_labels x)) /\ check_props (sn_props x)) (s_nodes s) /\
  map_Forall (fun _ x => ascii_str (e_label x) /\ check_props (e_props x)) (s_edges s).
Global Instance check_graph_dec s : Decision (check_graph s).
Proof. unfold check_graph, check_props. apply _. Defined.
Lemma check_props_ok p : check_props p -> survives dm du p.
Proof. intros H. apply plain_survives. intros k v Hk. destruct (H k v Hk) as (H1 & H2 & H3). split; [done|]. split; [by apply ascii_str_utf8|by apply plain_ascii_plain]. Qed.
Lemma check_writable s : check_graph s -> writable dm du s.
Proof.
  intros [H1 H2]. split.
  - intros n x Hx. destruct (H1 n x Hx) as [Hl Hp]. split; [|by apply check_props_ok]. intros l Hin. apply ascii_str_utf8.
    rewrite Forall_forall in Hl. apply Hl. by apply elem_of_elements.
  - intros e x Hx. destruct (H2 e x Hx) as [Hl Hp]. split; [by apply ascii_str_utf8|by apply check_props_ok].
Qed.
Definition check_order (s : sgraph) (lord : nat -> list string) : Prop := map_Forall (fun n x => order_of (sn_labels x) (lord n)) (s_nodes s).
Lemma check_label_order s lord : check_order s lord -> label_order s lord.
Proof. intros H n x Hx. by apply (H n x). Qed.
Lemma check_node_order g ord ns : get_nodes g = Ok ns -> ord ≡ₚ ns -> node_order g ord.
Proof. by exists ns. Qed.
