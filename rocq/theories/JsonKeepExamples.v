(** What the examples of PropertiesJsonKeep.v use. *)
From Verif Require Import Base Value Index Graph GraphSpec JsonText Json JsonSpec JsonTripProofs JsonKeepSpec GraphExamples JsonExamples.
Local Open Scope string_scope.
Local Open Scope list_scope.

Definition name (f : user_marshaler) (k : string) (v : value) : option string :=
  match f k v with Some (k', _) => if decide (k' = "") then None else Some k' | None => None end.
Definition back (f : user_marshaler) (pu : unmarshaler) (k : string) (v : value) : option (string * value) :=
  match f k v with
  | Some (k', d) => if decide (k' = "") then None else match pu k' d with Some (k2, v2) => if decide (k2 = "") then None else Some (k2, v2) | None => None end
  | None => None
  end.
Definition fine (f : user_marshaler) (pu : unmarshaler) (k : string) (v : value) : bool :=
  match f k v with
  | Some (k', d) => bool_decide (k' = "") || (bool_decide (ascii_str k') && match pu k' d with Some _ => true | None => false end)
  | None => false
  end.
Definition check_kept (f : user_marshaler) (pu : unmarshaler) (p q : props) : Prop :=
  map_Forall (fun k v => fine f pu k v = true) p /\
  map_Forall (fun k1 v1 => map_Forall (fun k2 v2 => name f k1 v1 = name f k2 v2 -> name f k1 v1 = None \/ k1 = k2) p) p /\
  map_Forall (fun k1 v1 => map_Forall (fun k2 v2 => fst <$> back f pu k1 v1 = fst <$> back f pu k2 v2 -> back f pu k1 v1 = None \/ k1 = k2) p) p /\
  map_Forall (fun k v => match back f pu k v with Some (k2, v2) => bool_decide (q !! k2 = Some v2) | None => true end = true) p /\
  map_Forall (fun k v => Exists (fun kv => back f pu kv.1 kv.2 = Some (k, v)) (map_to_list p)) q.
Global Instance check_kept_dec f pu p q : Decision (check_kept f pu p q).
Proof. unfold check_kept. apply _. Defined.
Lemma back_ok f pu k v k2 v2 : comes_back f pu k v k2 v2 <-> back f pu k v = Some (k2, v2).
Proof.
  unfold comes_back, back. destruct (f k v) as [[k' d]|]; [|naive_solver]. destruct (decide (k' = "")) as [->|Hne]; [naive_solver|].
  destruct (pu k' d) as [[k3 v3]|] eqn:E; [|naive_solver]. destruct (decide (k3 = "")) as [->|Hne3]; naive_solver.
Qed.
Lemma check_kept_ok f pu p q : check_kept f pu p q -> kept f pu p q.
Proof.
  intros (H1 & H2 & H3 & H4 & H5). split.
  - intros k v Hk. specialize (H1 k v Hk). cbn in H1. unfold fine in H1. destruct (f k v) as [[k' d]|]; [|done]. exists k', d. split; [done|]. intros Hne.
    apply orb_true_iff in H1 as [H1|H1]; [by apply bool_decide_eq_true in H1|]. apply andb_true_iff in H1 as [Ha Hp]. apply bool_decide_eq_true in Ha.
    split; [by apply ascii_str_utf8|]. by destruct (pu k' d).
  - intros k1 v1 k2 v2 k' d1 d2 P1 P2 E1 E2 Hne. pose proof (H2 k1 v1 P1 k2 v2 P2) as H. cbn in H. unfold name in H. rewrite E1, E2, decide_False in H by done. naive_solver.
  - intros k1 v1 k2 v2 k w1 w2 P1 P2. rewrite !back_ok. intros E1 E2. pose proof (H3 k1 v1 P1 k2 v2 P2) as H. cbn in H. rewrite E1, E2 in H. naive_solver.
  - intros k v. split.
    + intros Hq. specialize (H5 k v Hq). cbn in H5. apply Exists_exists in H5 as ([k0 v0] & Hin & E). apply elem_of_map_to_list in Hin.
      exists k0, v0. split; [done|]. by apply back_ok.
    + intros (k0 & v0 & Hp & E%back_ok). specialize (H4 k0 v0 Hp). cbn in H4. rewrite E in H4. by apply bool_decide_eq_true in H4.
Qed.
(** [s] with [q] applied to the properties *)
Definition with_props (q : props -> props) (s : sgraph) : sgraph :=
  SGraph ((fun x => SNode (sn_labels x) (q (sn_props x))) <$> s_nodes s) ((fun x => Edge (e_from x) (e_to x) (e_label x) (q (e_props x))) <$> s_edges s) (s_next s).
Definition check_kept_graph (f : user_marshaler) (pu : unmarshaler) (q : props -> props) (s : sgraph) : Prop :=
  map_Forall (fun _ x => Forall ascii_str (elements (sn_labels x)) /\ check_kept f pu (sn_props x) (q (sn_props x))) (s_nodes s) /\
  map_Forall (fun _ x => ascii_str (e_label x) /\ check_kept f pu (e_props x) (q (e_props x))) (s_edges s).
Global Instance check_kept_graph_dec f pu q s : Decision (check_kept_graph f pu q s).
Proof. unfold check_kept_graph. apply _. Defined.
Lemma check_kept_graph_ok f pu q s : check_kept_graph f pu q s -> kept_graph f pu s (with_props q s).
Proof.
  intros [H1 H2]. split; [|split; [|split]].
  - intros n. unfold live_node. cbn [with_props s_nodes]. by rewrite lookup_fmap, fmap_is_Some.
  - intros n. unfold live_edge. cbn [with_props s_edges]. by rewrite lookup_fmap, fmap_is_Some.
  - intros n x y Hx Hy. cbn [with_props s_nodes] in Hy. rewrite lookup_fmap, Hx in Hy. injection Hy as <-. destruct (H1 n x Hx) as [Hl Hp].
    split; [|split; [done|by apply check_kept_ok]]. intros l Hin. apply ascii_str_utf8. rewrite Forall_forall in Hl. apply Hl. by apply elem_of_elements.
  - intros e x y Hx Hy. cbn [with_props s_edges] in Hy. rewrite lookup_fmap, Hx in Hy. injection Hy as <-. destruct (H2 e x Hx) as [Hl Hp].
    split; [by apply ascii_str_utf8|]. split_and!; try done. by apply check_kept_ok.
Qed.
(** A marshaler that leaves out "secret", writes "name" as "title" and fails for "bad"; an unmarshaler that leaves out "tmp"
    and reads "title" as "label" *)
Definition ex_f : user_marshaler := fun k v =>
  if decide (k = "bad") then None else if decide (k = "secret") then Some ("", JS SNull) else
  if decide (k = "name") then Some ("title", value_json (fun _ => JS SNull) v) else Some (k, value_json (fun _ => JS SNull) v).
Definition ex_u : unmarshaler := fun k d =>
  if decide (k = "tmp") then Some ("", VNil) else if decide (k = "title") then Some ("label", json_value (fun _ => VNil) d) else
  Some (k, json_value (fun _ => VNil) d).
(** what comes back *)
Definition ex_q (p : props) : props :=
  let r := delete "name" (delete "tmp" (delete "secret" p)) in
  match p !! "name" with Some v => <["label" := v]> r | None => r end.
Definition written_by (ops : list op) (f : user_marshaler) (sep : bool) (ord : list nat) (lord : nat -> list string) : list jtok :=
  match encode (result ops) (user f) sep ord lord with Ok (Some ts) => ts | _ => [] end.
Lemma written_by_ok ops f sep ord lord : match encode (result ops) (user f) sep ord lord with Ok (Some _) => true | _ => false end = true ->
  encode (result ops) (user f) sep ord lord = Ok (Some (written_by ops f sep ord lord)).
Proof. unfold written_by. by destruct (encode _ _ _ _ _) as [[ts|]| |]. Qed.
Definition decoded_by (ops : list op) (pu : unmarshaler) (ts : list jtok) : graph * bool :=
  match decode pu sorted (result ops) ts with Ok x => x | _ => (new_graph, false) end.
Lemma decoded_by_ok ops pu ts : match decode pu sorted (result ops) ts with Ok x => x.2 | _ => false end = true ->
  decode pu sorted (result ops) ts = Ok ((decoded_by ops pu ts).1, true).
Proof. unfold decoded_by. destruct (decode _ _ _ _) as [[g []]| |]; try done. Qed.
