(** Proofs about Encode. *)
From Verif Require Import Base Value Graph GraphSpec Sizes JsonText JsonTextProofs Json JsonSpec.
From Coq Require Import Ascii NArith.
Local Open Scope string_scope.
Local Open Scope list_scope.

(** what is written for an edge, a node *)
Definition edge_written_as (g : graph) (pm : marshaler) (ix : gmap nat nat) (from : bool) (e : nat) (v : json) : Prop :=
  exists ed p, g_edges g !! e = Some ed /\ marshal_props pm (e_props ed) = Some p /\
    v = edge_json ix from (e_from ed) (e_to ed) (e_label ed) p.
Definition node_json (ix : gmap nat nat) (n : nat) (ord : list string) (nd : node) (p : gmap string json) (es : list json) : json :=
  JObj ([("n", JS (SNum (index_of ix n)))] ++
        (if decide (n_labels nd = ∅) then [] else [("labels", JArr (map (fun l => JS (SStr (json_str l))) ord))]) ++
        (if decide (n_props nd = ∅) then [] else [("properties", map_json p)]) ++
        (if decide (es = []) then [] else [("edges", JArr es)])).
Definition node_written_as (g : graph) (pm : marshaler) (sep : bool) (ix : gmap nat nat) (lord : nat -> list string) (n : nat) (v : json) : Prop :=
  exists nd p oes es, g_nodes g !! n = Some nd /\ marshal_props pm (n_props nd) = Some p /\
    (if sep then oes = [] else node_edges g n Outgoing = Ok oes) /\ Forall2 (edge_written_as g pm ix false) oes es /\
    v = node_json ix n (lord n) nd p es.

Lemma let_inv {A B} (r : res (option A)) (k : A -> res (option B)) b :
  (let? x := r in k x) = Ok (Some b) -> exists a, r = Ok (Some a) /\ k a = Ok (Some b).
Proof. intros H. apply rbind_Ok_inv in H as ([a|] & Ha & H); [eauto|done]. Qed.

Lemma commas_more (vs : list json) x ts : ts = (if decide (vs = []) then [] else TComma :: commas (map toks vs)) ->
  x ++ ts = commas (x :: map toks vs).
Proof. intros ->. destruct vs as [|v vs]; [simpl; by rewrite app_nil_r|]. rewrite decide_False by done. done. Qed.

Lemma encode_edges_ok g pm ix from es : forall first ts, encode_edges g pm ix from first es = Ok (Some ts) ->
  exists vs, Forall2 (edge_written_as g pm ix from) es vs /\ ts = if decide (vs = []) then [] else first ++ commas (map toks vs).
Proof.
  induction es as [|e es IH]; intros first ts; cbn [encode_edges].
  { intros [= <-]. exists []. split; [constructor|done]. }
  intros H. apply let_inv in H as (x & Hx & H). apply let_inv in H as (y & Hy & [= <-]).
  destruct (IH _ _ Hy) as (vs & Hvs & Ey). unfold encode_edge, deref_edge in Hx.
  destruct (g_edges g !! e) as [ed|] eqn:Ee; [|done]. injection Hx as Hx. apply bind_Some in Hx as (p & Hp & [= <-]).
  eexists (_ :: vs). split; [constructor; [by exists ed, p|done]|]. rewrite (decide_False (P := _ :: vs = [])) by done. f_equal. simpl map.
  by apply commas_more.
Qed.
Lemma encode_edges_returns g pm ix from es : forall first, (forall e, e ∈ es -> is_Some (g_edges g !! e)) ->
  exists o, encode_edges g pm ix from first es = Ok o.
Proof.
  induction es as [|e es IH]; intros first Hes; cbn [encode_edges]; [eauto|].
  destruct (Hes e) as [ed Hed]; [left|]. unfold encode_edge, deref_edge. rewrite Hed. cbn [rbind].
  destruct (marshal_props pm (e_props ed)); [|by eexists]. cbn. 
  destruct (IH [TComma]) as [[o|] Ho]; [intros; apply Hes; by right| |]; rewrite Ho; simpl; eauto.
Qed.
Lemma encode_node_ok g pm sep ix n lord ts : encode_node g pm sep ix n (lord n) = Ok (Some ts) ->
  exists v, node_written_as g pm sep ix lord n v /\ ts = toks v.
Proof.
  unfold encode_node. intros H. apply rbind_Ok_inv in H as (nd & Hnd & H). cbv zeta in H. apply let_inv in H as (ps & Hps & H).
  unfold deref_node in Hnd. destruct (g_nodes g !! n) as [nd'|] eqn:En; [|done]. injection Hnd as ->.
  assert (exists p, marshal_props pm (n_props nd) = Some p /\
    ps = if decide (n_props nd = ∅) then [] else TComma :: tkey "properties" ++ toks (map_json p)) as (p & Hp & Eps).
  { destruct (decide (n_props nd = ∅)) as [E|E].
    - injection Hps as <-. exists ∅. by rewrite E.
    - injection Hps as Hps. apply bind_Some in Hps as (m & Hm & [= <-]). by exists m. }
  destruct sep.
  - injection H as <-. exists (node_json ix n (lord n) nd p []). split; [exists nd, p, [], []; split_and!; try done; constructor|].
    subst ps. unfold node_json. repeat case_decide; simplify_eq; cbn [app tkey toks map commas fst snd];
      repeat first [done | progress rewrite <-?app_assoc; cbn [app] | f_equal].
  - apply rbind_Ok_inv in H as (es & Hes & H). apply let_inv in H as (te & Hte & [= <-]).
    destruct (encode_edges_ok _ _ _ _ _ _ _ Hte) as (vs & Hvs & Ete).
    exists (node_json ix n (lord n) nd p vs). split; [by exists nd, p, es, vs|].
    subst ps te. unfold node_json. destruct Hvs as [|e v es vs _ _].
    + rewrite !(decide_True (P := [] = [])) by done.
      repeat case_decide; simplify_eq; cbn [app tkey toks map commas fst snd];
        repeat first [done | progress rewrite <-?app_assoc; cbn [app] | f_equal].
    + rewrite !(decide_False (P := _ :: _ = [])) by done. set (R := commas (map toks (v :: vs))).
      repeat case_decide; simplify_eq; cbn [app tkey toks map commas fst snd];
        repeat first [done | progress rewrite <-?app_assoc; cbn [app] | f_equal].
Qed.
Lemma encode_nodes_ok g pm sep ix lord ns : forall first ts, encode_nodes g pm sep ix lord first ns = Ok (Some ts) ->
  exists vs, Forall2 (node_written_as g pm sep ix lord) ns vs /\ ts = if decide (vs = []) then [] else first ++ commas (map toks vs).
Proof.
  induction ns as [|n ns IH]; intros first ts; cbn [encode_nodes].
  { intros [= <-]. exists []. split; [constructor|done]. }
  intros H. apply let_inv in H as (x & Hx & H). apply let_inv in H as (y & Hy & [= <-]).
  destruct (IH _ _ Hy) as (vs & Hvs & Ey). destruct (encode_node_ok _ _ _ _ _ _ _ Hx) as (v & Hv & ->).
  eexists (_ :: vs). split; [constructor; [exact Hv|done]|]. rewrite (decide_False (P := _ :: vs = [])) by done. f_equal. simpl map.
  by apply commas_more.
Qed.
Lemma commas_if (vs : list json) : (if decide (vs = []) then [] else [] ++ commas (map toks vs)) = commas (map toks vs).
Proof. by case_decide; subst. Qed.
Lemma encode_ok g pm sep ord lord ts : encode g pm sep ord lord = Ok (Some ts) ->
  exists ns, get_nodes g = Ok ns /\
  exists vn oes ve, (if decide (ns = []) then vn = [] else Forall2 (node_written_as g pm sep (number ns) lord) ord vn) /\
    (if sep then get_edges g = Ok oes else oes = []) /\ Forall2 (edge_written_as g pm (number ns) true) oes ve /\
    (ns = [] -> sep = true -> exists r, ts = TObj :: TComma :: r) /\
    (ns <> [] \/ sep = false -> ts = toks (JObj ((if decide (ns = []) then [] else [("nodes", JArr vn)]) ++
                      (if sep then [("edges", JArr ve)] else [])))).
Proof.
  unfold encode. intros H. apply rbind_Ok_inv in H as (ns & Hns & H). cbv zeta in H. exists ns. split; [done|].
  apply let_inv in H as (tn & Htn & H). apply let_inv in H as (te & Hte & [= <-]).
  assert (exists vn, (if decide (ns = []) then vn = [] else Forall2 (node_written_as g pm sep (number ns) lord) ord vn) /\
    tn = if decide (ns = []) then [] else tkey "nodes" ++ toks (JArr vn)) as (vn & Hvn & Etn).
  { destruct (decide (ns = [])) as [E|E].
    - injection Htn as <-. by exists [].
    - apply let_inv in Htn as (x & Hx & [= <-]). destruct (encode_nodes_ok _ _ _ _ _ _ _ _ Hx) as (vs & Hvs & ->).
      exists vs. split; [done|]. by rewrite commas_if. }
  assert (exists oes ve, (if sep then get_edges g = Ok oes else oes = []) /\ Forall2 (edge_written_as g pm (number ns) true) oes ve /\
    te = if sep then TComma :: tkey "edges" ++ toks (JArr ve) else []) as (oes & ve & Hoes & Hve & Ete).
  { destruct sep.
    - apply rbind_Ok_inv in Hte as (es & Hes & Hte). apply let_inv in Hte as (x & Hx & [= <-]).
      destruct (encode_edges_ok _ _ _ _ _ _ _ Hx) as (vs & Hvs & ->). exists es, vs. split; [done|]. split; [done|]. by rewrite commas_if.
    - injection Hte as <-. by exists [], []. }
  exists vn, oes, ve. split; [done|]. split; [done|]. split; [done|]. subst tn te. split.
  - intros -> ->. eexists. rewrite decide_True by done. done.
  - intros Hc. case_decide as E; destruct sep; try (exfalso; naive_solver); cbn [toks map commas app fst snd tkey];
      repeat first [done | progress rewrite <-?app_assoc, ?app_nil_r; cbn [app] | f_equal].
Qed.

(** C41 *)
Lemma encode_text g pm sep ord lord ts : encode g pm sep ord lord = Ok (Some ts) ->
  sep = false \/ get_nodes g <> Ok [] -> object_text ts.
Proof.
  intros H Hc. destruct (encode_ok _ _ _ _ _ _ H) as (ns & Hns & vn & oes & ve & _ & _ & _ & _ & Hts). eexists. apply Hts.
  destruct Hc as [?|Hc]; [by right|left]. intros ->. done.
Qed.
Lemma encode_no_text g pm ord lord ts : encode g pm true ord lord = Ok (Some ts) -> get_nodes g = Ok [] -> forall v, ts <> toks v.
Proof.
  intros H Hn. destruct (encode_ok _ _ _ _ _ _ H) as (ns & Hns & vn & oes & ve & _ & _ & _ & Hts & _).
  assert (ns = []) as -> by congruence. destruct (Hts eq_refl eq_refl) as [r ->]. apply comma_no_json.
Qed.
