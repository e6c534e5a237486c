(** Proofs about Encode and Decode with marshalers that leave properties out or rename them. *)
From Verif Require Import Base Value Index Graph GraphSpec CoreProofs CoreStep AdjProofs NodeListProofs EdgeListProofs ProgressProofs CloneSpec JsonText Json
  JsonSpec JsonTripProofs JsonKeepSpec.
Local Open Scope string_scope.
Local Open Scope list_scope.

Lemma user_written f k v k' d : user f k v = Some (Some (k', d)) <-> f k v = Some (k', d) /\ k' <> "".
Proof.
  unfold user. destruct (f k v) as [[k2 d2]|]; [|naive_solver]. destruct (decide (k2 = "")) as [->|Hne].
  - split; [done|]. intros [[= <- <-] H]. done.
  - split; [by intros [= <- <-]|]. by intros [[= <- <-] _].
Qed.
Lemma user_left_out f k v : user f k v = Some None <-> exists d, f k v = Some ("", d).
Proof.
  unfold user. destruct (f k v) as [[k2 d2]|]; [|naive_solver]. destruct (decide (k2 = "")) as [->|Hne].
  - split; [by exists d2|done].
  - split; [done|]. intros [d [= -> ->]]. done.
Qed.
Lemma user_fails f k v : user f k v = None <-> f k v = None.
Proof. unfold user. destruct (f k v) as [[k2 d2]|]; done. Qed.
Lemma writes_comes_back f pu k v k2 v2 : writes (user f) pu k v k2 v2 <-> comes_back f pu k v k2 v2.
Proof.
  unfold writes, comes_back. split.
  - intros (H & k' & d & [E1 E2]%user_written & E3). by exists k', d.
  - intros (k' & d & E1 & E2 & E3 & E4). split; [done|]. exists k', d. by rewrite user_written.
Qed.
Lemma kept_turns f pu p q : kept f pu p q -> turns (user f) pu p q.
Proof.
  intros [H1 H2 H3 H4]. apply turns_intro.
  - intros k v Hp. destruct (H1 k v Hp) as (k' & d & E & H). unfold user. rewrite E. eexists. split; [done|].
    destruct (decide (k' = "")) as [|Hne]; [done|]. intros k2 d2 [= <- <-]. by apply H.
  - intros k1 v1 k2 v2 k' d1 d2 P1 P2 [E1 Hk]%user_written [E2 _]%user_written. by apply (H2 k1 v1 k2 v2 k' d1 d2).
  - intros k1 v1 k2 v2 k w1 w2 P1 P2. rewrite !writes_comes_back. by apply H3.
  - intros k v. rewrite H4. by setoid_rewrite writes_comes_back.
Qed.
Lemma kept_graph_turns f pu s s2 : kept_graph f pu s s2 -> turns_graph (user f) pu s s2.
Proof.
  intros (D1 & D2 & HN & HE). split; [by intros n; apply D1|]. split; [by intros e; apply D2|]. split.
  - intros n x Hx. destruct (proj2 (D1 n)) as [y Hy]; [by exists x|]. exists y. split; [done|].
    destruct (HN n x y Hx Hy) as (? & ? & ?%kept_turns). done.
  - intros e x Hx. destruct (proj2 (D2 e)) as [y Hy]; [by exists x|]. exists y. split; [done|].
    destruct (HE e x y Hx Hy) as (? & ? & ? & ? & ?%kept_turns). done.
Qed.
Lemma kept_trip sops src tops tgt f pu s2 sep ord lord lord' r :
  valid_history sops -> run sops = Ok src -> valid_history tops -> run tops = Ok tgt ->
  node_list_safe sops -> (sep = true -> edge_list_safe sops /\ s_nodes (srun sops) <> ∅) ->
  kept_graph f pu (srun sops) s2 -> node_order src ord -> label_order (srun sops) lord -> (forall i X, order_of X (lord' i X)) ->
  exists ts, encode src (user f) sep ord lord = Ok (Some ts) /\
    (forall g' b, decode pu lord' tgt (ts ++ r) = Ok (g', b) -> b = true /\
       exists ops' m h, valid_history (tops ++ ops') /\ run (tops ++ ops') = Ok g' /\ Forall adds ops' /\ copied (fun _ v => v) s2 (srun tops) (srun (tops ++ ops')) m h) /\
    (calls_safe tops -> can_hold tops (fun _ v => v) s2 -> exists x, decode pu lord' tgt (ts ++ r) = Ok x).
Proof.
  intros ? ? ? ? ? Hsep ?%kept_graph_turns ? ? ?. destruct sep.
  - destruct Hsep as [? ?]; [done|]. by eapply (turns_separate sops).
  - by eapply (turns_embedded sops).
Qed.
(** the properties that come back are determined *)
Lemma kept_unique f pu p q q' : kept f pu p q -> kept f pu p q' -> q = q'.
Proof. intros H1 H2. apply map_eq. intros k. apply option_eq. intros v. by rewrite (kept_props _ _ _ _ H1), (kept_props _ _ _ _ H2). Qed.

(** ** When Encode fails *)
Lemma marshal_error pm p : marshal_props pm p = None <-> exists k v, p !! k = Some v /\ pm k v = None.
Proof.
  unfold marshal_props. setoid_rewrite <-elem_of_map_to_list. generalize (∅ : gmap string json). induction (map_to_list p) as [|[k v] l IH]; intros m; cbn [foldl fst snd].
  { split; [done|]. intros (k & v & H & _). by apply elem_of_nil in H. }
  assert (Hnone : forall l, foldl (fun (acc : option (gmap string json)) (kv : string * value) => match acc with None => None
      | Some m => match pm kv.1 kv.2 with None => None | Some None => Some m | Some (Some (k, d)) => Some (<[k := d]> m) end end) None l = None)
    by (clear; induction l; done).
  assert (Hrest : pm k v <> None -> (exists k0 v0, (k0, v0) ∈ l /\ pm k0 v0 = None) <-> (exists k0 v0, (k0, v0) ∈ (k, v) :: l /\ pm k0 v0 = None)).
  { intros Hne. split; intros (k0 & v0 & H & E); exists k0, v0; (split; [|done]); [by right|]. apply elem_of_cons in H as [[= -> ->]|H]; done. }
  destruct (pm k v) as [[[k' d]|]|] eqn:E; [rewrite IH; by apply Hrest|rewrite IH; by apply Hrest|].
  rewrite Hnone. split; [|done]. intros _. exists k, v. split; [left|done].
Qed.
Section errors.
  Context (sops : list op) (src : graph) (Hv : valid_history sops) (Hr : run sops = Ok src) (pm : marshaler).
  Notation s := (srun sops).
  Definition edge_error (e : nat) : Prop := exists x k v, s_edges s !! e = Some x /\ e_props x !! k = Some v /\ pm k v = None.
  Definition node_error (n : nat) : Prop := exists x k v, s_nodes s !! n = Some x /\ sn_props x !! k = Some v /\ pm k v = None.
  Lemma encode_edges_error ix from es : forall first, (forall e, e ∈ es -> live_edge s e) ->
    (encode_edges src pm ix from first es = Ok None <-> exists e, e ∈ es /\ edge_error e) /\ exists o, encode_edges src pm ix from first es = Ok o.
  Proof.
    induction es as [|e es IH]; intros first Hl; cbn [encode_edges].
    { split; [|by eexists]. split; [done|]. intros (e & H & _). by apply elem_of_nil in H. }
    destruct (Hl e) as [x Hx]; [left|]. destruct (core_edge _ _ _ _ (core_run _ _ Hv Hr) Hx) as (He & _).
    unfold encode_edge, deref_edge. rewrite He. cbn [rbind]. destruct (marshal_props pm (e_props x)) as [m|] eqn:Em; cbn [mbind option_bind rbind].
    - destruct (IH [TComma]) as [IH1 [o Eo]]; [intros; apply Hl; by right|]. rewrite Eo in *. 
      assert (Hs : (exists e0, e0 ∈ es /\ edge_error e0) <-> exists e0, e0 ∈ e :: es /\ edge_error e0).
      { split; intros (e0 & H & E); exists e0; (split; [|done]); [by right|]. apply elem_of_cons in H as [->|H]; [|done].
        exfalso. destruct E as (y & k & v & Hy & Hk & Ek). assert (y = x) as -> by congruence.
        assert (marshal_props pm (e_props x) = None) by (apply marshal_error; eauto). congruence. }
      rewrite <-Hs, <-IH1. destruct o as [y|]; cbn [rbind]; (split; [|by eexists]); split; intros H; congruence.
    - split; [|by eexists]. split; [|done]. intros _. exists e. split; [left|]. apply marshal_error in Em as (k & v & H1 & H2). by exists x, k, v.
  Qed.
  Lemma encode_nodes_error sep ix lord ns : forall first, (forall n, n ∈ ns -> live_node s n) ->
    (encode_nodes src pm sep ix lord first ns = Ok None <->
       exists n, n ∈ ns /\ (node_error n \/ sep = false /\ exists e, is_out s n e /\ edge_error e)) /\
    exists o, encode_nodes src pm sep ix lord first ns = Ok o.
  Proof.
    induction ns as [|n ns IH]; intros first Hl; cbn [encode_nodes].
    { split; [|by eexists]. split; [done|]. intros (n & H & _). by apply elem_of_nil in H. }
    destruct (Hl n) as [x Hx]; [left|]. destruct (core_node _ _ _ _ (core_run _ _ Hv Hr) Hx) as (nd & Hnd & _ & EP).
    set (P := node_error n \/ sep = false /\ exists e, is_out s n e /\ edge_error e).
    assert (Hone : (encode_node src pm sep ix n (lord n) = Ok None <-> P) /\ exists o, encode_node src pm sep ix n (lord n) = Ok o).
    { unfold encode_node, deref_node. rewrite Hnd. cbn [rbind]. rewrite EP.
      assert (Hps : (exists m, (if decide (sn_props x = ∅) then Ok (Some []) else
          Ok (m ← marshal_props pm (sn_props x); Some (TComma :: tkey "properties" ++ toks (map_json m)))) = Ok (Some m) /\ ~ node_error n) \/
        (if decide (sn_props x = ∅) then Ok (Some []) else
          Ok (m ← marshal_props pm (sn_props x); Some (TComma :: tkey "properties" ++ toks (map_json m)))) = Ok None /\ node_error n).
      { assert (node_error n <-> marshal_props pm (sn_props x) = None) as Hne.
        { rewrite marshal_error. split.
          - intros (y & k & v & Hy & Hk & E). assert (y = x) as -> by congruence. by exists k, v.
          - intros (k & v & Hk & E). by exists x, k, v. }
        destruct (decide (sn_props x = ∅)) as [E0|_]; [left; eexists; split; [done|]; intros Hx0%Hne; by rewrite E0 in Hx0|].
        destruct (marshal_props pm (sn_props x)); cbn [mbind option_bind]; [left; eexists; split; [done|]; by intros ?%Hne|right; split; [done|]; by apply Hne]. }
      destruct Hps as [(m & -> & Hno)|[-> Hyes]]; cbn [rbind]; [|split; [|by eexists]; split; [|done]; intros _; by left].
      unfold P. destruct sep; [split; [|by eexists]; split; [done|]; intros [?|[? _]]; done|].
      destruct (node_edges_out src s (core_run _ _ Hv Hr) n (ex_intro _ x Hx)) as (es & Ees & [_ Hes]). rewrite Ees. cbn [rbind].
      destruct (encode_edges_error ix false es (TComma :: tkey "edges" ++ [TArr])) as [Hee [o Eo]]; [intros e (y & Hy & _)%Hes; by exists y|].
      rewrite Eo in *. setoid_rewrite Hes in Hee.
      destruct o as [te|]; cbn [rbind]; (split; [|by eexists]).
      - split; [done|]. intros [?|[_ ?]]; [done|]. exfalso. assert (Ok (Some te) = Ok (None : option (list jtok))) by (by apply Hee). done.
      - split; [|done]. intros _. right. split; [done|]. by apply Hee. }
    destruct (IH [TComma]) as [IH1 [o Eo]]; [intros; apply Hl; by right|]. destruct Hone as [H1 [o1 E1]]. rewrite E1 in *.
    destruct o1 as [t|]; cbn [rbind].
    - rewrite Eo in *.
      assert (Hs : (exists e, e ∈ ns /\ (node_error e \/ sep = false /\ exists e0, is_out s e e0 /\ edge_error e0)) <->
                   exists e, e ∈ n :: ns /\ (node_error e \/ sep = false /\ exists e0, is_out s e e0 /\ edge_error e0)).
      { split; intros (e0 & H & E); exists e0; (split; [|done]); [by right|]. apply elem_of_cons in H as [->|H]; [|done].
        exfalso. apply H1 in E. done. }
      rewrite <-Hs, <-IH1. destruct o as [y|]; cbn [rbind]; (split; [|by eexists]); split; intros H; congruence.
    - split; [|by eexists]. split; [|done]. intros _. exists n. split; [left|]. by apply H1.
  Qed.
End errors.
Lemma encode_error sops src f sep ord lord : valid_history sops -> run sops = Ok src ->
  node_list_safe sops -> (sep = true -> edge_list_safe sops) -> node_order src ord ->
  (encode src (user f) sep ord lord = Ok None <-> some_error f (srun sops)) /\ exists o, encode src (user f) sep ord lord = Ok o.
Proof.
  intros Hv Hr Hns Hes (ns & Ens & Hp). destruct (get_nodes_ok sops src Hv Hr Hns) as (ns' & Ens' & [[H1 H2] _]). assert (ns' = ns) as -> by congruence.
  unfold encode. rewrite Ens. cbn [rbind].
  destruct (encode_nodes_error sops src Hv Hr (user f) sep (number ns) lord ord []) as [Hn [on En]]; [intros n Hin; apply H2; by rewrite <-Hp|].
  assert (Hte : forall P : Prop, (sep = true -> ((exists e, edge_error sops (user f) e) <-> P)) -> (sep = false -> ~ P) ->
    ((if sep then let! es := get_edges src in let? x := encode_edges src (user f) (number ns) true [] es in
        Ok (Some (TComma :: tkey "edges" ++ [TArr] ++ x ++ [TArrEnd])) else Ok (Some [])) = Ok None /\ P) \/
    exists te, (if sep then let! es := get_edges src in let? x := encode_edges src (user f) (number ns) true [] es in
        Ok (Some (TComma :: tkey "edges" ++ [TArr] ++ x ++ [TArrEnd])) else Ok (Some [])) = Ok (Some te) /\ ~ P).
  { intros P Hst Hsf. destruct sep; [|right; eexists; split; [done|by apply Hsf]].
    destruct (get_edges_ok sops src Hv Hr (Hes eq_refl)) as ((es & E & [_ Hl]) & _). rewrite E. cbn [rbind].
    destruct (encode_edges_error sops src Hv Hr (user f) (number ns) true es []) as [He [o Eo]]; [intros e He; by apply Hl|].
    rewrite Eo in *. assert ((exists e, e ∈ es /\ edge_error sops (user f) e) <-> P) as HP.
    { rewrite <-(Hst eq_refl). split; [intros (e & _ & ?); by exists e|]. intros (e & x & Hx). exists e. split; [|by exists x]. apply Hl. destruct Hx as (k & v & Hx & _). by exists x. }
    rewrite HP in He. destruct o as [t|]; cbn [rbind].
    - right. eexists. split; [done|]. intros HP'. apply He in HP'. done.
    - left. split; [done|]. by apply He. }
  assert (HN : (exists n, node_error sops (user f) n) <-> exists n x k v, s_nodes (srun sops) !! n = Some x /\ sn_props x !! k = Some v /\ f k v = None).
  { unfold node_error. by setoid_rewrite user_fails. }
  assert (HE : (exists n, edge_error sops (user f) n) <-> exists n x k v, s_edges (srun sops) !! n = Some x /\ e_props x !! k = Some v /\ f k v = None).
  { unfold edge_error. by setoid_rewrite user_fails. }
  unfold some_error. rewrite <-HN, <-HE. clear HN HE.
  assert (Hall : (exists n, n ∈ ord /\ (node_error sops (user f) n \/ sep = false /\ exists e, is_out (srun sops) n e /\ edge_error sops (user f) e)) <->
    (exists n, node_error sops (user f) n) \/ sep = false /\ exists e, edge_error sops (user f) e).
  { split.
    - intros (n & _ & [?|(? & e & _ & ?)]); [left; by exists n|right; split; [done|]; by exists e].
    - intros [(n & x & k & v & Hx & ?)|(Hsep & e & x & k & v & Hx & ?)].
      + exists n. split; [rewrite Hp; apply H2; by exists x|]. left. exists x, k, v. done.
      + exists (e_from x). split.
        * rewrite Hp. apply H2. by apply (core_edge _ _ _ _ (core_run _ _ Hv Hr) Hx).
        * right. split; [done|]. exists e. split; [by exists x|]. by exists x, k, v. }
  rewrite Hall in Hn. clear Hall.
  assert (Htn : forall Q : Prop, (Q <-> ((exists n, node_error sops (user f) n) \/ sep = false /\ exists e, edge_error sops (user f) e)) ->
    (exists tn, (if decide (ns = []) then Ok (Some []) else
      let? x := encode_nodes src (user f) sep (number ns) lord [] ord in Ok (Some (tkey "nodes" ++ [TArr] ++ x ++ [TArrEnd]))) = Ok (Some tn) /\ ~ Q) \/
    ((if decide (ns = []) then Ok (Some []) else
      let? x := encode_nodes src (user f) sep (number ns) lord [] ord in Ok (Some (tkey "nodes" ++ [TArr] ++ x ++ [TArrEnd]))) = Ok None /\ Q)).
  { intros Q HQ. rewrite <-HQ in Hn. destruct (decide (ns = [])) as [->|Hne].
    - left. eexists. split; [done|]. assert (ord = []) as -> by (by apply Permutation_nil_r). cbn [encode_nodes] in Hn.
      intros HQ'%Hn. done.
    - rewrite En in *. destruct on as [x|]; cbn [rbind].
      + left. eexists. split; [done|]. intros HQ'%Hn. done.
      + right. split; [done|]. by apply Hn. }
  destruct (Htn _ (iff_refl _)) as [(tn & -> & HQ)|[-> HQ]]; cbn [rbind].
  - destruct (Hte (sep = true /\ exists e, edge_error sops (user f) e)) as [[-> [? HP]]|(te & -> & HP)]; cbn [rbind].
    + tauto.
    + intros ->. by intros [? _].
    + split; [|by eexists]. split; [|done]. intros _. by right.
    + split; [|by eexists]. split; [done|]. intros [?|?]; [by destruct HQ; left|]. exfalso. destruct sep; [by apply HP|]. apply HQ. by right.
  - split; [|by eexists]. split; [|done]. intros _. destruct HQ as [?|[_ ?]]; [by left|by right].
Qed.
