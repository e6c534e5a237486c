(** Proofs about Encode with a writer that may fail. *)
From Verif Require Import Base Value Graph GraphSpec Sizes CoreProofs CoreStep AdjProofs NodeListProofs EdgeListProofs CloneProofs JsonText JsonTextProofs Json JsonSpec JsonEncProofs JsonTripProofs JsonWrite JsonWriteSpec.
Local Open Scope string_scope.
Local Open Scope list_scope.

(** ** Nesting *)
Definition tdepth (t : jtok) : Z := match t with TObj | TArr => 1 | TObjEnd | TArrEnd => -1 | _ => 0 end.
Fixpoint depth (ts : list jtok) : Z := match ts with [] => 0 | t :: r => tdepth t + depth r end.
Lemma depth_app a b : depth (a ++ b) = (depth a + depth b)%Z.
Proof. induction a as [|t a IH]; cbn; [lia|]. rewrite IH. lia. Qed.
Lemma depth_commas l : Forall (fun ts => depth ts = 0%Z) l -> depth (commas l) = 0%Z.
Proof.
  induction 1 as [|ts l H Hl IH]; [done|]. destruct l as [|ts' l]; [done|].
  change (commas (ts :: ts' :: l)) with (ts ++ TComma :: commas (ts' :: l)). rewrite depth_app, H. cbn [depth tdepth]. rewrite IH. lia.
Qed.
Fixpoint depth_toks (v : json) : depth (toks v) = 0%Z.
Proof.
  destruct v as [s|l|l]; cbn [toks depth tdepth]; [done| |]; rewrite depth_app, depth_commas; cbn; try lia.
  - induction l as [|v l IH]; constructor; [apply depth_toks|exact IH].
  - induction l as [|[k v] l IH]; constructor; [cbn; by rewrite depth_toks|exact IH].
Qed.
Lemma toks_not_nil v : toks v <> [].
Proof. by destruct v. Qed.

(** ** What a part of Encode writes *)
Definition part : Type := forall T : Type, writer T -> T -> res (option werr * T).
Definition ends (o : option (list jtok)) : option werr := match o with Some _ => None | None => Some EMarshal end.
Definition feeds {T} (w : writer T) (cs : list (list jtok)) (o : option (list jtok)) (t : T) : option werr * T :=
  let '(ok, t) := feed w cs t in (if ok then ends o else Some EWrite, t).
(** [m] writes the text [o], from nesting [a] to nesting [b], staying within the outermost object *)
Definition makes (a b : Z) (m : part) (o : option (list jtok)) : Prop := exists cs,
  (forall T (w : writer T) t, m T w t = Ok (feeds w cs o t)) /\
  (forall ts, o = Some ts -> concat cs = ts /\ (a + depth ts = b)%Z) /\
  (forall p, p `prefix_of` cs -> 1 <= a + depth (concat p))%Z.
Lemma feed_app {T} (w : writer T) cs1 cs2 t : feed w (cs1 ++ cs2) t = let '(ok, t) := feed w cs1 t in if ok then feed w cs2 t else (false, t).
Proof. revert t. induction cs1 as [|c cs1 IH]; intros t; [done|]. cbn [feed app]. destruct (w c t) as [[] t']; [apply IH|done]. Qed.
Lemma prefix_app_cases {A} (p l1 l2 : list A) : p `prefix_of` l1 ++ l2 -> p `prefix_of` l1 \/ exists q, p = l1 ++ q /\ q `prefix_of` l2.
Proof.
  revert p. induction l1 as [|x l1 IH]; intros p Hp; [right; by exists p|]. destruct p as [|y p]; [left; apply prefix_nil|].
  cbn in Hp. pose proof (prefix_cons_inv_1 _ _ _ _ Hp) as ->. apply prefix_cons_inv_2 in Hp. destruct (IH _ Hp) as [H|(q & -> & Hq)].
  - left. by apply prefix_cons.
  - right. by exists q.
Qed.
Lemma makes_ext a b m m' o : (forall T w t, m T w t = m' T w t) -> makes a b m o -> makes a b m' o.
Proof. intros E (cs & H1 & H2). exists cs. split; [|done]. intros T w t. by rewrite <-E. Qed.
Lemma makes_nil a : (1 <= a)%Z -> makes a a (fun T w => wnil) (Some []).
Proof.
  intros Ha. exists []. split; [done|]. split; [intros ts [= <-]; cbn; split; [done|lia]|]. intros p ->%prefix_nil_inv. cbn. lia.
Qed.
Lemma makes_wr a b ts : (1 <= a)%Z -> (1 <= b)%Z -> (a + depth ts = b)%Z -> makes a b (fun T w => wr w ts) (Some ts).
Proof.
  intros Ha Hb Hab. exists [ts]. split; [|split].
  - intros T w t. unfold wr, feeds. cbn [feed]. destruct (w ts t) as [[] t']; done.
  - intros ts' [= <-]. cbn. by rewrite app_nil_r.
  - intros p Hp. apply (prefix_app_cases p [ts] []) in Hp as [Hp|(q & -> & ->%prefix_nil_inv)].
    + destruct p as [|y p]; [cbn; lia|]. pose proof (prefix_cons_inv_1 _ _ _ _ Hp) as ->. apply prefix_cons_inv_2, prefix_nil_inv in Hp as ->. cbn. rewrite app_nil_r. lia.
    + cbn. rewrite app_nil_r. lia.
Qed.
(** sequences; if the first part ends with an error, the second one does not matter *)
Lemma makes_seq a b c m1 m2 ts1 o2 : makes a b m1 (Some ts1) -> makes b c m2 o2 ->
  makes a c (fun T w => wseq (m1 T w) (m2 T w)) (ts2 ← o2; Some (ts1 ++ ts2)).
Proof.
  intros (cs1 & E1 & F1 & P1) (cs2 & E2 & F2 & P2). destruct (F1 _ eq_refl) as [Hc1 Hd1]. exists (cs1 ++ cs2). split; [|split].
  - intros T w t. unfold wseq. rewrite E1. unfold feeds. rewrite feed_app. cbn [rbind]. destruct (feed w cs1 t) as [[] t1]; [|done]. cbn [fst snd ends].
    rewrite E2. unfold feeds. destruct (feed w cs2 t1) as [[] t2]; [|done]. by destruct o2.
  - intros ts. destruct o2 as [ts2|]; [|done]. intros [= <-]. destruct (F2 _ eq_refl) as [Hc2 Hd2]. rewrite concat_app, Hc1, Hc2, depth_app. split; [done|lia].
  - intros p [Hp|(q & -> & Hq)]%prefix_app_cases; [by apply P1|]. rewrite concat_app, depth_app, Hc1. specialize (P2 _ Hq). lia.
Qed.
Lemma makes_stop a b c m1 m2 : makes a b m1 None -> makes a c (fun T w => wseq (m1 T w) (m2 T w)) None.
Proof.
  intros (cs & E & _ & P). exists cs. split; [|done]. intros T w t. unfold wseq. rewrite E. unfold feeds. cbn [rbind]. by destruct (feed w cs t) as [[] t1].
Qed.
Lemma makes_wrs l : forall a b, (1 <= a)%Z -> (forall p, p `prefix_of` l -> 1 <= a + depth (concat p))%Z -> (a + depth (concat l) = b)%Z ->
  makes a b (fun T w => wrs w l) (Some (concat l)).
Proof.
  induction l as [|ts l IH]; intros a b Ha Hp Hb; cbn [wrs].
  - cbn in *. assert (a = b) as -> by lia. by apply makes_nil.
  - cbn [concat] in *. rewrite depth_app in Hb.
    assert (1 <= a + depth ts)%Z as H1. { specialize (Hp [ts] ltac:(apply prefix_cons, prefix_nil)). cbn in Hp. by rewrite app_nil_r in Hp. }
    apply (makes_seq a (a + depth ts) b (fun T w => wr w ts) (fun T w => wrs w l) ts (Some (concat l))).
    + by apply makes_wr.
    + apply IH; [done| |lia]. intros p Hpl. specialize (Hp (ts :: p) ltac:(by apply prefix_cons)). cbn in Hp. rewrite depth_app in Hp. lia.
Qed.
Lemma makes_props a b pm p k o : (1 <= a)%Z -> (forall m, marshal_props pm p = Some m -> makes a b (fun T w => k T w m) (o m)) ->
  makes a b (fun T w => wprops pm p (k T w)) (m ← marshal_props pm p; o m).
Proof.
  intros Ha Hk. destruct (marshal_props pm p) as [m|] eqn:E; cbn [mbind option_bind].
  - eapply makes_ext; [|by apply Hk]. intros T w t. unfold wprops. by rewrite E.
  - exists []. split; [|split]; [|done|intros q ->%prefix_nil_inv; cbn; lia]. intros T w t. unfold wprops. rewrite E. done.
Qed.
(** all tokens of [l] but openings and commas leave the nesting as it is *)
Lemma prefixes_up l : Forall (fun ts => (0 <= depth ts)%Z) l -> forall a, (1 <= a)%Z -> forall p, p `prefix_of` l -> (1 <= a + depth (concat p))%Z.
Proof.
  intros Hl a Ha p [k ->]. apply Forall_app in Hl as [Hl _]. clear k. assert (0 <= depth (concat p))%Z; [|lia].
  induction Hl as [|ts p H Hp IH]; [done|]. cbn. rewrite depth_app. lia.
Qed.
Ltac ups := apply prefixes_up; [repeat constructor; cbn [depth tdepth tkey]; rewrite ?depth_toks; lia|lia].

(** ** Encode *)
Lemma Ok_inj {A} (x y : A) : Ok x = Ok y -> x = y.
Proof. by intros [= ->]. Qed.
Section encode.
  Context (g : graph) (pm : marshaler) (sep : bool) (ix : gmap nat nat).
  Lemma w_edge_makes from e o a : (1 <= a)%Z -> encode_edge g pm ix from e = Ok o -> makes a a (fun T w => w_edge w g pm ix from e) o.
  Proof.
    intros Ha H. unfold encode_edge in H. apply rbind_Ok_inv in H as (ed & Hed & H). apply Ok_inj in H as <-.
    eapply makes_ext; [|apply (makes_props a a pm (e_props ed) (fun T w p => wr w (toks (edge_json ix from (e_from ed) (e_to ed) (e_label ed) p))))]; [|done|].
    - intros T w t. unfold w_edge. by rewrite Hed.
    - intros m _. apply makes_wr; [done|done|]. rewrite depth_toks. lia.
  Qed.
  Lemma w_edges_makes from es : forall first o a, (1 <= a)%Z -> Forall (fun ts => (0 <= depth ts)%Z) first -> encode_edges g pm ix from (concat first) es = Ok o ->
    makes a (if decide (es = []) then a else a + depth (concat first)) (fun T w => w_edges w g pm ix from first es) o.
  Proof.
    induction es as [|e es IH]; intros first o a Ha Hf H; cbn [encode_edges w_edges] in *.
    - injection H as <-. by apply makes_nil.
    - rewrite decide_False by done. assert (1 <= a + depth (concat first))%Z as Hb by (by eapply prefixes_up).
      assert (makes a (a + depth (concat first)) (fun T w => wrs w first) (Some (concat first))) as H1 by (apply makes_wrs; [done|by apply prefixes_up|done]).
      apply rbind_Ok_inv in H as (x & Hx & H). apply (w_edge_makes _ _ _ _ Hb) in Hx as H2. destruct x as [x|]; [|injection H as <-].
      2:{ apply (makes_stop _ _ (a + depth (concat first)) _ (fun T w => w_edges w g pm ix from [[TComma]] es)) in H2. by apply (makes_seq _ _ _ _ _ _ _ H1 H2). }
      apply rbind_Ok_inv in H as (y & Hy & H). change [TComma] with (concat [[TComma]]) in Hy. apply (IH _ _ _ Hb) in Hy as H3; [|repeat constructor; done].
      replace (if decide (es = []) then _ else _)%Z with (a + depth (concat first))%Z in H3 by (destruct (decide (es = [])); cbn; lia).
      pose proof (makes_seq _ _ _ _ _ _ _ H1 (makes_seq _ _ _ _ _ _ _ H2 H3)) as Hall. destruct y; by injection H as <-.
  Qed.
  Lemma w_node_makes n ord o a : (1 <= a)%Z -> encode_node g pm sep ix n ord = Ok o -> makes a a (fun T w => w_node w g pm sep ix n ord) o.
  Proof.
    intros Ha H. unfold encode_node in H. apply rbind_Ok_inv in H as (nd & Hnd & H). cbv zeta in H.
    apply (makes_ext _ _ (fun T w => wseq (wrs w [[TObj]; tkey "n"; [TS (SNum (index_of ix n))]])
     (wseq (if decide (n_labels nd = ∅) then wnil else
            wrs w [[TComma]; tkey "labels"; toks (JArr (map (fun l => JS (SStr (json_str l))) ord))])
     (wseq (if decide (n_props nd = ∅) then wnil else
            wseq (wrs w [[TComma]; tkey "properties"]) (wprops pm (n_props nd) (fun m => wr w (toks (map_json m)))))
     (if sep then wr w [TObjEnd] else fun t =>
      let! es := node_edges g n Outgoing in
      wseq (w_edges w g pm ix false [[TComma]; tkey "edges"; [TArr]] es)
     (wseq (if decide (es = []) then wnil else wr w [TArrEnd]) (wr w [TObjEnd])) t))))).
    { intros T w t. unfold w_node. by rewrite Hnd. }
    assert (makes a (a + 1) (fun T w => wrs w [[TObj]; tkey "n"; [TS (SNum (index_of ix n))]]) (Some (TObj :: tkey "n" ++ [TS (SNum (index_of ix n))]))) as H1.
    { apply makes_wrs; [done|ups|cbn; lia]. }
    assert (makes (a + 1) (a + 1) (fun T w => if decide (n_labels nd = ∅) then wnil else
            wrs w [[TComma]; tkey "labels"; toks (JArr (map (fun l => JS (SStr (json_str l))) ord))])
      (Some (if decide (n_labels nd = ∅) then [] else TComma :: tkey "labels" ++ toks (JArr (map (fun l => JS (SStr (json_str l))) ord))))) as H2.
    { destruct (decide (n_labels nd = ∅)); [apply makes_nil; lia|].
      pose proof (makes_wrs [[TComma]; tkey "labels"; toks (JArr (map (fun l => JS (SStr (json_str l))) ord))] (a + 1) (a + 1)) as Hw.
      set (v := JArr _) in *. clearbody v. cbn [concat app] in Hw. rewrite app_nil_r in Hw. apply Hw; [lia|ups|]. cbn [depth tdepth tkey app]. rewrite depth_toks. lia. }
    set (lab := if decide (n_labels nd = ∅) then [] else _) in *. clearbody lab.
    apply rbind_Ok_inv in H as (ps & Hps & H).
    assert (makes (a + 1) (a + 1) (fun T w => if decide (n_props nd = ∅) then wnil else
            wseq (wrs w [[TComma]; tkey "properties"]) (wprops pm (n_props nd) (fun m => wr w (toks (map_json m))))) ps) as H3.
    { destruct (decide (n_props nd = ∅)); [injection Hps as <-; apply makes_nil; lia|]. injection Hps as <-.
      assert (makes (a + 1) (a + 1) (fun T w => wrs w [[TComma]; tkey "properties"]) (Some (TComma :: tkey "properties"))) as H31 by (apply makes_wrs; [lia|ups|cbn; lia]).
      assert (makes (a + 1) (a + 1) (fun T w => wprops pm (n_props nd) (fun m => wr w (toks (map_json m)))) (m ← marshal_props pm (n_props nd); Some (toks (map_json m)))) as H32.
      { apply (makes_props (a + 1) (a + 1) pm (n_props nd) (fun T w m => wr w (toks (map_json m)))); [lia|]. intros m _. apply makes_wr; [lia|lia|]. rewrite depth_toks. lia. }
      pose proof (makes_seq _ _ _ _ _ _ _ H31 H32) as Hs. destruct (marshal_props pm (n_props nd)); exact Hs. }
    destruct ps as [ps|]; [|injection H as <-; exact (makes_seq _ _ _ _ _ _ _ H1 (makes_seq _ _ _ _ _ _ _ H2 (makes_stop _ _ a _ _ H3)))].
    assert (makes (a + 1) a (fun T w => wr w [TObjEnd]) (Some [TObjEnd])) as H5 by (apply makes_wr; cbn; lia).
    destruct sep.
    - injection H as <-. pose proof (makes_seq _ _ _ _ _ _ _ H1 (makes_seq _ _ _ _ _ _ _ H2 (makes_seq _ _ _ _ _ _ _ H3 H5))) as Hs.
      cbn [mbind option_bind] in Hs. cbn [app] in Hs |- *. rewrite <- ?app_assoc in Hs |- *. exact Hs.
    - apply rbind_Ok_inv in H as (es & Hes & H). apply rbind_Ok_inv in H as (te & Hte & H).
      change (TComma :: tkey "edges" ++ [TArr]) with (concat [[TComma]; tkey "edges"; [TArr]]) in Hte.
      apply (w_edges_makes _ _ _ _ (a + 1)) in Hte as H4; [|lia|repeat constructor; cbn; lia].
      apply (makes_ext _ _ (fun T w => wseq (wrs w [[TObj]; tkey "n"; [TS (SNum (index_of ix n))]])
     (wseq (if decide (n_labels nd = ∅) then wnil else
            wrs w [[TComma]; tkey "labels"; toks (JArr (map (fun l => JS (SStr (json_str l))) ord))])
     (wseq (if decide (n_props nd = ∅) then wnil else
            wseq (wrs w [[TComma]; tkey "properties"]) (wprops pm (n_props nd) (fun m => wr w (toks (map_json m)))))
      (wseq (w_edges w g pm ix false [[TComma]; tkey "edges"; [TArr]] es)
     (wseq (if decide (es = []) then wnil else wr w [TArrEnd]) (wr w [TObjEnd]))))))).
      { intros T w t. rewrite Hes. done. }
      destruct te as [te|]; [|injection H as <-; exact (makes_seq _ _ _ _ _ _ _ H1 (makes_seq _ _ _ _ _ _ _ H2 (makes_seq _ _ _ _ _ _ _ H3 (makes_stop _ _ a _ _ H4))))].
      injection H as <-.
      assert (makes (if decide (es = []) then a + 1 else a + 1 + depth (concat [[TComma]; tkey "edges"; [TArr]])) (a + 1)
        (fun T w => if decide (es = []) then wnil else wr w [TArrEnd]) (Some (if decide (es = []) then [] else [TArrEnd]))) as H6.
      { destruct (decide (es = [])); [apply makes_nil; lia|]. apply makes_wr; cbn; lia. }
      pose proof (makes_seq _ _ _ _ _ _ _ H1 (makes_seq _ _ _ _ _ _ _ H2 (makes_seq _ _ _ _ _ _ _ H3 (makes_seq _ _ _ _ _ _ _ H4 (makes_seq _ _ _ _ _ _ _ H6 H5))))) as Hs.
      cbn [mbind option_bind] in Hs. cbn [app] in Hs |- *. rewrite <- ?app_assoc in Hs |- *. exact Hs.
  Qed.
  Lemma w_nodes_makes lord ns : forall first o a, (1 <= a)%Z -> Forall (fun ts => depth ts = 0%Z) first -> encode_nodes g pm sep ix lord (concat first) ns = Ok o ->
    makes a a (fun T w => w_nodes w g pm sep ix lord first ns) o.
  Proof.
    induction ns as [|n ns IH]; intros first o a Ha Hf H; cbn [encode_nodes w_nodes] in *.
    - injection H as <-. by apply makes_nil.
    - assert (makes a a (fun T w => wrs w first) (Some (concat first))) as H1.
      { apply makes_wrs; [done| |].
        - apply prefixes_up; [|done]. eapply Forall_impl; [exact Hf|]. cbn. intros; lia.
        - assert (depth (concat first) = 0%Z) as ->; [|lia]. clear -Hf. induction Hf as [|x f Hx Hf IH]; [done|]. cbn. by rewrite depth_app, Hx, IH. }
      apply rbind_Ok_inv in H as (x & Hx & H). apply (w_node_makes _ _ _ _ Ha) in Hx as H2. destruct x as [x|]; [|injection H as <-].
      2:{ exact (makes_seq _ _ _ _ _ _ _ H1 (makes_stop _ _ a _ _ H2)). }
      apply rbind_Ok_inv in H as (y & Hy & H). change [TComma] with (concat [[TComma]]) in Hy. apply (IH _ _ _ Ha) in Hy as H3; [|repeat constructor; done].
      pose proof (makes_seq _ _ _ _ _ _ _ H1 (makes_seq _ _ _ _ _ _ _ H2 H3)) as Hall. destruct y; by injection H as <-.
  Qed.
End encode.

Theorem encode_writes g pm sep ord lord o : encode g pm sep ord lord = Ok o -> exists cs,
  (forall (T : Type) (w : writer T) t, encode_to w g pm sep ord lord t =
     Ok (let '(ok, t) := feed w cs t in (if ok then match o with Some _ => None | None => Some EMarshal end else Some EWrite, t))) /\
  (forall ts, o = Some ts -> concat cs = ts) /\
  (forall p, p `prefix_of` cs -> p <> cs \/ o = None -> incomplete (concat p)).
Proof.
  unfold encode. intros H. apply rbind_Ok_inv in H as (ns & Hns & H). cbv zeta in H. apply rbind_Ok_inv in H as (tn & Htn & H).
  set (ix := number ns) in *.
  set (body1 := fun (T : Type) (w : writer T) => if decide (ns = []) then wnil else
          wseq (wrs w [tkey "nodes"; [TArr]]) (wseq (w_nodes w g pm sep ix lord [] ord) (wr w [TArrEnd]))).
  set (body2 := fun (T : Type) (w : writer T) => if sep then wseq (wrs w [[TComma]; tkey "edges"; [TArr]]) (fun t =>
          let! es := get_edges g in wseq (w_edges w g pm ix true [] es) (wr w [TArrEnd]) t) else wnil).
  assert (forall (T : Type) (w : writer T) t, encode_to w g pm sep ord lord t = wseq (wr w [TObj]) (wseq (body1 T w) (wseq (body2 T w) (wr w [TObjEnd]))) t) as E.
  { intros T w t. unfold encode_to. by rewrite Hns. }
  assert (makes 1 1 body1 tn) as H1.
  { unfold body1. destruct (decide (ns = [])); [injection Htn as <-; apply makes_nil; lia|]. apply rbind_Ok_inv in Htn as (x & Hx & Htn).
    assert (makes 1 2 (fun T w => wrs w [tkey "nodes"; [TArr]]) (Some (tkey "nodes" ++ [TArr]))) as A1 by (apply makes_wrs; [lia|ups|cbn; lia]).
    apply (w_nodes_makes g pm sep ix lord ord [] x 2) in Hx as A2; [|lia|constructor].
    assert (makes 2 1 (fun T w => wr w [TArrEnd]) (Some [TArrEnd])) as A3 by (apply makes_wr; cbn; lia). destruct x as [x|].
    - apply Ok_inj in Htn as <-. pose proof (makes_seq _ _ _ _ _ _ _ A1 (makes_seq _ _ _ _ _ _ _ A2 A3)) as A. exact A.
    - apply Ok_inj in Htn as <-. exact (makes_seq _ _ _ _ _ _ _ A1 (makes_stop _ _ 1 _ _ A2)). }
  assert (exists ob, (ts2 ← ob; Some (TObj :: ts2 ++ [TObjEnd])) = o /\ makes 1 1 (fun T w => wseq (body1 T w) (body2 T w)) ob) as (ob & Eo & Hb).
  { destruct tn as [tn|]; [|apply Ok_inj in H as <-; exists None; split; [done|exact (makes_stop _ _ 1 _ _ H1)]].
    apply rbind_Ok_inv in H as (te & Hte & H).
    assert (makes 1 1 body2 te) as H2.
    { unfold body2. destruct sep; [|injection Hte as <-; apply makes_nil; lia]. apply rbind_Ok_inv in Hte as (es & Hes & Hte). apply rbind_Ok_inv in Hte as (x & Hx & Hte).
      assert (makes 1 2 (fun T w => wrs w [[TComma]; tkey "edges"; [TArr]]) (Some (TComma :: tkey "edges" ++ [TArr]))) as A1 by (apply makes_wrs; [lia|ups|cbn; lia]).
      apply (w_edges_makes g pm ix true es [] x 2) in Hx as A2; [|lia|constructor].
      replace (if decide (es = []) then _ else _)%Z with 2%Z in A2 by (by destruct (decide (es = []))).
      assert (makes 2 1 (fun T w => wr w [TArrEnd]) (Some [TArrEnd])) as A3 by (apply makes_wr; cbn; lia).
      apply (makes_ext _ _ (fun T w => wseq (wrs w [[TComma]; tkey "edges"; [TArr]]) (wseq (w_edges w g pm ix true [] es) (wr w [TArrEnd])))).
      { intros T w t. unfold wseq at 1 3. destruct (wrs w _ t) as [[[e|] t1]| |]; try done. cbn [rbind fst snd]. by rewrite Hes. }
      destruct x as [x|].
      - apply Ok_inj in Hte as <-. pose proof (makes_seq _ _ _ _ _ _ _ A1 (makes_seq _ _ _ _ _ _ _ A2 A3)) as A. exact A.
      - apply Ok_inj in Hte as <-. exact (makes_seq _ _ _ _ _ _ _ A1 (makes_stop _ _ 1 _ _ A2)). }
    eexists. split; [|exact (makes_seq _ _ _ _ _ _ _ H1 H2)]. destruct te as [te|]; apply Ok_inj in H as <-; [|done]. cbn [mbind option_bind]. by rewrite <-app_assoc. }
  clear Htn H H1. clearbody body1 body2. destruct Hb as (cs & Hcs & Hconc & Hdep).
  exists ([TObj] :: cs ++ match ob with Some _ => [[TObjEnd]] | None => [] end). split; [|split].
  - intros T w t. rewrite E. unfold wseq at 1, wr at 1. cbn [rbind feed]. destruct (w [TObj] t) as [[] t0]; [|done]. cbn [rbind fst snd].
    rewrite feed_app. specialize (Hcs T w t0). unfold feeds in Hcs. destruct (feed w cs t0) as [ok t1].
    unfold wseq at 1 2. unfold wseq in Hcs. destruct (body1 T w t0) as [[[e|] tb]| |]; cbn [rbind fst snd] in Hcs |- *; try done.
    + destruct ok, ob as [tb'|]; cbn [ends] in Hcs; cbn in Eo; first [discriminate Hcs|injection Hcs as -> ->; by subst o].
    + unfold wseq. rewrite Hcs. cbn [rbind fst snd]. destruct ok; [|done]. destruct ob as [tb'|]; cbn [ends] in *; cbn in Eo; subst o; [|done].
      unfold wr. cbn [feed]. by destruct (w [TObjEnd] t1) as [[] t2].
  - intros ts ->. destruct ob as [tb|]; [|done]. cbn in Eo. injection Eo as <-. destruct (Hconc _ eq_refl) as [<- _]. cbn. by rewrite concat_app.
  - intros p Hp Hne v Hv. destruct p as [|c p]; [cbn in Hv; by destruct (toks_not_nil v)|].
    pose proof (prefix_cons_inv_1 _ _ _ _ Hp) as ->. apply prefix_cons_inv_2 in Hp. apply (f_equal depth) in Hv. rewrite depth_toks in Hv. cbn in Hv.
    apply prefix_app_cases in Hp as [Hp|(q & -> & Hq)]; [specialize (Hdep _ Hp); lia|].
    assert (q = [] \/ exists tb, ob = Some tb /\ q = [[TObjEnd]]) as [->|(tb & -> & ->)].
    { destruct ob as [tb|]; [|left; by apply prefix_nil_inv in Hq]. destruct q as [|c q]; [by left|]. right.
      pose proof (prefix_cons_inv_1 _ _ _ _ Hq) as ->. apply prefix_cons_inv_2, prefix_nil_inv in Hq as ->. eauto. }
    + rewrite app_nil_r in Hv. specialize (Hdep cs ltac:(done)). lia.
    + destruct Hne as [Hne| ->]; [by destruct Hne|done].
Qed.

(** ** The writer that keeps a list *)
Lemma feed_recording {T} (w : writer T) cs : forall t l, Forall (fun p => p.2 = true) l ->
  exists t' l', feed (recording w) cs (t, l) = (true, (t', l ++ map (fun c => (c, true)) cs)) /\ l' = cs /\ feed w cs t = (true, t') \/
    exists c, l' ++ [c] `prefix_of` cs /\ feed (recording w) cs (t, l) = (false, (t', l ++ map (fun c => (c, true)) l' ++ [(c, false)])) /\ feed w cs t = (false, t').
Proof.
  induction cs as [|c cs IH]; intros t l Hl; cbn [feed].
  - exists t, []. left. cbn. by rewrite app_nil_r.
  - unfold recording at 1 3. cbn [fst snd]. destruct (w c t) as [[] t1] eqn:Ew.
    + destruct (IH t1 (l ++ [(c, true)])) as (t' & l' & [(E1 & -> & E2)|(c' & Hp & E1 & E2)]).
      { apply Forall_app. split; [done|]. by constructor. }
      * exists t', (c :: cs). left. rewrite E1, E2. cbn. by rewrite <-app_assoc.
      * exists t', (c :: l'). right. exists c'. rewrite E1, E2. cbn. rewrite <-app_assoc. cbn. split; [by apply prefix_cons|done].
    + exists t1, []. right. exists c. split; [apply prefix_cons, prefix_nil|done].
Qed.
Lemma taken_app l1 l2 : taken (l1 ++ l2) = taken l1 ++ taken l2.
Proof. unfold taken. by rewrite filter_app, map_app, concat_app. Qed.
Lemma taken_true cs : taken (map (fun c => (c, true)) cs) = concat cs.
Proof. unfold taken. induction cs as [|c cs IH]; [done|]. cbn [map]. rewrite filter_cons_True by done. cbn. by rewrite IH. Qed.
Lemma all_true cs : Forall (fun p : list jtok * bool => p.2 = true) (map (fun c => (c, true)) cs).
Proof. induction cs; cbn; by constructor. Qed.
Theorem encode_recorded {T} (w : writer T) g pm sep ord lord o t e s : encode g pm sep ord lord = Ok o ->
  encode_to (recording w) g pm sep ord lord (t, []) = Ok (e, s) ->
  match e with
  | None => Forall (fun p => p.2 = true) s.2 /\ o = Some (taken s.2)
  | Some EMarshal => Forall (fun p => p.2 = true) s.2 /\ o = None /\ incomplete (taken s.2)
  | Some EWrite => (exists l c, s.2 = l ++ [(c, false)] /\ Forall (fun p => p.2 = true) l) /\ incomplete (taken s.2)
  end.
Proof.
  intros Ho He. destruct (encode_writes _ _ _ _ _ _ Ho) as (cs & E & Hc & Hp). rewrite E in He.
  destruct (feed_recording w cs t [] ltac:(constructor)) as (t' & l' & [(E1 & _ & _)|(c & Hpre & E1 & _)]); rewrite E1 in He; cbn [app] in He.
  - destruct o as [ts|]; injection He as <- <-; cbn [snd]; rewrite taken_true; (split; [apply all_true|]).
    + by rewrite (Hc ts).
    + split; [done|]. apply Hp; [done|by right].
  - injection He as <- <-. cbn [snd]. split; [eexists _, _; split; [done|apply all_true]|].
    rewrite taken_app, taken_true. unfold taken at 1. rewrite filter_cons_False by done. cbn. rewrite app_nil_r. apply Hp.
    + etransitivity; [|exact Hpre]. by eexists.
    + left. intros ->. destruct Hpre as [k Hk]. apply (f_equal length) in Hk. rewrite !app_length in Hk. cbn in Hk. lia.
Qed.

(** ** When Encode returns, and when with an error of the marshaler *)
Lemma marshal_props_None pm p : marshal_props pm p = None <-> refused_props pm p.
Proof.
  unfold marshal_props, refused_props. setoid_rewrite <-elem_of_map_to_list. generalize (map_to_list p) as l. intros l.
  set (f := fun acc kv => _). assert (forall l, foldl f None l = None) as HN by (clear; induction l; done).
  generalize (∅ : gmap string json) as m. induction l as [|[k v] l IH]; intros m; cbn [foldl].
  - split; [done|]. intros (k & v & ?%elem_of_nil & _). done.
  - unfold f at 2. cbn [fst snd]. destruct (pm k v) as [o|] eqn:E.
    + assert (exists m', match o with None => Some m | Some (k, d) => Some (<[k:=d]> m) end = Some m') as [m' Em'] by (destruct o as [[? ?]|]; eauto).
      assert (match Some o with None => None | Some None => Some m | Some (Some (k0, d)) => Some (<[k0:=d]> m) end = Some m') as -> by (by destruct o as [[? ?]|]).
      rewrite IH. split; intros (k' & v' & Hin & E'); exists k', v'; (split; [|done]); [by right|].
      apply elem_of_cons in Hin as [[= -> ->]|?]; [congruence|done].
    + rewrite HN. split; [|done]. intros _. exists k, v. split; [left|done].
Qed.
Lemma or_iff_ext (A B C D : Prop) : (A <-> B) -> (C <-> D) -> (A \/ C <-> B \/ D).
Proof. tauto. Qed.
Section returns.
  Context (ops : list op) (g : graph) (Hv : valid_history ops) (Hr : run ops = Ok g) (pm : marshaler) (sep : bool) (ix : gmap nat nat) (lord : nat -> list string).
  Let s := srun ops.
  Definition refuses_edge (e : nat) : Prop := exists x, s_edges s !! e = Some x /\ refused_props pm (e_props x).
  Definition refuses_node (n : nat) : Prop := (exists x, s_nodes s !! n = Some x /\ refused_props pm (sn_props x)) \/
    sep = false /\ exists e x, s_edges s !! e = Some x /\ e_from x = n /\ refused_props pm (e_props x).
  Lemma edges_return from l : forall first, (forall e, e ∈ l -> live_edge s e) ->
    exists o, encode_edges g pm ix from first l = Ok o /\ (o = None <-> exists e, e ∈ l /\ refuses_edge e).
  Proof.
    induction l as [|e l IH]; intros first Hl; cbn [encode_edges].
    { eexists. split; [done|]. split; [done|]. by intros (e & ?%elem_of_nil & _). }
    destruct (Hl e) as [x Hx]; [left|]. destruct (core_edge _ _ _ _ (core_run _ _ Hv Hr) Hx) as (He & _).
    unfold encode_edge, deref_edge. rewrite He. cbn [rbind]. pose proof (marshal_props_None pm (e_props x)) as Hm.
    destruct (marshal_props pm (e_props x)) as [m|]; cbn [mbind option_bind rbind].
    - destruct (IH [TComma]) as (o & -> & Ho); [intros; apply Hl; by right|]. cbn [rbind].
      assert (o = None <-> exists y, y ∈ e :: l /\ refuses_edge y) as Ho'.
      { rewrite Ho. split; intros (y & Hy & Hyr); exists y; (split; [|done]); [by right|]. apply elem_of_cons in Hy as [->|Hy]; [|done].
        destruct Hyr as (x' & Hx' & Hx''). rewrite Hx in Hx'. injection Hx' as <-. by apply Hm in Hx''. }
      destruct o as [ts|]; eexists; (split; [done|]); [|done]. split; [done|]. intros H. by apply Ho' in H.
    - eexists. split; [done|]. split; [|done]. intros _. exists e. split; [left|]. exists x. split; [done|]. by apply Hm.
  Qed.
  Lemma nodes_return l : forall first, (forall n, n ∈ l -> live_node s n) ->
    exists o, encode_nodes g pm sep ix lord first l = Ok o /\ (o = None <-> exists n, n ∈ l /\ refuses_node n).
  Proof.
    induction l as [|n l IH]; intros first Hl; cbn [encode_nodes].
    { eexists. split; [done|]. split; [done|]. by intros (e & ?%elem_of_nil & _). }
    destruct (Hl n) as [x Hx]; [left|]. destruct (core_node _ _ _ _ (core_run _ _ Hv Hr) Hx) as (nd & Hnd & _ & EP).
    assert (exists o, encode_node g pm sep ix n (lord n) = Ok o /\ (o = None <-> refuses_node n)) as (o & -> & Hon).
    { unfold encode_node, deref_node. rewrite Hnd. cbn [rbind]. cbv zeta.
      destruct (node_edges_out g s (core_run _ _ Hv Hr) n (ex_intro _ x Hx)) as (es & Ees & Hl1).
      destruct (edges_return false es (TComma :: tkey "edges" ++ [TArr])) as (te & Ete & Hte); [intros e He; apply Hl1 in He as (y & Hy & _); by exists y|].
      assert (forall b, sep = b -> (te = None <-> b = false /\ exists e y, s_edges s !! e = Some y /\ e_from y = n /\ refused_props pm (e_props y)) \/ b = true) as Hse.
      { intros [] _; [by right|left]. rewrite Hte. split.
        - intros (e & He & y & Hy & Hp). split; [done|]. apply Hl1 in He as (y' & Hy' & Hf). rewrite Hy in Hy'. injection Hy' as <-. eauto 10.
        - intros (_ & e & y & Hy & Hf & Hp). exists e. split; [apply Hl1; by exists y|]. by exists y. }
      assert (exists ps, (if decide (n_props nd = ∅) then Ok (Some []) else
         Ok (m ← marshal_props pm (n_props nd); Some (TComma :: tkey "properties" ++ toks (map_json m)))) = Ok ps /\ (ps = None <-> refused_props pm (sn_props x))) as (ps & -> & Hps).
      { rewrite <-EP. pose proof (marshal_props_None pm (n_props nd)) as Hm. destruct (decide (n_props nd = ∅)) as [E|].
        - eexists. split; [done|]. split; [done|]. rewrite E. intros (k & v & Hk & _). by rewrite lookup_empty in Hk.
        - eexists. split; [done|]. rewrite <-Hm. by destruct (marshal_props pm (n_props nd)). }
      assert (refuses_node n <-> ps = None \/ sep = false /\ te = None) as Href.
      { unfold refuses_node. rewrite Hps. apply or_iff_ext.
        - split; [|eauto]. intros (y & Hy & Hp). rewrite Hx in Hy. by injection Hy as <-.
        - destruct sep eqn:Es; [split; by intros [? _]|]. destruct (Hse false eq_refl) as [H|]; [|done]. rewrite H. tauto. }
      assert (forall o : option (list jtok), (o = None <-> ps = None \/ sep = false /\ te = None) -> (o = None <-> refuses_node n)) as Hgo by (intros o ->; by rewrite Href). clear Href Hse.
      cbn [rbind]. destruct ps as [ps|]; [|eexists; split; [done|]; apply Hgo; split; [by left|done]].
      destruct sep.
      - eexists. split; [done|]. apply Hgo. split; [done|]. by intros [?|[? _]].
      - rewrite Ees. cbn [rbind]. rewrite Ete. cbn [rbind]. destruct te as [te|]; (eexists; split; [done|]; apply Hgo); [|naive_solver]. split; [done|]. by intros [?|[_ ?]]. }
    cbn [rbind]. destruct o as [ts|].
    - destruct (IH [TComma]) as (o & -> & Ho); [intros; apply Hl; by right|]. cbn [rbind].
      assert (o = None <-> exists y, y ∈ n :: l /\ refuses_node y) as Ho'.
      { rewrite Ho. split; intros (y & Hy & Hyr); exists y; (split; [|done]); [by right|]. apply elem_of_cons in Hy as [->|Hy]; [|done]. by apply Hon in Hyr. }
      destruct o as [ts'|]; eexists; (split; [done|]); [|done]. split; [done|]. intros H. by apply Ho' in H.
    - eexists. split; [done|]. split; [|done]. intros _. exists n. split; [left|]. by apply Hon.
  Qed.
End returns.
Theorem encode_returns ops g pm sep ord lord : valid_history ops -> run ops = Ok g -> node_list_safe ops -> (sep = true -> edge_list_safe ops) -> node_order g ord ->
  exists o, encode g pm sep ord lord = Ok o /\ (o = None <-> refused pm (srun ops)).
Proof.
  intros Hv Hr Hns Hes (ns & Ens & Hord). destruct (get_nodes_ok _ _ Hv Hr Hns) as (ns' & Ens' & [[_ Hl] _]). rewrite Ens in Ens'. injection Ens' as <-.
  assert (forall n, n ∈ ord <-> live_node (srun ops) n) as Ho by (intros n; by rewrite Hord).
  unfold encode. rewrite Ens. cbn [rbind]. cbv zeta.
  destruct (nodes_return ops g Hv Hr pm sep (number ns) lord ord []) as (tn & Etn & Htn); [intros n Hn; by apply Ho|].
  assert (exists tn', (if decide (ns = []) then Ok (Some []) else let? x := encode_nodes g pm sep (number ns) lord [] ord in Ok (Some (tkey "nodes" ++ [TArr] ++ x ++ [TArrEnd]))) = Ok tn' /\
    (tn' = None <-> exists n, refuses_node ops pm sep n /\ live_node (srun ops) n)) as (tn' & -> & Htn').
  { assert (tn = None <-> exists n, refuses_node ops pm sep n /\ live_node (srun ops) n) as H.
    { rewrite Htn. split; intros (n & H1 & H2); exists n; split; try done; by apply Ho. }
    rewrite Etn. destruct (decide (ns = [])) as [->|].
    - eexists. split; [done|]. split; [done|]. intros (n & _ & Hn). apply Hl in Hn. by apply elem_of_nil in Hn.
    - cbn [rbind]. destruct tn; (eexists; split; [done|]); [|done]. split; [done|]. intros Hx. by apply H in Hx. }
  assert (exists te, (if sep then let! es := get_edges g in let? x := encode_edges g pm (number ns) true [] es in
        Ok (Some (TComma :: tkey "edges" ++ [TArr] ++ x ++ [TArrEnd])) else Ok (Some [])) = Ok te /\ (te = None <-> sep = true /\ exists e, refuses_edge ops pm e)) as (te & -> & Hte).
  { destruct sep; [|eexists; split; [done|]; split; [done|]; by intros [? _]]. destruct (get_edges_ok ops g Hv Hr (Hes eq_refl)) as ((es & E & _ & Hle) & _). rewrite E. cbn [rbind].
    destruct (edges_return ops g Hv Hr pm (number ns) true es []) as (t & -> & Ht); [intros e He; by apply Hle|]. cbn [rbind].
    assert (t = None <-> true = true /\ exists e, refuses_edge ops pm e) as H.
    { rewrite Ht. split; [intros (e & _ & ?); eauto|]. intros (_ & e & He). exists e. split; [|done]. apply Hle. destruct He as (x & Hx & _). by exists x. }
    destruct t; (eexists; split; [done|]); [|done]. split; [done|]. intros Hx. by apply H in Hx. }
  assert (refused pm (srun ops) <-> tn' = None \/ te = None) as Href.
  { rewrite Htn', Hte. unfold refused, refuses_node, refuses_edge. split.
    - intros [(n & x & Hx & Hp)|(e & x & Hx & Hp)].
      + left. exists n. split; [left; eauto|by exists x].
      + destruct sep; [right; eauto|]. left. exists (e_from x). split; [right; eauto 10|]. by destruct (core_edge _ _ _ _ (core_run _ _ Hv Hr) Hx) as (_ & ? & _).
    - intros [(n & [(x & Hx & Hp)|(_ & e & x & Hx & _ & Hp)] & _)|(_ & e & x & Hx & Hp)]; eauto 10. }
  cbn [rbind]. destruct tn' as [tn'|]; cbn [rbind]; [destruct te as [te|]; cbn [rbind]|]; (eexists; split; [done|]); rewrite Href; naive_solver.
Qed.
Theorem encode_history {T} (w : writer T) ops g pm sep ord lord t : valid_history ops -> run ops = Ok g -> node_list_safe ops -> (sep = true -> edge_list_safe ops) -> node_order g ord ->
  exists e u l, encode_to (recording w) g pm sep ord lord (t, []) = Ok (e, (u, l)) /\
  match e with
  | None => Forall (fun p => p.2 = true) l /\ ~ refused pm (srun ops) /\ encode g pm sep ord lord = Ok (Some (taken l))
  | Some EMarshal => Forall (fun p => p.2 = true) l /\ refused pm (srun ops) /\ incomplete (taken l)
  | Some EWrite => (exists l0 c, l = l0 ++ [(c, false)] /\ Forall (fun p => p.2 = true) l0) /\ incomplete (taken l)
  end.
Proof.
  intros Hv Hr Hns Hes Hord. destruct (encode_returns ops g pm sep ord lord Hv Hr Hns Hes Hord) as (o & Eo & Ho).
  destruct (encode_writes _ _ _ _ _ _ Eo) as (cs & E & _). destruct (encode_to (recording w) g pm sep ord lord (t, [])) as [[e [u l]]| |] eqn:Ew; [|rewrite E in Ew; done..].
  exists e, u, l. split; [done|]. pose proof (encode_recorded w g pm sep ord lord o t e (u, l) Eo Ew) as H. cbn [snd] in H. destruct e as [[]|].
  - destruct H as (H1 & H2 & H3). split; [done|]. split; [by apply Ho|done].
  - done.
  - destruct H as (H1 & ->). split; [done|]. split; [|done]. intros Hx. by apply Ho in Hx.
Qed.
