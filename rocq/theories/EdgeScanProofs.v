(** Loops over the edges with a property: without index, and setting the property with a hash index. *)
From Verif Require Import Base Assoc Value FastSet Links EdgeMap NodeMap Index Graph GraphSpec CoreProofs CoreStep EdgeListProofs IndexProofs IndexGraphProofs EdgeMapPtr ItrLive ItrLiveSpec LiveLoopProofs LiveUseProofs SetLive SetLiveSpec SetLiveProofs HashLiveProofs.
Local Open Scope list_scope.

(** ** Without index *)
Lemma x_loop_prefix body : forall fuel x its vis W x', x_loop fuel body x its vis = Ok (W, x') -> exists r, W = vis ++ r.
Proof.
  induction fuel as [|fuel IH]; intros x its vis W x' H; [done|]. cbn [x_loop] in H. apply rbind_Ok_inv in H as (p & _ & H).
  destruct (p.1) as [e|].
  - apply rbind_Ok_inv in H as (x1 & _ & H). apply IH in H as [r ->]. exists (e :: r). by rewrite <-app_assoc.
  - injection H as <- _. exists []. by rewrite app_nil_r.
Qed.
Lemma x_steps_graph calls : forall x x', rfold x_step calls x = Ok x' -> rfold step calls (x_g x) = Ok (x_g x').
Proof.
  induction calls as [|c calls IH]; intros x x' H; cbn [rfold] in *; [by injection H as ->|].
  apply rbind_Ok_inv in H as (x1 & H1 & H). unfold x_step in H1. apply rbind_Ok_inv in H1 as (g1 & Hg & H1). apply rbind_Ok_inv in H1 as (a1 & _ & [= <-]).
  rewrite Hg. cbn [rbind]. by apply IH in H.
Qed.
Section escan.
  Context (k : string).
  Definition ehas_k (s : sgraph) (e : nat) : bool := match s_edges s !! e with Some x => bool_decide (is_Some (e_props x !! k)) | None => false end.
  Lemma escan_step s o rest e : escan_keeps k s rest o -> live_edge s e -> e ∈ rest -> live_edge (sstep s o) e /\ ehas_k (sstep s o) e = ehas_k s e.
  Proof.
    intros Hk [x Hx] He. unfold live_edge, ehas_k. rewrite Hx.
    assert (s_edges (sstep s o) !! e = Some x -> is_Some (s_edges (sstep s o) !! e) /\
      match s_edges (sstep s o) !! e with Some x => bool_decide (is_Some (e_props x !! k)) | None => false end = bool_decide (is_Some (e_props x !! k))) as Hsame.
    { intros ->. split; [eauto|done]. }
    assert (forall m, ~ incident s m e -> s_detach (s_edges s) m !! e = Some x) as Hdet.
    { intros m Hm. apply s_detach_lookup. split; [done|]. unfold incident in Hm. rewrite Hx in Hm. naive_solver. }
    destruct o; cbn [escan_keeps graph_keeps] in Hk; try (by apply Hsame); try done.
    - apply Hsame. apply Hdet. by apply Hk.
    - apply Hsame. cbn. apply Hdet. by apply Hk.
    - cbn. destruct (decide (e = e0)) as [<-|]; [rewrite lookup_alter, Hx|rewrite lookup_alter_ne, Hx by done]; cbn; split; eauto.
    - cbn. destruct (decide (e = e0)) as [<-|]; [rewrite lookup_alter, Hx|rewrite lookup_alter_ne, Hx by done]; cbn; split; eauto.
      apply bool_decide_ext. destruct (decide (k0 = k)) as [->|]; [|by rewrite lookup_insert_ne]. rewrite lookup_insert.
      destruct (Hk eq_refl He) as (w & y & Hy & Hw). rewrite Hx in Hy. injection Hy as <-. rewrite Hw. split; eauto.
    - cbn. destruct (decide (e = e0)) as [<-|]; [rewrite lookup_alter, Hx|rewrite lookup_alter_ne, Hx by done]; cbn; split; eauto.
      apply bool_decide_ext. destruct (decide (k0 = k)) as [->|]; [|by rewrite lookup_delete_ne]. by destruct (Hk eq_refl).
    - apply Hsame. cbn. rewrite lookup_delete_ne; [done|]. by intros ->.
  Qed.
  Lemma escan_calls calls : forall s rest, calls_keep (escan_keeps k) s rest calls -> forall e, live_edge s e -> e ∈ rest ->
    live_edge (fold_left sstep calls s) e /\ ehas_k (fold_left sstep calls s) e = ehas_k s e.
  Proof.
    induction calls as [|c calls IH]; intros s rest Hk e Hl He; [done|]. destruct Hk as [Hk1 Hk2]. cbn [fold_left].
    destruct (escan_step _ _ _ _ Hk1 Hl He) as [Hl' E]. destruct (IH _ _ Hk2 e Hl' He) as [Hl2 E2]. split; [done|]. by rewrite E2.
  Qed.
  Lemma escan_keeps_graph s rest o : escan_keeps k s rest o -> graph_keeps s rest o.
  Proof. by destruct o. Qed.
  Lemma escan_calls_graph calls : forall s rest, calls_keep (escan_keeps k) s rest calls -> calls_keep graph_keeps s rest calls.
  Proof. induction calls as [|c calls IH]; intros s rest Hk; [done|]. destruct Hk as [Hk1 Hk2]. split; [by apply escan_keeps_graph|by apply IH]. Qed.
  Lemma escan_loop_graph body es : forall s vis, loop_keeps (escan_keeps k) body s vis es -> loop_keeps graph_keeps body s vis es.
  Proof. induction es as [|e es IH]; intros s vis Hk; [done|]. destruct Hk as [Hk1 Hk2]. split; [by apply escan_calls_graph|by apply IH]. Qed.
  Lemma only_snoc es body V e : only es body (V ++ [e]) = if decide (e ∈ es) then body (filter (fun x => x ∈ es) V ++ [e]) else [].
  Proof. unfold only. rewrite list.last_snoc. destruct (decide (e ∈ es)); [|done]. by rewrite filter_app, filter_cons_True. Qed.
  Lemma only_calls body es : forall all V, loop_calls (only es body) V all = loop_calls body (filter (fun x => x ∈ es) V) (filter (fun x => x ∈ es) all).
  Proof.
    induction all as [|e all IH]; intros V; [done|]. cbn [loop_calls]. rewrite only_snoc, IH, filter_app. destruct (decide (e ∈ es)).
    - rewrite !filter_cons_True by done. cbn [loop_calls]. by rewrite filter_nil.
    - rewrite !filter_cons_False by done. by rewrite filter_nil, app_nil_r.
  Qed.
  Lemma ehas_graph ops g e : valid_history ops -> run ops = Ok g -> live_edge (srun ops) e -> bool_decide (is_Some (edge_prop g e k)) = ehas_k (srun ops) e.
  Proof. intros Hv Hr [x Hx]. destruct (core_edge _ _ _ _ (core_run _ _ Hv Hr) Hx) as [E _]. unfold ehas_k, edge_prop, get_property. by rewrite Hx, E. Qed.
  Lemma xf_sim body es x' : forall fuel ops x its V rest, x_loop fuel (only es body) x its V = Ok (V ++ rest, x') ->
    valid_history (ops ++ loop_calls (only es body) V rest) -> run ops = Ok (x_g x) ->
    (forall e, e ∈ rest -> live_edge (srun ops) e /\ (ehas_k (srun ops) e = true <-> e ∈ es)) ->
    loop_keeps (escan_keeps k) (only es body) (srun ops) V rest ->
    xf_loop fuel (fun g e => bool_decide (is_Some (edge_prop g e k))) body x its (filter (fun x => x ∈ es) V) = Ok (filter (fun x => x ∈ es) (V ++ rest), x').
  Proof.
    induction fuel as [|fuel IH]; intros ops x its V rest Hx Hv Hr He Hk; [done|]. cbn [x_loop xf_loop] in *.
    apply rbind_Ok_inv in Hx as (p & -> & Hx). cbn [rbind]. destruct (p.1) as [e|]; [|injection Hx as HV <-].
    2:{ by rewrite <-HV. }
    apply rbind_Ok_inv in Hx as (x1 & Hx1 & Hx). destruct (x_loop_prefix _ _ _ _ _ _ _ Hx) as [r Er]. rewrite <-app_assoc in Er. apply app_inv_head in Er as ->.
    cbn [app loop_calls] in *. destruct Hk as [Hk1 Hk2]. destruct (He e ltac:(left)) as [Hl Hes].
    assert (valid_history ops) as Hv0 by (unfold valid_history in Hv; by apply valid_from_app in Hv as [? _]).
    rewrite (ehas_graph ops) by done. rewrite app_assoc in Hv.
    assert (V ++ e :: r = (V ++ [e]) ++ r) as EV by (by rewrite <-app_assoc). rewrite EV in *.
    assert (xf_loop fuel (fun g e => bool_decide (is_Some (edge_prop g e k))) body x1 p.2 (filter (fun x => x ∈ es) (V ++ [e])) = Ok (filter (fun x => x ∈ es) ((V ++ [e]) ++ r), x')) as Hgo.
    { apply (IH (ops ++ only es body (V ++ [e]))); try done.
      - unfold run. rewrite rfold_app. change (rfold step ops new_graph) with (run ops). rewrite Hr. cbn [rbind]. by apply x_steps_graph.
      - intros y Hy. destruct (He y ltac:(by right)) as [Hly Hey]. destruct (escan_calls _ _ _ Hk1 y Hly Hy) as [Hly' E].
        unfold srun in *. rewrite fold_left_app. split; [done|]. by rewrite E.
      - unfold srun in *. by rewrite fold_left_app. }
    rewrite only_snoc in Hx1. destruct (ehas_k (srun ops) e).
    - rewrite decide_True in Hx1 by (by apply Hes). rewrite Hx1. cbn [rbind]. rewrite filter_app, filter_cons_True, filter_nil in Hgo by (by apply Hes). done.
    - rewrite decide_False in Hx1 by (intros H; by apply Hes in H). injection Hx1 as <-.
      rewrite (filter_app _ V), filter_cons_False, filter_nil, app_nil_r in Hgo by (intros H; by apply Hes in H). done.
  Qed.
End escan.
Theorem escan_loop_ok ops body g g' k all es fuel :
  valid_history (ops ++ loop_calls body [] es) -> run ops = Ok g -> run (ops ++ loop_calls body [] es) = Ok g' ->
  edge_list_safe (ops ++ loop_calls body [] es) -> edge_index ops k = None -> get_edges g = Ok all -> get_edges_with_property g k = Ok es ->
  loop_keeps (escan_keeps k) (only es body) (srun ops) [] all -> length all < fuel ->
  exists a', (let! x := x_run ops in escan_loop fuel body x k) = Ok (es, XG g' a').
Proof.
  intros Hv Hr Hr' Hsafe Hi Hall Hes Hk Hlen.
  assert (valid_history ops) as Hv0 by (unfold valid_history in Hv; by apply valid_from_app in Hv as [? _]).
  assert (edge_list_safe ops) as Hsafe0 by (unfold edge_list_safe in *; by apply safe_from_app in Hsafe as [? _]).
  pose proof (eix_run (fun _ => True) k ops g Hv0 Hr (fun _ _ => I) (edge_index_none_safe _ _ Hi)) as Hkix. rewrite Hi in Hkix. cbn in Hkix.
  unfold get_edges_with_property in Hes. rewrite Hkix, Hall in Hes. cbn [rbind] in Hes. injection Hes as Hes.
  destruct (get_edges_ok _ _ Hv0 Hr Hsafe0) as [(all' & Hall' & _ & Hin) _]. rewrite Hall in Hall'. injection Hall' as <-.
  assert (filter (fun x => x ∈ es) all = es) as Hf.
  { etransitivity; [|exact Hes]. apply filter_ext_in. intros x Hx. rewrite <-Hes, elem_of_list_filter. tauto. }
  assert (loop_calls (only es body) [] all = loop_calls body [] es) as Hc by (by rewrite only_calls, filter_nil, Hf).
  rewrite <-Hc in Hv, Hr', Hsafe.
  destruct (graph_loop_ok ops (only es body) QAll g g' all fuel) as [a' Ha]; try done; [by apply escan_loop_graph in Hk|].
  exists a'. apply rbind_Ok_inv in Ha as (x & Hx & Ha). rewrite Hx. cbn [rbind]. unfold graph_loop in Ha. unfold escan_loop.
  apply rbind_Ok_inv in Ha as (its & -> & Ha). cbn [rbind].
  pose proof (xf_sim k body es (XG g' a') fuel ops x its [] all) as H. rewrite filter_nil in H. cbn [app] in H. rewrite Hf in H. apply H; try done.
  - apply x_steps_graph in Hx. exact Hx.
  - intros e He. assert (live_edge (srun ops) e) as Hl by (by apply Hin). split; [done|]. rewrite <-(ehas_graph k ops g) by done.
    rewrite bool_decide_eq_true, <-Hes, elem_of_list_filter. tauto.
Qed.

(** ** Setting the property of each edge, without index *)
Lemma esetting_calls k v es : forall vis, loop_calls (esetting k v) vis es = map (fun e => OSetEdgeProp e k v) es.
Proof. induction es as [|e es IH]; intros vis; cbn [loop_calls map]; [done|]. unfold esetting at 1. rewrite list.last_snoc, IH. done. Qed.
Lemma esetting_keeps k v es all : forall s vis, NoDup all -> loop_keeps (escan_keeps k) (only es (esetting k v)) s vis all.
Proof.
  induction all as [|e all IH]; intros s vis Hnd; cbn [loop_keeps]; [done|]. apply NoDup_cons in Hnd as [Hn Hnd]. split; [|by apply IH].
  rewrite only_snoc. destruct (decide (e ∈ es)); [|done]. unfold esetting. rewrite list.last_snoc. split; [|done]. cbn. done.
Qed.
Lemma esetting_runs k v es : forall ops g, valid_history ops -> run ops = Ok g -> edge_list_safe ops -> edge_index ops k = None -> (forall e, e ∈ es -> live_edge (srun ops) e) ->
  valid_history (ops ++ map (fun e => OSetEdgeProp e k v) es) /\ edge_list_safe (ops ++ map (fun e => OSetEdgeProp e k v) es) /\
  exists g', run (ops ++ map (fun e => OSetEdgeProp e k v) es) = Ok g'.
Proof.
  induction es as [|e es IH]; intros ops g Hv Hr Hsafe Hi Hl; cbn [map]; [rewrite app_nil_r; eauto|].
  assert (forall o (l : list op), ops ++ o :: l = (ops ++ [o]) ++ l) as E by (intros; by rewrite <-app_assoc). rewrite E.
  destruct (Hl e ltac:(left)) as [x Hx]. destruct (core_edge _ _ _ _ (core_run _ _ Hv Hr) Hx) as [Hd _].
  pose proof (eix_run (fun _ => True) k ops g Hv Hr (fun _ _ => I) (edge_index_none_safe _ _ Hi)) as Hk. rewrite Hi in Hk. cbn in Hk.
  assert (exists g1, step g (OSetEdgeProp e k v) = Ok g1) as [g1 Hs].
  { cbn [step]. unfold set_edge_prop, deref_edge. rewrite Hd. cbn [rbind]. unfold ix_update. rewrite Hk. cbn. eauto. }
  assert (forall y, live_edge (srun ops) y -> live_edge (sstep (srun ops) (OSetEdgeProp e k v)) y) as Hlive.
  { intros y. unfold live_edge. cbn. by rewrite lookup_alter_is_Some. }
  apply (IH _ g1).
  - apply valid_history_snoc. split; [done|by exists x].
  - rewrite run_snoc, Hr. done.
  - apply edge_list_safe_snoc. split; [done|]. intros y [Hy Hn]. destruct Hn. by apply Hlive.
  - by rewrite edge_index_snoc, Hi.
  - intros y Hy. rewrite srun_snoc. apply Hlive, Hl. by right.
Qed.
Theorem esetting_scan_ok ops g k v all es fuel : valid_history ops -> run ops = Ok g -> edge_list_safe ops -> edge_index ops k = None ->
  get_edges g = Ok all -> get_edges_with_property g k = Ok es -> length all < fuel ->
  exists g' a', (let! x := x_run ops in escan_loop fuel (esetting k v) x k) = Ok (es, XG g' a') /\ run (ops ++ map (fun e => OSetEdgeProp e k v) es) = Ok g'.
Proof.
  intros Hv Hr Hsafe Hi Hall Hes Hlen. destruct (get_edges_ok _ _ Hv Hr Hsafe) as [(all' & Hall' & Hnd & Hin) _]. rewrite Hall in Hall'. injection Hall' as <-.
  pose proof (eix_run (fun _ => True) k ops g Hv Hr (fun _ _ => I) (edge_index_none_safe _ _ Hi)) as Hk. rewrite Hi in Hk. cbn in Hk.
  destruct (esetting_runs k v es ops g Hv Hr Hsafe Hi) as (A1 & A2 & g' & A3).
  { intros n Hn. unfold get_edges_with_property in Hes. rewrite Hk, Hall in Hes. cbn [rbind] in Hes. injection Hes as <-. apply elem_of_list_filter in Hn as [_ Hn]. by apply Hin. }
  destruct (escan_loop_ok ops (esetting k v) g g' k all es fuel) as [a' Ha]; rewrite ?esetting_calls; try done; [by apply esetting_keeps|].
  exists g', a'. done.
Qed.

(** ** Setting the property of each edge of a hash index *)
Lemma esetting_never_ends D k v : ix_domain HashIndex D -> D v -> forall fuel g P pre p r vis,
  kix D (g_eix g) k (Some HashIndex) P -> (forall i w, P i w -> edge_prop g i k = Some w) -> hash_els (g_eix g) k = Some (pre ++ p :: r) -> r <> [] ->
  s_loop (fun g => hash_els (g_eix g) k) (fun _ _ => true) (esetting k v) fuel g true (Some p) vis = Diverge.
Proof.
  intros HD Hv. induction fuel as [|fuel IH]; intros g P pre p r vis Hk HP He Hr; [done|]. cbn [s_loop]. rewrite He. cbn [default upcoming]. unfold id.
  destruct (hash_kix_NoDup _ HD _ _ _ _ Hk He) as (Hnd1 & Hnd2 & Hin). rewrite behind_split by done. destruct p as [h n]. cbn [l_next fst snd].
  unfold esetting at 1. rewrite list.last_snoc. cbn [rfold].
  assert (exists w, P n w) as [w Hw] by (apply Hin; rewrite fmap_app; apply elem_of_app; right; left).
  destruct (Hk HD) as (ix & Hix & Ht & Hh). destruct (holds_remove D ix P n w) as (ix1 & H1 & Ht1 & Hh1); [by rewrite Ht|done|done|].
  destruct (holds_add D ix1 (fun i x => i <> n /\ P i x) n v) as (ix2 & H2 & Ht2 & Hh2); [by rewrite Ht1, Ht|done|done|by intros x [? _]|].
  pose proof (HP _ _ Hw) as Hnp. unfold edge_prop, get_property in Hnp. destruct (g_edges g !! n) as [nd|] eqn:Hnd; [|done].
  assert (exists g', step g (OSetEdgeProp n k v) = Ok g' /\ g_eix g' = <[k := ix2]> (g_eix g) /\
    forall i, edge_prop g' i k = if decide (i = n) then Some v else edge_prop g i k) as (g' & Hs & Hnix & Hprop).
  { cbn [step]. unfold set_edge_prop, deref_edge. rewrite Hnd. cbn [rbind]. unfold ix_update. rewrite Hix, Hnp, H1. cbn [rbind]. rewrite H2. cbn [rbind].
    eexists. split; [done|]. split; [done|]. intros i. unfold edge_prop. cbn. destruct (decide (i = n)) as [->|]; [rewrite lookup_insert; unfold get_property; cbn; by rewrite lookup_insert|].
    by rewrite lookup_insert_ne. }
  unfold src_step at 1. cbn [fst snd]. rewrite Hs. cbn [rbind].
  destruct (hash_kix _ HD _ _ _ _ Hk He) as (vals & fresh & c & Hix' & Hc & _). rewrite Hix in Hix'. injection Hix' as ->.
  destruct (hash_remove _ _ _ _ _ _ _ _ Hc H1) as (vals1 & els1 & -> & Hels).
  assert (n ∉ els1.*2) as Hn1.
  { intros Hbad. assert (kix D (<[k := IHash vals1 els1 fresh]> (g_eix g)) k (Some HashIndex) (fun i x => i <> n /\ P i x)) as Hk1.
    { intros _. exists (IHash vals1 els1 fresh). rewrite lookup_insert. done. }
    destruct (hash_kix_NoDup _ HD _ _ _ els1 Hk1) as (_ & _ & Hin1); [unfold hash_els; by rewrite lookup_insert|].
    apply Hin1 in Hbad as (? & ? & _). done. }
  assert (exists pre1, els1 = pre1 ++ r) as [pre1 ->].
  { destruct Hels as [->|(h' & Hh' & ->)].
    - destruct Hn1. rewrite fmap_app. apply elem_of_app. right. left.
    - assert (h' = h) as -> by (eapply (snd_inj _ n h' h Hnd2 Hh'); apply elem_of_app; right; left). by eapply filter_front. }
  cbn [ix_add] in H2. destruct (hashable (hkey v)); [|done]. injection H2 as <-.
  assert (hash_els (g_eix g') k = Some ((pre1 ++ r) ++ [(fresh, n)])) as He' by (unfold hash_els; by rewrite Hnix, lookup_insert).
  rewrite He'. rewrite bool_decide_true by eauto. cbn [andb]. destruct r as [|q r]; [done|]. cbn [head].
  eapply (IH g' (fun i x => i = n /\ x = v \/ i <> n /\ i <> n /\ P i x) pre1 q (r ++ [(fresh, n)])).
  - intros _. rewrite Hnix. eexists. rewrite lookup_insert. split; [done|]. split; [done|]. exact Hh2.
  - intros i x [[-> ->]|(Hne & _ & Hx)]; rewrite Hprop; [by rewrite decide_True|]. rewrite decide_False by done. by apply HP.
  - rewrite He'. by rewrite <-app_assoc.
  - by destruct r.
Qed.
Theorem esetting_diverges ops g k v es fuel : valid_history ops -> run ops = Ok g -> edge_index ops k = Some HashIndex ->
  storable HashIndex (fun w => edge_filed ops k w \/ w = v) -> edge_scan_safe ops k -> (forall w e, ~ left_over ops k w e) ->
  get_edges_with_property g k = Ok es -> 2 <= length es ->
  hash_loop g_eix fuel (esetting k v) g k = Diverge.
Proof.
  intros Hv Hr Hi Hst Hsc Hno Hes Hlen. pose proof (eix_run (fun w => edge_filed ops k w \/ w = v) k ops g Hv Hr (fun w H => or_introl H) Hsc) as Hk. rewrite Hi in Hk.
  apply storable_domain in Hst. destruct (Hk Hst) as (ix & Hix & Ht & _). unfold get_edges_with_property in Hes. rewrite Hix in Hes.
  destruct ix as [t|vals els fresh]; [done|]. cbn in Hes. injection Hes as <-. rewrite fmap_length in Hlen. destruct els as [|p r]; [cbn in Hlen; lia|].
  assert (hash_els (g_eix g) k = Some ([] ++ p :: r)) as He by (unfold hash_els; by rewrite Hix). unfold hash_loop. rewrite He. cbn [default app head]. unfold id. cbn [head].
  eapply (esetting_never_ends _ k v Hst); [by right|exact Hk| |exact He|].
  - intros i w [(x & Hx & Hw)|Hbad]; [|by apply Hno in Hbad]. destruct (core_edge _ _ _ _ (core_run _ _ Hv Hr) Hx) as [E _]. unfold edge_prop. by rewrite E.
  - destruct r; [cbn in Hlen; lia|done].
Qed.
