(** Particular loops: [loop_keeps] for bodies in use. *)
From Verif Require Import Base Value Links EdgeMap Graph GraphSpec EdgeMapProofs CoreProofs CoreStep EdgeListProofs NodeListProofs AdjProofs.
From Verif Require Import EdgeMapPtr ItrLive ItrLiveSpec StoreProofs LiveLoopProofs.

(** ** No calls *)
Lemma nothing_calls es : forall vis, loop_calls nothing vis es = [].
Proof. induction es as [|e es IH]; intros vis; [done|]. cbn [loop_calls]. by rewrite IH. Qed.
Lemma nothing_keeps K es : forall s vis, loop_keeps K nothing s vis es.
Proof. induction es as [|e es IH]; intros s vis; [done|]. cbn. by split. Qed.
Theorem quiet_node_loop ops n d q g es k : valid_history ops -> run ops = Ok g -> live_node (srun ops) n -> query_ok q ->
  node_query g n d q = Ok es -> length es < k -> exists a', (let! x := x_run ops in node_loop k nothing x n d q) = Ok (es, XG g a').
Proof.
  intros Hv Hr Hn Hq Hes Hk. apply node_loop_ok with (g := g); rewrite ?nothing_calls, ?app_nil_r; try done. apply nothing_keeps.
Qed.
Theorem quiet_graph_loop ops q g es k : valid_history ops -> run ops = Ok g -> edge_list_safe ops -> query_ok q -> (forall l, q <> QLabel l) ->
  graph_query g q = Ok es -> length es < k -> exists a', (let! x := x_run ops in graph_loop k nothing x q) = Ok (es, XG g a').
Proof.
  intros Hv Hr Hs Hq Hl Hes Hk. apply graph_loop_ok with (g := g); rewrite ?nothing_calls, ?app_nil_r; try done. apply nothing_keeps.
Qed.
Theorem quiet_nodes_loop ops g ns k : valid_history ops -> run ops = Ok g -> node_list_safe ops -> get_nodes g = Ok ns -> length ns < k ->
  nodes_loop k nothing g = Ok (ns, g).
Proof.
  intros Hv Hr Hs Hns Hk. apply nodes_loop_ok with (ops := ops); rewrite ?nothing_calls, ?app_nil_r; try done. apply nothing_keeps.
Qed.

(** ** Relabelling all edges *)
Lemma relabelling_calls l es : forall vis, loop_calls (relabelling l) vis es = map (fun e => OSetEdgeLabel e l) es.
Proof. induction es as [|e es IH]; intros vis; [done|]. cbn [loop_calls map]. unfold relabelling at 1. rewrite last_snoc. cbn. by rewrite IH. Qed.
Lemma relabelling_keeps_all l es : forall s vis, loop_keeps graph_keeps (relabelling l) s vis es.
Proof.
  induction es as [|e es IH]; intros s vis; [done|]. cbn [loop_keeps]. split; [|apply IH]. unfold relabelling. rewrite last_snoc. done.
Qed.
Lemma set_label_progress g s e l : core g s -> live_edge s e -> exists g', step g (OSetEdgeLabel e l) = Ok g'.
Proof.
  intros Hc [x Hx]. destruct (core_edge _ _ _ _ Hc Hx) as (Hed & Hf & Ht & _). cbn [step]. unfold set_edge_label, deref_edge.
  rewrite Hed. cbn [rbind]. destruct (decide (l = e_label x)); [eauto|].
  pose proof Hc as (Hadj & _). destruct (disconnect_ok _ _ _ _ _ Hadj Hx) as (g1 & Hg1 & Hadj1). rewrite Hg1. cbn [rbind].
  apply disconnect_shape in Hg1 as (E1&_).
  edestruct (connect_ok (set_edges g1 (<[e:=Edge (e_from x) (e_to x) l (e_props x)]> (g_edges g1))) (dom (s_nodes s)) (delete e (s_edges s)) e) as (g2 & Hg2 & _).
  + eapply adj_frame; [exact Hadj1|..]; simpl; eauto. intros e' ed'. rewrite lookup_delete_Some. intros [? _]. by rewrite lookup_insert_ne.
  + apply lookup_delete.
  + simpl. apply lookup_insert.
  + simpl. by apply elem_of_dom.
  + simpl. by apply elem_of_dom.
  + eauto.
Qed.
Lemma live_relabel s e l x : live_edge (sstep s (OSetEdgeLabel e l)) x <-> live_edge s x.
Proof. unfold live_edge. cbn. by rewrite lookup_alter_is_Some. Qed.
Lemma relabelling_runs l es : forall g s, core g s -> (forall e, e ∈ es -> live_edge s e) ->
  valid_from s (map (fun e => OSetEdgeLabel e l) es) /\ exists g', rfold step (map (fun e => OSetEdgeLabel e l) es) g = Ok g'.
Proof.
  induction es as [|e es IH]; intros g s Hc Hl; cbn [map valid_from rfold]; [by eauto|].
  assert (live_edge s e) as He by (apply Hl; left). destruct (set_label_progress g s e l Hc He) as [g1 E1].
  assert (valid s (OSetEdgeLabel e l)) as Hv by done. pose proof (core_step _ _ _ _ E1 Hv Hc) as Hc1.
  destruct (IH _ _ Hc1) as [H1 H2]. { intros x Hx. apply live_relabel, Hl. by right. }
  split; [done|]. by rewrite E1.
Qed.
Lemma relabelling_safe l es : forall F s, edge_list_safe_from F s (map (fun e => OSetEdgeLabel e l) es).
Proof.
  induction es as [|e es IH]; intros F s; cbn [map edge_list_safe_from]; [done|]. split; [|apply IH].
  intros x [Hx Hnx]. exfalso. by apply Hnx, live_relabel.
Qed.
Lemma relabelled l es : forall s e, s_edges (fold_left sstep (map (fun e => OSetEdgeLabel e l) es) s) !! e =
  (fun x => if decide (e ∈ es) then Edge (e_from x) (e_to x) l (e_props x) else x) <$> s_edges s !! e.
Proof.
  induction es as [|e0 es IH]; intros s e; cbn [map fold_left].
  - destruct (s_edges s !! e); [|done]. cbn. rewrite decide_False; [done|]. apply not_elem_of_nil.
  - rewrite IH. cbn [sstep s_edges]. destruct (decide (e0 = e)) as [->|Hne].
    + rewrite lookup_alter. destruct (s_edges s !! e); [|done]. cbn. rewrite (decide_True (P := e ∈ e :: es)) by left. by case_decide.
    + rewrite lookup_alter_ne by done. destruct (s_edges s !! e); [|done]. cbn. f_equal. destruct (decide (e ∈ es)) as [H|H].
      * by rewrite decide_True by (by right).
      * rewrite decide_False; [done|]. by intros [->|]%elem_of_cons.
Qed.
Theorem relabelling_all ops g l es k : valid_history ops -> run ops = Ok g -> edge_list_safe ops -> get_edges g = Ok es -> length es < k ->
  exists g' a', (let! x := x_run ops in graph_loop k (relabelling l) x QAll) = Ok (es, XG g' a') /\
    valid_history (ops ++ map (fun e => OSetEdgeLabel e l) es) /\ run (ops ++ map (fun e => OSetEdgeLabel e l) es) = Ok g' /\
    forall e, s_edges (srun (ops ++ map (fun e => OSetEdgeLabel e l) es)) !! e =
      (fun x => Edge (e_from x) (e_to x) l (e_props x)) <$> s_edges (srun ops) !! e.
Proof.
  intros Hv Hr Hs Hes Hk. pose proof (core_run _ _ Hv Hr) as Hc. destruct (get_edges_ok ops g Hv Hr Hs) as [(xs & Hxs & Hnd & Hin) _].
  assert (xs = es) as -> by congruence.
  destruct (relabelling_runs l es g (srun ops) Hc) as [Hv2 [g' Hr2]]; [intros; by apply Hin|].
  set (cs := map (fun e => OSetEdgeLabel e l) es) in *.
  assert (valid_history (ops ++ cs)) as Hv' by (unfold valid_history; by apply valid_from_app).
  assert (run (ops ++ cs) = Ok g') as Hr'.
  { unfold run. rewrite rfold_app. change (rfold step ops new_graph) with (run ops). by rewrite Hr. }
  destruct (graph_loop_ok ops (relabelling l) QAll g g' es k) as [a' Ha]; try done; try (rewrite relabelling_calls; done).
  { rewrite relabelling_calls. unfold edge_list_safe. apply safe_from_app. split; [done|apply relabelling_safe]. }
  { apply relabelling_keeps_all. }
  exists g', a'. split; [done|]. split; [done|]. split; [done|]. intros e. unfold srun. rewrite fold_left_app. fold (srun ops). unfold cs.
  rewrite relabelled. destruct (s_edges (srun ops) !! e) eqn:E; [|done]. cbn. rewrite decide_True; [done|]. apply Hin. by eexists.
Qed.

(** ** Relabelling what is visited, in a loop that does not select the new label *)
Lemma relabelling_keeps n d q l es : ~ selects q l -> NoDup es -> forall s vis, loop_keeps (node_keeps n d q) (relabelling l) s vis es.
Proof.
  intros Hl. induction es as [|e es IH]; intros Hnd s vis; [done|]. apply NoDup_cons in Hnd as [Hni Hnd]. cbn [loop_keeps]. split; [|by apply IH].
  unfold relabelling. rewrite last_snoc. cbn. split; [|done]. intros _. by right.
Qed.
Theorem relabelling_away ops g n d q l es k : valid_history ops -> run ops = Ok g -> live_node (srun ops) n -> query_ok q ->
  node_query g n d q = Ok es -> NoDup es -> ~ selects q l -> length es < k ->
  exists g' a', (let! x := x_run ops in node_loop k (relabelling l) x n d q) = Ok (es, XG g' a') /\
    valid_history (ops ++ map (fun e => OSetEdgeLabel e l) es) /\ run (ops ++ map (fun e => OSetEdgeLabel e l) es) = Ok g' /\
    forall e, s_edges (srun (ops ++ map (fun e => OSetEdgeLabel e l) es)) !! e =
      (fun x => if decide (e ∈ es) then Edge (e_from x) (e_to x) l (e_props x) else x) <$> s_edges (srun ops) !! e.
Proof.
  intros Hv Hr Hn Hq Hes Hnd Hl Hk. pose proof (core_run _ _ Hv Hr) as Hc.
  destruct (relabelling_runs l es g (srun ops) Hc) as [Hv2 [g' Hr2]]; [by eapply node_query_live|].
  set (cs := map (fun e => OSetEdgeLabel e l) es) in *.
  assert (valid_history (ops ++ cs)) as Hv' by (unfold valid_history; by apply valid_from_app).
  assert (run (ops ++ cs) = Ok g') as Hr'.
  { unfold run. rewrite rfold_app. change (rfold step ops new_graph) with (run ops). by rewrite Hr. }
  destruct (node_loop_ok ops (relabelling l) n d q g g' es k) as [a' Ha]; try done; try (rewrite relabelling_calls; done).
  { by apply relabelling_keeps. }
  exists g', a'. split; [done|]. split; [done|]. split; [done|]. intros e. unfold srun. rewrite fold_left_app. fold (srun ops). unfold cs.
  apply relabelled.
Qed.

(** ** Removing the targets *)
Lemma detaching_keeps n ordf s0 es : NoDup es -> (forall e, e ∈ es -> exists x, s_edges s0 !! e = Some x /\ e_from x = n /\ e_to x <> n) ->
  (forall e e' x x', e ∈ es -> e' ∈ es -> s_edges s0 !! e = Some x -> s_edges s0 !! e' = Some x' -> e_to x = e_to x' -> e = e') ->
  forall s vis, (forall e x, s_edges s !! e = Some x -> s_edges s0 !! e = Some x) ->
  loop_keeps (node_keeps n Outgoing QAll) (detaching ordf s0) s vis es.
Proof.
  induction es as [|e es IH]; intros Hnd Hfrom Hto s vis Hs; [done|]. apply NoDup_cons in Hnd as [Hni Hnd]. cbn [loop_keeps].
  destruct (Hfrom e) as (x & Hx & Hf & Ht); [left|]. unfold detaching at 1 2. rewrite last_snoc, Hx. cbn [calls_keep fold_left node_keeps]. split.
  - split; [|done]. intros e' He' Hi. unfold incident in Hi. destruct (s_edges s !! e') as [y|] eqn:Ey; [|done].
    destruct (Hfrom e') as (y' & Hy' & Hf' & _); [by right|]. apply Hs in Ey. assert (y' = y) as -> by congruence.
    destruct Hi as [Hi|Hi]; [congruence|]. assert (e = e') as ->; [|done]. eapply Hto; [left|by right|done|done|done].
  - apply IH; [done| | |].
    + intros e' He'. apply Hfrom. by right.
    + intros e1 e2 y y' H1 H2. apply Hto; by right.
    + intros e' y Hy. apply Hs. unfold detaching in Hy. rewrite last_snoc, Hx in Hy. cbn [fold_left sstep s_edges] in Hy.
      unfold s_detach in Hy. by apply map_filter_lookup_Some in Hy as [Hy _].
Qed.
Theorem detaching_ok ops g g' n ordf es k :
  valid_history (ops ++ loop_calls (detaching ordf (srun ops)) [] es) -> run ops = Ok g ->
  run (ops ++ loop_calls (detaching ordf (srun ops)) [] es) = Ok g' -> live_node (srun ops) n -> node_edges g n Outgoing = Ok es ->
  (forall e e' x x', s_edges (srun ops) !! e = Some x -> s_edges (srun ops) !! e' = Some x' -> e_from x = n -> e_from x' = n ->
     e_to x <> n /\ (e_to x = e_to x' -> e = e')) -> length es < k ->
  exists a', (let! x := x_run ops in node_loop k (detaching ordf (srun ops)) x n Outgoing QAll) = Ok (es, XG g' a').
Proof.
  intros Hv Hr Hr' Hn Hes Hto Hk. unfold valid_history in Hv. pose proof Hv as Hv0. apply valid_from_app in Hv as [Hv _].
  pose proof (core_run _ _ Hv Hr) as Hc. destruct (node_edges_out _ _ Hc n Hn) as (xs & Hxs & Hnd & Hin). assert (xs = es) as -> by congruence.
  apply node_loop_ok with (g := g); try done. apply detaching_keeps; try done.
  - intros e He. apply Hin in He as (x & Hx & Hf). exists x. split; [done|]. split; [done|]. by destruct (Hto _ _ _ _ Hx Hx Hf Hf).
  - intros e e' x x' He He' Hx Hx' Heq. apply Hin in He as (y & Hy & Hf), He' as (y' & Hy' & Hf').
    assert (y = x) as -> by congruence. assert (y' = x') as -> by congruence. by apply (Hto _ _ _ _ Hx Hx' Hf Hf').
Qed.

(** ** Removing all nodes *)
Lemma removing_nodes_calls ordf ns : forall vis, loop_calls (removing_nodes ordf) vis ns = map (fun n => ODetachRemove n (ordf n)) ns.
Proof. induction ns as [|n ns IH]; intros vis; [done|]. cbn [loop_calls map]. unfold removing_nodes at 1. rewrite last_snoc. cbn. by rewrite IH. Qed.
Lemma removing_nodes_keeps ordf ns : NoDup ns -> forall s vis, loop_keeps nodes_keep (removing_nodes ordf) s vis ns.
Proof.
  induction ns as [|n ns IH]; intros Hnd s vis; [done|]. apply NoDup_cons in Hnd as [Hni Hnd]. cbn [loop_keeps]. split; [|by apply IH].
  unfold removing_nodes. rewrite last_snoc. done.
Qed.
Theorem removing_nodes_ok ops g g' ordf ns k : valid_history (ops ++ map (fun n => ODetachRemove n (ordf n)) ns) -> run ops = Ok g ->
  run (ops ++ map (fun n => ODetachRemove n (ordf n)) ns) = Ok g' -> node_list_safe (ops ++ map (fun n => ODetachRemove n (ordf n)) ns) ->
  get_nodes g = Ok ns -> length ns < k -> nodes_loop k (removing_nodes ordf) g = Ok (ns, g').
Proof.
  intros Hv Hr Hr' Hs Hns Hk. assert (NoDup ns) as Hnd.
  { pose proof Hv as Hv0. unfold valid_history in Hv0. apply valid_from_app in Hv0 as [Hv0 _].
    destruct (get_nodes_ok ops g Hv0 Hr (node_list_safe_prefix _ _ Hs)) as (xs & Hxs & [Hnd _] & _). congruence. }
  apply nodes_loop_ok with (ops := ops); rewrite ?removing_nodes_calls; try done. by apply removing_nodes_keeps.
Qed.
Theorem x_run_ok ops g : valid_history ops -> run ops = Ok g -> exists a, x_run ops = Ok (XG g a).
Proof. intros Hv Hr. destruct (x_run_sim ops g Hv Hr) as (F & a & E & _). by exists a. Qed.
Lemma creating_calls es : forall vis, loop_calls creating vis es = replicate (length es) (ONewNode ∅ ∅ []).
Proof. induction es as [|e es IH]; intros vis; [done|]. cbn [loop_calls length replicate]. by rewrite IH. Qed.
Lemma creating_runs ops g es : valid_history ops -> run ops = Ok g ->
  valid_history (ops ++ loop_calls creating [] es) /\ exists g', run (ops ++ loop_calls creating [] es) = Ok g'.
Proof.
  intros Hv Hr. rewrite creating_calls. split.
  - unfold valid_history. apply valid_from_app. split; [done|]. generalize (fold_left sstep ops s_empty). induction es as [|e es IH]; intros s; [done|].
    cbn [length replicate valid_from]. split; [|apply IH]. split; [constructor|]. intros x. clear. set_solver.
  - unfold run. rewrite rfold_app. change (rfold step ops new_graph) with (run ops). rewrite Hr. cbn [rbind]. clear. revert g.
    induction es as [|e es IH]; intros g; [by eexists|]. cbn [length replicate rfold].
    assert (exists g', step g (ONewNode ∅ ∅ []) = Ok g') as [g' ->]; [|apply IH].
    cbn [step]. unfold new_node. cbn. eauto.
Qed.
