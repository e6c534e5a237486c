(** Proofs about calls that panic and are recovered. *)
From Verif Require Import Base Assoc Value FastSet Links EdgeMap NodeMap Index Graph GraphSpec Recover RecoverSpec
  EdgeMapProofs CoreProofs CoreStep NodeListProofs EdgeListProofs ProgressProofs VPathProofs.

(** ** Edge maps that become empty are as new *)
Definition em_inv (em : emap) : Prop :=
  (0 <= em_n em)%Z /\ (em_n em = 0%Z -> em = em_empty) /\ (em_n em = 1%Z -> em_bkts em = []).
Lemma em_inv_empty : em_inv em_empty.
Proof. by split_and!. Qed.
Lemma em_inv_add lbl em L e r : em_inv em -> em_add lbl em L e = Ok r -> em_inv r.1.
Proof.
  intros (H0 & H1 & H2). unfold em_add. destruct (decide (em_n em = 0)%Z) as [E|E].
  - intros [= <-]. rewrite (H1 E). by split_and!.
  - destruct (decide (em_n em = 1)%Z) as [E1|E1].
    + destruct (em_only em); [|done]. destruct (do_add _ _ _ _) as [b1 L1]. destruct (do_add _ _ _ _) as [b2 L2].
      intros [= <-]. split_and!; simpl; lia.
    + destruct (do_add _ _ _ _) as [b1 L1]. intros [= <-]. split_and!; simpl; lia.
Qed.
Lemma em_inv_remove lbl em L e em' L' : em_inv em -> em_remove lbl em L e = (em', L') -> em_inv em'.
Proof.
  intros (H0 & H1 & H2). unfold em_remove. destruct (decide (em_n em = 0)%Z) as [E|E]; [by intros [= <- _]|].
  destruct (decide (em_n em = 1)%Z) as [E1|E1].
  - destruct (decide (Some e = em_only em)); [|by intros [= <- _]]. intros [= <- _]. rewrite (H2 E1). by split_and!.
  - destruct (bk_get _ _) as [l|]; [|by intros [= <- _]]. destruct (el_remove _ _ _) as [l' L1].
    destruct (decide (em_n em - 1 = 1)%Z); intros [= <- _]; split_and!; simpl; done || lia.
Qed.
Definition ginv (N : gmap nat node) : Prop := map_Forall (fun _ nd => em_inv (n_in nd) /\ em_inv (n_out nd)) N.
Lemma ginv_insert N n nd : ginv N -> em_inv (n_in nd) -> em_inv (n_out nd) -> ginv (<[n := nd]> N).
Proof. intros H H1 H2. by apply map_Forall_insert_2. Qed.
Lemma ginv_connect g e g' : connect g e = Ok g' -> ginv (g_nodes g) -> ginv (g_nodes g').
Proof.
  unfold connect. intros H HG. inv_ok H. injection H as <-. simpl in *. unfold deref_node in *. simpl in *.
  destruct (g_nodes g !! e_to a) as [tn|] eqn:Et; [|done]. injection Ha0 as <-. destruct (HG _ _ Et) as [I1 I2].
  pose proof (em_inv_add _ _ _ _ _ I1 Ha1) as I3.
  assert (ginv (<[e_to a := Node (n_labels tn) (n_props tn) a1.1 (n_out tn)]> (g_nodes g))) as HG1 by (by apply ginv_insert).
  destruct (_ !! e_from a) as [fn|] eqn:Ef in Ha2; [|done]. injection Ha2 as <-. destruct (HG1 _ _ Ef) as [I4 I5].
  pose proof (em_inv_add _ _ _ _ _ I5 Ha3). by apply ginv_insert.
Qed.
Lemma ginv_disconnect g e g' : disconnect g e = Ok g' -> ginv (g_nodes g) -> ginv (g_nodes g').
Proof.
  unfold disconnect. intros H HG. inv_ok H. unfold deref_node in *. simpl in *.
  destruct (g_nodes g !! e_to a) as [tn|] eqn:Et; [|done]. injection Ha0 as <-. destruct (HG _ _ Et) as [I1 I2].
  destruct (em_remove _ _ _ _) as [em L] eqn:E1. pose proof (em_inv_remove _ _ _ _ _ _ I1 E1) as I3. inv_ok H. simpl in *.
  assert (ginv (<[e_to a := Node (n_labels tn) (n_props tn) em (n_out tn)]> (g_nodes g))) as HG1 by (by apply ginv_insert).
  destruct (_ !! e_from a) as [fn|] eqn:Ef in Ha0; [|done]. injection Ha0 as <-. destruct (HG1 _ _ Ef) as [I4 I5].
  destruct (em_remove _ (n_out fn) _ _) as [em' L'] eqn:E2. injection H as <-. simpl.
  pose proof (em_inv_remove _ _ _ _ _ _ I5 E2). by apply ginv_insert.
Qed.
Lemma all_remove_nodes g e : g_nodes (all_remove g e) = g_nodes g.
Proof. by rewrite all_remove_eq. Qed.
Lemma ginv_drop_edge g e g' : drop_edge g e = Ok g' -> ginv (g_nodes g) -> ginv (g_nodes g').
Proof.
  unfold drop_edge. intros H HG. inv_ok H. injection H as <-. simpl. rewrite all_remove_nodes. by eapply ginv_disconnect.
Qed.
Lemma ginv_drop_edges es g g' : rfold drop_edge es g = Ok g' -> ginv (g_nodes g) -> ginv (g_nodes g').
Proof.
  revert g. induction es as [|e es IH]; simpl; intros g H HG; [by injection H as <-|]. inv_ok H.
  eapply IH; [done|]. by eapply ginv_drop_edge.
Qed.
Lemma deref_node_Some g n nd : deref_node g n = Ok nd -> g_nodes g !! n = Some nd.
Proof. unfold deref_node. destruct (g_nodes g !! n); [|done]. by intros [= ->]. Qed.
Lemma ginv_detach g n g' : detach_node g n = Ok g' -> ginv (g_nodes g) -> ginv (g_nodes g').
Proof.
  unfold detach_node. intros H HG. inv_ok H. injection H as <-. simpl.
  apply deref_node_Some in Ha, Ha2, Ha3, Ha6. simpl in *. 
  pose proof (ginv_drop_edges _ _ _ Ha1 HG) as HG1. destruct (HG1 _ _ Ha2).
  eapply ginv_drop_edges in Ha5; [|by apply ginv_insert; [|apply em_inv_empty|]]. destruct (Ha5 _ _ Ha6).
  apply ginv_insert; [done..|apply em_inv_empty].
Qed.
Lemma ginv_step g o g' : step g o = Ok g' -> ginv (g_nodes g) -> ginv (g_nodes g').
Proof.
  intros H HG. destruct o; simpl in H.
  - unfold new_node in H. destruct (nl_add _ _ _) as [l L]. inv_ok H. injection H as <-. inv_ok Ha. injection Ha as <-. simpl.
    apply ginv_insert; [done|apply em_inv_empty..].
  - unfold new_edge in H. inv_ok H. injection H as <-. inv_ok Ha. injection Ha as <-. simpl.
    eapply ginv_connect; [done|]. unfold all_add in Ha2. inv_ok Ha2. injection Ha2 as <-. done.
  - unfold set_labels in H. inv_ok H. injection H as <-. apply deref_node_Some in Ha. destruct (HG _ _ Ha). by apply ginv_insert.
  - unfold set_node_prop in H. inv_ok H. injection H as <-. apply deref_node_Some in Ha. destruct (HG _ _ Ha). by apply ginv_insert.
  - unfold rem_node_prop in H. inv_ok H. apply deref_node_Some in Ha. destruct (HG _ _ Ha).
    destruct (_ !! k); [|by injection H as <-]. inv_ok H. injection H as <-. by apply ginv_insert.
  - by eapply ginv_detach.
  - unfold detach_remove_node in H. inv_ok H. destruct (nl_remove _ _ _) as [l L]. inv_ok H. injection H as <-. simpl. by eapply ginv_detach.
  - unfold set_edge_label in H. inv_ok H. destruct (decide _); [by injection H as <-|]. inv_ok H.
    eapply ginv_connect; [done|]. simpl. by eapply ginv_disconnect.
  - unfold set_edge_prop in H. inv_ok H. by injection H as <-.
  - unfold rem_edge_prop in H. inv_ok H. destruct (_ !! k); [|by injection H as <-]. inv_ok H. by injection H as <-.
  - unfold remove_edge in H. inv_ok H. injection H as <-. rewrite all_remove_nodes. by eapply ginv_disconnect.
  - unfold add_node_index in H. destruct (_ !! k); [by injection H as <-|]. inv_ok H. by injection H as <-.
  - unfold add_edge_index in H. destruct (_ !! k); [by injection H as <-|]. inv_ok H. by injection H as <-.
Qed.
Lemma ginv_run ops g : run ops = Ok g -> ginv (g_nodes g).
Proof.
  revert g. induction ops as [|o ops IH] using rev_ind; intros g H.
  - injection H as <-. apply map_Forall_empty.
  - rewrite run_snoc in H. inv_ok H. eapply ginv_step; [done|by apply IH].
Qed.

(** ** Without indexes *)
Lemma ixs_add_none l id : rfold (fun (ixs : gmap string index) (kv : string * value) =>
    match ixs !! kv.1 with None => Ok ixs | Some ix => let! ix' := ix_add ix kv.2 id in Ok (<[kv.1 := ix']> ixs) end) l ∅ = Ok ∅.
Proof. induction l as [|x l IH]; simpl; [done|]. by rewrite lookup_empty. Qed.
Lemma ixs_remove_none l id : rfold (fun (ixs : gmap string index) (kv : string * value) =>
    match ixs !! kv.1 with None => Ok ixs | Some ix => let! ix' := ix_remove ix kv.2 id in Ok (<[kv.1 := ix']> ixs) end) l ∅ = Ok ∅.
Proof. induction l as [|x l IH]; simpl; [done|]. by rewrite lookup_empty. Qed.
Lemma connect_noix g e g' : connect g e = Ok g' -> connect (noix g) e = Ok (noix g').
Proof.
  unfold connect. intros H. inv_ok H. injection H as <-.
  change (deref_edge (noix g) e) with (deref_edge g e). rewrite Ha. cbn [rbind].
  change (deref_node (noix g) (e_to a)) with (deref_node g (e_to a)). rewrite Ha0. cbn [rbind].
  change (em_add (lbl (noix g)) (n_in a0) (g_l2 (noix g)) e) with (em_add (lbl g) (n_in a0) (g_l2 g) e). rewrite Ha1. cbn [rbind].
  unfold deref_node in *. simpl in *. destruct (_ !! e_from a); [|done]. injection Ha2 as ->. simpl.
  unfold lbl in *. simpl in *. rewrite Ha3. done.
Qed.
Lemma disconnect_noix g e g' : disconnect g e = Ok g' -> disconnect (noix g) e = Ok (noix g').
Proof.
  unfold disconnect. intros H. inv_ok H.
  change (deref_edge (noix g) e) with (deref_edge g e). rewrite Ha. cbn [rbind].
  change (deref_node (noix g) (e_to a)) with (deref_node g (e_to a)). rewrite Ha0. cbn [rbind].
  change (em_remove (lbl (noix g)) (n_in a0) (g_l2 (noix g)) e) with (em_remove (lbl g) (n_in a0) (g_l2 g) e).
  destruct (em_remove _ _ _ _) as [em L]. inv_ok H. unfold deref_node in *. simpl in *.
  destruct (_ !! e_from a); [|done]. injection Ha1 as ->. simpl. unfold lbl in *. simpl in *.
  destruct (em_remove _ _ _ _) as [em' L']. by injection H as <-.
Qed.
Lemma all_remove_noix g e : all_remove (noix g) e = noix (all_remove g e).
Proof. by rewrite !all_remove_eq. Qed.
Lemma drop_edge_noix po g e g' b : drop_edge_st po g e = Ok (g', b) ->
  remove_edge (noix g) e = Ok (noix g') /\ drop_edge (noix g) e = Ok (noix g').
Proof.
  unfold drop_edge_st, remove_edge, drop_edge. intros H. inv_ok H. destruct (ixs_remove_st _ _ _) as [eix b0]. injection H as <- <-.
  rewrite (disconnect_noix _ _ _ Ha). cbn [rbind]. rewrite all_remove_noix. split; [done|].
  change (deref_edge (noix (all_remove a e)) e) with (deref_edge (all_remove a e) e). rewrite Ha0. cbn [rbind].
  unfold ixs_remove. change (g_eix (noix (all_remove a e))) with (∅ : gmap string index). by rewrite ixs_remove_none.
Qed.
Lemma drop_edges_noix po es g g' : drop_edges_st po es g = Ok (g', true) -> rfold drop_edge es (noix g) = Ok (noix g').
Proof.
  revert g. induction es as [|e es IH]; simpl; intros g H; [by injection H as <-|]. inv_ok H. destruct a as [g1 []]; [|by injection H].
  apply drop_edge_noix in Ha as [_ ->]. by apply IH.
Qed.
Lemma detach_noix po g n g' : detach_node_st po g n = Ok (g', true) -> detach_node (noix g) n = Ok (noix g').
Proof.
  unfold detach_node_st, detach_node. intros H. inv_ok H. destruct a1 as [g1 []]; [|by injection H]. simpl in H. inv_ok H.
  destruct a4 as [g3 []]; [|by injection H]. simpl in H. inv_ok H. injection H as <-.
  change (deref_node (noix g) n) with (deref_node g n). rewrite Ha. cbn [rbind].
  change (em_iter (fuel (noix g)) (g_l2 (noix g)) (n_in a)) with (em_iter (fuel g) (g_l2 g) (n_in a)). rewrite Ha0. cbn [rbind].
  rewrite (drop_edges_noix _ _ _ _ Ha1). cbn [rbind]. change (deref_node (noix g1) n) with (deref_node g1 n). rewrite Ha2. cbn [rbind].
  unfold deref_node in Ha3 |- *. simpl in *. destruct (_ !! n) as [nd2|]; [|done]. injection Ha3 as ->. cbn [rbind].
  unfold fuel in *. simpl in *. rewrite Ha4. cbn [rbind]. apply drop_edges_noix in Ha5. 
  change (noix (set_nodes g1 ?x)) with (set_nodes (noix g1) x) in Ha5. rewrite Ha5. cbn [rbind]. 
  change (g_nodes (noix g3)) with (g_nodes g3). unfold deref_node in Ha6. destruct (_ !! n); [|done]. by injection Ha6 as ->.
Qed.
Lemma new_edge_noix po g from to label p g' b : is_Some (g_nodes g !! from) -> is_Some (g_nodes g !! to) ->
  new_edge_st po g from to label p = Ok (g', b) -> step (noix g) (ONewEdge from to label p) = Ok (noix g').
Proof.
  intros [x Hf] [y Ht]. unfold new_edge_st. rewrite Hf, Ht. intros H. inv_ok H. destruct (ixs_add_st _ _ _) as [eix b0]. injection H as <- <-.
  cbn [step]. unfold new_edge, deref_node. change (g_nodes (noix g)) with (g_nodes g). rewrite Hf, Ht. cbn [rbind].
  change (bump (set_edges (noix g) ?z)) with (noix (bump (set_edges g z))). set (g1 := bump _) in *.
  assert (all_add (noix g1) (g_next g) = Ok (noix a)) as E.
  { unfold all_add in *. inv_ok Ha. injection Ha as <-. change (lbl (noix g1)) with (lbl g1). change (g_all (noix g1)) with (g_all g1).
    change (g_l0 (noix g1)) with (g_l0 g1). by rewrite Ha1. }
  change (g_next (noix g)) with (g_next g). rewrite E. cbn [rbind]. rewrite (connect_noix _ _ _ Ha0). cbn [rbind].
  unfold ixs_add. change (g_eix (noix a0)) with (∅ : gmap string index). by rewrite ixs_add_none.
Qed.

(** ** The effect of a call *)
Lemma reads_core g eff : reads_as g eff -> core (noix g) (srun eff).
Proof. intros (Hv & Hr & _). by apply core_run. Qed.
Lemma reads_snoc g eff o g' : reads_as g eff -> valid (srun eff) o -> index_call o = false -> step (noix g) o = Ok (noix g') -> reads_as g' (eff ++ [o]).
Proof.
  intros (Hv & Hr & Hf) Ho Hi Hs. split; [by apply valid_history_snoc|]. rewrite run_snoc, Hr. split; [done|].
  apply Forall_app. split; [done|]. by constructor.
Qed.

Lemma srun_removes eff l : srun (eff ++ map ORemoveEdge l) =
  SGraph (s_nodes (srun eff)) (filter (fun p => p.1 ∉ l) (s_edges (srun eff))) (s_next (srun eff)).
Proof.
  revert eff. induction l as [|e l IH]; intros eff; simpl.
  - rewrite app_nil_r, map_filter_id; [by destruct (srun eff)|]. intros i x _. set_solver.
  - replace (eff ++ ORemoveEdge e :: map ORemoveEdge l) with ((eff ++ [ORemoveEdge e]) ++ map ORemoveEdge l) by by rewrite <-app_assoc.
    rewrite IH, srun_snoc. simpl. f_equal.
    apply map_eq. intros x. apply option_eq. intros xd. rewrite !map_filter_lookup_Some, lookup_delete_Some. simpl.
    rewrite not_elem_of_cons. naive_solver.
Qed.
Lemma drop_edges_reads po es g eff g' b : reads_as g eff -> NoDup es -> (forall e, e ∈ es -> live_edge (srun eff) e) ->
  drop_edges_st po es g = Ok (g', b) ->
  exists l l', es = l ++ l' /\ reads_as g' (eff ++ map ORemoveEdge l) /\ if b then l' = [] else l <> [].
Proof.
  revert g eff. induction es as [|e es IH]; intros g eff Hrd Hnd Hes; simpl.
  - intros [= <- <-]. exists [], []. split; [done|]. split; [|done]. by rewrite app_nil_r.
  - intros H. inv_ok H. destruct a as [g1 b1]. apply drop_edge_noix in Ha as [Hrm _]. apply NoDup_cons in Hnd as [Hni Hnd].
    assert (reads_as g1 (eff ++ [ORemoveEdge e])) as Hrd1. { apply (reads_snoc g); [done| |done..]. apply Hes. set_solver. }
    destruct b1.
    + simpl in H. apply (IH _ (eff ++ [ORemoveEdge e])) in H as (l & l' & -> & Hrd' & Hb); [|done..|].
      * exists (e :: l), l'. split; [done|]. split; [by rewrite <-app_assoc in Hrd'|by destruct b].
      * intros x Hx. unfold live_edge. rewrite srun_snoc. simpl. rewrite lookup_delete_ne by (intros ->; done). apply Hes. set_solver.
    + injection H as <- <-. exists [e], es. by split_and!.
Qed.

Lemma em_iter_at g s n d nd : core g s -> live_node s n -> g_nodes g !! n = Some nd ->
  let '(L, em, X) := match d with true => (g_l2 g, n_in nd, ins (s_edges s) n) | false => (g_l1 g, n_out nd, outs (s_edges s) n) end in
  forall xs, em_iter (fuel g) L em = Ok xs -> NoDup xs /\ forall e, e ∈ xs <-> e ∈ X.
Proof.
  intros Hc Hl Hnd. pose proof Hc as ([Hn HC] & _). destruct (Hn n) as (nd1 & Hnd1 & Hi & Ho); [by apply elem_of_dom|].
  assert (nd1 = nd) as -> by congruence. destruct d; intros xs Hxs.
  - destruct (em_iter_ok _ _ _ _ (fuel g) Hi) as (ys & Hys & H1 & H2); [|by assert (ys = xs) as -> by congruence].
    eapply core_edges_size; [done|]. intros e He. apply elem_of_ins in He as (x & ? & _). by exists x.
  - destruct (em_iter_ok _ _ _ _ (fuel g) Ho) as (ys & Hys & H1 & H2); [|by assert (ys = xs) as -> by congruence].
    eapply core_edges_size; [done|]. intros e He. apply elem_of_outs in He as (x & ? & _). by exists x.
Qed.
Lemma detach_reads po g eff n g' : reads_as g eff -> live_node (srun eff) n -> detach_node_st po g n = Ok (g', false) ->
  exists l, l <> [] /\ some_edges_at (srun eff) n l /\ reads_as g' (eff ++ map ORemoveEdge l).
Proof.
  intros Hrd Hl H. unfold detach_node_st in H. apply rbind_Ok_inv in H as (nd & Hnd & H). apply rbind_Ok_inv in H as (il & Hil & H).
  apply deref_node_Some in Hnd. pose proof (reads_core _ _ Hrd) as Hc.
  destruct (em_iter_at _ _ n true nd Hc Hl Hnd il Hil) as [Hnd1 Hin1].
  assert (forall e, e ∈ il -> exists x, s_edges (srun eff) !! e = Some x /\ e_to x = n) as Hin by (intros e He; by apply elem_of_ins, Hin1).
  apply rbind_Ok_inv in H as ([g1 b1] & Hd1 & H).
  apply (drop_edges_reads po il g eff) in Hd1 as (l & l' & E & Hrd1 & Hb1); [|done..|intros e He; destruct (Hin e He) as (x & ? & _); by exists x].
  destruct b1; simpl in H.
  2: { injection H as <-. exists l. split; [done|]. split; [|done]. split; [by rewrite E in Hnd1; apply NoDup_app in Hnd1 as (?&_&_)|].
       intros e He. destruct (Hin e) as (x & ? & ?); [rewrite E; set_solver|]. eauto. }
  subst l'. rewrite app_nil_r in E. subst l. apply rbind_Ok_inv in H as (nd1 & Hnd1' & H). apply deref_node_Some in Hnd1'.
  pose proof (reads_core _ _ Hrd1) as Hc1. assert (live_node (srun (eff ++ map ORemoveEdge il)) n) as Hl1 by (unfold live_node; by rewrite srun_removes).
  assert (n_in nd1 = em_empty) as Ein.
  { destruct (ginv_run _ _ (proj1 (proj2 Hrd1)) n nd1) as [(_ & H1 & _) _]; [done|]. apply H1.
    destruct Hc1 as ([Hn1 _] & _). destruct (Hn1 n) as (nd1' & Hx & (Hn & _) & _); [by apply elem_of_dom|].
    change (g_nodes (noix g1)) with (g_nodes g1) in Hx. assert (nd1' = nd1) as -> by congruence. rewrite Hn.
    rewrite srun_removes. simpl. assert (ins (filter (fun p => p.1 ∉ il) (s_edges (srun eff))) n = ∅) as ->; [|done].
    apply elem_of_equiv_empty_L. intros e (x & Hx1 & Ht)%elem_of_ins. apply map_filter_lookup_Some in Hx1 as [Hx1 Hx2]. simpl in Hx2.
    apply Hx2, Hin1, elem_of_ins. eauto. }
  assert (set_nodes g1 (<[n := Node (n_labels nd1) (n_props nd1) em_empty (n_out nd1)]> (g_nodes g1)) = g1) as Eg.
  { rewrite <-Ein. destruct nd1. simpl. rewrite insert_id by done. by destruct g1. }
  rewrite Eg in H. apply rbind_Ok_inv in H as (nd2 & Hnd2 & H). apply deref_node_Some in Hnd2. assert (nd2 = nd1) as -> by congruence.
  apply rbind_Ok_inv in H as (ol & Hol & H). destruct (em_iter_at _ _ n false nd1 Hc1 Hl1 Hnd1' ol Hol) as [Hnd3 Hout1].
  assert (forall e, e ∈ ol -> e ∉ il /\ exists x, s_edges (srun eff) !! e = Some x /\ e_from x = n) as Hout.
  { intros e (x & Hx & Hf)%Hout1%elem_of_outs. rewrite srun_removes in Hx. simpl in Hx. apply map_filter_lookup_Some in Hx as [Hx1 Hx2]. eauto. }
  apply rbind_Ok_inv in H as ([g3 b3] & Hd3 & H).
  apply (drop_edges_reads po ol g1 (eff ++ map ORemoveEdge il)) in Hd3 as (l & l' & E & Hrd3 & Hb3); [|done..|].
  2: { intros e He. apply Hout1, elem_of_outs in He as (x & Hx & _). by exists x. }
  destruct b3; simpl in H; [by inv_ok H|]. injection H as <-. exists (il ++ l). split; [by destruct il, l|]. split.
  - split.
    + apply NoDup_app. split; [done|]. split; [|by rewrite E in Hnd3; apply NoDup_app in Hnd3 as (?&_&_)].
      intros e He1 He2. destruct (Hout e) as [? _]; [rewrite E; set_solver|done].
    + intros e [He|He]%elem_of_app; [destruct (Hin e He) as (x & ? & ?)|destruct (Hout e) as (_ & x & ? & ?); [rewrite E; set_solver|]]; eauto.
  - rewrite map_app, app_assoc. done.
Qed.

Lemma set_nodes_id g n nd : g_nodes g !! n = Some nd -> set_nodes g (<[n := nd]> (g_nodes g)) = g.
Proof. intros H. rewrite insert_id by done. by destruct g. Qed.
Lemma set_edges_id g n nd : g_edges g !! n = Some nd -> set_edges g (<[n := nd]> (g_edges g)) = g.
Proof. intros H. rewrite insert_id by done. by destruct g. Qed.
Lemma deref_edge_Some g n nd : deref_edge g n = Ok nd -> g_edges g !! n = Some nd.
Proof. unfold deref_edge. destruct (g_edges g !! n); [|done]. by intros [= ->]. Qed.
Lemma ix_update_st_b ixs k old new id ixs' w b : ix_update_st ixs k old new id = (ixs', w, b) ->
  (w = false -> b = false) /\ (new = None -> w = b).
Proof.
  unfold ix_update_st. destruct (ixs !! k) as [ix|]; [|intros [= <- <- <-]; done].
  destruct (match old with Some v => ix_remove_st ix v id | None => (ix, true) end) as [ix1 []]; [|intros [= <- <- <-]; done].
  destruct new as [v|]; [destruct (ix_add_st ix1 v id) as [ix2 b2]|]; intros [= <- <- <-]; done.
Qed.
Lemma noix_idem_n g N x : noix (set_nix (set_nodes g N) x) = set_nodes (noix g) N.
Proof. done. Qed.

Lemma step_reads po g eff o g' b : reads_as g eff -> valid (srun eff) o -> step_st po g o = Ok (g', b) ->
  exists os, effect (srun eff) o b os /\ reads_as g' (eff ++ os).
Proof.
  intros Hrd Ho H. pose proof (reads_core _ _ Hrd) as Hc.
  assert (index_call o = false -> effect (srun eff) o b [o] -> step (noix g) o = Ok (noix g') -> exists os, effect (srun eff) o b os /\ reads_as g' (eff ++ os)) as Hone.
  { intros Hi He Hs. exists [o]. split; [done|]. by apply (reads_snoc g). }
  assert (effect (srun eff) o b [] -> noix g' = noix g -> exists os, effect (srun eff) o b os /\ reads_as g' (eff ++ os)) as Hnone.
  { intros He Hs. exists []. split; [done|]. rewrite app_nil_r. unfold reads_as. by rewrite Hs. }
  destruct o; cbn [step_st] in H; simpl in Ho.
  - apply Hone; [done..|]. injection H as H. unfold new_node_st in H. cbn [step]. unfold new_node.
    change (bump (set_nodes (noix g) (<[g_next (noix g) := Node labels p em_empty em_empty]> (g_nodes (noix g))))) with
      (noix (bump (set_nodes g (<[g_next g := Node labels p em_empty em_empty]> (g_nodes g))))). set (g1 := bump _) in *.
    change (g_list (noix g1)) with (g_list g1). change (g_nl (noix g1)) with (g_nl g1). change (g_next (noix g)) with (g_next g).
    destruct (nl_add _ _ _) as [l L]. destruct (ixs_add_st _ _ _) as [nix b0]. injection H as <- <-.
    unfold ixs_add. cbn [g_nix set_lab set_list noix set_eix set_nix]. rewrite ixs_add_none. done.
  - apply Hone; [done..|]. destruct Ho as [[x Hf] [y Ht]].
    destruct (core_node _ _ _ _ Hc Hf) as (nd1 & ? & _), (core_node _ _ _ _ Hc Ht) as (nd2 & ? & _). eapply new_edge_noix; [..|done]; by eexists.
  - apply Hone; [done..|]. inv_ok H. injection H as <- <-. unfold set_labels in Ha. inv_ok Ha. injection Ha as <-. cbn [step]. unfold set_labels.
    change (deref_node (noix g) n) with (deref_node g n). by rewrite Ha0.
  - unfold set_node_prop_st in H. inv_ok H. destruct (ix_update_st _ _ _ _ _) as [[nix w] b0] eqn:E. injection H as <- <-.
    apply ix_update_st_b in E as [Hw _]. destruct w.
    + apply Hone; [done|by left|]. cbn [step]. unfold set_node_prop. change (deref_node (noix g) n) with (deref_node g n). rewrite Ha. cbn [rbind].
      unfold ix_update. change (g_nix (noix g)) with (∅ : gmap string index). by rewrite lookup_empty.
    + apply Hnone; [by right; auto|]. apply deref_node_Some in Ha. destruct a; simpl. rewrite set_nodes_id by done. done.
  - unfold rem_node_prop_st in H. inv_ok H. destruct (n_props a !! k) as [v|] eqn:Ek.
    + destruct (ix_update_st _ _ _ _ _) as [[nix w] b0] eqn:E. injection H as <- <-. apply ix_update_st_b in E as [_ E]. specialize (E eq_refl). subst w. destruct b0.
      * apply Hone; [done..|]. cbn [step]. unfold rem_node_prop. change (deref_node (noix g) n) with (deref_node g n). rewrite Ha. cbn [rbind]. rewrite Ek.
        unfold ix_update. change (g_nix (noix g)) with (∅ : gmap string index). by rewrite lookup_empty.
      * apply Hnone; [done|]. apply deref_node_Some in Ha. destruct a; simpl. rewrite set_nodes_id by done. done.
    + injection H as <- <-. apply Hone; [done..|]. cbn [step]. unfold rem_node_prop. change (deref_node (noix g) n) with (deref_node g n). rewrite Ha. cbn [rbind]. by rewrite Ek.
  - destruct b.
    + apply Hone; [done..|]. by eapply detach_noix.
    + destruct (detach_reads _ _ _ _ _ Hrd Ho H) as (l & Hl & Hat & Hrd'). exists (map ORemoveEdge l). split; [|done]. by exists l.
  - unfold detach_remove_node_st in H. inv_ok H. destruct a as [g1 []]; simpl in H.
    + inv_ok H. destruct (nl_remove _ _ _) as [l L] eqn:El. destruct (ixs_remove_st _ _ _) as [nix b0]. injection H as <- <-.
      apply Hone; [done|by left|]. cbn [step]. unfold detach_remove_node. rewrite (detach_noix _ _ _ _ Ha). cbn [rbind].
      change (deref_node (noix g1) n) with (deref_node g1 n). rewrite Ha0. cbn [rbind].
      change (g_list (noix g1)) with (g_list g1). change (g_nl (noix g1)) with (g_nl g1). rewrite El.
      unfold ixs_remove. cbn [g_nix set_lab set_list noix set_eix set_nix]. rewrite ixs_remove_none. done.
    + injection H as <- <-. destruct (detach_reads po g eff n g1 Hrd) as (l & Hl & Hat & Hrd'); [destruct Ho as (x & ? & _); by eexists|done|].
      exists (map ORemoveEdge l). split; [|done]. right. split; [done|]. by exists l.
  - inv_ok H. injection H as <- <-. apply Hone; [done..|]. cbn [step]. unfold set_edge_label in *. change (deref_edge (noix g) e) with (deref_edge g e).
    inv_ok Ha. rewrite Ha0. cbn [rbind]. destruct (decide _); [by injection Ha as <-|]. inv_ok Ha. rewrite (disconnect_noix _ _ _ Ha1). cbn [rbind].
    apply connect_noix in Ha. done.
  - unfold set_edge_prop_st in H. inv_ok H. destruct (ix_update_st _ _ _ _ _) as [[nix w] b0] eqn:E. injection H as <- <-.
    apply ix_update_st_b in E as [Hw _]. destruct w.
    + apply Hone; [done|by left|]. cbn [step]. unfold set_edge_prop. change (deref_edge (noix g) e) with (deref_edge g e). rewrite Ha. cbn [rbind].
      unfold ix_update. change (g_eix (noix g)) with (∅ : gmap string index). by rewrite lookup_empty.
    + apply Hnone; [by right; auto|]. apply deref_edge_Some in Ha. destruct a; simpl. rewrite set_edges_id by done. done.
  - unfold rem_edge_prop_st in H. inv_ok H. destruct (e_props a !! k) as [v|] eqn:Ek.
    + destruct (ix_update_st _ _ _ _ _) as [[nix w] b0] eqn:E. injection H as <- <-. apply ix_update_st_b in E as [_ E]. specialize (E eq_refl). subst w. destruct b0.
      * apply Hone; [done..|]. cbn [step]. unfold rem_edge_prop. change (deref_edge (noix g) e) with (deref_edge g e). rewrite Ha. cbn [rbind]. rewrite Ek.
        unfold ix_update. change (g_eix (noix g)) with (∅ : gmap string index). by rewrite lookup_empty.
      * apply Hnone; [done|]. apply deref_edge_Some in Ha. destruct a; simpl. rewrite set_edges_id by done. done.
    + injection H as <- <-. apply Hone; [done..|]. cbn [step]. unfold rem_edge_prop. change (deref_edge (noix g) e) with (deref_edge g e). rewrite Ha. cbn [rbind]. by rewrite Ek.
  - inv_ok H. injection H as <- <-. apply Hone; [done..|]. cbn [step]. unfold remove_edge in *. inv_ok Ha. injection Ha as <-.
    rewrite (disconnect_noix _ _ _ Ha0). cbn [rbind]. by rewrite all_remove_noix.
  - apply Hnone; [done|]. unfold add_node_index_st in H. destruct (g_nix g !! k); [by injection H as <- _|]. inv_ok H. by injection H as <- _.
  - apply Hnone; [done|]. unfold add_edge_index_st in H. destruct (g_eix g !! k); [by injection H as <- _|]. inv_ok H. by injection H as <- _.
Qed.

(** ** The calls are those of Graph.v, and the orders of the loops do not matter when nothing panics *)
Definition outcome (r : res (graph * bool)) : res graph :=
  let! x := r in if (x.2 : bool) then Ok x.1 else Panic.
Section loops.
  Context (F : index -> value -> res index) (f : index -> value -> index * bool).
  Hypothesis Hf : forall ix v, F ix v = if (f ix v).2 then Ok (f ix v).1 else Panic.

  Lemma loop_rfold l ixs :
    rfold (fun ixs kv => match ixs !! kv.1 with
                         | None => Ok ixs
                         | Some ix => let! ix' := F ix kv.2 in Ok (<[kv.1 := ix']> ixs)
                         end) l ixs = if (ixs_loop f l ixs).2 then Ok (ixs_loop f l ixs).1 else Panic.
  Proof.
    revert ixs. induction l as [|[k v] l IH]; intros ixs; simpl; [done|]. destruct (ixs !! k) as [ix|]; simpl; [|apply IH].
    rewrite Hf. destruct (f ix v) as [ix' []]; simpl; [apply IH|done].
  Qed.
  Lemma loop_true l ixs : NoDup l.*1 ->
    ((ixs_loop f l ixs).2 = true <-> forall k v ix, (k, v) ∈ l -> ixs !! k = Some ix -> (f ix v).2 = true) /\
    ((ixs_loop f l ixs).2 = true -> forall k, (ixs_loop f l ixs).1 !! k =
      match (list_to_map l : gmap string value) !! k, ixs !! k with Some v, Some ix => Some (f ix v).1 | _, o => o end).
  Proof.
    revert ixs. induction l as [|[k v] l IH]; intros ixs Hnd; simpl.
    - split; [split; [intros _ ??? ?%elem_of_nil|]; done|]. intros _ j. by rewrite lookup_empty.
    - simpl in Hnd. apply NoDup_cons in Hnd as [Hni Hnd].
      assert (forall w, (k, w) ∉ l) as Hk by (intros w Hw; apply Hni, elem_of_list_fmap; by exists (k, w)).
      destruct (ixs !! k) as [ix|] eqn:Ek.
      + destruct (f ix v) as [ix' b] eqn:Ef. destruct b; simpl.
        * destruct (IH (<[k := ix']> ixs) Hnd) as [IH1 IH2]. split.
          -- rewrite IH1. split; intros H j w jx Hin Hj.
             ++ apply elem_of_cons in Hin as [[= -> ->]|Hin]; [rewrite Ek in Hj; injection Hj as <-; by rewrite Ef|].
                apply (H j w); [done|]. rewrite lookup_insert_ne; [done|]. intros <-. by destruct (Hk w).
             ++ apply (H j w); [by apply elem_of_cons; right|]. rewrite lookup_insert_ne in Hj; [done|]. intros <-. by destruct (Hk w).
          -- intros Ht j. rewrite (IH2 Ht). destruct (decide (j = k)) as [->|Hj].
             ++ rewrite !lookup_insert, Ek, Ef. by rewrite not_elem_of_list_to_map_1.
             ++ by rewrite !lookup_insert_ne by done.
        * split; [|done]. split; [done|]. intros H. rewrite <-(H k v ix); [by rewrite Ef| |done]. by apply elem_of_cons; left.
      + destruct (IH ixs Hnd) as [IH1 IH2]. split.
        * rewrite IH1. split; intros H j w jx Hin Hj.
          -- apply elem_of_cons in Hin as [[= -> ->]|Hin]; [congruence|by apply (H j w)].
          -- apply (H j w); [by apply elem_of_cons; right|done].
        * intros Ht j. rewrite (IH2 Ht). destruct (decide (j = k)) as [->|Hj]; [rewrite lookup_insert, Ek; by destruct (list_to_map l !! k)|by rewrite lookup_insert_ne].
  Qed.
  Lemma loop_props p l ixs : l ≡ₚ map_to_list p ->
    rfold (fun ixs kv => match ixs !! kv.1 with
                         | None => Ok ixs
                         | Some ix => let! ix' := F ix kv.2 in Ok (<[kv.1 := ix']> ixs)
                         end) (map_to_list p) ixs = if (ixs_loop f l ixs).2 then Ok (ixs_loop f l ixs).1 else Panic.
  Proof.
    intros Hl. rewrite loop_rfold. pose proof (NoDup_fst_map_to_list p) as Hnd.
    assert (NoDup l.*1) as Hnd' by (by rewrite Hl).
    destruct (loop_true (map_to_list p) ixs Hnd) as [H1 H2], (loop_true l ixs Hnd') as [H3 H4].
    assert ((ixs_loop f (map_to_list p) ixs).2 = (ixs_loop f l ixs).2) as E.
    { apply eq_true_iff_eq. rewrite H1, H3. setoid_rewrite Hl. done. }
    rewrite E in *. destruct (ixs_loop f l ixs).2; [|done]. f_equal. apply map_eq. intros k. rewrite H2, H4 by done.
    assert (list_to_map (map_to_list p) = (list_to_map l : gmap string value)) as ->; [|done].
    apply list_to_map_proper; [done|by symmetry].
  Qed.
End loops.
Lemma bt_get_ends t v : bt_get t v <> Diverge.
Proof. induction t as [|[k s] t IH]; simpl; [done|]. by destruct (compare_value v k) as [[]|]. Qed.
Lemma ix_add_ends ix v id : ix_add ix v id <> Diverge.
Proof.
  destruct ix as [ot|vals els fresh]; simpl; [|by destruct (hashable _)]. pose proof (bt_get_ends (default [] ot) v).
  by destruct (bt_get _ v).
Qed.
Lemma ix_remove_ends ix v id : ix_remove ix v id <> Diverge.
Proof.
  destruct ix as [[t|]|vals els fresh]; simpl; [|done|].
  - pose proof (bt_get_ends t v). destruct (bt_get t v) as [[s|]| |]; simpl; try done. by destruct (decide _).
  - destruct (decide _); [done|]. destruct (hashable _); [|done]. destruct (h_get _ _); [|done]. by destruct (fs_get _ _).
Qed.
Lemma ix_add_st_ok ix v id : ix_add ix v id = if (ix_add_st ix v id).2 then Ok (ix_add_st ix v id).1 else Panic.
Proof. unfold ix_add_st. pose proof (ix_add_ends ix v id). by destruct (ix_add ix v id). Qed.
Lemma ix_remove_st_ok ix v id : ix_remove ix v id = if (ix_remove_st ix v id).2 then Ok (ix_remove_st ix v id).1 else Panic.
Proof. unfold ix_remove_st. pose proof (ix_remove_ends ix v id). by destruct (ix_remove ix v id). Qed.
Lemma ixs_add_st_ok po ixs p id : prop_order po -> ixs_add ixs p id =
  if (ixs_add_st ixs (po id p) id).2 then Ok (ixs_add_st ixs (po id p) id).1 else Panic.
Proof. intros H. apply (loop_props (fun ix v => ix_add ix v id)); [intros; apply ix_add_st_ok|apply H]. Qed.
Lemma ixs_remove_st_ok po ixs p id : prop_order po -> ixs_remove ixs p id =
  if (ixs_remove_st ixs (po id p) id).2 then Ok (ixs_remove_st ixs (po id p) id).1 else Panic.
Proof. intros H. apply (loop_props (fun ix v => ix_remove ix v id)); [intros; apply ix_remove_st_ok|apply H]. Qed.
Lemma ix_update_st_ok ixs k old new id : ix_update ixs k old new id =
  let '(ixs', _, b) := ix_update_st ixs k old new id in if b then Ok ixs' else Panic.
Proof.
  unfold ix_update, ix_update_st. destruct (ixs !! k) as [ix|]; [|done]. destruct old as [v|]; simpl.
  - rewrite ix_remove_st_ok. destruct (ix_remove_st ix v id) as [ix1 []]; simpl; [|done].
    destruct new as [w|]; simpl; [|done]. rewrite ix_add_st_ok. by destruct (ix_add_st ix1 w id) as [ix2 []].
  - destruct new as [w|]; simpl; [|done]. rewrite ix_add_st_ok. by destruct (ix_add_st ix w id) as [ix2 []].
Qed.
Lemma ix_update_written ixs k old new id ixs' w : ix_update_st ixs k old new id = (ixs', w, true) -> w = true.
Proof. intros H. apply ix_update_st_b in H as [H _]. by destruct w; [|specialize (H eq_refl)]. Qed.

Lemma drop_edge_outcome po g e : prop_order po -> drop_edge g e = outcome (drop_edge_st po g e).
Proof.
  intros Hpo. unfold drop_edge, drop_edge_st. destruct (disconnect g e) as [g1| |]; simpl; try done.
  destruct (deref_edge _ e) as [ed| |]; simpl; try done. rewrite (ixs_remove_st_ok po) by done.
  by destruct (ixs_remove_st _ _ _) as [eix []].
Qed.
Lemma drop_edges_outcome po es g : prop_order po -> rfold drop_edge es g = outcome (drop_edges_st po es g).
Proof.
  intros Hpo. revert g. induction es as [|e es IH]; intros g; simpl; [done|]. rewrite (drop_edge_outcome po) by done.
  by destruct (drop_edge_st po g e) as [[g1 []]| |]; simpl; try apply IH.
Qed.
Lemma detach_outcome po g n : prop_order po -> detach_node g n = outcome (detach_node_st po g n).
Proof.
  intros Hpo. unfold detach_node, detach_node_st. destruct (deref_node g n) as [nd| |]; simpl; try done.
  destruct (em_iter _ _ _) as [il| |]; simpl; try done. rewrite (drop_edges_outcome po) by done.
  destruct (drop_edges_st po il g) as [[g1 []]| |]; simpl; try done. destruct (deref_node g1 n) as [nd1| |]; simpl; try done.
  set (g2 := set_nodes g1 _). destruct (deref_node g2 n) as [nd2| |]; simpl; try done. 
  destruct (em_iter _ _ _) as [ol| |]; simpl; try done. rewrite (drop_edges_outcome po) by done.
  destruct (drop_edges_st po ol g2) as [[g3 []]| |]; simpl; try done. by destruct (deref_node g3 n) as [nd3| |].
Qed.
Lemma fill_outcome (prop : nat -> res (option value)) xs ix :
  rfold (fun ix x => let! o := prop x in match o with Some v => ix_add ix v x | None => Ok ix end) xs ix =
  let! y := fill_st prop xs ix in if (y.2 : bool) then Ok y.1 else Panic.
Proof.
  revert ix. induction xs as [|x xs IH]; intros ix; simpl; [done|]. destruct (prop x) as [[v|]| |]; simpl; [|apply IH|done..].
  rewrite ix_add_st_ok. destruct (ix_add_st ix v x) as [ix' []]; simpl; [apply IH|done].
Qed.
Lemma rfold_ext {A S} (f f' : S -> A -> res S) l s : (forall s a, f s a = f' s a) -> rfold f l s = rfold f' l s.
Proof. intros H. revert s. induction l as [|a l IH]; intros s; simpl; [done|]. rewrite H. destruct (f' s a); simpl; auto. Qed.

Lemma step_outcome po g o : prop_order po -> step g o = outcome (step_st po g o).
Proof.
  intros Hpo. unfold outcome. destruct o; cbn [step step_st].
  - unfold new_node, new_node_st. set (g1 := bump _). destruct (nl_add _ _ _) as [l L]. rewrite (ixs_add_st_ok po) by done.
    destruct (ixs_add_st _ _ _) as [nix []]; done.
  - unfold new_edge, new_edge_st, deref_node. destruct (g_nodes g !! from); simpl; [|done]. destruct (g_nodes g !! to); simpl; [|done].
    set (g1 := bump _). destruct (all_add _ _) as [g2| |]; simpl; try done. destruct (connect _ _) as [g3| |]; simpl; try done.
    rewrite (ixs_add_st_ok po) by done. by destruct (ixs_add_st _ _ _) as [eix []].
  - by destruct (set_labels _ _ _ _ _).
  - unfold set_node_prop, set_node_prop_st. destruct (deref_node g n) as [nd| |]; simpl; try done. rewrite ix_update_st_ok.
    destruct (ix_update_st _ _ _ _ _) as [[nix w] []] eqn:E; simpl; [|done]. by rewrite (ix_update_written _ _ _ _ _ _ _ E).
  - unfold rem_node_prop, rem_node_prop_st. destruct (deref_node g n) as [nd| |]; simpl; try done. destruct (_ !! k); simpl; [|done].
    rewrite ix_update_st_ok. destruct (ix_update_st _ _ _ _ _) as [[nix w] []] eqn:E; simpl; [|done]. by rewrite (ix_update_written _ _ _ _ _ _ _ E).
  - by apply detach_outcome.
  - unfold detach_remove_node, detach_remove_node_st. rewrite (detach_outcome po) by done.
    destruct (detach_node_st po g n) as [[g1 []]| |]; simpl; try done. destruct (deref_node g1 n) as [nd| |]; simpl; try done.
    destruct (nl_remove _ _ _) as [l L]. rewrite (ixs_remove_st_ok po) by done. by destruct (ixs_remove_st _ _ _) as [nix []].
  - by destruct (set_edge_label _ _ _).
  - unfold set_edge_prop, set_edge_prop_st. destruct (deref_edge g e) as [nd| |]; simpl; try done. rewrite ix_update_st_ok.
    destruct (ix_update_st _ _ _ _ _) as [[nix w] []] eqn:E; simpl; [|done]. by rewrite (ix_update_written _ _ _ _ _ _ _ E).
  - unfold rem_edge_prop, rem_edge_prop_st. destruct (deref_edge g e) as [nd| |]; simpl; try done. destruct (_ !! k); simpl; [|done].
    rewrite ix_update_st_ok. destruct (ix_update_st _ _ _ _ _) as [[nix w] []] eqn:E; simpl; [|done]. by rewrite (ix_update_written _ _ _ _ _ _ _ E).
  - by destruct (remove_edge _ _).
  - unfold add_node_index, add_node_index_st. destruct (g_nix g !! k); [done|]. destruct (get_nodes g) as [ns| |]; simpl; try done.
    erewrite rfold_ext; [rewrite (fill_outcome (fun n => let! nd := deref_node g n in Ok (n_props nd !! k)))|].
    + destruct (fill_st _ _ _) as [[ix []]| |]; done.
    + intros ix n. simpl. by destruct (deref_node g n).
  - unfold add_edge_index, add_edge_index_st. destruct (g_eix g !! k); [done|]. destruct (get_edges g) as [ns| |]; simpl; try done.
    erewrite rfold_ext; [rewrite (fill_outcome (fun n => let! nd := deref_edge g n in Ok (e_props nd !! k)))|].
    + destruct (fill_st _ _ _) as [[ix []]| |]; done.
    + intros ix n. simpl. by destruct (deref_edge g n).
Qed.

(** ** Stuck properties *)
Lemma ix_add_refused ix v id ix' : ix_add_st ix v id = (ix', false) -> forall j, ix_remove_st ix' v j = (ix', false).
Proof.
  unfold ix_add_st, ix_remove_st. destruct ix as [ot|vals els fresh]; simpl.
  - destruct (bt_get (default [] ot) v) as [o| |] eqn:E; simpl; [done| |]; intros [= <-] j.
    + destruct ot as [t|]; simpl in *; [|done]. by rewrite E.
    + by destruct (bt_get_ends (default [] ot) v).
  - destruct (hashable (hkey v)) eqn:E; [done|]. intros [= <-] j. cbn [ix_remove]. rewrite decide_False by lia. by rewrite E.
Qed.
Lemma ix_remove_refused ix v id ix' : ix_remove_st ix v id = (ix', false) -> ix' = ix /\ forall j, ix_remove_st ix v j = (ix, false).
Proof.
  unfold ix_remove_st. destruct ix as [[t|]|vals els fresh]; simpl; [|done|].
  - destruct (bt_get t v) as [[s|]| |] eqn:E; simpl; [destruct (decide _); done|done| |]; by intros [= <-].
  - destruct (decide _); [done|]. destruct (hashable _); [|by intros [= <-]]. destruct (h_get _ _) as [s|]; [|done]. by destruct (fs_get _ _).
Qed.
(** the index refuses to remove [v], which is the value of the property *)
Lemma ix_update_stuck ixs k old v id ixs' w : ix_update_st ixs k old (Some v) id = (ixs', w, false) ->
  exists u ix, ixs' !! k = Some ix /\ (u = if w then Some v else old) /\ match u with Some x => ix_remove_st ix x id = (ix, false) | None => False end.
Proof.
  unfold ix_update_st. destruct (ixs !! k) as [ix|]; [|done]. destruct old as [o|].
  - destruct (ix_remove_st ix o id) as [ix1 []] eqn:E1.
    + destruct (ix_add_st ix1 v id) as [ix2 b2] eqn:E2. intros [= <- <- ->]. exists (Some v), ix2. rewrite lookup_insert. split_and!; [done..|].
      by eapply ix_add_refused.
    + intros [= <- <-]. apply ix_remove_refused in E1 as [-> H]. exists (Some o), ix. rewrite lookup_insert. by split_and!.
  - destruct (ix_add_st ix v id) as [ix2 b2] eqn:E2. intros [= <- <- ->]. exists (Some v), ix2. rewrite lookup_insert. split_and!; [done..|].
    by eapply ix_add_refused.
Qed.
Lemma ix_update_refused ixs k x ix new id : ixs !! k = Some ix -> ix_remove_st ix x id = (ix, false) ->
  ix_update_st ixs k (Some x) new id = (ixs, false, false).
Proof. intros H1 H2. unfold ix_update_st. rewrite H1, H2. by rewrite insert_id. Qed.
Lemma set_nix_id g : set_nix g (g_nix g) = g.
Proof. by destruct g. Qed.
Lemma set_eix_id g : set_eix g (g_eix g) = g.
Proof. by destruct g. Qed.
Lemma set_node_prop_stuck po g n k v g' : step_st po g (OSetNodeProp n k v) = Ok (g', false) ->
  (forall po' w, step_st po' g' (OSetNodeProp n k w) = Ok (g', false)) /\ (forall po', step_st po' g' (ORemNodeProp n k) = Ok (g', false)).
Proof.
  cbn [step_st]. unfold set_node_prop_st, rem_node_prop_st. intros H. inv_ok H. destruct (ix_update_st _ _ _ _ _) as [[nix w] b] eqn:E.
  injection H as <- ->. apply deref_node_Some in Ha. apply ix_update_stuck in E as (u & ix & Hix & Hu & Hno).
  destruct u as [x|]; [|done]. set (p := if w then <[k := v]> (n_props a) else n_props a).
  assert (p !! k = Some x) as Hp by (unfold p; destruct w; [rewrite lookup_insert|]; done).
  set (nd := Node (n_labels a) p (n_in a) (n_out a)). set (g' := set_nix _ nix).
  assert (deref_node g' n = Ok nd) as Hn by (unfold deref_node; simpl; by rewrite lookup_insert).
  assert (g_nodes g' !! n = Some nd) as Hn' by (by apply deref_node_Some).
  assert (set_nix (set_nodes g' (<[n := nd]> (g_nodes g'))) nix = g') as Eg by (by rewrite set_nodes_id).
  split; intros; rewrite Hn; cbn [rbind]; [|change (n_props nd) with p; rewrite Hp].
  - change (n_props nd) with p. rewrite Hp. rewrite (ix_update_refused _ _ _ ix) by done. exact (f_equal (fun x => Ok (x, false)) Eg).
  - rewrite (ix_update_refused _ _ _ ix) by done. exact (f_equal (fun x => Ok (x, false)) Eg).
Qed.
Lemma set_edge_prop_stuck po g n k v g' : step_st po g (OSetEdgeProp n k v) = Ok (g', false) ->
  (forall po' w, step_st po' g' (OSetEdgeProp n k w) = Ok (g', false)) /\ (forall po', step_st po' g' (ORemEdgeProp n k) = Ok (g', false)).
Proof.
  cbn [step_st]. unfold set_edge_prop_st, rem_edge_prop_st. intros H. inv_ok H. destruct (ix_update_st _ _ _ _ _) as [[nix w] b] eqn:E.
  injection H as <- ->. apply deref_edge_Some in Ha. apply ix_update_stuck in E as (u & ix & Hix & Hu & Hno).
  destruct u as [x|]; [|done]. set (p := if w then <[k := v]> (e_props a) else e_props a).
  assert (p !! k = Some x) as Hp by (unfold p; destruct w; [rewrite lookup_insert|]; done).
  set (nd := Edge (e_from a) (e_to a) (e_label a) p). set (g' := set_eix _ nix).
  assert (deref_edge g' n = Ok nd) as Hn by (unfold deref_edge; simpl; by rewrite lookup_insert).
  assert (g_edges g' !! n = Some nd) as Hn' by (by apply deref_edge_Some).
  assert (set_eix (set_edges g' (<[n := nd]> (g_edges g'))) nix = g') as Eg by (by rewrite set_edges_id).
  split; intros; rewrite Hn; cbn [rbind]; [|change (e_props nd) with p; rewrite Hp].
  - change (e_props nd) with p. rewrite Hp. rewrite (ix_update_refused _ _ _ ix) by done. exact (f_equal (fun x => Ok (x, false)) Eg).
  - rewrite (ix_update_refused _ _ _ ix) by done. exact (f_equal (fun x => Ok (x, false)) Eg).
Qed.

(** ** Calls come back *)
Lemma connect_back g e g' : connect (noix g) e = Ok g' -> exists g1, connect g e = Ok g1.
Proof.
  unfold connect. change (deref_edge (noix g) e) with (deref_edge g e). intros H. inv_ok H.
  change (deref_node (noix g) ?x) with (deref_node g x) in *. change (lbl (noix g)) with (lbl g) in *. change (g_l2 (noix g)) with (g_l2 g) in *.
  rewrite Ha. cbn [rbind]. rewrite Ha0. cbn [rbind]. rewrite Ha1. cbn [rbind].
  unfold deref_node in *. simpl in *. destruct (_ !! e_from a); [|done]. injection Ha2 as ->. simpl. unfold lbl in *. simpl in *. rewrite Ha3. simpl. eauto.
Qed.
Lemma disconnect_back g e g' : disconnect (noix g) e = Ok g' -> exists g1, disconnect g e = Ok g1.
Proof.
  unfold disconnect. change (deref_edge (noix g) e) with (deref_edge g e). intros H. inv_ok H.
  change (deref_node (noix g) ?x) with (deref_node g x) in *. change (lbl (noix g)) with (lbl g) in *. change (g_l2 (noix g)) with (g_l2 g) in *.
  rewrite Ha. cbn [rbind]. rewrite Ha0. cbn [rbind]. destruct (em_remove _ _ _ _) as [em L]. inv_ok H. unfold deref_node in *. simpl in *.
  destruct (_ !! e_from a); [|done]. injection Ha1 as ->. simpl. unfold lbl in *. simpl in *. destruct (em_remove _ _ _ _) as [em' L']. eauto.
Qed.
Lemma drop_edge_back po g e g' : drop_edge (noix g) e = Ok g' -> exists g1 b, drop_edge_st po g e = Ok (g1, b) /\ g' = noix g1.
Proof.
  intros H. assert (exists g1 b, drop_edge_st po g e = Ok (g1, b)) as (g1 & b & E).
  { unfold drop_edge in H. inv_ok H. destruct (disconnect_back _ _ _ Ha) as [g1 E]. unfold drop_edge_st. rewrite E. cbn [rbind].
    apply disconnect_noix in E. assert (a = noix g1) as -> by congruence. rewrite all_remove_noix in Ha0.
    change (deref_edge (noix (all_remove g1 e)) e) with (deref_edge (all_remove g1 e) e) in Ha0. rewrite Ha0. cbn [rbind].
    destruct (ixs_remove_st _ _ _) as [eix b]. eauto. }
  exists g1, b. split; [done|]. apply drop_edge_noix in E as [_ E]. congruence.
Qed.
Lemma drop_edges_back po es g g' : rfold drop_edge es (noix g) = Ok g' -> exists g1 b, drop_edges_st po es g = Ok (g1, b) /\ (b = true -> g' = noix g1).
Proof.
  revert g. induction es as [|e es IH]; intros g; simpl; [intros [= <-]; by exists g, true|]. intros H. inv_ok H.
  apply (drop_edge_back po) in Ha as (g1 & b & E & ->). rewrite E. cbn [rbind fst snd]. destruct b; [by apply IH|]. by exists g1, false.
Qed.
Lemma detach_back po g n g' : detach_node (noix g) n = Ok g' -> exists g1 b, detach_node_st po g n = Ok (g1, b).
Proof.
  unfold detach_node, detach_node_st. intros H. inv_ok H. change (deref_node (noix g) n) with (deref_node g n) in Ha. rewrite Ha. cbn [rbind].
  change (em_iter (fuel (noix g)) (g_l2 (noix g)) (n_in a)) with (em_iter (fuel g) (g_l2 g) (n_in a)) in Ha0. rewrite Ha0. cbn [rbind].
  destruct (drop_edges_back po _ _ _ Ha1) as (g1 & b & E & Hb). rewrite E. cbn [rbind fst snd]. destruct b; [|eauto]. rewrite (Hb eq_refl) in *. clear Hb.
  change (deref_node (noix g1) n) with (deref_node g1 n) in Ha2. rewrite Ha2. cbn [rbind].
  change (set_nodes (noix g1) ?x) with (noix (set_nodes g1 x)) in *. set (g2 := set_nodes g1 _) in *.
  change (deref_node (noix g2) n) with (deref_node g2 n) in *. rewrite Ha3. cbn [rbind].
  change (em_iter (fuel (noix g2)) (g_l1 (noix g2)) (n_out a3)) with (em_iter (fuel g2) (g_l1 g2) (n_out a3)) in *. rewrite Ha4. cbn [rbind].
  destruct (drop_edges_back po _ _ _ Ha5) as (g3 & b & E3 & Hb). rewrite E3. cbn [rbind fst snd]. destruct b; [|eauto]. rewrite (Hb eq_refl) in *.
  change (deref_node (noix g3) n) with (deref_node g3 n) in Ha6. rewrite Ha6. cbn [rbind]. eauto.
Qed.
Lemma step_back po g o g' : index_call o = false -> step (noix g) o = Ok g' -> exists g1 b, step_st po g o = Ok (g1, b).
Proof.
  intros Hi H. destruct o; cbn [step step_st] in *; try done.
  - destruct (new_node_st po g labels p ord) as [g1 b]. eauto.
  - unfold new_edge, new_edge_st in *. inv_ok H. clear H. inv_ok Ha. clear Ha. apply deref_node_Some in Ha0, Ha1.
    change (g_nodes (noix g)) with (g_nodes g) in *. rewrite Ha0, Ha1. change (bump (set_edges (noix g) ?z)) with (noix (bump (set_edges g z))) in *.
    set (g1 := bump _) in *. change (g_next (noix g)) with (g_next g) in *. unfold all_add in Ha2. inv_ok Ha2. injection Ha2 as <-.
    change (lbl (noix g1)) with (lbl g1) in Ha. change (g_all (noix g1)) with (g_all g1) in Ha. change (g_l0 (noix g1)) with (g_l0 g1) in Ha.
    unfold all_add. rewrite Ha. cbn [rbind]. change (set_all (noix g1) ?x ?y) with (noix (set_all g1 x y)) in Ha3.
    destruct (connect_back _ _ _ Ha3) as [g3 ->]. cbn [rbind]. destruct (ixs_add_st _ _ _) as [eix b]. eauto.
  - unfold set_labels in *. inv_ok H. change (deref_node (noix g) n) with (deref_node g n) in Ha. rewrite Ha. cbn [rbind]. eauto.
  - unfold set_node_prop, set_node_prop_st in *. inv_ok H. change (deref_node (noix g) n) with (deref_node g n) in Ha. rewrite Ha. cbn [rbind].
    destruct (ix_update_st _ _ _ _ _) as [[nix w] b]. eauto.
  - unfold rem_node_prop, rem_node_prop_st in *. inv_ok H. change (deref_node (noix g) n) with (deref_node g n) in Ha. rewrite Ha. cbn [rbind].
    destruct (_ !! k); [|eauto]. destruct (ix_update_st _ _ _ _ _) as [[nix w] b]. eauto.
  - by eapply detach_back.
  - unfold detach_remove_node, detach_remove_node_st in *. inv_ok H. destruct (detach_back po _ _ _ Ha) as (g1 & b & E). rewrite E. cbn [rbind fst snd].
    destruct b; [|eauto]. apply detach_noix in E. assert (a = noix g1) as -> by congruence.
    change (deref_node (noix g1) n) with (deref_node g1 n) in Ha0. rewrite Ha0. cbn [rbind]. destruct (nl_remove (g_list g1) _ _) as [l L].
    destruct (ixs_remove_st _ _ _) as [nix b]. eauto.
  - unfold set_edge_label in *. inv_ok H. change (deref_edge (noix g) e) with (deref_edge g e) in Ha. rewrite Ha. cbn [rbind].
    destruct (decide _); [cbn [rbind]; eauto|]. inv_ok H. destruct (disconnect_back _ _ _ Ha0) as [g1 E]. rewrite E. cbn [rbind].
    apply disconnect_noix in E. assert (a0 = noix g1) as -> by congruence. change (g_edges (noix g1)) with (g_edges g1) in H.
    change (set_edges (noix g1) ?x) with (noix (set_edges g1 x)) in H. destruct (connect_back _ _ _ H) as [g2 ->]. cbn [rbind]. eauto.
  - unfold set_edge_prop, set_edge_prop_st in *. inv_ok H. change (deref_edge (noix g) e) with (deref_edge g e) in Ha. rewrite Ha. cbn [rbind].
    destruct (ix_update_st _ _ _ _ _) as [[nix w] b]. eauto.
  - unfold rem_edge_prop, rem_edge_prop_st in *. inv_ok H. change (deref_edge (noix g) e) with (deref_edge g e) in Ha. rewrite Ha. cbn [rbind].
    destruct (_ !! k); [|eauto]. destruct (ix_update_st _ _ _ _ _) as [[nix w] b]. eauto.
  - unfold remove_edge in *. inv_ok H. destruct (disconnect_back _ _ _ Ha) as [g1 ->]. cbn [rbind]. eauto.
Qed.
Lemma no_index_calls eff : Forall (fun o => index_call o = false) eff -> forall k, node_index eff k = None /\ edge_index eff k = None.
Proof. induction 1 as [|o eff Ho H IH]; intros k; simpl; [done|]. by destruct o. Qed.
Lemma reads_fill {A} (heap : gmap nat A) (prop : A -> option value) xs ix : (forall x, x ∈ xs -> is_Some (heap !! x)) ->
  exists r, fill_st (fun x => let! a := match heap !! x with Some a => Ok a | None => Panic end in Ok (prop a)) xs ix = Ok r.
Proof.
  revert ix. induction xs as [|x xs IH]; intros ix Hx; simpl; [eauto|]. destruct (Hx x) as [a Ha]; [set_solver|]. rewrite Ha. simpl.
  assert (forall y, y ∈ xs -> is_Some (heap !! y)) as Hxs by (intros y Hy; apply Hx; set_solver).
  destruct (prop a) as [v|]; [|by apply IH]. destruct (ix_add_st ix v x) as [ix' []]; [by apply IH|eauto].
Qed.
Lemma step_comes_back po g eff o : reads_as g eff -> valid (srun eff) o -> node_list_safe eff -> edge_list_safe (eff ++ [o]) ->
  exists g' b, step_st po g o = Ok (g', b).
Proof.
  intros Hrd Ho Hn He. pose proof Hrd as (Hv & Hr & Hf). pose proof (reads_core _ _ Hrd) as Hc.
  assert (edge_list_safe eff) as He0 by (by eapply edge_list_safe_prefix).
  destruct (index_call o) eqn:Hi.
  - destruct o; try done; cbn [step_st].
    + unfold add_node_index_st. destruct (g_nix g !! k); [eauto|]. destruct (get_nodes_ok _ _ Hv Hr Hn) as (xs & Hxs & [_ Hl] & _).
      change (get_nodes (noix g)) with (get_nodes g) in Hxs. rewrite Hxs. cbn [rbind]. unfold deref_node.
      destruct (reads_fill (g_nodes g) (fun nd => n_props nd !! k) xs (ix_new it)) as [r ->]; [|cbn [rbind]; eauto].
      intros x [y Hy]%Hl. destruct (core_node _ _ _ _ Hc Hy) as (nd & ? & _). by exists nd.
    + unfold add_edge_index_st. destruct (g_eix g !! k); [eauto|]. destruct (get_edges_ok _ _ Hv Hr He0) as [(xs & Hxs & _ & Hl) _].
      change (get_edges (noix g)) with (get_edges g) in Hxs. rewrite Hxs. cbn [rbind]. unfold deref_edge.
      destruct (reads_fill (g_edges g) (fun nd => e_props nd !! k) xs (ix_new it)) as [r ->]; [|cbn [rbind]; eauto].
      intros x [y Hy]%Hl. destruct (core_edge _ _ _ _ Hc Hy) as [? _]. by exists y.
  - destruct (step_progress eff o (noix g) Hv Hr Ho) as [g' Hg']; [|by eapply step_back].
    assert (Forall (fun o => index_call o = false) (eff ++ [o])) as Hf' by (apply Forall_app; split; [done|by constructor]).
    split; [done|]. split; intros k it Hk; by rewrite (proj1 (no_index_calls _ Hf' k)) in Hk || rewrite (proj2 (no_index_calls _ Hf' k)) in Hk.
Qed.

(** ** Without indexes nothing panics *)
Lemma ixs_loop_none f l : ixs_loop f l ∅ = (∅, true).
Proof. induction l as [|[k v] l IH]; simpl; [done|]. by rewrite lookup_empty. Qed.
Lemma ix_update_st_none k old new id : ix_update_st ∅ k old new id = (∅, true, true).
Proof. unfold ix_update_st. by rewrite lookup_empty. Qed.
Lemma disconnect_eix g e g' : disconnect g e = Ok g' -> g_eix g' = g_eix g /\ g_nix g' = g_nix g.
Proof. intros (?&?&?&?&?&?&?&?&?&?)%disconnect_shape. done. Qed.
Lemma drop_edge_none po g e g' b : g_nix g = ∅ -> g_eix g = ∅ -> drop_edge_st po g e = Ok (g', b) -> b = true /\ g_nix g' = ∅ /\ g_eix g' = ∅.
Proof.
  unfold drop_edge_st. intros Hn He H. inv_ok H. apply disconnect_eix in Ha as [E1 E2]. 
  assert (g_eix (all_remove a e) = ∅) as Ee by (rewrite all_remove_eq; simpl; congruence).
  assert (g_nix (all_remove a e) = ∅) as En by (rewrite all_remove_eq; simpl; congruence).
  unfold ixs_remove_st in H. rewrite Ee, ixs_loop_none in H. injection H as <- <-. done.
Qed.
Lemma drop_edges_none po es g g' b : g_nix g = ∅ -> g_eix g = ∅ -> drop_edges_st po es g = Ok (g', b) -> b = true /\ g_nix g' = ∅ /\ g_eix g' = ∅.
Proof.
  revert g. induction es as [|e es IH]; intros g Hn He H; simpl in H; [by injection H as <- <-|]. inv_ok H. destruct a as [g1 b1].
  apply drop_edge_none in Ha as (-> & ? & ?); [|done..]. by eapply IH.
Qed.
Lemma detach_none po g n g' b : g_nix g = ∅ -> g_eix g = ∅ -> detach_node_st po g n = Ok (g', b) -> b = true /\ g_nix g' = ∅ /\ g_eix g' = ∅.
Proof.
  intros Hn He H. unfold detach_node_st in H. inv_ok H. destruct a1 as [g1 b1]. apply drop_edges_none in Ha1 as (-> & Hn1 & He1); [|done..].
  cbn [fst snd] in H. inv_ok H. destruct a4 as [g3 b3]. apply drop_edges_none in Ha4 as (-> & Hn3 & He3); [|done..]. cbn [fst snd] in H. inv_ok H.
  by injection H as <- <-.
Qed.
Lemma step_none po g o g' b : g_nix g = ∅ -> g_eix g = ∅ -> index_call o = false ->
  match o with ONewEdge from to _ _ => is_Some (g_nodes g !! from) /\ is_Some (g_nodes g !! to) | _ => True end ->
  step_st po g o = Ok (g', b) -> b = true.
Proof.
  intros Hn He Hi Ho H. destruct o; cbn [step_st] in H; try done.
  - injection H as H. unfold new_node_st in H. set (g1 := bump _) in H. destruct (nl_add _ _ _) as [l L]. unfold ixs_add_st in H.
    cbn [g_nix set_lab set_list] in H. change (g_nix g1) with (g_nix g) in H. rewrite Hn, ixs_loop_none in H. by injection H.
  - unfold new_edge_st in H. destruct Ho as [[x Hf] [y Ht]]. rewrite Hf, Ht in H. inv_ok H. apply connect_shape in Ha0 as (_&_&_&_&_&_&_&E&_).
    unfold all_add in Ha. inv_ok Ha. injection Ha as <-. simpl in E. unfold ixs_add_st in H. rewrite E, He, ixs_loop_none in H. by injection H.
  - inv_ok H. by injection H.
  - unfold set_node_prop_st in H. inv_ok H. rewrite Hn, ix_update_st_none in H. by injection H.
  - unfold rem_node_prop_st in H. inv_ok H. destruct (_ !! k); [|by injection H]. rewrite Hn, ix_update_st_none in H. by injection H.
  - by apply detach_none in H as (-> & _).
  - unfold detach_remove_node_st in H. inv_ok H. destruct a as [g1 b1]. apply detach_none in Ha as (-> & Hn1 & He1); [|done..].
    cbn [fst snd] in H. inv_ok H. destruct (nl_remove _ _ _) as [l L]. unfold ixs_remove_st in H. cbn [g_nix set_lab set_list] in H.
    rewrite Hn1, ixs_loop_none in H. by injection H.
  - inv_ok H. by injection H.
  - unfold set_edge_prop_st in H. inv_ok H. rewrite He, ix_update_st_none in H. by injection H.
  - unfold rem_edge_prop_st in H. inv_ok H. destruct (_ !! k); [|by injection H]. rewrite He, ix_update_st_none in H. by injection H.
  - inv_ok H. by injection H.
Qed.

(** ** How indexes change *)
Definition ix_move (ix ix' : index) : Prop := exists v id, ix' = (ix_add_st ix v id).1 \/ ix' = (ix_remove_st ix v id).1.
Definition ixs_move (ixs ixs' : gmap string index) : Prop := forall k,
  match ixs !! k with
  | Some ix => exists ix', ixs' !! k = Some ix' /\ rtc ix_move ix ix'
  | None => ixs' !! k = None \/ exists it ix', ixs' !! k = Some ix' /\ rtc ix_move (ix_new it) ix'
  end.
Lemma ixs_move_refl ixs : ixs_move ixs ixs.
Proof. intros k. destruct (ixs !! k); [eexists; split; [done|apply rtc_refl]|by left]. Qed.
Lemma ixs_move_trans ixs1 ixs2 ixs3 : ixs_move ixs1 ixs2 -> ixs_move ixs2 ixs3 -> ixs_move ixs1 ixs3.
Proof.
  intros H1 H2 k. specialize (H1 k). specialize (H2 k). destruct (ixs1 !! k) as [ix|].
  - destruct H1 as (ix2 & E2 & R2). rewrite E2 in H2. destruct H2 as (ix3 & E3 & R3). exists ix3. split; [done|by etrans].
  - destruct H1 as [E2|(it & ix2 & E2 & R2)]; rewrite E2 in H2; [done|]. right. destruct H2 as (ix3 & E3 & R3). exists it, ix3. split; [done|by etrans].
Qed.
Lemma ixs_move_insert ixs k ix ix' : ixs !! k = Some ix -> rtc ix_move ix ix' -> ixs_move ixs (<[k := ix']> ixs).
Proof.
  intros H R j. destruct (decide (j = k)) as [->|Hj]; [rewrite H, lookup_insert; eauto|rewrite lookup_insert_ne by done; apply ixs_move_refl].
Qed.
Lemma ixs_loop_move f l ixs : (forall ix v, rtc ix_move ix (f ix v).1) -> ixs_move ixs (ixs_loop f l ixs).1.
Proof.
  intros Hf. revert ixs. induction l as [|[k v] l IH]; intros ixs; simpl; [apply ixs_move_refl|].
  destruct (ixs !! k) as [ix|] eqn:E; [|apply IH]. pose proof (Hf ix v) as R. destruct (f ix v) as [ix' []]; simpl in *.
  - eapply ixs_move_trans; [|apply IH]. by eapply ixs_move_insert.
  - by eapply ixs_move_insert.
Qed.
Lemma add_move ix v id : rtc ix_move ix (ix_add_st ix v id).1.
Proof. apply rtc_once. exists v, id. by left. Qed.
Lemma remove_move ix v id : rtc ix_move ix (ix_remove_st ix v id).1.
Proof. apply rtc_once. exists v, id. by right. Qed.
Lemma ixs_add_move ixs l id : ixs_move ixs (ixs_add_st ixs l id).1.
Proof. apply ixs_loop_move. intros. apply add_move. Qed.
Lemma ixs_remove_move ixs l id : ixs_move ixs (ixs_remove_st ixs l id).1.
Proof. apply ixs_loop_move. intros. apply remove_move. Qed.
Lemma ix_update_move ixs k old new id : ixs_move ixs (ix_update_st ixs k old new id).1.1.
Proof.
  unfold ix_update_st. destruct (ixs !! k) as [ix|] eqn:E; [|apply ixs_move_refl].
  assert (rtc ix_move ix (match old with Some v => ix_remove_st ix v id | None => (ix, true) end).1) as R
    by (destruct old; [apply remove_move|apply rtc_refl]).
  destruct (match old with Some v => ix_remove_st ix v id | None => (ix, true) end) as [ix1 []]; simpl in *; [|by eapply ixs_move_insert].
  assert (rtc ix_move ix1 (match new with Some v => ix_add_st ix1 v id | None => (ix1, true) end).1) as R2
    by (destruct new; [apply add_move|apply rtc_refl]).
  destruct (match new with Some v => ix_add_st ix1 v id | None => (ix1, true) end) as [ix2 b2]; simpl in *. eapply ixs_move_insert; [done|by etrans].
Qed.
Lemma fill_move prop xs ix ix' b : fill_st prop xs ix = Ok (ix', b) -> rtc ix_move ix ix'.
Proof.
  revert ix. induction xs as [|x xs IH]; intros ix; simpl; [intros [= <- _]; apply rtc_refl|]. intros H. inv_ok H.
  destruct a as [v|]; [|by apply IH]. pose proof (add_move ix v x) as R. destruct (ix_add_st ix v x) as [ix1 []]; simpl in *.
  - etrans; [exact R|by apply IH].
  - by injection H as <- _.
Qed.
Lemma drop_edges_move po es g g' b : drop_edges_st po es g = Ok (g', b) -> g_nix g' = g_nix g /\ ixs_move (g_eix g) (g_eix g').
Proof.
  revert g. induction es as [|e es IH]; intros g H; simpl in H; [injection H as <- _; split; [done|apply ixs_move_refl]|]. inv_ok H.
  assert (g_nix a.1 = g_nix g /\ ixs_move (g_eix g) (g_eix a.1)) as [En Ee].
  { unfold drop_edge_st in Ha. inv_ok Ha. apply disconnect_eix in Ha0 as [E1 E2]. pose proof (ixs_remove_move (g_eix (all_remove a0 e)) (po e (e_props a1)) e) as R.
    destruct (ixs_remove_st _ _ _) as [eix b1]. injection Ha as <-. rewrite all_remove_eq in *. simpl in *. rewrite E1 in R. done. }
  destruct a as [g1 []]; simpl in *; [|by injection H as <- _]. apply IH in H as [E1 E2]. split; [congruence|by eapply ixs_move_trans].
Qed.
Lemma detach_move po g n g' b : detach_node_st po g n = Ok (g', b) -> g_nix g' = g_nix g /\ ixs_move (g_eix g) (g_eix g').
Proof.
  intros H. unfold detach_node_st in H. inv_ok H. destruct a1 as [g1 b1]. apply drop_edges_move in Ha1 as [E1 R1].
  destruct b1; cbn [fst snd] in H; [|by injection H as <- _]. inv_ok H. destruct a4 as [g3 b3]. apply drop_edges_move in Ha4 as [E3 R3].
  assert (g_nix g3 = g_nix g /\ ixs_move (g_eix g) (g_eix g3)) by (split; [simpl in *; congruence|by eapply ixs_move_trans]).
  destruct b3; cbn [fst snd] in H; [|by injection H as <- _]. inv_ok H. by injection H as <- _.
Qed.
Lemma step_move po g o g' b : step_st po g o = Ok (g', b) -> ixs_move (g_nix g) (g_nix g') /\ ixs_move (g_eix g) (g_eix g').
Proof.
  intros H. pose proof ixs_move_refl as Hrefl. destruct o; cbn [step_st] in H.
  - injection H as H. unfold new_node_st in H. set (g1 := bump _) in H. destruct (nl_add _ _ _) as [l L]. cbn [g_nix set_lab set_list] in H.
    change (g_nix g1) with (g_nix g) in H. pose proof (ixs_add_move (g_nix g) (po (g_next g) p) (g_next g)) as R.
    destruct (ixs_add_st _ _ _) as [nix b1]. by injection H as <- _.
  - unfold new_edge_st in H. destruct (g_nodes g !! from), (g_nodes g !! to); try (by injection H as <- _). inv_ok H.
    apply connect_shape in Ha0 as (_&_&_&_&_&_&E1&E2&_). unfold all_add in Ha. inv_ok Ha. injection Ha as <-. simpl in E1, E2.
    pose proof (ixs_add_move (g_eix a0) (po (g_next g) p) (g_next g)) as R. destruct (ixs_add_st _ _ _) as [eix b1]. injection H as <- _.
    simpl in *. rewrite E2 in R. rewrite E1. done.
  - inv_ok H. injection H as <- _. unfold set_labels in Ha. inv_ok Ha. by injection Ha as <-.
  - unfold set_node_prop_st in H. inv_ok H. pose proof (ix_update_move (g_nix g) k (n_props a !! k) (Some v) n) as R.
    destruct (ix_update_st _ _ _ _ _) as [[nix w] b1]. by injection H as <- _.
  - unfold rem_node_prop_st in H. inv_ok H. destruct (_ !! k) as [v|]; [|by injection H as <- _]. pose proof (ix_update_move (g_nix g) k (Some v) None n) as R.
    destruct (ix_update_st _ _ _ _ _) as [[nix w] b1]. by injection H as <- _.
  - apply detach_move in H as [-> ?]. done.
  - unfold detach_remove_node_st in H. inv_ok H. destruct a as [g1 b1]. apply detach_move in Ha as [E1 R1]. destruct b1; cbn [fst snd] in H; [|injection H as <- _; by rewrite E1].
    inv_ok H. destruct (nl_remove _ _ _) as [l L]. cbn [g_nix set_lab set_list] in H. rewrite E1 in H.
    pose proof (ixs_remove_move (g_nix g) (po n (n_props a)) n) as R. destruct (ixs_remove_st _ _ _) as [nix b1]. by injection H as <- _.
  - inv_ok H. injection H as <- _. unfold set_edge_label in Ha. inv_ok Ha. destruct (decide _); [by injection Ha as <-|]. inv_ok Ha.
    apply connect_shape in Ha as (_&_&_&_&_&_&E1&E2&_). apply disconnect_eix in Ha1 as [E3 E4]. simpl in *. split; [rewrite E1, E4|rewrite E2, E3]; done.
  - unfold set_edge_prop_st in H. inv_ok H. pose proof (ix_update_move (g_eix g) k (e_props a !! k) (Some v) e) as R.
    destruct (ix_update_st _ _ _ _ _) as [[nix w] b1]. by injection H as <- _.
  - unfold rem_edge_prop_st in H. inv_ok H. destruct (_ !! k) as [v|]; [|by injection H as <- _]. pose proof (ix_update_move (g_eix g) k (Some v) None e) as R.
    destruct (ix_update_st _ _ _ _ _) as [[nix w] b1]. by injection H as <- _.
  - inv_ok H. injection H as <- _. unfold remove_edge in Ha. inv_ok Ha. injection Ha as <-. apply disconnect_eix in Ha0 as [E1 E2]. rewrite all_remove_eq. simpl. rewrite E1, E2. done.
  - unfold add_node_index_st in H. destruct (g_nix g !! k) eqn:E; [by injection H as <- _|]. inv_ok H. destruct a0 as [ix b1]. apply fill_move in Ha0. injection H as <- _. simpl.
    split; [|done]. intros j. destruct (decide (j = k)) as [->|Hj]; [rewrite E, lookup_insert; right; eauto|]. rewrite lookup_insert_ne by done. apply Hrefl.
  - unfold add_edge_index_st in H. destruct (g_eix g !! k) eqn:E; [by injection H as <- _|]. inv_ok H. destruct a0 as [ix b1]. apply fill_move in Ha0. injection H as <- _. simpl.
    split; [done|]. intros j. destruct (decide (j = k)) as [->|Hj]; [rewrite E, lookup_insert; right; eauto|]. rewrite lookup_insert_ne by done. apply Hrefl.
Qed.

(** ** Elements that no value of the hash index refers to *)
Definition refers (vals : list (value * fastset nat)) (h : nat) : Prop := exists k s, (k, s) ∈ vals /\ h ∈ fs_iter s.
Definition ix_handles (ix : index) : Prop := match ix with IHash vals _ fresh => forall h, refers vals h -> h < fresh | _ => True end.
Definition stale (n : nat) (ix : index) : Prop :=
  match ix with IHash vals els fresh => exists h, h < fresh /\ (h, n) ∈ els /\ ~ refers vals h | _ => False end.
Lemma fs_add_iter (s : fastset nat) id x h : h ∈ fs_iter (fs_add s id x).1 -> h ∈ fs_iter s \/ h = x.
Proof. unfold fs_add. destruct (fs_m s !! id); [by left|]. unfold fs_iter. simpl. rewrite fmap_app. set_solver. Qed.
Lemma fs_remove_iter (s : fastset nat) id h : h ∈ fs_iter (fs_remove s id).1 -> h ∈ fs_iter s.
Proof.
  unfold fs_remove. destruct (fs_m s !! id); [|done]. unfold fs_iter. simpl. rewrite !elem_of_list_fmap.
  intros (p & -> & [_ Hp]%elem_of_list_filter). eauto.
Qed.
Lemma fs_get_iter (s : fastset nat) id h : fs_get s id = Some h -> h ∈ fs_iter s.
Proof.
  unfold fs_get. destruct (fs_m s !! id) as [j|]; [|done]. destruct (list_find _ _) as [[i [a x]]|] eqn:E; [|done]. intros [= ->].
  apply list_find_Some in E as (E & _). apply elem_of_list_lookup_2 in E. apply elem_of_list_fmap. by exists (a, h).
Qed.
Lemma h_get_in vals k s : h_get vals k = Some s -> (k, s) ∈ vals.
Proof. induction vals as [|[j t] vals IH]; simpl; [done|]. destruct (decide (k = j)) as [->|]; [intros [= ->]; left|right; auto]. Qed.
Lemma h_put_in vals k s j t : (j, t) ∈ h_put vals k s -> t = s \/ (j, t) ∈ vals.
Proof.
  induction vals as [|[i u] vals IH]; simpl; [intros [[= -> ->]|?]%elem_of_cons; [by left|set_solver]|].
  destruct (decide (k = i)); intros [[= -> ->]|H]%elem_of_cons; try (by left); try (right; by constructor).
  destruct (IH H); [by left|right; by constructor].
Qed.
Lemma refers_put vals k s h : refers (h_put vals k s) h -> refers vals h \/ h ∈ fs_iter s.
Proof. intros (j & t & Hin & Hh). apply h_put_in in Hin as [->|Hin]; [by right|left; by exists j, t]. Qed.
Lemma move_handles ix ix' : ix_move ix ix' -> ix_handles ix -> ix_handles ix'.
Proof.
  intros (v & id & [-> | ->]) H.
  - unfold ix_add_st. destruct ix as [ot|vals els fresh]; simpl; [by destruct (bt_get _ _)|].
    destruct (hashable _); simpl; [|intros h Hh; apply H in Hh; lia].
    intros h [Hh|Hh]%refers_put; [apply H in Hh; lia|]. apply fs_add_iter in Hh as [Hh| ->]; [|lia].
    destruct (h_get vals (hkey v)) as [s|] eqn:E; [|by apply elem_of_nil in Hh]. apply h_get_in in E. assert (h < fresh); [|lia]. apply H. by eexists _, _.
  - unfold ix_remove_st. destruct (ix_remove ix v id) as [ix'| |] eqn:E; simpl; try done. destruct ix as [[t|]|vals els fresh]; simpl in E.
    + inv_ok E. destruct a; [destruct (decide _)|]; by injection E as <-.
    + by injection E as <-.
    + destruct (decide _); [by injection E as <-|]. destruct (hashable _); [|done]. destruct (h_get _ _) as [s|] eqn:Eh; [|by injection E as <-].
      destruct (fs_get s id) as [h0|] eqn:Eg; [|by injection E as <-]. injection E as <-. simpl.
      intros h [Hh|Hh]%refers_put; [by apply H|]. apply fs_remove_iter in Hh. apply h_get_in in Eh. apply H. by eexists _, _.
Qed.
Lemma move_stale n ix ix' : ix_move ix ix' -> stale n ix -> stale n ix'.
Proof.
  intros (v & id & Hm) Hs. destruct ix as [ot|vals els fresh]; [done|]. destruct Hs as (h & Hlt & Hin & Hno). destruct Hm as [-> | ->].
  - unfold ix_add_st. simpl. destruct (hashable _); simpl; exists h; (split; [lia|]); (split; [set_solver|]); [|done].
    intros [Hh|Hh]%refers_put; [done|]. apply fs_add_iter in Hh as [Hh| ->]; [|lia].
    destruct (h_get vals (hkey v)) as [s|] eqn:E; [|by apply elem_of_nil in Hh]. apply h_get_in in E. apply Hno. by eexists _, _.
  - unfold ix_remove_st. destruct (ix_remove _ v id) as [ix'| |] eqn:E; simpl; [|by exists h..]. simpl in E.
    destruct (decide _); [injection E as <-; by exists h|]. destruct (hashable _); [|done]. destruct (h_get _ _) as [s|] eqn:Eh; [|injection E as <-; by exists h].
    destruct (fs_get s id) as [h0|] eqn:Eg; [|injection E as <-; by exists h]. injection E as <-. simpl. apply h_get_in in Eh. exists h. split; [done|]. split.
    + apply elem_of_list_filter. split; [|done]. simpl. intros ->. apply Hno. exists (hkey v), s. split; [done|]. by eapply fs_get_iter.
    + intros [Hh|Hh]%refers_put; [done|]. apply fs_remove_iter in Hh. apply Hno. by eexists _, _.
Qed.
Lemma moves_handles ix ix' : rtc ix_move ix ix' -> ix_handles ix -> ix_handles ix'.
Proof. induction 1; [done|]. intros H'. apply IHrtc. by eapply move_handles. Qed.
Lemma moves_stale n ix ix' : rtc ix_move ix ix' -> stale n ix -> stale n ix'.
Proof. induction 1; [done|]. intros H'. apply IHrtc. by eapply move_stale. Qed.
Lemma new_handles it : ix_handles (ix_new it).
Proof. destruct it; simpl; [done|]. by intros h (k & s & ?%elem_of_nil & _). Qed.
Lemma ixs_move_handles ixs ixs' : ixs_move ixs ixs' -> map_Forall (fun _ => ix_handles) ixs -> map_Forall (fun _ => ix_handles) ixs'.
Proof.
  intros H HF k ix' Hk. specialize (H k). destruct (ixs !! k) as [ix|] eqn:E.
  - destruct H as (ix1 & E1 & R). assert (ix1 = ix') as -> by congruence. eapply moves_handles; [done|]. by apply (HF k).
  - destruct H as [H|(it & ix1 & E1 & R)]; [congruence|]. assert (ix1 = ix') as -> by congruence. eapply moves_handles; [done|apply new_handles].
Qed.
Lemma run_st_snoc calls c : run_st (calls ++ [c]) = let! g := run_st calls in let! x := step_st c.1 g c.2 in Ok x.1.
Proof. unfold run_st, run_st_from. rewrite rfold_app. destruct (rfold _ calls new_graph) as [g| |]; simpl; try done. by destruct (step_st c.1 g c.2). Qed.
Lemma run_st_move calls g : run_st calls = Ok g -> ixs_move ∅ (g_nix g) /\ ixs_move ∅ (g_eix g).
Proof.
  revert g. induction calls as [|[po o] calls IH] using rev_ind; intros g H.
  - injection H as <-. split; apply ixs_move_refl.
  - rewrite run_st_snoc in H. inv_ok H. injection H as <-. destruct a0 as [g1 b]. destruct (IH _ Ha) as [R1 R2]. 
    apply step_move in Ha0 as [R3 R4]. split; [exact (ixs_move_trans _ _ _ R1 R3)|exact (ixs_move_trans _ _ _ R2 R4)].
Qed.
Lemma calls_move calls g g' : run_st_from g calls = Ok g' ->
  ixs_move (g_nix g) (g_nix g') /\ ixs_move (g_eix g) (g_eix g').
Proof.
  unfold run_st_from. revert g. induction calls as [|[po o] calls IH]; intros g H; simpl in H.
  - injection H as <-. split; apply ixs_move_refl.
  - inv_ok H. inv_ok Ha. injection Ha as <-. destruct a0 as [g1 b]. apply step_move in Ha0 as [R1 R2]. apply IH in H as [R3 R4]. split; [exact (ixs_move_trans _ _ _ R1 R3)|exact (ixs_move_trans _ _ _ R2 R4)].
Qed.
Lemma add_stale ix v id ix' : ix_handles ix -> (exists vals els fresh, ix = IHash vals els fresh) -> ix_add_st ix v id = (ix', false) -> stale id ix'.
Proof.
  intros Hh (vals & els & fresh & ->) H. unfold ix_add_st in H. simpl in H. destruct (hashable _); [done|]. injection H as <-.
  exists fresh. split; [lia|]. split; [set_solver|]. intros Hr. apply Hh in Hr. lia.
Qed.
Lemma stale_values n ix : stale n ix -> n ∈ (ix_values ix).1.
Proof. destruct ix as [|vals els fresh]; [done|]. intros (h & _ & Hin & _). simpl. apply elem_of_list_fmap. by exists (h, n). Qed.
Lemma run_handles calls g : run_st calls = Ok g -> map_Forall (fun _ => ix_handles) (g_nix g) /\ map_Forall (fun _ => ix_handles) (g_eix g).
Proof. intros [R1 R2]%run_st_move. split; (eapply ixs_move_handles; [done|apply map_Forall_empty]). Qed.

Lemma node_listed calls po g n k v g' rest g'' : run_st calls = Ok g -> hash_indexed (g_nix g) k -> node_prop g n k = None ->
  step_st po g (OSetNodeProp n k v) = Ok (g', false) ->
  run_st_from g' rest = Ok g'' ->
  exists xs, get_nodes_with_property g'' k = Ok xs /\ n ∈ xs.
Proof.
  intros Hr Hix Hp Hs Hrest. cbn [step_st] in Hs. unfold set_node_prop_st in Hs. inv_ok Hs. apply deref_node_Some in Ha.
  unfold node_prop in Hp. rewrite Ha in Hp. unfold get_property in Hp.
  apply calls_move in Hrest as [R _]. destruct Hix as (vals & els & fresh & Ek). set (ix := IHash vals els fresh) in *.
  assert (exists ix', g_nix g' !! k = Some ix' /\ stale n ix') as (ix' & Ek' & Hst).
  { unfold ix_update_st in Hs. rewrite Ek, Hp in Hs. destruct (ix_add_st ix v n) as [ix2 b2] eqn:E. injection Hs as <- ->. exists ix2. split; [apply lookup_insert|].
    eapply add_stale; [|by exists vals, els, fresh|exact E]. destruct (run_handles _ _ Hr) as [Hh _]. by apply (Hh k). }
  specialize (R k). rewrite Ek' in R. destruct R as (ix'' & E'' & R). exists (ix_values ix'').1. unfold get_nodes_with_property. rewrite E''. split; [done|].
  apply stale_values. by eapply moves_stale.
Qed.
Lemma edge_listed calls po g n k v g' rest g'' : run_st calls = Ok g -> hash_indexed (g_eix g) k -> edge_prop g n k = None ->
  step_st po g (OSetEdgeProp n k v) = Ok (g', false) ->
  run_st_from g' rest = Ok g'' ->
  exists xs, get_edges_with_property g'' k = Ok xs /\ n ∈ xs.
Proof.
  intros Hr Hix Hp Hs Hrest. cbn [step_st] in Hs. unfold set_edge_prop_st in Hs. inv_ok Hs. apply deref_edge_Some in Ha.
  unfold edge_prop in Hp. rewrite Ha in Hp. unfold get_property in Hp.
  apply calls_move in Hrest as [_ R]. destruct Hix as (vals & els & fresh & Ek). set (ix := IHash vals els fresh) in *.
  assert (exists ix', g_eix g' !! k = Some ix' /\ stale n ix') as (ix' & Ek' & Hst).
  { unfold ix_update_st in Hs. rewrite Ek, Hp in Hs. destruct (ix_add_st ix v n) as [ix2 b2] eqn:E. injection Hs as <- ->. exists ix2. split; [apply lookup_insert|].
    eapply add_stale; [|by exists vals, els, fresh|exact E]. destruct (run_handles _ _ Hr) as [_ Hh]. by apply (Hh k). }
  specialize (R k). rewrite Ek' in R. destruct R as (ix'' & E'' & R). exists (ix_values ix'').1. unfold get_edges_with_property. rewrite E''. split; [done|].
  apply stale_values. by eapply moves_stale.
Qed.

(** ** What the queries that use no index answer *)
Lemma reads_queries g eff : reads_as g eff ->
  (forall n x, s_nodes (srun eff) !! n = Some x -> labels_of g n = sn_labels x /\ forall k, node_prop g n k = sn_props x !! k) /\
  (forall e x, s_edges (srun eff) !! e = Some x -> g_edges g !! e = Some x) /\
  (forall n d, live_node (srun eff) n -> exists xs, node_edges g n d = Ok xs /\ forall e, e ∈ xs <-> at_node (srun eff) n d e) /\
  (node_list_safe eff -> exists xs, get_nodes g = Ok xs /\ lists (live_node (srun eff)) xs) /\
  (edge_list_safe eff -> exists xs, get_edges g = Ok xs /\ lists (live_edge (srun eff)) xs).
Proof.
  intros Hrd. pose proof (reads_core _ _ Hrd) as Hc. pose proof Hrd as (Hv & Hr & _). split_and!.
  - intros n x Hx. destruct (core_node _ _ _ _ Hc Hx) as (nd & Hnd & E1 & E2). change (g_nodes (noix g)) with (g_nodes g) in Hnd.
    unfold labels_of, node_prop, get_property. rewrite Hnd. split; [done|]. intros k. by rewrite E2.
  - intros e x Hx. by destruct (core_edge _ _ _ _ Hc Hx) as [? _].
  - intros n d Hn. destruct (node_edges_at _ _ Hc n d Hn) as (xs & H1 & H2). by exists xs.
  - intros Hs. destruct (get_nodes_ok _ _ Hv Hr Hs) as (xs & H1 & H2 & _). by exists xs.
  - intros Hs. destruct (get_edges_ok _ _ Hv Hr Hs) as [(xs & H1 & H2) _]. by exists xs.
Qed.
