(** Valid calls return. *)
From Verif Require Import Base Value ValueProofs FastSet FastSetProofs Links EdgeMap NodeMap Index Graph GraphSpec.
From Verif Require Import LinksProofs EdgeMapProofs IndexProofs CoreProofs CoreStep AdjProofs ReadProofs NodeListProofs EdgeListProofs IndexGraphProofs.

(** all indexes of a graph, over values [W k] they can hold *)
Definition ixs_ok (W : string -> value -> Prop) (ixs : gmap string index) (it : string -> option index_type)
    (P : string -> nat -> value -> Prop) : Prop :=
  forall k, kix (W k) ixs k (it k) (P k) /\ forall t, it k = Some t -> ix_domain t (W k).

Lemma ixs_ok_at W ixs it P k ix : ixs_ok W ixs it P -> ixs !! k = Some ix ->
  it k = Some (ix_type ix) /\ ix_domain (ix_type ix) (W k) /\ holds (W k) ix (P k).
Proof.
  intros H Hix. destruct (H k) as [Hk Hd]. destruct (it k) as [t|]; simpl in *; [|congruence].
  specialize (Hd t eq_refl). destruct (Hk Hd) as (ix' & Hix' & <- & Hh). assert (ix' = ix) as -> by congruence. done.
Qed.
Lemma ixs_add_progress W ixs it P p id : ixs_ok W ixs it P -> (forall k w, ~ P k id w) ->
  (forall k v, p !! k = Some v -> W k v) -> exists ixs', ixs_add ixs p id = Ok ixs'.
Proof.
  intros H Hid HW. apply (props_loop_progress (fun ix v => ix_add ix v id)). intros k v ix Hp Hix.
  destruct (ixs_ok_at _ _ _ _ _ _ H Hix) as (_ & Hd & Hh).
  destruct (holds_add _ ix _ id v Hd Hh) as (ix' & ? & _); [by apply HW|apply Hid|eauto].
Qed.
Lemma ixs_remove_progress W ixs it P p id : ixs_ok W ixs it P -> (forall k w, p !! k = Some w -> P k id w) ->
  exists ixs', ixs_remove ixs p id = Ok ixs'.
Proof.
  intros H Hid. apply (props_loop_progress (fun ix v => ix_remove ix v id)). intros k v ix Hp Hix.
  destruct (ixs_ok_at _ _ _ _ _ _ H Hix) as (_ & Hd & Hh).
  destruct (holds_remove _ ix _ id v Hd Hh) as (ix' & ? & _); [by apply Hid|eauto].
Qed.
Lemma ixs_removes_progress W (E : gmap nat edge) es ixs it P : ixs_ok W ixs it P -> NoDup es ->
  (forall e, e ∈ es -> exists ed, E !! e = Some ed /\ forall k w, P k e w <-> e_props ed !! k = Some w) ->
  exists ixs', rfold (fun ixs e => match E !! e with Some ed => ixs_remove ixs (e_props ed) e | None => Panic end) es ixs = Ok ixs'.
Proof.
  revert ixs P. induction es as [|e es IH]; intros ixs P H Hnd HP; simpl; [eauto|].
  apply NoDup_cons in Hnd as [Hni Hnd]. destruct (HP e) as (ed & Hed & Hw); [set_solver|]. rewrite Hed.
  destruct (ixs_remove_progress W ixs it P (e_props ed) e H) as [ixs1 H1]; [intros; by apply Hw|]. rewrite H1. simpl.
  apply (IH ixs1 (fun k i w => i <> e /\ P k i w)); [|done|].
  - intros k. destruct (H k) as [Hk Hd]. split; [|done]. eapply kix_remove; [exact H1|done|]. apply Hw.
  - intros e' He'. destruct (HP e') as (ed' & Hed' & Hw'); [set_solver|]. exists ed'. split; [done|].
    intros k w. rewrite <- Hw'. split; [tauto|]. intros ?. split; [|done]. by intros ->.
Qed.
Lemma ix_update_progress W ixs it P k old new id : ixs_ok W ixs it P ->
  (forall w, P k id w <-> old = Some w) -> (forall v, new = Some v -> W k v) ->
  exists ixs', ix_update ixs k old new id = Ok ixs'.
Proof.
  intros H Hold Hnew. unfold ix_update. destruct (ixs !! k) as [ix|] eqn:Hix; [|eauto].
  destruct (ixs_ok_at _ _ _ _ _ _ H Hix) as (_ & Hd & Hh).
  assert (exists ix1, match old with Some v => ix_remove ix v id | None => Ok ix end = Ok ix1 /\
    ix_type ix1 = ix_type ix /\ holds (W k) ix1 (fun i w => i <> id /\ P k i w)) as (ix1 & -> & Ht1 & Hh1).
  { destruct old as [v|].
    - apply holds_remove; [done|done|]. by apply Hold.
    - exists ix. split; [done|]. split; [done|]. eapply holds_ext; [exact Hh|]. intros i w. split; [|naive_solver].
      intros HP. split; [|done]. intros ->. by apply Hold in HP. }
  simpl. destruct new as [v|]; [|simpl; eauto]. rewrite <- Ht1 in Hd.
  destruct (holds_add _ ix1 _ id v Hd Hh1) as (ix2 & -> & _); [by apply Hnew|naive_solver|]. simpl. eauto.
Qed.

(** Detach *)
Lemma drop_edges_progress es g N C :
  adj g N C -> NoDup es -> (forall e, e ∈ es -> is_Some (C !! e)) ->
  (exists ixs', rfold (fun ixs e => match g_edges g !! e with
                      | Some ed => ixs_remove ixs (e_props ed) e | None => Panic end) es (g_eix g) = Ok ixs') ->
  exists g', rfold drop_edge es g = Ok g'.
Proof.
  revert g C; induction es as [|e es IH]; intros g C Hadj Hnd Hin [ixs' Hix]; simpl in *; [eauto|].
  apply rbind_Ok_inv in Hix as (ixs1 & H1 & Hix). apply NoDup_cons in Hnd as [Hni Hnd].
  destruct (Hin e) as [ed Hed]; [set_solver|]. destruct (proj2 Hadj _ _ Hed) as (Hge & _). rewrite Hge in H1.
  assert (exists g1, drop_edge g e = Ok g1) as [g1 Hg1].
  { unfold drop_edge. destruct (disconnect_ok _ _ _ _ _ Hadj Hed) as (g1 & Hg1 & _). rewrite Hg1. cbn [rbind].
    rewrite all_remove_eq. apply disconnect_shape in Hg1 as (E1&_&_&_&_&_&_&E8&_).
    unfold deref_edge. simpl. rewrite E1, Hge. simpl. rewrite E8, H1. simpl. eauto. }
  rewrite Hg1. simpl. pose proof (drop_edge_adj _ _ _ _ _ _ Hg1 Hadj Hed) as Hadj1.
  apply drop_edge_shape in Hg1 as ((E1&_) & _ & ed' & Hed' & Hix1).
  assert (ed' = ed) as -> by congruence. assert (g_eix g1 = ixs1) as E8 by congruence.
  eapply IH; [exact Hadj1|done| |].
  - intros e' He'. rewrite lookup_delete_ne by (intros ->; done). apply Hin. set_solver.
  - exists ixs'. rewrite E1, E8. done.
Qed.
Lemma detach_progress g s n :
  core g s -> live_node s n ->
  (forall es, NoDup es -> (forall e, e ∈ es -> exists ed, s_edges s !! e = Some ed /\ (e_from ed = n \/ e_to ed = n)) ->
     exists ixs', rfold (fun ixs e => match g_edges g !! e with
                      | Some ed => ixs_remove ixs (e_props ed) e | None => Panic end) es (g_eix g) = Ok ixs') ->
  exists g', detach_node g n = Ok g'.
Proof.
  intros Hc Hlive Hdr. pose proof Hc as ([Hn HC] & Hnext & Hdata & Hlt & Hlte & Hdis).
  assert (n ∈ dom (s_nodes s)) as HnN by (by apply elem_of_dom).
  unfold detach_node, deref_node. destruct (Hn n HnN) as (nd & Hnd & Hi & Ho). rewrite Hnd. cbn [rbind].
  destruct (em_iter_ok _ _ _ _ (fuel g) Hi) as (inl & Hinl & Hxnd & Hxin).
  { eapply core_edges_size; [done|]. intros e He. apply elem_of_ins in He as (x & ? & _). by exists x. }
  rewrite Hinl. cbn [rbind].
  assert (forall e, e ∈ inl -> is_Some (s_edges s !! e)) as Hinls.
  { intros e He. apply Hxin, elem_of_ins in He as (x & ? & _). by exists x. }
  destruct (drop_edges_progress inl g _ _ (conj Hn HC) Hxnd Hinls) as [g1 Hg1].
  { apply Hdr; [done|]. intros e He. apply Hxin, elem_of_ins in He as (x & ? & ?). eauto. }
  rewrite Hg1. cbn [rbind].
  pose proof (drop_edges_shape _ _ _ Hg1) as (Hs1 & _ & Hix1).
  pose proof (drop_edges_adj _ _ _ _ _ Hg1 (conj Hn HC) Hxnd Hinls) as Hadj1.
  set (C1 := filter (fun p => p.1 ∉ inl) (s_edges s)) in *.
  assert (forall e x, C1 !! e = Some x <-> s_edges s !! e = Some x /\ e_to x <> n) as HC1.
  { intros e x. unfold C1. rewrite map_filter_lookup_Some. simpl. rewrite Hxin, elem_of_ins. naive_solver. }
  destruct (proj1 Hadj1 n HnN) as (nd1 & Hg1n & _). rewrite Hg1n. cbn [rbind].
  set (g2 := set_nodes g1 _).
  assert (adj g2 (dom (s_nodes s)) C1) as Hadj2.
  { destruct Hadj1 as [Hn1 HC1']. split; [|done]. intros m Hm.
    destruct (Hn1 m Hm) as (ndm & Hndm & Hmi & Hmo). subst g2. simpl.
    destruct (decide (m = n)) as [->|Hne].
    - rewrite lookup_insert. eexists. split; [done|]. simpl. assert (ndm = nd1) as -> by congruence.
      split; [|done].
      assert (ins C1 n = ∅) as ->; [|apply em_rep_empty].
      apply set_eq. intros e. rewrite elem_of_ins. split; [|set_solver]. intros (x & Hx & Hx').
      apply HC1 in Hx. naive_solver.
    - rewrite lookup_insert_ne by done. eauto. }
  destruct (proj1 Hadj2 n HnN) as (nd2 & Hg2n & Hi2 & Ho2). rewrite Hg2n. cbn [rbind].
  destruct (em_iter_ok _ _ _ _ (fuel g2) Ho2) as (outl & Houtl & Hynd & Hyin).
  { change (fuel g2) with (g_next g1). destruct Hs1 as (_&_&_&_&_&->&_). eapply core_edges_size; [done|].
    intros e He. apply elem_of_outs in He as (x & Hx & _). apply HC1 in Hx as [? _]. by exists x. }
  rewrite Houtl. cbn [rbind].
  destruct (drop_edges_progress outl g2 _ _ Hadj2 Hynd) as [g3 Hg3].
  { intros e He. apply Hyin, elem_of_outs in He as (x & ? & _). by exists x. }
  { destruct (Hdr (inl ++ outl)) as [ixs' Hixs].
    - apply NoDup_app. split; [done|]. split; [|done]. intros e He1 He2.
      apply Hyin, elem_of_outs in He2 as (x & Hx & _). apply HC1 in Hx as [Hx Hx'].
      apply Hxin, elem_of_ins in He1 as (x' & Hx1 & Hx2). congruence.
    - intros e [He|He]%elem_of_app.
      + apply Hxin, elem_of_ins in He as (x & ? & ?). eauto.
      + apply Hyin, elem_of_outs in He as (x & Hx & ?). apply HC1 in Hx as [? _]. eauto.
    - rewrite rfold_app, Hix1 in Hixs. simpl in Hixs. exists ixs'. subst g2. simpl. destruct Hs1 as (-> & _). done. }
  rewrite Hg3. cbn [rbind].
  pose proof (drop_edges_adj _ _ _ _ _ Hg3 Hadj2 Hynd) as Hadj3.
  destruct (proj1 (Hadj3 ltac:(intros e He; apply Hyin, elem_of_outs in He as (x & ? & _); by exists x)) n HnN) as (nd3 & -> & _).
  simpl. eauto.
Qed.

Lemma rfold_ext_ok {A S} (f h : S -> A -> res S) l s :
  (forall s x, x ∈ l -> f s x = h s x) -> rfold f l s = rfold h l s.
Proof.
  revert s; induction l as [|x l IH]; intros s H; simpl; [done|]. rewrite H by set_solver.
  destruct (h s x); simpl; [|done|done]. apply IH. intros s' y Hy. apply H. set_solver.
Qed.

Lemma edge_list_safe_prefix ops1 ops2 : edge_list_safe (ops1 ++ ops2) -> edge_list_safe ops1.
Proof.
  induction ops2 as [|o ops2 IH] using rev_ind; [by rewrite app_nil_r|].
  rewrite app_assoc. intros H. apply edge_list_safe_snoc in H as [H _]. by apply IH.
Qed.
Lemma node_index_prefix ops1 ops2 k it : node_index ops1 k = Some it -> node_index (ops1 ++ ops2) k = Some it.
Proof. induction ops1 as [|o ops1 IH]; simpl; [done|]. destruct o; try done. by destruct (decide _). Qed.
Lemma edge_index_prefix ops1 ops2 k it : edge_index ops1 k = Some it -> edge_index (ops1 ++ ops2) k = Some it.
Proof. induction ops1 as [|o ops1 IH]; simpl; [done|]. destruct o; try done. by destruct (decide _). Qed.
Lemma storable_mono it (D D' : value -> Prop) : (forall v, D v -> D' v) -> storable it D' -> storable it D.
Proof. intros H. destruct it; simpl; intros HD'; intros; apply HD'; auto. Qed.

(** The property values written to indexed keys can be stored, and the lists the indexes are
    built from are right. *)
Lemma calls_safe_prefix ops1 ops2 : calls_safe (ops1 ++ ops2) -> calls_safe ops1.
Proof.
  intros (H1 & H2 & H3). split; [by eapply edge_list_safe_prefix|]. split.
  - intros k it Hk. destruct (H2 k it) as [Hs Hsc]; [by apply node_index_prefix|]. split.
    + eapply storable_mono; [|exact Hs]. intros v. apply node_filed_app.
    + intros o1 o2 t ->. eapply (Hsc o1 (o2 ++ ops2)). by rewrite <- app_assoc.
  - intros k it Hk. eapply storable_mono; [|eapply H3; by apply edge_index_prefix].
    intros v. apply edge_filed_app.
Qed.

Lemma nixs_ok ops o g : valid_history ops -> run ops = Ok g -> calls_safe (ops ++ [o]) ->
  ixs_ok (fun k v => node_index ops k = None \/ node_filed (ops ++ [o]) k v) (g_nix g) (node_index ops) (fun k i v => node_has (srun ops) k v i).
Proof.
  intros Hv Hr (H1 & H2 & H3) k. split.
  - apply nix_run; try done.
    + intros v Hw. right. apply node_filed_snoc. by left.
    + destruct (node_index ops k) as [it|] eqn:Hk; [|by apply node_index_none_safe].
      destruct (H2 k it) as [_ Hsc]; [by apply node_index_prefix|]. intros o1 o2 t ->. eapply (Hsc o1 (o2 ++ [o])).
      by rewrite <- app_assoc.
  - intros t Ht. apply storable_domain. destruct (H2 k t) as [Hs _]; [by apply node_index_prefix|].
    eapply storable_mono; [|exact Hs]. intros v [?|?]; [congruence|done].
Qed.
Lemma eixs_ok ops o g : valid_history ops -> run ops = Ok g -> calls_safe (ops ++ [o]) ->
  ixs_ok (fun k v => edge_index ops k = None \/ edge_filed (ops ++ [o]) k v) (g_eix g) (edge_index ops) (fun k i v => edge_entry ops k v i).
Proof.
  intros Hv Hr (H1 & H2 & H3) k. split.
  - apply eix_run; try done.
    + intros v Hw. right. apply edge_filed_snoc. by left.
    + intros o1 o2 t ->. do 2 eapply edge_list_safe_prefix. rewrite <- app_assoc. rewrite <- app_assoc in H1. exact H1.
  - intros t Ht. apply storable_domain. eapply storable_mono; [|eapply H3; by apply edge_index_prefix].
    intros v [?|?]; [congruence|done].
Qed.

Lemma step_progress ops o g :
  valid_history ops -> run ops = Ok g -> valid (srun ops) o -> calls_safe (ops ++ [o]) ->
  exists g', step g o = Ok g'.
Proof.
  intros Hv Hr Ho Hsafe. pose proof (core_run _ _ Hv Hr) as Hc. pose proof Hc as (_ & Hnext & _).
  pose proof (nixs_ok _ _ _ Hv Hr Hsafe) as Hnx. pose proof (eixs_ok _ _ _ Hv Hr Hsafe) as Hex.
  pose proof (calls_safe_prefix _ _ Hsafe) as (Hels & Hnsafe & _). set (s := srun ops) in *.
  assert (forall e x, s_edges s !! e = Some x -> forall k w, edge_entry ops k w e <-> e_props x !! k = Some w) as Hlive.
  { intros e x Hx k w. unfold edge_entry, edge_has. fold s. rewrite Hx. split; [|naive_solver].
    intros [(y & [= <-] & ?)|Hl]; [done|]. apply left_over_dead in Hl as [Hl _]. destruct Hl. by exists x. }
  assert (forall n, live_node s n -> exists g', detach_node g n = Ok g') as Hdetach.
  { intros n Hn. eapply detach_progress; [exact Hc|done|]. intros es Hnd Hes.
    eapply ixs_removes_progress; [exact Hex|done|]. intros e He. destruct (Hes e He) as (ed & Hed & _).
    exists ed. split; [by apply (core_edge _ _ _ _ Hc) in Hed as [? _]|]. by apply Hlive. }
  destruct o; simpl in Ho |- *.
  - unfold new_node. set (g1 := bump _). destruct (nl_add _ _ _) as [l L]. simpl.
    destruct (ixs_add_progress _ _ _ _ p (g_next g) Hnx) as [ixs' ->]; [| |simpl; eauto].
    + intros k w (x & Hx & _). assert (g_next g < s_next s); [|lia]. eapply core_live_lt; [done|]. by eexists.
    + intros k v Hp. destruct (node_index ops k) eqn:Hi; [right|by left]. apply node_filed_write; [by eexists|done].
  - destruct Ho as [Hf Ht]. destruct (new_edge_progress_ix ops g from to label p Hv Hr Hels Hf Ht) as (g' & e & ->); [|simpl; eauto].
    eapply ixs_add_progress; [exact Hex| |].
    + intros k w [(x & Hx & _)|Hl].
      * assert (g_next g < s_next s); [|lia]. apply s_edge_lt. by exists x.
      * apply left_over_dead in Hl as [_ ?]. fold s in H. lia.
    + intros k v Hp. destruct (edge_index ops k) eqn:Hi; [right|by left]. apply edge_filed_write; [by eexists|done].
  - destruct Ho as (_ & x & Hx & _). destruct (core_node _ _ _ _ Hc Hx) as (nd & Hnd & _).
    unfold set_labels, deref_node. rewrite Hnd. simpl. eauto.
  - destruct Ho as [x Hx]. destruct (core_node _ _ _ _ Hc Hx) as (nd & Hnd & _ & Hp).
    unfold set_node_prop, deref_node. rewrite Hnd. cbn [rbind].
    destruct (ix_update_progress _ _ _ _ k (n_props nd !! k) (Some v) n Hnx) as [ixs' ->]; [| |simpl; eauto].
    + intros w. unfold node_has. rewrite Hx, Hp. naive_solver.
    + intros w [= <-]. destruct (node_index ops k) eqn:Hi; [right|by left]. apply node_filed_write; [by eexists|done].
  - destruct Ho as [x Hx]. destruct (core_node _ _ _ _ Hc Hx) as (nd & Hnd & _ & Hp).
    unfold rem_node_prop, deref_node. rewrite Hnd. cbn [rbind]. destruct (n_props nd !! k) as [v|] eqn:Hk; [|eauto].
    destruct (ix_update_progress _ _ _ _ k (Some v) None n Hnx) as [ixs' ->]; [|done|simpl; eauto].
    intros w. unfold node_has. rewrite Hx. rewrite Hp in Hk. naive_solver.
  - by apply Hdetach.
  - destruct Ho as (x & Hx & _). unfold detach_remove_node. destruct (Hdetach n) as [g1 Hg1]; [by exists x|].
    rewrite Hg1. cbn [rbind].
    destruct (core_detach _ _ _ _ Hg1 (ex_intro _ x Hx) Hc) as (Hc1 & _ & (_&_&_&_&E5&_) & _).
    destruct (core_node _ _ n x Hc1 Hx) as (nd & Hnd & _ & Hp). unfold deref_node. rewrite Hnd. cbn [rbind].
    destruct (nl_remove _ _ _) as [l L]. simpl. rewrite E5.
    destruct (ixs_remove_progress _ _ _ _ (n_props nd) n Hnx) as [ixs' ->]; [|simpl; eauto].
    intros k w. rewrite Hp. intros Hw. by exists x.
  - destruct Ho as [x Hx]. destruct (core_edge _ _ _ _ Hc Hx) as (Hed & Hf & Ht & _). unfold set_edge_label, deref_edge.
    rewrite Hed. cbn [rbind]. destruct (decide (label = e_label x)); [eauto|].
    pose proof Hc as (Hadj & _). destruct (disconnect_ok _ _ _ _ _ Hadj Hx) as (g1 & Hg1 & Hadj1). rewrite Hg1. cbn [rbind].
    apply disconnect_shape in Hg1 as (E1&_).
    edestruct (connect_ok (set_edges g1 (<[e:=Edge (e_from x) (e_to x) label (e_props x)]> (g_edges g1))) (dom (s_nodes s)) (delete e (s_edges s)) e) as (g2 & Hg2 & _).
    + eapply adj_frame; [exact Hadj1|..]; simpl; eauto. intros e' ed'. rewrite lookup_delete_Some. intros [? _]. by rewrite lookup_insert_ne.
    + apply lookup_delete.
    + simpl. apply lookup_insert.
    + simpl. by apply elem_of_dom.
    + simpl. by apply elem_of_dom.
    + eauto.
  - destruct Ho as [x Hx]. destruct (core_edge _ _ _ _ Hc Hx) as (Hed & _). unfold set_edge_prop, deref_edge. rewrite Hed. cbn [rbind].
    destruct (ix_update_progress _ _ _ _ k (e_props x !! k) (Some v) e Hex) as [ixs' ->]; [| |simpl; eauto].
    + by apply Hlive.
    + intros w [= <-]. destruct (edge_index ops k) eqn:Hi; [right|by left]. apply edge_filed_write; [by eexists|done].
  - destruct Ho as [x Hx]. destruct (core_edge _ _ _ _ Hc Hx) as (Hed & _). unfold rem_edge_prop, deref_edge. rewrite Hed. cbn [rbind].
    destruct (e_props x !! k) as [v|] eqn:Hk; [|eauto].
    destruct (ix_update_progress _ _ _ _ k (Some v) None e Hex) as [ixs' ->]; [|done|simpl; eauto].
    intros w. rewrite (Hlive _ _ Hx), Hk. done.
  - destruct Ho as [x Hx]. pose proof Hc as (Hadj & _). unfold remove_edge.
    destruct (disconnect_ok _ _ _ _ _ Hadj Hx) as (g1 & -> & _). simpl. eauto.
  - unfold add_node_index. destruct (g_nix g !! k) as [ix|] eqn:Hg; [eauto|].
    assert (node_index ops k = None) as Hni.
    { destruct (Hnx k) as [Hk Hd]. destruct (node_index ops k) as [t|]; [|done]. simpl in Hk.
      destruct (Hk (Hd t eq_refl)) as (ix & Hix & _). congruence. }
    assert (node_index (ops ++ [OAddNodeIndex k it]) k = Some it) as Hni'.
    { rewrite node_index_snoc, Hni. by rewrite decide_True. }
    destruct Hsafe as (_ & Hns & _). destruct (Hns _ _ Hni') as [Hst Hsc].
    assert (node_list_safe ops) as Hls by (eapply (Hsc ops []); done).
    destruct (get_nodes_ok _ _ Hv Hr Hls) as (xs & -> & [[Hnd Hin] _]). cbn [rbind].
    rewrite (rfold_ext_ok _ (fun ix n => match node_prop g n k with Some v => ix_add ix v n | None => Ok ix end)).
    2: { intros ix n Hn. apply Hin in Hn as [x Hx]. unfold node_prop, deref_node. destruct (core_node _ _ _ _ Hc Hx) as (nd & -> & _). done. }
    destruct (scan_index (node_filed (ops ++ [OAddNodeIndex k it]) k) it (fun n => node_prop g n k) xs) with (ix0 := ix_new it) (P := fun (_ : nat) (_ : value) => False)
      as (ix & -> & _); try done.
    { intros n v Hn Hv'. apply Hin in Hn as [x Hx]. eapply node_filed_scan; [done|]. exists x. split; [exact Hx|].
      destruct (read_node _ _ Hc _ _ Hx) as [_ E]. by rewrite <- E. }
    { by apply storable_domain. }
    { by destruct it. }
    { apply holds_new. by intros ? ? []. }
    { by intros ? ? ? []. }
    simpl. eauto.
  - unfold add_edge_index. destruct (g_eix g !! k) as [ix|] eqn:Hg; [eauto|].
    assert (edge_index ops k = None) as Hni.
    { destruct (Hex k) as [Hk Hd]. destruct (edge_index ops k) as [t|]; [|done]. simpl in Hk.
      destruct (Hk (Hd t eq_refl)) as (ix & Hix & _). congruence. }
    assert (edge_index (ops ++ [OAddEdgeIndex k it]) k = Some it) as Hni'.
    { rewrite edge_index_snoc, Hni. by rewrite decide_True. }
    destruct Hsafe as (_ & _ & Hes). pose proof (Hes _ _ Hni') as Hst.
    destruct (get_edges_ok _ _ Hv Hr Hels) as [(xs & -> & [Hnd Hin]) _]. cbn [rbind].
    rewrite (rfold_ext_ok _ (fun ix n => match edge_prop g n k with Some v => ix_add ix v n | None => Ok ix end)).
    2: { intros ix n Hn. apply Hin in Hn as [x Hx]. unfold edge_prop, deref_edge. destruct (core_edge _ _ _ _ Hc Hx) as [-> _]. done. }
    destruct (scan_index (edge_filed (ops ++ [OAddEdgeIndex k it]) k) it (fun n => edge_prop g n k) xs) with (ix0 := ix_new it) (P := fun (_ : nat) (_ : value) => False)
      as (ix & -> & _); try done.
    { intros n v Hn Hv'. apply Hin in Hn as [x Hx]. eapply edge_filed_scan; [done|]. exists x. split; [exact Hx|].
      unfold edge_prop in Hv'. destruct (core_edge _ _ _ _ Hc Hx) as [E _]. rewrite E in Hv'. done. }
    { by apply storable_domain. }
    { by destruct it. }
    { apply holds_new. by intros ? ? []. }
    { by intros ? ? ? []. }
    simpl. eauto.
Qed.

Lemma run_progress ops : valid_history ops -> calls_safe ops -> exists g, run ops = Ok g.
Proof.
  induction ops as [|o ops IH] using rev_ind; intros Hv Hs; [by eexists|].
  pose proof (calls_safe_prefix _ _ Hs) as Hs0. apply valid_history_snoc in Hv as [Hv Ho].
  destruct (IH Hv Hs0) as [g Hg]. destruct (step_progress ops o g Hv Hg Ho Hs) as [g' Hg'].
  exists g'. unfold run in *. rewrite rfold_app, Hg. simpl. by rewrite Hg'.
Qed.
