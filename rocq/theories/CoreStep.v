(** Every operation preserves the core relation. *)
From Verif Require Import Base Assoc Value FastSet Links EdgeMap NodeMap Index Graph GraphSpec.
From Verif Require Import LinksProofs EdgeMapProofs CoreProofs.

Lemma core_intro g' s' g :
  adj g' (dom (s_nodes s')) (s_edges s') ->
  g_next g' = s_next s' ->
  (forall n sn, s_nodes s' !! n = Some sn -> data g' n = Some (sn_labels sn, sn_props sn)) ->
  (forall n, is_Some (g_nodes g' !! n) <-> is_Some (g_nodes g !! n)) ->
  (forall e, is_Some (g_edges g' !! e) <-> is_Some (g_edges g !! e)) ->
  g_next g' = g_next g ->
  (forall n, is_Some (g_nodes g !! n) -> n < g_next g) ->
  (forall e, is_Some (g_edges g !! e) -> e < g_next g) ->
  (forall x, is_Some (g_nodes g !! x) -> is_Some (g_edges g !! x) -> False) ->
  core g' s'.
Proof.
  intros Ha Hn Hd HN HE Hnx H1 H2 H3. split; [done|]. split; [done|]. split; [done|].
  rewrite Hnx. split; [|split].
  - intros n Hx. apply HN in Hx. auto.
  - intros n Hx. apply HE in Hx. auto.
  - intros n Hx Hy. apply HN in Hx. apply HE in Hy. eauto.
Qed.

(** changing labels or properties of a live node *)
Lemma core_alter_node g s n nd lb p g' f sn :
  core g s -> s_nodes s !! n = Some sn -> g_nodes g !! n = Some nd ->
  g_nodes g' = <[n := Node lb p (n_in nd) (n_out nd)]> (g_nodes g) ->
  g_edges g' = g_edges g -> g_l1 g' = g_l1 g -> g_l2 g' = g_l2 g -> g_next g' = g_next g ->
  f sn = SNode lb p ->
  core g' (SGraph (alter f n (s_nodes s)) (s_edges s) (s_next s)).
Proof.
  intros Hc Hsn Hnd HN HE H1 H2 Hnx Hf. pose proof Hc as (Hadj & Hnext & Hdata & Hlt & Hlte & Hdis).
  apply (core_intro _ _ g); simpl; try done.
  - rewrite dom_alter_L. eapply adj_frame; [exact Hadj| |done|done|by rewrite HE].
    intros m mnd Hm _. rewrite HN. destruct (decide (m = n)) as [->|].
    + rewrite lookup_insert. eexists. split; [done|]. simpl. assert (mnd = nd) as -> by congruence. done.
    + rewrite lookup_insert_ne by done. eauto.
  - congruence.
  - intros m sm. unfold data. rewrite HN. destruct (decide (m = n)) as [->|].
    + rewrite lookup_alter, lookup_insert, Hsn. simpl. intros [= <-]. rewrite Hf. done.
    + rewrite lookup_alter_ne, lookup_insert_ne by done. intros Hm. by apply Hdata.
  - intros m. rewrite HN. destruct (decide (m = n)) as [->|].
    + rewrite lookup_insert, Hnd. split; eauto.
    + by rewrite lookup_insert_ne.
  - intros e. by rewrite HE.
Qed.

(** changing properties of a live edge *)
Lemma core_alter_edge g s e ed p g' f :
  core g s -> s_edges s !! e = Some ed ->
  g_edges g' = <[e := Edge (e_from ed) (e_to ed) (e_label ed) p]> (g_edges g) ->
  g_nodes g' = g_nodes g -> g_l1 g' = g_l1 g -> g_l2 g' = g_l2 g -> g_next g' = g_next g ->
  f ed = Edge (e_from ed) (e_to ed) (e_label ed) p ->
  core g' (SGraph (s_nodes s) (alter f e (s_edges s)) (s_next s)).
Proof.
  intros Hc Hed HE HN H1 H2 Hnx Hf.
  pose proof Hc as ([Hn HC] & Hnext & Hdata & Hlt & Hlte & Hdis).
  destruct (HC _ _ Hed) as (Hge & Hfr & Hto).
  assert (forall x, lbl g' x = lbl g x) as Hl.
  { intros x. unfold lbl. rewrite HE. destruct (decide (x = e)) as [->|].
    - by rewrite lookup_insert, Hge.
    - by rewrite lookup_insert_ne. }
  apply (core_intro _ _ g); simpl; try done.
  - split.
    + intros m Hm. destruct (Hn m Hm) as (nd & Hnd & Hi & Ho). rewrite HN. exists nd. split; [done|].
      assert (ins (alter f e (s_edges s)) m = ins (s_edges s) m) as ->.
      { apply set_eq. intros x. rewrite !elem_of_ins. destruct (decide (x = e)) as [->|].
        - rewrite lookup_alter, Hed. simpl. rewrite Hf. naive_solver.
        - by rewrite lookup_alter_ne. }
      assert (outs (alter f e (s_edges s)) m = outs (s_edges s) m) as ->.
      { apply set_eq. intros x. rewrite !elem_of_outs. destruct (decide (x = e)) as [->|].
        - rewrite lookup_alter, Hed. simpl. rewrite Hf. naive_solver.
        - by rewrite lookup_alter_ne. }
      rewrite H1, H2. split; (eapply em_rep_frame; [|eassumption]); intros x _; auto.
    + intros x xd. rewrite HE. destruct (decide (x = e)) as [->|].
      * rewrite lookup_alter, lookup_insert, Hed. simpl. intros [= <-]. rewrite Hf. done.
      * rewrite lookup_alter_ne, lookup_insert_ne by done. apply HC.
  - congruence.
  - intros m sm Hm. unfold data. rewrite HN. by apply Hdata.
  - intros m. by rewrite HN.
  - intros x. rewrite HE. destruct (decide (x = e)) as [->|].
    + rewrite lookup_insert, Hge. split; eauto.
    + by rewrite lookup_insert_ne.
Qed.

(** anything not touching heap and adjacency *)
Lemma core_frame g g' s :
  core g s -> g_nodes g' = g_nodes g -> g_edges g' = g_edges g ->
  g_l1 g' = g_l1 g -> g_l2 g' = g_l2 g -> g_next g' = g_next g -> core g' s.
Proof.
  intros (Hadj & Hnext & Hdata & Hlt & Hlte & Hdis) HN HE H1 H2 Hnx.
  apply (core_intro _ _ g); try done; try congruence.
  - eapply adj_frame; [exact Hadj| |done|done|by rewrite HE]. rewrite HN. eauto.
  - intros n sn. unfold data. rewrite HN. apply Hdata.
  - by rewrite HN.
  - by rewrite HE.
Qed.

(** ** What each operation does outside the core *)
Lemma new_node_shape g labels p ord g' n :
  new_node g labels p ord = Ok (g', n) ->
  n = g_next g /\
  g_nodes g' = <[n := Node labels p em_empty em_empty]> (g_nodes g) /\
  g_edges g' = g_edges g /\ g_l0 g' = g_l0 g /\ g_l1 g' = g_l1 g /\ g_l2 g' = g_l2 g /\
  (g_list g', g_nl g') = nl_add (g_list g) (g_nl g) n /\
  g_all g' = g_all g /\ g_lab g' = nm_add (g_lab g) n labels ord /\
  ixs_add (g_nix g) p n = Ok (g_nix g') /\ g_eix g' = g_eix g /\ g_next g' = S (g_next g).
Proof.
  unfold new_node. destruct (nl_add _ _ _) as [l L] eqn:Hadd. intros H. inv_ok H.
  injection H as <- <-. simpl in *. repeat split; done.
Qed.

Lemma all_add_shape g e g' : all_add g e = Ok g' ->
  exists em L, em_add (lbl g) (g_all g) (g_l0 g) e = Ok (em, L) /\ g' = set_all g em L.
Proof. unfold all_add. intros H. inv_ok H. destruct a as [em L]. injection H as <-. eauto. Qed.

Lemma new_edge_shape g from to label p g' e :
  new_edge g from to label p = Ok (g', e) ->
  e = g_next g /\
  (forall n, data g' n = data g n) /\
  g_edges g' = <[e := Edge from to label p]> (g_edges g) /\
  g_list g' = g_list g /\ g_nl g' = g_nl g /\ g_lab g' = g_lab g /\ g_nix g' = g_nix g /\
  em_add (lbl g') (g_all g) (g_l0 g) e = Ok (g_all g', g_l0 g') /\
  ixs_add (g_eix g) p e = Ok (g_eix g') /\ g_next g' = S (g_next g).
Proof.
  unfold new_edge. intros H. inv_ok H. injection H as <- <-.
  apply all_add_shape in Ha1 as (em & L & Hadd & ->).
  apply connect_shape in Ha2 as (E1&E2&E3&E4&E5&E6&E7&E8&E9&E10). simpl in *.
  rewrite E8 in Ha3.
  repeat split; simpl; try congruence.
  - intros n. specialize (E10 n). unfold data in *. simpl in *. done.
  - rewrite E3, E5. rewrite <- Hadd. unfold lbl. simpl. by rewrite E1.
Qed.

Lemma set_edge_label_shape g e label g' :
  set_edge_label g e label = Ok g' ->
  exists ed, g_edges g !! e = Some ed /\
  g_edges g' = (if decide (label = e_label ed) then g_edges g
                else <[e := Edge (e_from ed) (e_to ed) label (e_props ed)]> (g_edges g)) /\
  (forall n, data g' n = data g n) /\
  g_nl g' = g_nl g /\ g_l0 g' = g_l0 g /\ g_list g' = g_list g /\
  g_all g' = g_all g /\ g_lab g' = g_lab g /\ g_nix g' = g_nix g /\ g_eix g' = g_eix g /\
  g_next g' = g_next g.
Proof.
  unfold set_edge_label. intros H. inv_ok H. unfold deref_edge in Ha.
  destruct (g_edges g !! e) as [ed|] eqn:He; [|done]. injection Ha as <-. exists ed. split; [done|].
  destruct (decide _) as [Hl|Hl]; [injection H as <-; repeat split; done|].
  inv_ok H.
  apply disconnect_shape in Ha as (E1&E2&E3&E4&E5&E6&E7&E8&E9&E10).
  apply connect_shape in H as (F1&F2&F3&F4&F5&F6&F7&F8&F9&F10). simpl in *.
  rewrite E1 in F1.
  repeat split; try congruence. intros n. rewrite F10. unfold data in *. simpl in *. apply E10.
Qed.

Lemma remove_edge_shape g e g' :
  remove_edge g e = Ok g' ->
  same_but_edges g g' /\ (g_all g', g_l0 g') = em_remove (lbl g) (g_all g) (g_l0 g) e /\ g_eix g' = g_eix g.
Proof.
  unfold remove_edge. intros H. inv_ok H. injection H as <-.
  apply disconnect_shape in Ha as (E1&E2&E3&E4&E5&E6&E7&E8&E9&E10).
  rewrite all_remove_eq. simpl. assert (lbl a = lbl g) as -> by (unfold lbl; by rewrite E1).
  rewrite E3, E5. repeat split; simpl; try done. by destruct (em_remove _ _ _ _).
Qed.

(** DetachAndRemove = Detach, then unlink from node list, label map and indexes. *)
Lemma detach_remove_shape g n ord g' :
  detach_remove_node g n ord = Ok g' ->
  exists g1 nd, detach_node g n = Ok g1 /\ g_nodes g1 !! n = Some nd /\
  g_nodes g' = g_nodes g1 /\ g_edges g' = g_edges g1 /\ g_l0 g' = g_l0 g1 /\ g_l1 g' = g_l1 g1 /\ g_l2 g' = g_l2 g1 /\
  g_all g' = g_all g1 /\ g_eix g' = g_eix g1 /\ g_next g' = g_next g1 /\
  (g_list g', g_nl g') = nl_remove (g_list g1) (g_nl g1) n /\
  g_lab g' = nm_remove (g_lab g1) n (n_labels nd) ord /\
  ixs_remove (g_nix g1) (n_props nd) n = Ok (g_nix g').
Proof.
  unfold detach_remove_node. intros H. inv_ok H.
  unfold deref_node in Ha0. destruct (g_nodes a !! n) as [nd|] eqn:Hnd; [|done]. injection Ha0 as <-.
  destruct (nl_remove _ _ _) as [l L] eqn:Hrem. inv_ok H. injection H as <-. simpl in *.
  exists a, nd. repeat split; try done. 
Qed.

Lemma core_remove_node g s n :
  core g s -> (forall e ed, s_edges s !! e = Some ed -> e_from ed <> n /\ e_to ed <> n) ->
  core g (SGraph (delete n (s_nodes s)) (s_edges s) (s_next s)).
Proof.
  intros ([Hn HC] & Hnext & Hdata & Hlt & Hlte & Hdis) Hiso.
  apply (core_intro _ _ g); try done.
  - split; simpl.
    + intros m. rewrite dom_delete_L. intros Hm. apply Hn. set_solver.
    + intros e ed He. destruct (HC _ _ He) as (?&?&?). destruct (Hiso _ _ He).
      rewrite dom_delete_L. set_solver.
  - simpl. intros m sm Hm. apply lookup_delete_Some in Hm as [_ Hm]. by apply Hdata.
Qed.

Lemma s_detach_lookup E n e ed :
  s_detach E n !! e = Some ed <-> E !! e = Some ed /\ e_from ed <> n /\ e_to ed <> n.
Proof. unfold s_detach. by rewrite map_filter_lookup_Some. Qed.

(** ** The step lemma *)
Lemma core_step g s o g' :
  step g o = Ok g' -> valid s o -> core g s -> core g' (sstep s o).
Proof.
  intros Hstep Hv Hc. pose proof Hc as (Hadj & Hnext & Hdata & Hlt & Hlte & Hdis).
  destruct o; simpl in Hstep, Hv |- *.
  - (* NewNode *)
    inv_ok Hstep. destruct a as [g1 n]. injection Hstep as <-. simpl.
    apply new_node_shape in Ha as (-> & HN & HE & H0 & H1 & H2 & _ & _ & _ & _ & _ & Hnx).
    assert (g_nodes g !! g_next g = None) as Hfr.
    { destruct (g_nodes g !! g_next g) eqn:Hx; [|done].
      assert (g_next g < g_next g) by (apply Hlt; eauto). lia. }
    assert (g_edges g !! g_next g = None) as Hfre.
    { destruct (g_edges g !! g_next g) eqn:Hx; [|done].
      assert (g_next g < g_next g) by (apply Hlte; eauto). lia. }
    rewrite <- Hnext. destruct Hadj as [Hn HC].
    assert (forall e ed, s_edges s !! e = Some ed -> e_from ed <> g_next g /\ e_to ed <> g_next g) as Hnot.
    { intros e ed He. destruct (HC _ _ He) as (_ & Hf & Ht).
      destruct (Hn _ Hf) as (? & Hf' & _), (Hn _ Ht) as (? & Ht' & _). split; congruence. }
    split; [split|split; [|split; [|split; [|split]]]]; simpl.
    + rewrite dom_insert_L. intros m Hm. rewrite HN, H1, H2.
      assert (forall x, lbl g1 x = lbl g x) as Hl by (intros x; unfold lbl; by rewrite HE).
      destruct (decide (m = g_next g)) as [->|Hne].
      * rewrite lookup_insert. eexists. split; [done|]. simpl.
        assert (ins (s_edges s) (g_next g) = ∅) as ->.
        { apply set_eq. intros e. rewrite elem_of_ins. split; [|set_solver].
          intros (x & Hx & Hx'). apply Hnot in Hx. naive_solver. }
        assert (outs (s_edges s) (g_next g) = ∅) as ->.
        { apply set_eq. intros e. rewrite elem_of_outs. split; [|set_solver].
          intros (x & Hx & Hx'). apply Hnot in Hx. naive_solver. }
        split; apply em_rep_empty.
      * rewrite lookup_insert_ne by done.
        destruct (Hn m) as (nd & Hnd & Hi & Ho); [set_solver|]. exists nd. split; [done|].
        split; (eapply em_rep_frame; [|eassumption]); intros x _; auto.
    + intros e ed He. rewrite HE. destruct (HC _ _ He) as (?&?&?).
      rewrite dom_insert_L. set_solver.
    + done.
    + intros m sm. unfold data. rewrite HN. destruct (decide (m = g_next g)) as [->|].
      * rewrite !lookup_insert. intros [= <-]. done.
      * rewrite !lookup_insert_ne by done. apply Hdata.
    + intros m. rewrite HN, Hnx. destruct (decide (m = g_next g)) as [->|]; [lia|].
      rewrite lookup_insert_ne by done. intros Hm. apply Hlt in Hm. lia.
    + intros m. rewrite HE, Hnx. intros Hm. apply Hlte in Hm. lia.
    + intros m. rewrite HN, HE. destruct (decide (m = g_next g)) as [->|].
      * rewrite Hfre. intros _ [? ?]. done.
      * rewrite lookup_insert_ne by done. apply Hdis.
  - (* NewEdge *)
    inv_ok Hstep. destruct a as [g1 e]. injection Hstep as <-. cbn [fst].
    pose proof (new_edge_shape _ _ _ _ _ _ _ Ha) as (-> & HN & HE & _ & _ & _ & _ & _ & _ & Hnx).
    destruct Hv as [Hf Ht].
    assert (g_edges g !! g_next g = None) as Hfre.
    { destruct (g_edges g !! g_next g) eqn:Hx; [|done].
      assert (g_next g < g_next g) by (apply Hlte; eauto). lia. }
    assert (s_edges s !! g_next g = None) as Hfrs.
    { destruct (s_edges s !! g_next g) eqn:Hx; [|done]. apply Hadj in Hx as (Hx & _). congruence. }
    unfold new_edge in Ha. inv_ok Ha. injection Ha as <-.
    apply all_add_shape in Ha2 as (em & L & _ & ->).
    set (g2 := bump _) in *.
    assert (adj g2 (dom (s_nodes s)) (s_edges s)) as Hadj2.
    { eapply adj_frame; [exact Hadj| |done|done|]; simpl; eauto.
      intros e ed He. rewrite lookup_insert_ne; [done|]. intros <-. congruence. }
    assert (adj (set_all g2 em L) (dom (s_nodes s)) (s_edges s)) as Hadj3.
    { eapply adj_frame; [exact Hadj2| |done|done|]; simpl; eauto. }
    destruct (connect_ok _ _ _ (g_next g) (Edge from to label p) Hadj3) as (g3 & Hg3 & Hadj4); [done| | | |].
    { simpl. by rewrite lookup_insert. }
    { simpl. by apply elem_of_dom. }
    { simpl. by apply elem_of_dom. }
    assert (g3 = a2) as -> by congruence.
    rewrite <- Hnext.
    split; [|split; [|split; [|split; [|split]]]]; simpl in *.
    + eapply adj_frame; [exact Hadj4| |done|done|]; simpl; eauto.
    + done.
    + intros m sm Hm. rewrite HN. by apply Hdata.
    + intros m Hm. apply (data_props g) in Hm; [|apply HN]. apply Hlt in Hm. lia.
    + intros m. rewrite HE, Hnx. destruct (decide (m = g_next g)) as [->|]; [lia|].
      rewrite lookup_insert_ne by done. intros Hm. apply Hlte in Hm. lia.
    + intros m Hm. apply (data_props g) in Hm; [|apply HN]. rewrite HE.
      destruct (decide (m = g_next g)) as [->|].
      * apply Hlt in Hm. lia.
      * rewrite lookup_insert_ne by done. by apply Hdis.
  - (* SetLabels *)
    destruct Hv as (_ & sn & Hsn & _). destruct (core_node _ _ _ _ Hc Hsn) as (nd & Hnd & Hlb & Hp).
    unfold set_labels in Hstep. inv_ok Hstep. injection Hstep as <-.
    unfold deref_node in Ha. rewrite Hnd in Ha. injection Ha as <-.
    eapply (core_alter_node g s n nd labels (n_props nd)); try done. simpl. by rewrite Hp.
  - (* SetProperty *)
    destruct Hv as (sn & Hsn). destruct (core_node _ _ _ _ Hc Hsn) as (nd & Hnd & Hlb & Hp).
    unfold set_node_prop in Hstep. inv_ok Hstep. injection Hstep as <-.
    unfold deref_node in Ha. rewrite Hnd in Ha. injection Ha as <-.
    eapply (core_alter_node g s n nd _ _); try done. simpl. by rewrite Hp, Hlb.
  - (* RemoveProperty *)
    destruct Hv as (sn & Hsn). destruct (core_node _ _ _ _ Hc Hsn) as (nd & Hnd & Hlb & Hp).
    unfold rem_node_prop in Hstep. inv_ok Hstep.
    unfold deref_node in Ha. rewrite Hnd in Ha. injection Ha as <-.
    destruct (n_props nd !! k) as [v|] eqn:Hk.
    + inv_ok Hstep. injection Hstep as <-.
      eapply (core_alter_node g s n nd _ _); try done. simpl. by rewrite Hp, Hlb.
    + injection Hstep as <-.
      assert (alter (fun x => SNode (sn_labels x) (delete k (sn_props x))) n (s_nodes s) = s_nodes s) as ->.
      { apply map_eq. intros m. destruct (decide (m = n)) as [->|].
        - rewrite lookup_alter, Hsn. simpl.
          rewrite (delete_notin (M := gmap string) (sn_props sn) k) by congruence. by destruct sn.
        - by rewrite lookup_alter_ne. }
      by destruct s.
  - (* Detach *)
    by eapply core_detach in Hstep as [? _].
  - (* DetachAndRemove *)
    destruct Hv as (sn & Hsn & _).
    apply detach_remove_shape in Hstep as (g1 & nd & Hd & Hnd & HN & HE & _ & H1 & H2 & _ & _ & Hnx & _).
    eapply core_detach in Hd as [Hc1 _]; [|by eexists|done].
    eapply core_remove_node in Hc1 as Hc2.
    + eapply core_frame; [exact Hc2|done..].
    + simpl. intros e ed. rewrite s_detach_lookup. naive_solver.
  - (* SetLabel *)
    destruct Hv as (ed & Hed). pose proof (core_edge _ _ _ _ Hc Hed) as (Hge & Hf & Ht & _).
    pose proof (set_edge_label_shape _ _ _ _ Hstep) as (ed' & Hge' & HE & HN & _ & _ & _ & _ & _ & _ & _ & Hnx).
    assert (ed' = ed) as -> by congruence. clear Hge'.
    unfold set_edge_label, deref_edge in Hstep. rewrite Hge in Hstep. cbn [rbind] in Hstep.
    destruct (decide _) as [Hl|Hl].
    + injection Hstep as <-. subst label.
      assert (alter (fun x => Edge (e_from x) (e_to x) (e_label ed) (e_props x)) e (s_edges s) = s_edges s) as ->.
      { apply map_eq. intros m. destruct (decide (m = e)) as [->|].
        - rewrite lookup_alter, Hed. simpl. by destruct ed.
        - by rewrite lookup_alter_ne. }
      by destruct s.
    + apply rbind_Ok_inv in Hstep as (g1 & Hg1 & Hstep).
      destruct (disconnect_ok _ _ _ _ _ Hadj Hed) as (g1' & Hg1' & Hadj1).
      assert (g1' = g1) as -> by congruence.
      apply disconnect_shape in Hg1 as (E1&_).
      set (g2 := set_edges g1 _) in *.
      assert (adj g2 (dom (s_nodes s)) (delete e (s_edges s))) as Hadj2.
      { eapply adj_frame; [exact Hadj1| |done|done|]; simpl; eauto.
        intros x xd Hx. rewrite lookup_insert_ne; [done|]. intros <-. by rewrite lookup_delete in Hx. }
      destruct (connect_ok _ _ _ e (Edge (e_from ed) (e_to ed) label (e_props ed)) Hadj2) as (g3 & Hg3 & Hadj3).
      { by rewrite lookup_delete. }
      { simpl. by rewrite lookup_insert. }
      { simpl. by apply elem_of_dom. }
      { simpl. by apply elem_of_dom. }
      assert (g3 = g') as -> by congruence.
      apply (core_intro _ _ g); simpl; try done; try congruence.
      * rewrite insert_delete_insert in Hadj3.
        assert (alter (fun x => Edge (e_from x) (e_to x) label (e_props x)) e (s_edges s) =
          <[e := Edge (e_from ed) (e_to ed) label (e_props ed)]> (s_edges s)) as ->; [|done].
        apply map_eq. intros m. destruct (decide (m = e)) as [->|].
        -- by rewrite lookup_alter, lookup_insert, Hed.
        -- by rewrite lookup_alter_ne, lookup_insert_ne.
      * intros m sm Hm. rewrite HN. by apply Hdata.
      * intros m. by apply data_props.
      * intros m. rewrite HE. destruct (decide (m = e)) as [->|].
        -- rewrite lookup_insert, Hge. split; eauto.
        -- by rewrite lookup_insert_ne.
  - (* SetProperty *)
    destruct Hv as (ed & Hed). pose proof (core_edge _ _ _ _ Hc Hed) as (Hge & Hf & Ht & _).
    unfold set_edge_prop in Hstep. inv_ok Hstep. injection Hstep as <-.
    unfold deref_edge in Ha. rewrite Hge in Ha. injection Ha as <-.
    by eapply (core_alter_edge g s e ed).
  - (* RemoveProperty *)
    destruct Hv as (ed & Hed). pose proof (core_edge _ _ _ _ Hc Hed) as (Hge & Hf & Ht & _).
    unfold rem_edge_prop in Hstep. inv_ok Hstep.
    unfold deref_edge in Ha. rewrite Hge in Ha. injection Ha as <-.
    destruct (e_props ed !! k) as [v|] eqn:Hk.
    + inv_ok Hstep. injection Hstep as <-. by eapply (core_alter_edge g s e ed).
    + injection Hstep as <-.
      assert (alter (fun x => Edge (e_from x) (e_to x) (e_label x) (delete k (e_props x))) e (s_edges s) = s_edges s) as ->.
      { apply map_eq. intros m. destruct (decide (m = e)) as [->|].
        - rewrite lookup_alter, Hed. simpl.
          rewrite (delete_notin (M := gmap string) (e_props ed) k) by congruence. by destruct ed.
        - by rewrite lookup_alter_ne. }
      by destruct s.
  - (* Remove *)
    destruct Hv as (ed & Hed).
    pose proof (remove_edge_shape _ _ _ Hstep) as ((HE & _ & _ & _ & _ & Hnx & HN) & _).
    unfold remove_edge in Hstep. inv_ok Hstep.
    destruct (disconnect_ok _ _ _ _ _ Hadj Hed) as (g1' & Hg1' & Hadj1).
    assert (g1' = a) as -> by congruence. rewrite all_remove_eq in Hstep. injection Hstep as <-.
    apply (core_intro _ _ g); simpl; try done; simpl in *; try congruence.
    + intros m sm Hm. rewrite HN. by apply Hdata.
    + intros m. apply (data_props _ _ _ (HN m)).
    + by rewrite HE.
  - (* AddNodePropertyIndex *)
    unfold add_node_index in Hstep. destruct (g_nix g !! k); [by injection Hstep as <-|].
    inv_ok Hstep. injection Hstep as <-. by eapply core_frame.
  - (* AddEdgePropertyIndex *)
    unfold add_edge_index in Hstep. destruct (g_eix g !! k); [by injection Hstep as <-|].
    inv_ok Hstep. injection Hstep as <-. by eapply core_frame.
Qed.

(** ** Histories *)
Lemma srun_from_snoc s ops o : fold_left sstep (ops ++ [o]) s = sstep (fold_left sstep ops s) o.
Proof. by rewrite fold_left_app. Qed.
Lemma srun_snoc ops o : srun (ops ++ [o]) = sstep (srun ops) o.
Proof. apply srun_from_snoc. Qed.
Lemma valid_from_snoc s ops o :
  valid_from s (ops ++ [o]) <-> valid_from s ops /\ valid (fold_left sstep ops s) o.
Proof.
  revert s; induction ops as [|o' ops IH]; intros s; simpl; [tauto|]. rewrite IH. tauto.
Qed.
Lemma valid_history_snoc ops o :
  valid_history (ops ++ [o]) <-> valid_history ops /\ valid (srun ops) o.
Proof. apply valid_from_snoc. Qed.
Lemma run_snoc ops o : run (ops ++ [o]) = rbind (run ops) (fun g => step g o).
Proof.
  unfold run. rewrite rfold_app. destruct (rfold step ops new_graph); simpl; [|done|done].
  by destruct (step a o).
Qed.
Lemma run_snoc_inv ops o g' :
  run (ops ++ [o]) = Ok g' -> exists g, run ops = Ok g /\ step g o = Ok g'.
Proof. rewrite run_snoc. apply rbind_Ok_inv. Qed.

(** Invariants of reachable states; [I] may mention the history. *)
Lemma history_ind (I : list op -> graph -> Prop) :
  I [] new_graph ->
  (forall ops g o g', valid_history ops -> run ops = Ok g -> I ops g ->
     valid (srun ops) o -> step g o = Ok g' -> I (ops ++ [o]) g') ->
  forall ops g, valid_history ops -> run ops = Ok g -> I ops g.
Proof.
  intros H0 HS ops. induction ops as [|o ops IH] using rev_ind; intros g Hv Hr.
  - by injection Hr as <-.
  - apply valid_history_snoc in Hv as [Hv Ho]. apply run_snoc_inv in Hr as (g0 & Hr & Hs). eauto.
Qed.

Lemma core_run ops g : valid_history ops -> run ops = Ok g -> core g (srun ops).
Proof.
  revert ops g. apply history_ind; [apply core_init|].
  intros ops g o g' _ _ IH Hv Hs. rewrite srun_snoc. by eapply core_step.
Qed.
