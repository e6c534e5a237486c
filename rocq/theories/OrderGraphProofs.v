(** Enumeration orders of the edges of nodes and of graphs. *)
From Verif Require Import Base Assoc Value FastSet Links EdgeMap NodeMap Index Graph GraphSpec OrderSpec.
From Verif Require Import AssocProofs LinksProofs EdgeMapProofs CoreProofs CoreStep EdgeListProofs OrderProofs.

(** [I n], [O n]: the sequences of incoming and outgoing edges of the nodes of [N] *)
Definition seqs (g : graph) (N : gset nat) (I O : nat -> list nat) : Prop :=
  forall n, n ∈ N -> exists nd, g_nodes g !! n = Some nd /\
    em_seq (g_l2 g) (n_in nd) (I n) /\ em_seq (g_l1 g) (n_out nd) (O n).

Lemma seqs_ext g N I O I' O' : seqs g N I O -> (forall n, n ∈ N -> I' n = I n /\ O' n = O n) -> seqs g N I' O'.
Proof. intros H E n Hn. destruct (H n Hn) as (nd & ? & ? & ?), (E n Hn) as [-> ->]. eauto. Qed.
Lemma seqs_frame g g' N N' I O : seqs g N I O -> N' ⊆ N ->
  (forall n nd, g_nodes g !! n = Some nd -> n ∈ N' ->
     exists nd', g_nodes g' !! n = Some nd' /\ n_in nd' = n_in nd /\ n_out nd' = n_out nd) ->
  g_l1 g' = g_l1 g -> g_l2 g' = g_l2 g -> seqs g' N' I O.
Proof.
  intros H HN Hn H1 H2 n Hin. destruct (H n) as (nd & Hnd & Hi & Ho); [set_solver|].
  destruct (Hn _ _ Hnd Hin) as (nd' & Hnd' & E1 & E2). exists nd'. rewrite E1, E2, H1, H2. done.
Qed.
Lemma seqs_in g N C I O n x : adj g N C -> seqs g N I O -> n ∈ N ->
  (x ∈ I n <-> x ∈ ins C n) /\ (x ∈ O n <-> x ∈ outs C n).
Proof.
  intros [Ha _] Hs Hn. destruct (Ha n Hn) as (nd & Hnd & Hi & Ho), (Hs n Hn) as (nd' & Hnd' & Si & So).
  assert (nd' = nd) as -> by congruence. split; by eapply em_seq_in.
Qed.

Definition upd (n : nat) (f : list nat -> list nat) (I : nat -> list nat) (m : nat) : list nat :=
  if decide (m = n) then f (I m) else I m.

Lemma connect_seqs g N C e ed I O g' :
  adj g N C -> C !! e = None -> g_edges g !! e = Some ed -> e_from ed ∈ N -> e_to ed ∈ N ->
  seqs g N I O -> connect g e = Ok g' ->
  seqs g' N (upd (e_to ed) (file (lbl g) e) I) (upd (e_from ed) (file (lbl g) e) O).
Proof.
  intros [Hn HC] Hfresh He Hf Ht Hs.
  unfold connect, deref_edge, deref_node. rewrite He. cbn [rbind].
  destruct (Hn _ Ht) as (tn & Htn & Hin & Hout). rewrite Htn. cbn [rbind].
  assert (e ∉ ins C (e_to ed)) as Hni by (rewrite elem_of_ins, Hfresh; naive_solver).
  destruct (em_add_ok (lbl g) (lbl g) (lbl g) (g_l2 g) (n_in tn) (ins C (e_to ed)) e) as
    (em & L & Hadd & Hrep & Hfr); [done|done|done|by intros; case_decide|].
  rewrite Hadd. cbn [rbind fst snd].
  set (g1 := set_l2 (set_nodes g (<[e_to ed := Node (n_labels tn) (n_props tn) em (n_out tn)]> (g_nodes g))) L).
  assert (forall m, m ∈ N -> exists nd, g_nodes g1 !! m = Some nd /\
    em_seq (g_l2 g1) (n_in nd) (upd (e_to ed) (file (lbl g) e) I m) /\
    em_seq (g_l1 g1) (n_out nd) (O m) /\ em_rep (lbl g) (g_l1 g1) (n_out nd) (outs C m)) as Hmid.
  { intros m Hm. destruct (Hn _ Hm) as (nd & Hnd & Hmi & Hmo), (Hs _ Hm) as (nd' & Hnd' & Si & So).
    assert (nd' = nd) as -> by congruence. unfold upd.
    subst g1. simpl. destruct (decide (m = e_to ed)) as [->|Hne].
    - assert (nd = tn) as -> by congruence. rewrite lookup_insert. eexists. split; [done|]. simpl.
      split; [|done]. eapply em_add_seq; [exact Hin|done|done|done|by intros; case_decide|done].
    - rewrite lookup_insert_ne by done. exists nd. split; [done|]. split; [|done].
      eapply em_seq_frame; [exact Hmi| |done]. intros x Hx. apply Hfr.
      + rewrite elem_of_ins in *. naive_solver.
      + intros ->. rewrite elem_of_ins, Hfresh in Hx. naive_solver. }
  destruct (Hmid _ Hf) as (fn & Hfn & _ & Sfo & Hfo). rewrite Hfn. cbn [rbind].
  assert (e ∉ outs C (e_from ed)) as Hno by (rewrite elem_of_outs, Hfresh; naive_solver).
  destruct (em_add_ok (lbl g) (lbl g) (lbl g) (g_l1 g) (n_out fn) (outs C (e_from ed)) e) as
    (em' & L' & Hadd' & Hrep' & Hfr'); [done|done|done|by intros; case_decide|].
  change (lbl g1) with (lbl g). change (g_l1 g1) with (g_l1 g). rewrite Hadd'. cbn [rbind fst snd].
  intros [= <-]. intros m Hm. simpl. destruct (Hmid _ Hm) as (nd & Hnd & Si & So & Hmo). unfold upd at 2.
  destruct (decide (m = e_from ed)) as [->|Hne].
  - rewrite lookup_insert. eexists. split; [done|]. simpl. assert (nd = fn) as -> by congruence. split; [done|].
    eapply em_add_seq; [exact Hfo|done|done|done|by intros; case_decide|done].
  - rewrite lookup_insert_ne by done. exists nd. split; [done|]. split; [done|].
    eapply em_seq_frame; [exact Hmo| |done]. intros x Hx. apply Hfr'.
    + rewrite elem_of_outs in *. naive_solver.
    + intros ->. rewrite elem_of_outs, Hfresh in Hx. naive_solver.
Qed.

Lemma disconnect_seqs g N C e ed I O g' :
  adj g N C -> C !! e = Some ed -> seqs g N I O -> disconnect g e = Ok g' ->
  seqs g' N (fun n => unfile e (I n)) (fun n => unfile e (O n)).
Proof.
  intros Hadj Hce Hs. pose proof Hadj as [Hn HC]. destruct (HC _ _ Hce) as (He & Hf & Ht).
  unfold disconnect, deref_edge, deref_node. rewrite He. cbn [rbind].
  destruct (Hn _ Ht) as (tn & Htn & Hin & Hout). rewrite Htn. cbn [rbind].
  assert (e ∈ ins C (e_to ed)) as Hni by (rewrite elem_of_ins; eauto).
  destruct (em_remove (lbl g) (n_in tn) (g_l2 g) e) as [em L] eqn:Hrem.
  destruct (em_remove_ok _ (lbl g) _ _ _ _ _ _ Hrem Hin Hni) as [Hrep Hfr]; [done|].
  set (g1 := set_l2 (set_nodes g (<[e_to ed := Node (n_labels tn) (n_props tn) em (n_out tn)]> (g_nodes g))) L).
  assert (forall m, m ∈ N -> exists nd, g_nodes g1 !! m = Some nd /\
    em_seq (g_l2 g1) (n_in nd) (unfile e (I m)) /\
    em_seq (g_l1 g1) (n_out nd) (O m) /\ em_rep (lbl g) (g_l1 g1) (n_out nd) (outs C m)) as Hmid.
  { intros m Hm. destruct (Hn _ Hm) as (nd & Hnd & Hmi & Hmo), (Hs _ Hm) as (nd' & Hnd' & Si & So).
    assert (nd' = nd) as -> by congruence.
    subst g1. simpl. destruct (decide (m = e_to ed)) as [->|Hne].
    - assert (nd = tn) as -> by congruence. rewrite lookup_insert. eexists. split; [done|]. simpl.
      split; [|done]. by eapply em_remove_seq.
    - rewrite lookup_insert_ne by done. exists nd. split; [done|]. split; [|done].
      assert (e ∉ ins C m) as Hem by (rewrite elem_of_ins, Hce; naive_solver).
      rewrite unfile_none.
      + eapply em_seq_frame; [exact Hmi| |done]. intros x Hx. apply Hfr. rewrite elem_of_ins in *. naive_solver.
      + intros Hx. by eapply em_seq_in in Hx. }
  destruct (Hmid _ Hf) as (fn & Hfn & _ & Sfo & Hfo). rewrite Hfn. cbn [rbind].
  assert (e ∈ outs C (e_from ed)) as Hno by (rewrite elem_of_outs; eauto).
  change (lbl g1) with (lbl g). change (g_l1 g1) with (g_l1 g).
  destruct (em_remove (lbl g) (n_out fn) (g_l1 g) e) as [em' L'] eqn:Hrem'.
  destruct (em_remove_ok _ (lbl g) _ _ _ _ _ _ Hrem' Hfo Hno) as [Hrep' Hfr']; [done|].
  intros [= <-]. intros m Hm. simpl. destruct (Hmid _ Hm) as (nd & Hnd & Si & So & Hmo).
  destruct (decide (m = e_from ed)) as [->|Hne].
  - rewrite lookup_insert. eexists. split; [done|]. simpl. assert (nd = fn) as -> by congruence. split; [done|].
    by eapply em_remove_seq.
  - rewrite lookup_insert_ne by done. exists nd. split; [done|]. split; [done|].
    assert (e ∉ outs C m) as Hem by (rewrite elem_of_outs, Hce; naive_solver).
    rewrite unfile_none.
    + eapply em_seq_frame; [exact Hmo| |done]. intros x Hx. apply Hfr'. rewrite elem_of_outs in *. naive_solver.
    + intros Hx. by eapply em_seq_in in Hx.
Qed.

Lemma drop_edge_seqs g N C e ed I O g' :
  drop_edge g e = Ok g' -> adj g N C -> C !! e = Some ed -> seqs g N I O ->
  seqs g' N (fun n => unfile e (I n)) (fun n => unfile e (O n)).
Proof.
  unfold drop_edge. intros H Hadj Hce Hs. inv_ok H. injection H as <-.
  eapply disconnect_seqs in Ha; [|done..]. rewrite all_remove_eq.
  eapply seqs_frame; [exact Ha|done| | |]; simpl; eauto.
Qed.
Definition without (es xs : list nat) : list nat := filter (fun x => x ∉ es) xs.
Lemma without_cons e es xs : without (e :: es) xs = without es (unfile e xs).
Proof.
  unfold without, unfile. rewrite list_filter_filter. apply list_filter_iff. intros x. rewrite not_elem_of_cons. tauto.
Qed.
Lemma drop_edges_seqs es g N C I O g' :
  rfold drop_edge es g = Ok g' -> adj g N C -> NoDup es -> (forall e, e ∈ es -> is_Some (C !! e)) -> seqs g N I O ->
  seqs g' N (fun n => without es (I n)) (fun n => without es (O n)).
Proof.
  revert g C I O; induction es as [|e es IH]; intros g C I O; simpl.
  - intros [= <-] _ _ _ Hs. eapply seqs_ext; [done|]. intros n _. unfold without.
    split; apply filter_all, Forall_forall; set_solver.
  - intros H Hadj Hnd Hin Hs. inv_ok H. apply NoDup_cons in Hnd as [Hni Hnd].
    destruct (Hin e) as [ed Hed]; [set_solver|].
    pose proof (drop_edge_seqs _ _ _ _ _ _ _ _ Ha Hadj Hed Hs) as Hs'.
    eapply drop_edge_adj in Ha; [|done..].
    eapply seqs_ext; [eapply (IH a (delete e C)); [done|done|done| |done]|].
    + intros x Hx. rewrite lookup_delete_ne by (intros ->; done). apply Hin. set_solver.
    + intros n _. split; apply without_cons.
Qed.

Lemma detach_seqs g s n g' I O :
  detach_node g n = Ok g' -> live_node s n -> core g s -> seqs g (dom (s_nodes s)) I O ->
  let s' := SGraph (s_nodes s) (s_detach (s_edges s) n) (s_next s) in
  seqs g' (dom (s_nodes s)) (fun m => filter (live_edge s') (I m)) (fun m => filter (live_edge s') (O m)).
Proof.
  intros H Hlive Hc Hs s'. pose proof Hc as ([Hn HC] & Hnext & Hdata & Hlt & Hlte & Hdis).
  assert (n ∈ dom (s_nodes s)) as HnN by (by apply elem_of_dom).
  unfold detach_node in H. apply rbind_Ok_inv in H as (nd & Hnd & H).
  unfold deref_node in Hnd. destruct (g_nodes g !! n) as [nd'|] eqn:Hg; [|done]. injection Hnd as ->.
  apply rbind_Ok_inv in H as (inl & Hinl & H).
  destruct (Hn n HnN) as (nd1 & Hnd1 & Hi & Ho). assert (nd1 = nd) as -> by congruence. clear Hnd1.
  destruct (em_iter_ok _ _ _ _ (fuel g) Hi) as (xs & Hxs & Hxnd & Hxin).
  { eapply core_edges_size; [done|]. intros e He. apply elem_of_ins in He as (x & ? & _). by exists x. }
  assert (xs = inl) as -> by congruence. clear Hxs Hinl.
  apply rbind_Ok_inv in H as (g1 & Hg1 & H).
  pose proof (drop_edges_shape _ _ _ Hg1) as (Hs1 & _ & _).
  assert (forall e, e ∈ inl -> is_Some (s_edges s !! e)) as Hinl.
  { intros e He. apply Hxin, elem_of_ins in He as (x & ? & _). by exists x. }
  pose proof (drop_edges_adj _ _ _ _ _ Hg1 (conj Hn HC) Hxnd Hinl) as Hadj1.
  pose proof (drop_edges_seqs _ _ _ _ _ _ _ Hg1 (conj Hn HC) Hxnd Hinl Hs) as Hseq1.
  set (C1 := filter (fun p => p.1 ∉ inl) (s_edges s)) in *.
  assert (forall e x, C1 !! e = Some x <-> s_edges s !! e = Some x /\ e_to x <> n) as HC1.
  { intros e x. unfold C1. rewrite map_filter_lookup_Some. simpl. rewrite Hxin, elem_of_ins. naive_solver. }
  apply rbind_Ok_inv in H as (nd1 & Hnd1 & H). unfold deref_node in Hnd1.
  destruct (g_nodes g1 !! n) as [nd1'|] eqn:Hg1n; [|done]. injection Hnd1 as ->.
  set (g2 := set_nodes g1 _) in H.
  assert (ins C1 n = ∅) as Hins0.
  { apply set_eq. intros e. rewrite elem_of_ins. split; [|set_solver]. intros (x & Hx & Hx').
    apply HC1 in Hx. naive_solver. }
  assert (adj g2 (dom (s_nodes s)) C1) as Hadj2.
  { destruct Hadj1 as [Hn1 HC1']. split; [|done]. intros m Hm.
    destruct (Hn1 m Hm) as (ndm & Hndm & Hmi & Hmo). subst g2. simpl.
    destruct (decide (m = n)) as [->|Hne].
    - rewrite lookup_insert. eexists. split; [done|]. simpl. assert (ndm = nd1) as -> by congruence.
      split; [|done]. rewrite Hins0. apply em_rep_empty.
    - rewrite lookup_insert_ne by done. eauto. }
  assert (seqs g2 (dom (s_nodes s)) (fun m => without inl (I m)) (fun m => without inl (O m))) as Hseq2.
  { intros m Hm. destruct (Hseq1 m Hm) as (ndm & Hndm & Smi & Smo). subst g2. simpl.
    destruct (decide (m = n)) as [->|Hne].
    - rewrite lookup_insert. eexists. split; [done|]. simpl. assert (ndm = nd1) as -> by congruence.
      split; [|done]. assert (without inl (I n) = []) as ->; [|apply em_seq_empty].
      unfold without. apply filter_none, Forall_forall. intros x Hx.
      apply (seqs_in g _ _ I O n x (conj Hn HC) Hs HnN) in Hx. apply Hxin in Hx. tauto.
    - rewrite lookup_insert_ne by done. eauto. }
  apply rbind_Ok_inv in H as (nd2 & Hnd2 & H). unfold deref_node in Hnd2.
  destruct (g_nodes g2 !! n) as [nd2'|] eqn:Hg2n; [|done]. injection Hnd2 as ->.
  apply rbind_Ok_inv in H as (outl & Houtl & H).
  pose proof (proj1 Hadj2 n HnN) as (nd3 & Hnd3 & Hi2 & Ho2). assert (nd3 = nd2) as -> by congruence. clear Hnd3.
  destruct (em_iter_ok _ _ _ _ (fuel g2) Ho2) as (ys & Hys & Hynd & Hyin).
  { change (fuel g2) with (g_next g1). destruct Hs1 as (_&_&_&_&_&->&_). eapply core_edges_size; [done|].
    intros e He. apply elem_of_outs in He as (x & Hx & _). apply HC1 in Hx as [? _]. by exists x. }
  assert (ys = outl) as -> by congruence. clear Hys Houtl.
  apply rbind_Ok_inv in H as (g3 & Hg3 & H).
  assert (forall e, e ∈ outl -> is_Some (C1 !! e)) as Houtl.
  { intros e He. apply Hyin, elem_of_outs in He as (x & ? & _). by exists x. }
  pose proof (drop_edges_seqs _ _ _ _ _ _ _ Hg3 Hadj2 Hynd Houtl Hseq2) as Hseq3.
  apply rbind_Ok_inv in H as (nd3 & Hnd3 & H). unfold deref_node in Hnd3.
  destruct (g_nodes g3 !! n) as [nd3'|] eqn:Hg3n; [|done]. injection Hnd3 as ->.
  injection H as <-.
  assert (forall x, live_edge s x -> (x ∉ outl /\ x ∉ inl) <-> live_edge s' x) as Hiff.
  { intros x [xd Hxd]. rewrite Hyin, Hxin, elem_of_outs, elem_of_ins. unfold live_edge, s'. simpl. split.
    - intros [H1 H2]. exists xd. apply s_detach_lookup. split; [done|].
      assert (e_to xd <> n) by naive_solver. split; [|done]. intros E. apply H1. exists xd. split; [|done]. by apply HC1.
    - intros [yd Hyd]. apply s_detach_lookup in Hyd as (Hyd & ? & ?). split.
      + intros (zd & Hz & E). apply HC1 in Hz as [Hz _]. congruence.
      + intros (zd & Hz & E). congruence. }
  assert (forall xs, (forall x, x ∈ xs -> live_edge s x) -> without outl (without inl xs) = filter (live_edge s') xs) as Hfil.
  { intros zs Hz. unfold without. rewrite list_filter_filter. clear - Hz Hiff.
    induction zs as [|z zs IH]; [done|]. rewrite !filter_cons, IH by set_solver.
    pose proof (Hiff z ltac:(apply Hz; set_solver)) as Hzi.
    destruct (decide (z ∉ outl /\ z ∉ inl)), (decide (live_edge s' z)); tauto || done. }
  assert (forall m, m ∈ dom (s_nodes s) ->
    without outl (without inl (I m)) = filter (live_edge s') (I m) /\
    without outl (without inl (O m)) = filter (live_edge s') (O m)) as Heq.
  { intros m Hm. split; apply Hfil; intros x Hx; apply (seqs_in g _ _ I O m x (conj Hn HC) Hs Hm) in Hx.
    - apply elem_of_ins in Hx as (xd & ? & _). by exists xd.
    - apply elem_of_outs in Hx as (xd & ? & _). by exists xd. }
  intros m Hm. destruct (Hseq3 m Hm) as (ndm & Hndm & Smi & Smo). destruct (Heq m Hm) as [<- <-]. simpl.
  destruct (decide (m = n)) as [->|Hne].
  - rewrite lookup_insert. eexists. split; [done|]. simpl. assert (ndm = nd3) as -> by congruence.
    split; [done|]. assert (without outl (without inl (O n)) = []) as ->; [|apply em_seq_empty].
    apply filter_none, Forall_forall. intros x Hx Hno. apply Hno.
    apply (proj2 (seqs_in g2 _ C1 _ _ n x Hadj2 Hseq2 HnN)) in Hx. by apply Hyin.
  - rewrite lookup_insert_ne by done. eauto.
Qed.

(** ** The invariant *)
Definition order_inv (g : graph) (s : sgraph) (I O : nat -> list nat) : Prop :=
  seqs g (dom (s_nodes s)) I O /\ forall n, s_next s <= n -> I n = [] /\ O n = [].

Lemma seqs_live g s I O n x : core g s -> seqs g (dom (s_nodes s)) I O -> n ∈ dom (s_nodes s) ->
  (x ∈ I n -> live_edge s x) /\ (x ∈ O n -> live_edge s x).
Proof.
  intros Hc Hs Hn. destruct (seqs_in g _ _ I O n x (proj1 Hc) Hs Hn) as [E1 E2]. rewrite E1, E2.
  rewrite elem_of_ins, elem_of_outs. split; intros (xd & ? & _); by exists xd.
Qed.
Lemma seqs_same g s I O g' s' :
  core g s -> seqs g (dom (s_nodes s)) I O -> (forall e, live_edge s e -> live_edge s' e) ->
  seqs g' (dom (s_nodes s)) I O ->
  seqs g' (dom (s_nodes s)) (fun n => filter (live_edge s') (I n)) (fun n => filter (live_edge s') (O n)).
Proof.
  intros Hc Hs Hl Hs'. eapply seqs_ext; [exact Hs'|]. intros n Hn.
  split; apply filter_all, Forall_forall; intros x Hx; apply Hl; destruct (seqs_live g s I O n x Hc Hs Hn); auto.
Qed.
Lemma filter_nil_out (P : nat -> Prop) `{!forall x, Decision (P x)} i (I O : nat -> list nat) :
  (forall n, i <= n -> I n = [] /\ O n = []) ->
  forall n, i <= n -> filter P (I n) = [] /\ filter P (O n) = [].
Proof. intros Hi n Hn. by destruct (Hi n Hn) as [-> ->]. Qed.

Lemma order_step_ok g s o g' I O :
  step g o = Ok g' -> valid s o -> core g s -> order_inv g s I O ->
  order_inv g' (sstep s o) (order_step e_to s o I) (order_step e_from s o O).
Proof.
  intros Hstep Hv Hc [Hs Hout]. pose proof (core_step _ _ _ _ Hstep Hv Hc) as Hc'.
  pose proof Hc as (Hadj & Hnext & Hdata & Hlt & Hlte & Hdis).
  destruct o; cbv beta iota zeta delta [order_step].
  - (* NewNode *)
    simpl in Hstep. inv_ok Hstep. destruct a as [g1 n]. injection Hstep as <-. cbn [fst] in *.
    apply new_node_shape in Ha as (-> & HN & HE & H0 & H1 & H2 & _ & _ & _ & _ & _ & Hnx).
    split; [|apply filter_nil_out; intros n Hn; apply Hout; simpl in Hn; lia].
    intros m Hm. simpl in Hm. rewrite dom_insert_L, <- Hnext in Hm. rewrite HN, H1, H2.
    destruct (decide (m = g_next g)) as [->|Hne].
    + rewrite lookup_insert. eexists. split; [done|]. simpl.
      destruct (Hout (g_next g)) as [-> ->]; [lia|]. split; apply em_seq_empty.
    + rewrite lookup_insert_ne by done. assert (m ∈ dom (s_nodes s)) as Hm' by set_solver.
      pose proof (seqs_same g s I O g (sstep s (ONewNode labels p ord)) Hc Hs ltac:(done) Hs m Hm') as (nd & ? & ? & ?).
      eauto.
  - (* NewEdge *)
    simpl in Hstep. inv_ok Hstep. destruct a as [g1 e]. injection Hstep as <-. cbn [fst] in *.
    pose proof (new_edge_shape _ _ _ _ _ _ _ Ha) as (-> & HN & HE & _ & _ & _ & _ & _ & _ & Hnx).
    destruct Hv as [Hf Ht]. pose proof Hf as Hf'. pose proof Ht as Ht'. apply elem_of_dom in Hf', Ht'.
    assert (g_edges g !! g_next g = None) as Hfre.
    { destruct (g_edges g !! g_next g) eqn:Hx; [|done].
      assert (g_next g < g_next g) by (apply Hlte; eauto). lia. }
    assert (s_edges s !! g_next g = None) as Hfrs.
    { destruct (s_edges s !! g_next g) eqn:Hx; [|done]. apply Hadj in Hx as (Hx & _). congruence. }
    unfold new_edge in Ha. inv_ok Ha. injection Ha as <-.
    apply all_add_shape in Ha2 as (em & L & _ & ->). set (g2 := bump _) in *.
    assert (adj (set_all g2 em L) (dom (s_nodes s)) (s_edges s)) as Hadj3.
    { eapply adj_frame; [exact Hadj| |done|done|]; simpl; eauto.
      intros e ed He. rewrite lookup_insert_ne; [done|]. intros <-. congruence. }
    assert (seqs (set_all g2 em L) (dom (s_nodes s)) I O) as Hs3.
    { eapply seqs_frame; [exact Hs|done| |done|done]; simpl; eauto. }
    pose proof (connect_seqs _ _ _ (g_next g) (Edge from to label p) I O a2 Hadj3 Hfrs
      ltac:(simpl; by rewrite lookup_insert) Hf' Ht' Hs3 Ha3) as Hseq. simpl in Hseq.
    split.
    + cbn [s_nodes sstep]. eapply seqs_frame; [|done| |done|done].
      2: { simpl. eauto. }
      eapply seqs_ext; [exact Hseq|]. intros n Hn. unfold upd. cbn [e_to e_from].
      assert (forall xs, (forall x, x ∈ xs -> live_edge s x) ->
        file (s_label (sstep s (ONewEdge from to label p))) (s_next s) xs = file (lbl (set_all g2 em L)) (g_next g) xs) as Hfile.
      { intros xs Hxs. rewrite <- Hnext. apply file_ext.
        - intros x Hx. apply Hxs in Hx as [xd Hxd]. unfold s_label, lbl. simpl.
          destruct (decide (x = g_next g)) as [->|Hne]; [congruence|]. rewrite <- Hnext, !lookup_insert_ne by done.
          rewrite Hxd. by destruct (core_edge _ _ _ _ Hc Hxd) as (-> & _).
        - unfold s_label, lbl. simpl. by rewrite <- Hnext, !lookup_insert. }
      split.
      * destruct (decide (to = n)) as [->|]; [rewrite decide_True by done|by rewrite decide_False by congruence].
        apply Hfile. intros x Hx. destruct (seqs_live g s I O n x Hc Hs Hn); auto.
      * destruct (decide (from = n)) as [->|]; [rewrite decide_True by done|by rewrite decide_False by congruence].
        apply Hfile. intros x Hx. destruct (seqs_live g s I O n x Hc Hs Hn); auto.
    + intros n Hn. simpl in Hn. cbn [e_to e_from].
      assert (forall m, live_node s m -> m < s_next s) as Hln.
      { intros m [sm Hm]. rewrite <- Hnext. apply Hlt. destruct (core_node _ _ _ _ Hc Hm) as (nd & -> & _). eauto. }
      apply Hln in Hf, Ht. rewrite !decide_False by lia. apply Hout. lia.
  - (* SetLabels *)
    destruct Hv as (_ & sn & Hsn & _). split; [|by apply filter_nil_out].
    simpl in Hstep. unfold set_labels in Hstep. inv_ok Hstep. injection Hstep as <-.
    unfold deref_node in Ha. destruct (g_nodes g !! n) as [nd|] eqn:Hnd; [|done]. injection Ha as <-.
    cbn [s_nodes sstep]. rewrite dom_alter_L. eapply (seqs_same g s I O); [done|done|done|].
    eapply seqs_frame; [exact Hs|done| |done|done]. intros m mnd Hm _. simpl. destruct (decide (m = n)) as [->|].
    + rewrite lookup_insert. eexists. split; [done|]. simpl. assert (mnd = nd) as -> by congruence. done.
    + rewrite lookup_insert_ne by done. eauto.
  - (* SetProperty *)
    split; [|by apply filter_nil_out].
    simpl in Hstep. unfold set_node_prop in Hstep. inv_ok Hstep. injection Hstep as <-.
    unfold deref_node in Ha. destruct (g_nodes g !! n) as [nd|] eqn:Hnd; [|done]. injection Ha as <-.
    cbn [s_nodes sstep]. rewrite dom_alter_L. eapply (seqs_same g s I O); [done|done|done|].
    eapply seqs_frame; [exact Hs|done| |done|done]. intros m mnd Hm _. simpl. destruct (decide (m = n)) as [->|].
    + rewrite lookup_insert. eexists. split; [done|]. simpl. assert (mnd = nd) as -> by congruence. done.
    + rewrite lookup_insert_ne by done. eauto.
  - (* RemoveProperty *)
    split; [|by apply filter_nil_out].
    simpl in Hstep. unfold rem_node_prop in Hstep. inv_ok Hstep.
    unfold deref_node in Ha. destruct (g_nodes g !! n) as [nd|] eqn:Hnd; [|done]. injection Ha as <-.
    cbn [s_nodes sstep]. rewrite dom_alter_L. eapply (seqs_same g s I O); [done|done|done|].
    destruct (n_props nd !! k); [inv_ok Hstep|]; injection Hstep as <-; [|done].
    eapply seqs_frame; [exact Hs|done| |done|done]. intros m mnd Hm _. simpl. destruct (decide (m = n)) as [->|].
    + rewrite lookup_insert. eexists. split; [done|]. simpl. assert (mnd = nd) as -> by congruence. done.
    + rewrite lookup_insert_ne by done. eauto.
  - (* Detach *)
    split; [|by apply filter_nil_out]. exact (detach_seqs g s n g' I O Hstep Hv Hc Hs).
  - (* DetachAndRemove *)
    split; [|by apply filter_nil_out]. destruct Hv as (sn & Hsn & _).
    apply detach_remove_shape in Hstep as (g1 & nd & Hd & Hnd & HN & HE & _ & H1 & H2 & _ & _ & Hnx & _).
    pose proof (detach_seqs g s n g1 I O Hd (ex_intro _ sn Hsn) Hc Hs) as Hd1. cbn [s_nodes sstep]. rewrite dom_delete_L.
    eapply seqs_frame; [exact Hd1|set_solver| |done|done]. rewrite HN. eauto.
  - (* SetLabel *)
    destruct Hv as (ed & Hed). pose proof (core_edge _ _ _ _ Hc Hed) as (Hge & Hf & Ht & _). rewrite Hed.
    pose proof Hf as Hf'. pose proof Ht as Ht'. apply elem_of_dom in Hf', Ht'.
    assert (forall m, live_node s m -> m < s_next s) as Hln.
    { intros m [sm Hm]. rewrite <- Hnext. apply Hlt. destruct (core_node _ _ _ _ Hc Hm) as (nd & -> & _). eauto. }
    apply Hln in Hf, Ht. split.
    2: { intros n Hn. simpl in Hn. rewrite !decide_False by (intros [? _]; lia). by apply Hout. }
    simpl in Hstep. unfold set_edge_label, deref_edge in Hstep. rewrite Hge in Hstep. cbn [rbind] in Hstep.
    cbn [s_nodes sstep]. destruct (decide _) as [Hl|Hl].
    + injection Hstep as <-. eapply seqs_ext; [exact Hs|]. intros n Hn. by rewrite !decide_False by (intros [_ ?]; done).
    + apply rbind_Ok_inv in Hstep as (g1 & Hg1 & Hstep).
      destruct (disconnect_ok _ _ _ _ _ Hadj Hed) as (g1' & Hg1' & Hadj1).
      assert (g1' = g1) as -> by congruence.
      pose proof (disconnect_seqs _ _ _ _ _ _ _ _ Hadj Hed Hs Hg1) as Hs1.
      apply disconnect_shape in Hg1 as (E1&_).
      set (g2 := set_edges g1 _) in *.
      assert (adj g2 (dom (s_nodes s)) (delete e (s_edges s))) as Hadj2.
      { eapply adj_frame; [exact Hadj1| |done|done|]; simpl; eauto.
        intros x xd Hx. rewrite lookup_insert_ne; [done|]. intros <-. by rewrite lookup_delete in Hx. }
      assert (seqs g2 (dom (s_nodes s)) (fun n => unfile e (I n)) (fun n => unfile e (O n))) as Hs2.
      { eapply seqs_frame; [exact Hs1|done| |done|done]; simpl; eauto. }
      pose proof (connect_seqs g2 _ _ e (Edge (e_from ed) (e_to ed) label (e_props ed)) _ _ g' Hadj2
        ltac:(by rewrite lookup_delete) ltac:(simpl; by rewrite lookup_insert) Hf' Ht' Hs2 Hstep) as Hs3. simpl in Hs3.
      eapply seqs_ext; [exact Hs3|]. intros n Hn. unfold upd.
      assert (forall xs, (forall x, x ∈ xs -> live_edge s x) ->
        file (s_label (sstep s (OSetEdgeLabel e label))) e (unfile e xs) = file (lbl g2) e (unfile e xs)) as Hfile.
      { intros xs Hxs. apply file_ext.
        - intros x Hx. apply elem_of_list_filter in Hx as [Hne Hx]. apply Hxs in Hx as [xd Hxd]. unfold s_label, lbl. simpl.
          rewrite lookup_alter_ne, lookup_insert_ne by done. rewrite E1.
          rewrite Hxd. by destruct (core_edge _ _ _ _ Hc Hxd) as (-> & _).
        - unfold s_label, lbl. simpl. by rewrite lookup_alter, Hed, lookup_insert. }
      assert (forall m x, m ∈ dom (s_nodes s) -> (x ∈ I m <-> exists y, s_edges s !! x = Some y /\ e_to y = m) /\
         (x ∈ O m <-> exists y, s_edges s !! x = Some y /\ e_from y = m)) as Hsi.
      { intros m x Hm. rewrite <- elem_of_ins, <- elem_of_outs. by apply (seqs_in g (dom (s_nodes s)) (s_edges s) I O m x Hadj Hs). }
      split.
      * destruct (decide (e_to ed = n)) as [<-|Hne].
        -- rewrite decide_True by done. rewrite decide_True by done. apply Hfile. intros x Hx. destruct (seqs_live g s I O _ x Hc Hs Hn); auto.
        -- rewrite decide_False by (intros [? _]; done). rewrite decide_False by congruence. symmetry. apply unfile_none.
           intros Hx. apply (proj1 (Hsi n e Hn)) in Hx as (y & Hy & ?). congruence.
      * destruct (decide (e_from ed = n)) as [<-|Hne].
        -- rewrite decide_True by done. rewrite decide_True by done. apply Hfile. intros x Hx. destruct (seqs_live g s I O _ x Hc Hs Hn); auto.
        -- rewrite decide_False by (intros [? _]; done). rewrite decide_False by congruence. symmetry. apply unfile_none.
           intros Hx. apply (proj2 (Hsi n e Hn)) in Hx as (y & Hy & ?). congruence.
  - (* SetProperty *)
    split; [|by apply filter_nil_out]. simpl in Hstep.
    unfold set_edge_prop in Hstep. inv_ok Hstep. injection Hstep as <-.
    cbn [s_nodes sstep]. eapply (seqs_same g s I O); [done|done| |].
    { intros x. unfold live_edge. cbn [s_edges]. by rewrite lookup_alter_is_Some. }
    eapply seqs_frame; [exact Hs|done| |done|done]. simpl. eauto.
  - (* RemoveProperty *)
    split; [|by apply filter_nil_out]. simpl in Hstep.
    unfold rem_edge_prop in Hstep. inv_ok Hstep.
    cbn [s_nodes sstep]. eapply (seqs_same g s I O); [done|done| |].
    { intros x. unfold live_edge. cbn [s_edges]. by rewrite lookup_alter_is_Some. }
    destruct (e_props a !! k); [inv_ok Hstep|]; injection Hstep as <-; [|done].
    eapply seqs_frame; [exact Hs|done| |done|done]. simpl. eauto.
  - (* Remove *)
    split; [|by apply filter_nil_out]. destruct Hv as (ed & Hed). simpl in Hstep.
    unfold remove_edge in Hstep. inv_ok Hstep.
    pose proof (disconnect_seqs _ _ _ _ _ _ _ _ Hadj Hed Hs Ha) as Hs1.
    rewrite all_remove_eq in Hstep. injection Hstep as <-. cbn [s_nodes sstep].
    assert (forall xs, (forall x, x ∈ xs -> live_edge s x) ->
      filter (live_edge (SGraph (s_nodes s) (delete e (s_edges s)) (s_next s))) xs = unfile e xs) as Hfil.
    { intros xs Hxs. induction xs as [|x xs IH]; [done|]. unfold unfile in *. rewrite !filter_cons, IH by set_solver.
      assert (live_edge s x) as Hx by (apply Hxs; set_solver). unfold live_edge in *. simpl.
      destruct (decide (x = e)) as [->|Hne].
      - rewrite decide_False by (rewrite lookup_delete; by intros [? ?]). by rewrite decide_False by (intros H; by apply H).
      - rewrite decide_True by (by rewrite lookup_delete_ne). by rewrite decide_True. }
    eapply seqs_frame; [|done| |done|done].
    2: { simpl. eauto. }
    eapply seqs_ext; [exact Hs1|]. intros n Hn. split; apply Hfil; intros x Hx; destruct (seqs_live g s I O n x Hc Hs Hn); auto.
  - (* AddNodePropertyIndex *)
    split; [|by apply filter_nil_out]. simpl in Hstep. cbn [s_nodes sstep]. eapply (seqs_same g s I O); [done|done|done|].
    unfold add_node_index in Hstep. destruct (g_nix g !! k); [by injection Hstep as <-|].
    inv_ok Hstep. injection Hstep as <-. eapply seqs_frame; [exact Hs|done| |done|done]; simpl; eauto.
  - (* AddEdgePropertyIndex *)
    split; [|by apply filter_nil_out]. simpl in Hstep. cbn [s_nodes sstep]. eapply (seqs_same g s I O); [done|done|done|].
    unfold add_edge_index in Hstep. destruct (g_eix g !! k); [by injection Hstep as <-|].
    inv_ok Hstep. injection Hstep as <-. eapply seqs_frame; [exact Hs|done| |done|done]; simpl; eauto.
Qed.
