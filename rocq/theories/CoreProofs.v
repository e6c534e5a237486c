(** The core refinement: heap and adjacency lists agree with the abstract graph. *)
From Verif Require Import Base Assoc Value FastSet Links EdgeMap NodeMap Index Graph GraphSpec.
From Verif Require Import LinksProofs EdgeMapProofs.

(** ** Monad inversion *)
Ltac inv_ok H :=
  repeat match type of H with
  | rbind _ _ = Ok _ => let a := fresh "a" in let H1 := fresh "Ha" in
      apply rbind_Ok_inv in H as (a & H1 & H)
  end.

Lemma rfold_app {A S} (f : S -> A -> res S) l1 l2 s :
  rfold f (l1 ++ l2) s = rbind (rfold f l1 s) (rfold f l2).
Proof.
  revert s; induction l1 as [|x l1 IH]; intros s; simpl; [done|].
  destruct (f s x); simpl; auto.
Qed.

(** ** Edge sets *)
Definition ins (C : gmap nat edge) (n : nat) : gset nat := dom (filter (fun p => e_to p.2 = n) C).
Definition outs (C : gmap nat edge) (n : nat) : gset nat := dom (filter (fun p => e_from p.2 = n) C).

Lemma elem_of_ins C n e : e ∈ ins C n <-> exists x, C !! e = Some x /\ e_to x = n.
Proof.
  unfold ins. rewrite elem_of_dom. split.
  - intros [x Hx]. apply map_filter_lookup_Some in Hx as [? ?]. eauto.
  - intros (x & ? & ?). exists x. by apply map_filter_lookup_Some.
Qed.
Lemma elem_of_outs C n e : e ∈ outs C n <-> exists x, C !! e = Some x /\ e_from x = n.
Proof.
  unfold outs. rewrite elem_of_dom. split.
  - intros [x Hx]. apply map_filter_lookup_Some in Hx as [? ?]. eauto.
  - intros (x & ? & ?). exists x. by apply map_filter_lookup_Some.
Qed.

Lemma ins_insert C e ed n : C !! e = None ->
  ins (<[e := ed]> C) n = if decide (n = e_to ed) then {[e]} ∪ ins C n else ins C n.
Proof.
  intros HC. apply set_eq. intros x. case_decide as Hn.
  - rewrite elem_of_union, elem_of_singleton, !elem_of_ins. destruct (decide (x = e)) as [->|Hne].
    + rewrite lookup_insert. naive_solver.
    + rewrite lookup_insert_ne by done. naive_solver.
  - rewrite !elem_of_ins. destruct (decide (x = e)) as [->|Hne].
    + rewrite lookup_insert. rewrite HC. naive_solver.
    + rewrite lookup_insert_ne by done. done.
Qed.
Lemma outs_insert C e ed n : C !! e = None ->
  outs (<[e := ed]> C) n = if decide (n = e_from ed) then {[e]} ∪ outs C n else outs C n.
Proof.
  intros HC. apply set_eq. intros x. case_decide as Hn.
  - rewrite elem_of_union, elem_of_singleton, !elem_of_outs. destruct (decide (x = e)) as [->|Hne].
    + rewrite lookup_insert. naive_solver.
    + rewrite lookup_insert_ne by done. naive_solver.
  - rewrite !elem_of_outs. destruct (decide (x = e)) as [->|Hne].
    + rewrite lookup_insert. rewrite HC. naive_solver.
    + rewrite lookup_insert_ne by done. done.
Qed.
Lemma ins_delete C e ed n : C !! e = Some ed ->
  ins (delete e C) n = if decide (n = e_to ed) then ins C n ∖ {[e]} else ins C n.
Proof.
  intros HC. apply set_eq. intros x. case_decide as Hn.
  - rewrite elem_of_difference, elem_of_singleton, !elem_of_ins. destruct (decide (x = e)) as [->|Hne].
    + rewrite lookup_delete. naive_solver.
    + rewrite lookup_delete_ne by done. naive_solver.
  - rewrite !elem_of_ins. destruct (decide (x = e)) as [->|Hne].
    + rewrite lookup_delete. rewrite HC. naive_solver.
    + rewrite lookup_delete_ne by done. done.
Qed.
Lemma outs_delete C e ed n : C !! e = Some ed ->
  outs (delete e C) n = if decide (n = e_from ed) then outs C n ∖ {[e]} else outs C n.
Proof.
  intros HC. apply set_eq. intros x. case_decide as Hn.
  - rewrite elem_of_difference, elem_of_singleton, !elem_of_outs. destruct (decide (x = e)) as [->|Hne].
    + rewrite lookup_delete. naive_solver.
    + rewrite lookup_delete_ne by done. naive_solver.
  - rewrite !elem_of_outs. destruct (decide (x = e)) as [->|Hne].
    + rewrite lookup_delete. rewrite HC. naive_solver.
    + rewrite lookup_delete_ne by done. done.
Qed.

(** ** Adjacency: [adj g N C], [N] the live nodes, [C] the connected edges *)
Definition adj (g : graph) (N : gset nat) (C : gmap nat edge) : Prop :=
  (forall n, n ∈ N -> exists nd, g_nodes g !! n = Some nd /\
     em_rep (lbl g) (g_l2 g) (n_in nd) (ins C n) /\
     em_rep (lbl g) (g_l1 g) (n_out nd) (outs C n)) /\
  (forall e ed, C !! e = Some ed -> g_edges g !! e = Some ed /\ e_from ed ∈ N /\ e_to ed ∈ N).

(** the node data other than adjacency *)
Definition nd_data (nd : node) : gset string * props := (n_labels nd, n_props nd).
Definition data (g : graph) (n : nat) : option (gset string * props) := nd_data <$> g_nodes g !! n.

(** [g'] differs from [g] at most in adjacency structures *)
Definition same_but_adj (g g' : graph) : Prop :=
  g_edges g' = g_edges g /\ g_nl g' = g_nl g /\ g_l0 g' = g_l0 g /\ g_list g' = g_list g /\
  g_all g' = g_all g /\ g_lab g' = g_lab g /\ g_nix g' = g_nix g /\ g_eix g' = g_eix g /\
  g_next g' = g_next g /\ (forall n, data g' n = data g n).

Lemma same_but_adj_trans g1 g2 g3 : same_but_adj g1 g2 -> same_but_adj g2 g3 -> same_but_adj g1 g3.
Proof.
  intros (?&?&?&?&?&?&?&?&?&?) (?&?&?&?&?&?&?&?&?&?).
  repeat split; congruence.
Qed.

Lemma connect_shape g e g' : connect g e = Ok g' -> same_but_adj g g'.
Proof.
  unfold connect. intros H. inv_ok H. injection H as <-. simpl.
  unfold deref_node in *. simpl in *.
  destruct (g_edges g !! e) as [ed|] eqn:He; unfold deref_edge in Ha; rewrite He in Ha; [|done].
  injection Ha as <-.
  destruct (g_nodes g !! e_to ed) as [tn|] eqn:Ht; [|done]. injection Ha0 as <-.
  repeat split. intros n. unfold data. simpl.
  destruct (decide (n = e_from ed)) as [->|].
  - rewrite lookup_insert. simpl.
    destruct (decide (e_from ed = e_to ed)) as [Heq|].
    + rewrite Heq in *. rewrite lookup_insert in Ha2. injection Ha2 as <-. rewrite Ht. done.
    + rewrite lookup_insert_ne in Ha2 by done. destruct (g_nodes g !! e_from ed); [|done].
      injection Ha2 as <-. done.
  - rewrite lookup_insert_ne by done. destruct (decide (n = e_to ed)) as [->|].
    + rewrite lookup_insert, Ht. done.
    + by rewrite lookup_insert_ne.
Qed.
Lemma disconnect_shape g e g' : disconnect g e = Ok g' -> same_but_adj g g'.
Proof.
  unfold disconnect. intros H. inv_ok H.
  unfold deref_edge in Ha. destruct (g_edges g !! e) as [ed|] eqn:He; [|done]. injection Ha as <-.
  unfold deref_node in Ha0. destruct (g_nodes g !! e_to ed) as [tn|] eqn:Ht; [|done]. injection Ha0 as <-.
  destruct (em_remove _ _ _ _) as [em L]. inv_ok H. destruct (em_remove _ _ _ _) as [em' L'].
  injection H as <-. unfold deref_node in Ha. simpl in Ha.
  repeat split. intros n. unfold data. simpl.
  destruct (decide (n = e_from ed)) as [->|].
  - rewrite lookup_insert. simpl.
    destruct (decide (e_from ed = e_to ed)) as [Heq|].
    + rewrite Heq in *. rewrite lookup_insert in Ha. injection Ha as <-. rewrite Ht. done.
    + rewrite lookup_insert_ne in Ha by done. destruct (g_nodes g !! e_from ed); [|done].
      injection Ha as <-. done.
  - rewrite lookup_insert_ne by done. destruct (decide (n = e_to ed)) as [->|].
    + rewrite lookup_insert, Ht. done.
    + by rewrite lookup_insert_ne.
Qed.

Lemma connect_ok g N C e ed :
  adj g N C -> C !! e = None -> g_edges g !! e = Some ed -> e_from ed ∈ N -> e_to ed ∈ N ->
  exists g', connect g e = Ok g' /\ adj g' N (<[e := ed]> C).
Proof.
  intros [Hn HC] Hfresh He Hf Ht.
  unfold connect, deref_edge, deref_node. rewrite He. cbn [rbind].
  destruct (Hn _ Ht) as (tn & Htn & Hin & Hout). rewrite Htn. cbn [rbind].
  assert (e ∉ ins C (e_to ed)) as Hni by (rewrite elem_of_ins, Hfresh; naive_solver).
  destruct (em_add_ok (lbl g) (lbl g) (lbl g) (g_l2 g) (n_in tn) (ins C (e_to ed)) e) as
    (em & L & Hadd & Hrep & Hfr); [done|done|done|by intros; case_decide|].
  rewrite Hadd. cbn [rbind fst snd].
  set (g1 := set_l2 (set_nodes g (<[e_to ed := Node (n_labels tn) (n_props tn) em (n_out tn)]> (g_nodes g))) L).
  assert (forall m, m ∈ N -> exists nd, g_nodes g1 !! m = Some nd /\
    em_rep (lbl g) (g_l2 g1) (n_in nd) (ins (<[e:=ed]> C) m) /\
    em_rep (lbl g) (g_l1 g1) (n_out nd) (outs C m)) as Hmid.
  { intros m Hm. rewrite ins_insert by done. destruct (Hn _ Hm) as (nd & Hnd & Hmi & Hmo).
    subst g1. simpl. destruct (decide (m = e_to ed)) as [->|Hne].
    - rewrite lookup_insert. eexists. split; [done|]. simpl. split; [done|]. congruence.
    - rewrite lookup_insert_ne by done. exists nd. split; [done|]. split; [|done].
      eapply em_rep_frame; [|exact Hmi]. intros x Hx. split; [|done]. apply Hfr.
      + rewrite elem_of_ins in *. naive_solver.
      + intros ->. rewrite elem_of_ins, Hfresh in Hx. naive_solver. }
  destruct (Hmid _ Hf) as (fn & Hfn & _ & Hfo).
    rewrite Hfn. cbn [rbind].
  assert (e ∉ outs C (e_from ed)) as Hno by (rewrite elem_of_outs, Hfresh; naive_solver).
  destruct (em_add_ok (lbl g) (lbl g) (lbl g) (g_l1 g) (n_out fn) (outs C (e_from ed)) e) as
    (em' & L' & Hadd' & Hrep' & Hfr'); [done|done|done|by intros; case_decide|].
  change (lbl g1) with (lbl g). change (g_l1 g1) with (g_l1 g). rewrite Hadd'. cbn [rbind fst snd].
  eexists. split; [done|]. split; simpl.
  - intros m Hm. rewrite outs_insert by done. destruct (Hmid _ Hm) as (nd & Hnd & Hmi & Hmo).
    destruct (decide (m = e_from ed)) as [->|Hne].
    + rewrite lookup_insert. eexists. split; [done|]. simpl. split; [|done].
      assert (nd = fn) as -> by congruence. done.
    + rewrite lookup_insert_ne by done. exists nd. split; [done|]. split; [done|].
      eapply em_rep_frame; [|exact Hmo]. intros x Hx. split; [|done]. apply Hfr'.
      * rewrite elem_of_outs in *. naive_solver.
      * intros ->. rewrite elem_of_outs, Hfresh in Hx. naive_solver.
  - intros x xd. destruct (decide (x = e)) as [->|].
    + rewrite lookup_insert. intros [= <-]. done.
    + rewrite lookup_insert_ne by done. apply HC.
Qed.

Lemma disconnect_ok g N C e ed :
  adj g N C -> C !! e = Some ed ->
  exists g', disconnect g e = Ok g' /\ adj g' N (delete e C).
Proof.
  intros [Hn HC] Hce. destruct (HC _ _ Hce) as (He & Hf & Ht).
  unfold disconnect, deref_edge, deref_node. rewrite He. cbn [rbind].
  destruct (Hn _ Ht) as (tn & Htn & Hin & Hout). rewrite Htn. cbn [rbind].
  assert (e ∈ ins C (e_to ed)) as Hni by (rewrite elem_of_ins; eauto).
  destruct (em_remove (lbl g) (n_in tn) (g_l2 g) e) as [em L] eqn:Hrem.
  destruct (em_remove_ok _ (lbl g) _ _ _ _ _ _ Hrem Hin Hni) as [Hrep Hfr]; [done|].
  set (g1 := set_l2 (set_nodes g (<[e_to ed := Node (n_labels tn) (n_props tn) em (n_out tn)]> (g_nodes g))) L).
  assert (forall m, m ∈ N -> exists nd, g_nodes g1 !! m = Some nd /\
    em_rep (lbl g) (g_l2 g1) (n_in nd) (ins (delete e C) m) /\
    em_rep (lbl g) (g_l1 g1) (n_out nd) (outs C m)) as Hmid.
  { intros m Hm. erewrite ins_delete by done. destruct (Hn _ Hm) as (nd & Hnd & Hmi & Hmo).
    subst g1. simpl. destruct (decide (m = e_to ed)) as [->|Hne].
    - rewrite lookup_insert. eexists. split; [done|]. simpl. split; [done|]. congruence.
    - rewrite lookup_insert_ne by done. exists nd. split; [done|]. split; [|done].
      eapply em_rep_frame; [|exact Hmi]. intros x Hx. split; [|done]. apply Hfr.
      rewrite elem_of_ins in *. naive_solver. }
  destruct (Hmid _ Hf) as (fn & Hfn & _ & Hfo).
  rewrite Hfn. cbn [rbind].
  assert (e ∈ outs C (e_from ed)) as Hno by (rewrite elem_of_outs; eauto).
  change (lbl g1) with (lbl g). change (g_l1 g1) with (g_l1 g).
  destruct (em_remove (lbl g) (n_out fn) (g_l1 g) e) as [em' L'] eqn:Hrem'.
  destruct (em_remove_ok _ (lbl g) _ _ _ _ _ _ Hrem' Hfo Hno) as [Hrep' Hfr']; [done|].
  eexists. split; [done|]. split; simpl.
  - intros m Hm. erewrite outs_delete by done. destruct (Hmid _ Hm) as (nd & Hnd & Hmi & Hmo).
    destruct (decide (m = e_from ed)) as [->|Hne].
    + rewrite lookup_insert. eexists. split; [done|]. simpl. split; [|done].
      assert (nd = fn) as -> by congruence. done.
    + rewrite lookup_insert_ne by done. exists nd. split; [done|]. split; [done|].
      eapply em_rep_frame; [|exact Hmo]. intros x Hx. split; [|done]. apply Hfr'.
      rewrite elem_of_outs in *. naive_solver.
  - intros x xd Hx. apply lookup_delete_Some in Hx as [_ Hx]. by apply HC.
Qed.

(** Adjacency only depends on the nodes' edge maps, the links and the edge heap. *)
Lemma adj_frame g g' N C :
  adj g N C ->
  (forall n nd, g_nodes g !! n = Some nd -> n ∈ N ->
     exists nd', g_nodes g' !! n = Some nd' /\ n_in nd' = n_in nd /\ n_out nd' = n_out nd) ->
  g_l1 g' = g_l1 g -> g_l2 g' = g_l2 g ->
  (forall e ed, C !! e = Some ed -> g_edges g' !! e = g_edges g !! e) ->
  adj g' N C.
Proof.
  intros [Hn HC] Hnodes H1 H2 He. split.
  - intros n HnN. destruct (Hn n HnN) as (nd & Hnd & Hi & Ho).
    destruct (Hnodes _ _ Hnd HnN) as (nd' & Hnd' & E1 & E2). exists nd'. split; [done|].
    rewrite E1, E2, H1, H2. split.
    + eapply em_rep_frame; [|exact Hi]. intros x Hx. split; [done|].
      apply elem_of_ins in Hx as (xd & Hx & _). unfold lbl. by erewrite He.
    + eapply em_rep_frame; [|exact Ho]. intros x Hx. split; [done|].
      apply elem_of_outs in Hx as (xd & Hx & _). unfold lbl. by erewrite He.
  - intros e ed Hce. destruct (HC _ _ Hce) as (Hed & ? & ?). split; [|done]. by erewrite He.
Qed.

(** ** Dropping edges (the loops of Detach) *)
(** [g'] differs from [g] at most in adjacency, the list of all edges and the edge indexes *)
Definition same_but_edges (g g' : graph) : Prop :=
  g_edges g' = g_edges g /\ g_nl g' = g_nl g /\ g_list g' = g_list g /\ g_lab g' = g_lab g /\
  g_nix g' = g_nix g /\ g_next g' = g_next g /\ (forall n, data g' n = data g n).
Lemma same_but_edges_refl g : same_but_edges g g.
Proof. repeat split. Qed.
Lemma same_but_edges_trans g1 g2 g3 :
  same_but_edges g1 g2 -> same_but_edges g2 g3 -> same_but_edges g1 g3.
Proof. intros (?&?&?&?&?&?&?) (?&?&?&?&?&?&?). repeat split; congruence. Qed.

Lemma all_remove_eq g e :
  all_remove g e = set_all g (em_remove (lbl g) (g_all g) (g_l0 g) e).1 (em_remove (lbl g) (g_all g) (g_l0 g) e).2.
Proof. unfold all_remove. by destruct (em_remove _ _ _ _). Qed.

Lemma drop_edge_shape g e g' :
  drop_edge g e = Ok g' ->
  same_but_edges g g' /\
  (g_all g', g_l0 g') = em_remove (lbl g) (g_all g) (g_l0 g) e /\
  exists ed, g_edges g !! e = Some ed /\ ixs_remove (g_eix g) (e_props ed) e = Ok (g_eix g').
Proof.
  unfold drop_edge. intros H. inv_ok H. injection H as <-.
  apply disconnect_shape in Ha as (E1&E2&E3&E4&E5&E6&E7&E8&E9&E10).
  rewrite all_remove_eq in *. simpl in *. unfold deref_edge in Ha0. simpl in Ha0.
  rewrite E1 in Ha0. rewrite E8 in Ha1.
  assert (lbl a = lbl g) as Hl by (unfold lbl; by rewrite E1).
  repeat split; simpl; try done.
  - rewrite Hl, E3, E5. by destruct (em_remove _ _ _ _).
  - destruct (g_edges g !! e) as [ed|]; [|done]. injection Ha0 as <-. eauto.
Qed.

Lemma drop_edge_adj g N C e ed g' :
  drop_edge g e = Ok g' -> adj g N C -> C !! e = Some ed -> adj g' N (delete e C).
Proof.
  unfold drop_edge. intros H Hadj Hce. inv_ok H. injection H as <-.
  destruct (disconnect_ok _ _ _ _ _ Hadj Hce) as (g1 & Hd & Hadj1).
  assert (g1 = a) as -> by congruence. rewrite all_remove_eq.
  eapply adj_frame; [exact Hadj1| | | |]; simpl; eauto.
Qed.

Lemma drop_edges_shape es g g' :
  rfold drop_edge es g = Ok g' ->
  same_but_edges g g' /\
  (g_all g', g_l0 g') = fold_left (fun p e => em_remove (lbl g) p.1 p.2 e) es (g_all g, g_l0 g) /\
  rfold (fun ixs e => match g_edges g !! e with
                      | Some ed => ixs_remove ixs (e_props ed) e | None => Panic end) es (g_eix g) = Ok (g_eix g').
Proof.
  revert g; induction es as [|e es IH]; intros g; simpl.
  - intros [= <-]. split; [apply same_but_edges_refl|]. split; done.
  - intros H. inv_ok H. apply drop_edge_shape in Ha as (Hs & Hall & ed & Hed & Hix).
    apply IH in H as (Hs' & Hall' & Hix').
    pose proof Hs as (E1&_).
    assert (lbl a = lbl g) as Hl by (unfold lbl; by rewrite E1).
    split; [by eapply same_but_edges_trans|]. split.
    + rewrite Hall'. rewrite Hl. simpl. rewrite <- Hall. done.
    + rewrite Hed, Hix. simpl. rewrite <- Hix'. f_equal. rewrite E1. done.
Qed.

Lemma drop_edges_adj es g N C g' :
  rfold drop_edge es g = Ok g' -> adj g N C -> NoDup es -> (forall e, e ∈ es -> is_Some (C !! e)) ->
  adj g' N (filter (fun p => p.1 ∉ es) C).
Proof.
  revert g C; induction es as [|e es IH]; intros g C; simpl.
  - intros [= <-] Hadj _ _. rewrite map_filter_id; [done|]. intros i x _. set_solver.
  - intros H Hadj Hnd Hin. inv_ok H. apply NoDup_cons in Hnd as [Hni Hnd].
    destruct (Hin e) as [ed Hed]; [set_solver|].
    eapply drop_edge_adj in Ha; [|done..].
    apply IH with (C := delete e C) in H; [|done|done|].
    + assert (filter (fun p => p.1 ∉ e :: es) C = filter (fun p => p.1 ∉ es) (delete e C)) as ->; [|done].
      apply map_eq. intros x. apply option_eq. intros xd. rewrite !map_filter_lookup_Some.
      rewrite lookup_delete_Some. simpl. rewrite not_elem_of_cons. naive_solver.
    + intros x Hx. rewrite lookup_delete_ne by (intros ->; done). apply Hin. set_solver.
Qed.

(** ** The core relation *)
Definition core (g : graph) (s : sgraph) : Prop :=
  adj g (dom (s_nodes s)) (s_edges s) /\
  g_next g = s_next s /\
  (forall n sn, s_nodes s !! n = Some sn -> data g n = Some (sn_labels sn, sn_props sn)) /\
  (forall n, is_Some (g_nodes g !! n) -> n < g_next g) /\
  (forall e, is_Some (g_edges g !! e) -> e < g_next g) /\
  (forall x, is_Some (g_nodes g !! x) -> is_Some (g_edges g !! x) -> False).

Lemma core_init : core new_graph s_empty.
Proof.
  split; [split|].
  - intros n Hn. simpl in Hn. set_solver.
  - intros e ed. simpl. by rewrite lookup_empty.
  - repeat split; simpl; intros *; rewrite ?lookup_empty; try done; by intros [? ?].
Qed.

Lemma core_node g s n sn :
  core g s -> s_nodes s !! n = Some sn ->
  exists nd, g_nodes g !! n = Some nd /\ n_labels nd = sn_labels sn /\ n_props nd = sn_props sn.
Proof.
  intros (_&_&Hd&_) Hn. apply Hd in Hn. unfold data in Hn.
  destruct (g_nodes g !! n) as [nd|]; [|done]. exists nd. injection Hn as -> ->. done.
Qed.
Lemma core_edge g s e ed :
  core g s -> s_edges s !! e = Some ed ->
  g_edges g !! e = Some ed /\ live_node s (e_from ed) /\ live_node s (e_to ed) /\ e < g_next g.
Proof.
  intros ([_ HC]&_&_&_&Hlt&_) He. destruct (HC _ _ He) as (H1 & H2 & H3).
  repeat split; try done; [by apply elem_of_dom|by apply elem_of_dom|]. apply Hlt. eauto.
Qed.
Lemma core_edges_size g s (X : gset nat) :
  core g s -> (forall e, e ∈ X -> live_edge s e) -> size X <= fuel g.
Proof.
  intros Hc HX. unfold fuel. rewrite <- (size_set_seq (C := gset nat) 0 (g_next g)).
  apply subseteq_size. intros e He. apply elem_of_set_seq.
  apply HX in He as [ed He]. apply (core_edge _ _ _ _ Hc) in He as (_&_&_&?). lia.
Qed.
Lemma data_props g g' n : data g' n = data g n -> is_Some (g_nodes g' !! n) <-> is_Some (g_nodes g !! n).
Proof.
  unfold data. destruct (g_nodes g' !! n), (g_nodes g !! n); simpl; intros H; try done; split; eauto.
Qed.

Lemma core_detach g s n g' :
  detach_node g n = Ok g' -> live_node s n -> core g s ->
  core g' (SGraph (s_nodes s) (s_detach (s_edges s) n) (s_next s)) /\
  exists dropped,
    same_but_edges g g' /\
    (g_all g', g_l0 g') = fold_left (fun p e => em_remove (lbl g) p.1 p.2 e) dropped (g_all g, g_l0 g) /\
    rfold (fun ixs e => match g_edges g !! e with
                        | Some ed => ixs_remove ixs (e_props ed) e | None => Panic end)
          dropped (g_eix g) = Ok (g_eix g') /\
    NoDup dropped /\
    (forall e, e ∈ dropped <-> exists ed, s_edges s !! e = Some ed /\ (e_from ed = n \/ e_to ed = n)).
Proof.
  intros H Hlive Hc. pose proof Hc as ([Hn HC] & Hnext & Hdata & Hlt & Hlte & Hdis).
  assert (n ∈ dom (s_nodes s)) as HnN by (by apply elem_of_dom).
  unfold detach_node in H. apply rbind_Ok_inv in H as (nd & Hnd & H).
  unfold deref_node in Hnd. destruct (g_nodes g !! n) as [nd'|] eqn:Hg; [|done]. injection Hnd as ->.
  apply rbind_Ok_inv in H as (inl & Hinl & H).
  destruct (Hn n HnN) as (nd1 & Hnd1 & Hi & Ho). assert (nd1 = nd) as -> by congruence. clear Hnd1.
  destruct (em_iter_ok _ _ _ _ (fuel g) Hi) as (xs & Hxs & Hxnd & Hxin).
  { eapply core_edges_size; [done|]. intros e He. apply elem_of_ins in He as (x & ? & _). by exists x. }
  assert (xs = inl) as -> by congruence. clear Hxs Hinl.
  apply rbind_Ok_inv in H as (g1 & Hg1 & H).
  pose proof (drop_edges_shape _ _ _ Hg1) as (Hs1 & Hall1 & Hix1).
  eapply drop_edges_adj in Hg1 as Hadj1; [|split; [exact Hn|exact HC]|done|].
  2: { intros e He. apply Hxin, elem_of_ins in He as (x & ? & _). by exists x. }
  set (C1 := filter (fun p => p.1 ∉ inl) (s_edges s)) in *.
  assert (forall e x, C1 !! e = Some x <-> s_edges s !! e = Some x /\ e_to x <> n) as HC1.
  { intros e x. unfold C1. rewrite map_filter_lookup_Some. simpl. rewrite Hxin, elem_of_ins. naive_solver. }
  apply rbind_Ok_inv in H as (nd1 & Hnd1 & H). unfold deref_node in Hnd1.
  destruct (g_nodes g1 !! n) as [nd1'|] eqn:Hg1n; [|done]. injection Hnd1 as ->.
  set (g2 := set_nodes g1 _) in H.
  assert (adj g2 (dom (s_nodes s)) C1) as Hadj2.
  { destruct Hadj1 as [Hn1 HC1']. split; [|done]. intros m Hm.
    destruct (Hn1 m Hm) as (ndm & Hndm & Hmi & Hmo). subst g2. simpl.
    destruct (decide (m = n)) as [->|Hne].
    - rewrite lookup_insert. eexists. split; [done|]. simpl. assert (ndm = nd1) as -> by congruence.
      split; [|done].
      assert (ins C1 n = ∅) as ->; [|apply em_rep_empty].
      apply set_eq. intros e. rewrite elem_of_ins. split; [|set_solver]. intros (x & Hx & Hx').
      apply HC1 in Hx. naive_solver.
    - rewrite lookup_insert_ne by done. eauto. }
  apply rbind_Ok_inv in H as (nd2 & Hnd2 & H). unfold deref_node in Hnd2.
  destruct (g_nodes g2 !! n) as [nd2'|] eqn:Hg2n; [|done]. injection Hnd2 as ->.
  apply rbind_Ok_inv in H as (outl & Houtl & H).
  pose proof (proj1 Hadj2 n HnN) as (nd3 & Hnd3 & Hi2 & Ho2). assert (nd3 = nd2) as -> by congruence. clear Hnd3.
  destruct (em_iter_ok _ _ _ _ (fuel g2) Ho2) as (ys & Hys & Hynd & Hyin).
  { change (fuel g2) with (g_next g1). destruct Hs1 as (_&_&_&_&_&->&_). eapply core_edges_size; [done|].
    intros e He. apply elem_of_outs in He as (x & Hx & _). apply HC1 in Hx as [? _]. by exists x. }
  assert (ys = outl) as -> by congruence. clear Hys Houtl.
  apply rbind_Ok_inv in H as (g3 & Hg3 & H).
  pose proof (drop_edges_shape _ _ _ Hg3) as (Hs3 & Hall3 & Hix3).
  eapply drop_edges_adj in Hg3 as Hadj3; [|exact Hadj2|done|].
  2: { intros e He. apply Hyin, elem_of_outs in He as (x & ? & _). by exists x. }
  apply rbind_Ok_inv in H as (nd3 & Hnd3 & H). unfold deref_node in Hnd3.
  destruct (g_nodes g3 !! n) as [nd3'|] eqn:Hg3n; [|done]. injection Hnd3 as ->.
  injection H as <-.
  set (C2 := filter (fun p => p.1 ∉ outl) C1) in *.
  assert (C2 = s_detach (s_edges s) n) as HC2.
  { apply map_eq. intros e. apply option_eq. intros x. unfold C2, s_detach.
    rewrite !map_filter_lookup_Some. simpl. rewrite Hyin, elem_of_outs. rewrite HC1. naive_solver. }
  assert (same_but_edges g g3) as Hs.
  { destruct Hs1 as (E1&E2&E3&E4&E5&E6&E7), Hs3 as (F1&F2&F3&F4&F5&F6&F7). simpl in *.
    repeat split; try congruence. intros m. rewrite F7. rewrite <- E7. unfold data, g2. simpl.
    destruct (decide (m = n)) as [->|]; [by rewrite lookup_insert, Hg1n|by rewrite lookup_insert_ne]. }
  assert (forall m, data (set_nodes g3 (<[n:=Node (n_labels nd3) (n_props nd3) (n_in nd3) em_empty]> (g_nodes g3))) m = data g m) as Hd4.
  { intros m. destruct Hs as (_&_&_&_&_&_&Hs). rewrite <- Hs. unfold data. simpl.
    destruct (decide (m = n)) as [->|]; [by rewrite lookup_insert, Hg3n|by rewrite lookup_insert_ne]. }
  split.
  - split; [|split; [|split; [|split; [|split]]]].
    + simpl. rewrite <- HC2. destruct Hadj3 as [Hn3 HC3]. split; [|done].
      intros m Hm. destruct (Hn3 m Hm) as (ndm & Hndm & Hmi & Hmo). simpl.
      destruct (decide (m = n)) as [->|Hne].
      * rewrite lookup_insert. eexists. split; [done|]. simpl. assert (ndm = nd3) as -> by congruence.
        split; [done|].
        assert (outs C2 n = ∅) as ->; [|apply em_rep_empty].
        apply set_eq. intros e. rewrite elem_of_outs. split; [|set_solver]. intros (x & Hx & Hx').
        rewrite HC2 in Hx. unfold s_detach in Hx. rewrite map_filter_lookup_Some in Hx. naive_solver.
      * rewrite lookup_insert_ne by done. eauto.
    + simpl. destruct Hs as (_&_&_&_&_&->&_). done.
    + intros m sm Hm. rewrite Hd4. by apply Hdata.
    + intros m Hm. apply (data_props _ g) in Hm; [|done]. simpl. destruct Hs as (_&_&_&_&_&->&_). by apply Hlt.
    + simpl. destruct Hs as (->&_&_&_&_&->&_). done.
    + intros x Hx. apply (data_props _ g) in Hx; [|done]. simpl. destruct Hs as (->&_). by apply Hdis.
  - exists (inl ++ outl). split; [|split; [|split; [|split]]].
    + destruct Hs as (?&?&?&?&?&?&?). repeat split; done.
    + simpl. rewrite Hall3. rewrite fold_left_app, <- Hall1. simpl.
      destruct Hs1 as (E1&_). assert (lbl g2 = lbl g) as -> by (unfold lbl; simpl; by rewrite E1). done.
    + rewrite rfold_app, Hix1. simpl. rewrite <- Hix3. simpl. destruct Hs1 as (->&_). done.
    + apply NoDup_app. split; [done|]. split; [|done]. intros e He He'.
      apply Hxin, elem_of_ins in He as (x & Hx & Hx'). apply Hyin, elem_of_outs in He' as (y & Hy & Hy').
      apply HC1 in Hy as [Hy Hy'']. congruence.
    + intros e. rewrite elem_of_app, Hxin, Hyin, elem_of_ins, elem_of_outs. setoid_rewrite HC1.
      split; [naive_solver|]. intros (x & Hx & [Hx'|Hx']); [|by left; eauto].
      destruct (decide (e_to x = n)); [by left; eauto|right; eauto].
Qed.
