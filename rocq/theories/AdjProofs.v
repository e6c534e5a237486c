(** Adjacency queries of reachable graphs. *)
From Verif Require Import Base Assoc Value FastSet Links EdgeMap NodeMap Index Graph GraphSpec.
From Verif Require Import LinksProofs EdgeMapProofs CoreProofs CoreStep.

Lemma lists_perm P xs ys : lists P xs -> lists P ys -> xs ≡ₚ ys.
Proof.
  intros [Hx Hx'] [Hy Hy']. apply NoDup_Permutation; [done..|]. intros x. by rewrite Hx', Hy'.
Qed.
Lemma lists_ext P Q xs : (forall x, P x <-> Q x) -> lists P xs -> lists Q xs.
Proof. intros H [? H']. split; [done|]. intros x. by rewrite H'. Qed.
Lemma lists_filter P (Q : nat -> Prop) `{forall x, Decision (Q x)} xs :
  lists P xs -> lists (fun x => P x /\ Q x) (filter Q xs).
Proof.
  intros [Hn Hx]. split; [by apply NoDup_filter|]. intros x. rewrite elem_of_list_filter, Hx. tauto.
Qed.
Lemma occurs_app x xs ys : occurs x (xs ++ ys) = occurs x xs + occurs x ys.
Proof. unfold occurs. by rewrite filter_app, app_length. Qed.
Lemma occurs_lists P xs x `{Decision (P x)} : lists P xs -> occurs x xs = if decide (P x) then 1 else 0.
Proof.
  intros [Hn Hx]. unfold occurs.
  assert (NoDup (filter (fun y => y = x) xs)) as Hnd by by apply NoDup_filter.
  destruct (decide (P x)) as [Hp|Hp].
  - assert (filter (fun y => y = x) xs ≡ₚ [x]) as ->; [|done].
    apply NoDup_Permutation; [done|apply NoDup_singleton|].
    intros y. rewrite elem_of_list_filter, elem_of_list_singleton, Hx. naive_solver.
  - assert (filter (fun y => y = x) xs ≡ₚ []) as ->; [|done].
    apply NoDup_Permutation; [done|constructor|].
    intros y. rewrite elem_of_list_filter, Hx. split; [naive_solver|set_solver].
Qed.

Lemma is_out_outs s n e : e ∈ outs (s_edges s) n <-> is_out s n e.
Proof. rewrite elem_of_outs. done. Qed.
Lemma is_in_ins s n e : e ∈ ins (s_edges s) n <-> is_in s n e.
Proof. rewrite elem_of_ins. done. Qed.

Section reach.
  Context (g : graph) (s : sgraph) (Hc : core g s).

  Lemma core_node_adj n : live_node s n ->
    exists nd, g_nodes g !! n = Some nd /\
      em_rep (lbl g) (g_l2 g) (n_in nd) (ins (s_edges s) n) /\
      em_rep (lbl g) (g_l1 g) (n_out nd) (outs (s_edges s) n).
  Proof. intros Hn. destruct Hc as ([Hn' _] & _). apply Hn'. by apply elem_of_dom. Qed.
  Lemma ins_fuel n : size (ins (s_edges s) n) <= fuel g.
  Proof. eapply core_edges_size; [done|]. intros e He. apply elem_of_ins in He as (x & ? & _). by exists x. Qed.
  Lemma outs_fuel n : size (outs (s_edges s) n) <= fuel g.
  Proof. eapply core_edges_size; [done|]. intros e He. apply elem_of_outs in He as (x & ? & _). by exists x. Qed.
  Lemma core_lbl e ed : s_edges s !! e = Some ed -> lbl g e = e_label ed.
  Proof. intros He. unfold lbl. by destruct (core_edge _ _ _ _ Hc He) as (-> & _). Qed.

  Lemma node_edges_in n : live_node s n -> exists xs, node_edges g n Incoming = Ok xs /\ lists (is_in s n) xs.
  Proof.
    intros (nd & Hnd & Hi & Ho)%core_node_adj. unfold node_edges, deref_node. rewrite Hnd. simpl.
    destruct (em_iter_ok _ _ _ _ (fuel g) Hi (ins_fuel n)) as (xs & -> & Hn & Hx).
    exists xs. split; [done|]. split; [done|]. intros e. by rewrite Hx, is_in_ins.
  Qed.
  Lemma node_edges_out n : live_node s n -> exists xs, node_edges g n Outgoing = Ok xs /\ lists (is_out s n) xs.
  Proof.
    intros (nd & Hnd & Hi & Ho)%core_node_adj. unfold node_edges, deref_node. rewrite Hnd. simpl.
    destruct (em_iter_ok _ _ _ _ (fuel g) Ho (outs_fuel n)) as (xs & -> & Hn & Hx).
    exists xs. split; [done|]. split; [done|]. intros e. by rewrite Hx, is_out_outs.
  Qed.
  Lemma node_edges_both n : live_node s n ->
    exists i o, node_edges g n Incoming = Ok i /\ node_edges g n Outgoing = Ok o /\
      node_edges g n AnyDir = Ok (i ++ o) /\ lists (is_in s n) i /\ lists (is_out s n) o.
  Proof.
    intros Hn. destruct (node_edges_in n Hn) as (i & Hi & Hi'), (node_edges_out n Hn) as (o & Ho & Ho').
    exists i, o. split; [done|]. split; [done|]. split; [|done].
    unfold node_edges in *. destruct (deref_node g n) as [nd| |]; simpl in *; try done.
    by rewrite Hi, Ho.
  Qed.

  Lemma occurs_in n e xs : lists (is_in s n) xs ->
    occurs e xs = match s_edges s !! e with Some x => if decide (e_to x = n) then 1 else 0 | None => 0 end.
  Proof.
    intros Hl. destruct (s_edges s !! e) as [x|] eqn:He.
    - destruct (decide (e_to x = n)) as [Hd|Hd].
      + assert (is_in s n e) as Hin by (exists x; done).
        assert (Decision (is_in s n e)) as Hdec by (left; done).
        rewrite (occurs_lists _ _ _ Hl). by rewrite decide_True.
      + assert (~ is_in s n e) as Hin by (unfold is_in; naive_solver).
        assert (Decision (is_in s n e)) as Hdec by (right; done).
        rewrite (occurs_lists _ _ _ Hl). by rewrite decide_False.
    - assert (~ is_in s n e) as Hin by (unfold is_in; naive_solver).
      assert (Decision (is_in s n e)) as Hdec by (right; done).
      rewrite (occurs_lists _ _ _ Hl). by rewrite decide_False.
  Qed.
  Lemma occurs_out n e xs : lists (is_out s n) xs ->
    occurs e xs = match s_edges s !! e with Some x => if decide (e_from x = n) then 1 else 0 | None => 0 end.
  Proof.
    intros Hl. destruct (s_edges s !! e) as [x|] eqn:He.
    - destruct (decide (e_from x = n)) as [Hd|Hd].
      + assert (is_out s n e) as Hin by (exists x; done).
        assert (Decision (is_out s n e)) as Hdec by (left; done).
        rewrite (occurs_lists _ _ _ Hl). by rewrite decide_True.
      + assert (~ is_out s n e) as Hin by (unfold is_out; naive_solver).
        assert (Decision (is_out s n e)) as Hdec by (right; done).
        rewrite (occurs_lists _ _ _ Hl). by rewrite decide_False.
    - assert (~ is_out s n e) as Hin by (unfold is_out; naive_solver).
      assert (Decision (is_out s n e)) as Hdec by (right; done).
      rewrite (occurs_lists _ _ _ Hl). by rewrite decide_False.
  Qed.

  Lemma node_edges_any_occurs n : live_node s n ->
    exists i o, node_edges g n Incoming = Ok i /\ node_edges g n Outgoing = Ok o /\
      node_edges g n AnyDir = Ok (i ++ o) /\
      forall e, occurs e (i ++ o) =
        match s_edges s !! e with
        | Some x => (if decide (e_to x = n) then 1 else 0) + (if decide (e_from x = n) then 1 else 0)
        | None => 0
        end.
  Proof.
    intros Hn. destruct (node_edges_both n Hn) as (i & o & Hi & Ho & Hb & Li & Lo).
    exists i, o. split; [done|]. split; [done|]. split; [done|]. intros e.
    rewrite occurs_app, (occurs_in n e i Li), (occurs_out n e o Lo). by destruct (s_edges s !! e).
  Qed.
  Lemma label_filter (X : gset nat) (P : nat -> Prop) S xs ys :
    lists P xs -> (forall e, P e <-> e ∈ X) -> (forall e, e ∈ X -> live_edge s e) ->
    NoDup ys -> (forall e, e ∈ ys <-> e ∈ X /\ lbl g e ∈ S) ->
    ys ≡ₚ filter (label_in s S) xs.
  Proof.
    intros [Hn Hx] HP HX Hy Hy'. apply NoDup_Permutation; [done|by apply NoDup_filter|].
    intros e. rewrite elem_of_list_filter, Hy', Hx, HP.
    split; intros [H1 H2]; [split; [|done]|split; [done|]].
    - destruct (HX _ H1) as [ed Hed]. unfold label_in. rewrite Hed. by rewrite <- (core_lbl e ed).
    - unfold label_in in H1. destruct (HX _ H2) as [ed Hed]. rewrite Hed in H1. by rewrite (core_lbl e ed).
  Qed.
  Lemma ins_live n e : e ∈ ins (s_edges s) n -> live_edge s e.
  Proof. intros (x & ? & _)%elem_of_ins. by exists x. Qed.
  Lemma outs_live n e : e ∈ outs (s_edges s) n -> live_edge s e.
  Proof. intros (x & ? & _)%elem_of_outs. by exists x. Qed.

  Lemma node_edges_label_ok n d l : live_node s n ->
    exists xs ys, node_edges g n d = Ok xs /\ node_edges_label g n d l = Ok ys /\
      ys ≡ₚ filter (label_in s {[l]}) xs.
  Proof.
    intros Hn. destruct (node_edges_both n Hn) as (i & o & Hi & Ho & Hio & Li & Lo).
    destruct (core_node_adj n Hn) as (nd & Hnd & Ri & Ro).
    destruct (em_iter_label_ok (lbl g) _ _ _ _ (fuel g) l Ri (ins_fuel n)) as (i' & Hi' & Hni' & Hin').
    destruct (em_iter_label_ok (lbl g) _ _ _ _ (fuel g) l Ro (outs_fuel n)) as (o' & Ho' & Hno' & Hon').
    assert (i' ≡ₚ filter (label_in s {[l]}) i) as Pi.
    { eapply (label_filter (ins (s_edges s) n)); [exact Li| | |done|].
      - intros e. by rewrite is_in_ins.
      - apply ins_live.
      - intros e. rewrite Hin'. rewrite elem_of_singleton; destruct (decide (size (ins (s_edges s) n) = 1)); tauto. }
    assert (o' ≡ₚ filter (label_in s {[l]}) o) as Po.
    { eapply (label_filter (outs (s_edges s) n)); [exact Lo| | |done|].
      - intros e. by rewrite is_out_outs.
      - apply outs_live.
      - intros e. rewrite Hon'. rewrite elem_of_singleton; destruct (decide (size (outs (s_edges s) n) = 1)); tauto. }
    unfold node_edges_label, deref_node. rewrite Hnd. cbn [rbind]. destruct d.
    - exists i, i'. done.
    - exists (i ++ o), (i' ++ o'). split; [done|]. rewrite Hi', Ho'. split; [done|].
      by rewrite filter_app, Pi, Po.
    - exists o, o'. done.
  Qed.

  Lemma node_edges_any_ok n d S ord1 ord2 : live_node s n -> order_of S ord1 -> order_of S ord2 ->
    exists xs ys, node_edges g n d = Ok xs /\ node_edges_any g n d ord1 ord2 = Ok ys /\
      ys ≡ₚ (if decide (S = ∅) then xs else filter (label_in s S) xs).
  Proof.
    intros Hn [Hnd1 Hs1] [Hnd2 Hs2].
    destruct (node_edges_both n Hn) as (i & o & Hi & Ho & Hio & Li & Lo).
    destruct (core_node_adj n Hn) as (nd & Hnd & Ri & Ro).
    assert (forall ord, (forall x, x ∈ ord <-> x ∈ S) -> ord = [] <-> S = ∅) as Hemp.
    { intros ord Ho1. split.
      - intros ->. apply set_eq. intros x. rewrite <- Ho1. set_solver.
      - intros ->. destruct ord as [|x r]; [done|]. assert (x ∈ (∅ : gset string)) as Hx by (apply Ho1; set_solver). set_solver. }
    destruct (decide (S = ∅)) as [HS|HS].
    { assert (ord1 = []) as -> by by apply Hemp. assert (ord2 = []) as -> by by apply Hemp.
      exists (match d with Incoming => i | AnyDir => i ++ o | Outgoing => o end).
      exists (match d with Incoming => i | AnyDir => i ++ o | Outgoing => o end).
      assert (node_edges g n d = Ok (match d with Incoming => i | AnyDir => i ++ o | Outgoing => o end)) as Hd by by destruct d.
      split; [done|]. split; [|done].
      unfold node_edges_any, deref_node. rewrite Hnd. cbn [rbind].
      unfold em_any_or_all. rewrite decide_True by done.
      unfold node_edges, deref_node in Hd. rewrite Hnd in Hd. by destruct d. }
    assert (ord1 <> []) as Hne1 by (by rewrite (Hemp _ Hs1)).
    assert (ord2 <> []) as Hne2 by (by rewrite (Hemp _ Hs2)).
    destruct (em_iter_any_ok (lbl g) _ _ _ _ (fuel g) ord1 Ri (ins_fuel n) Hnd1) as (i' & Hi' & Hni' & Hin').
    destruct (em_iter_any_ok (lbl g) _ _ _ _ (fuel g) ord2 Ro (outs_fuel n) Hnd2) as (o' & Ho' & Hno' & Hon').
    assert (i' ≡ₚ filter (label_in s S) i) as Pi.
    { eapply (label_filter (ins (s_edges s) n)); [exact Li| | |done|].
      - intros e. by rewrite is_in_ins.
      - apply ins_live.
      - intros e. rewrite Hin'. rewrite <- Hs1. destruct (decide (size (ins (s_edges s) n) = 1)); tauto. }
    assert (o' ≡ₚ filter (label_in s S) o) as Po.
    { eapply (label_filter (outs (s_edges s) n)); [exact Lo| | |done|].
      - intros e. by rewrite is_out_outs.
      - apply outs_live.
      - intros e. rewrite Hon'. rewrite <- Hs2. destruct (decide (size (outs (s_edges s) n) = 1)); tauto. }
    unfold node_edges_any, deref_node. rewrite Hnd. cbn [rbind].
    unfold em_any_or_all. rewrite (decide_False (P := ord1 = [])) by done.
    rewrite (decide_False (P := ord2 = [])) by done. destruct d.
    - exists i, i'. done.
    - exists (i ++ o), (i' ++ o'). split; [done|]. rewrite Hi', Ho'. split; [done|].
      by rewrite filter_app, Pi, Po.
    - exists o, o'. done.
  Qed.

  Lemma no_dangling n d xs e : live_node s n -> node_edges g n d = Ok xs -> e ∈ xs ->
    exists ed, g_edges g !! e = Some ed /\ live_node s (e_from ed) /\ live_node s (e_to ed) /\
      (d = Incoming -> e_to ed = n) /\ (d = Outgoing -> e_from ed = n) /\ (e_from ed = n \/ e_to ed = n).
  Proof.
    intros Hn Hxs He. destruct (node_edges_both n Hn) as (i & o & Hi & Ho & Hio & [_ Li] & [_ Lo]).
    assert ((e ∈ i /\ d <> Outgoing) \/ (e ∈ o /\ d <> Incoming)) as Hcase.
    { destruct d.
      - assert (xs = i) as -> by congruence. naive_solver.
      - assert (xs = i ++ o) as -> by congruence. apply elem_of_app in He. naive_solver.
      - assert (xs = o) as -> by congruence. naive_solver. }
    destruct Hcase as [[H Hd]|[H Hd]].
    - apply Li in H as (ed & Hed & Ht). exists ed. destruct (core_edge _ _ _ _ Hc Hed) as (?&?&?&_). naive_solver.
    - apply Lo in H as (ed & Hed & Ht). exists ed. destruct (core_edge _ _ _ _ Hc Hed) as (?&?&?&_). naive_solver.
  Qed.
End reach.

(** Two related graphs: adjacency after removing the edges at [n]. *)
Lemma adj_detach g s g' s' n :
  core g s -> core g' s' -> s_edges s' = s_detach (s_edges s) n ->
  forall m d, live_node s m -> live_node s' m ->
    exists xs ys, node_edges g m d = Ok xs /\ node_edges g' m d = Ok ys /\
      ys ≡ₚ filter (fun e => ~ incident s n e) xs.
Proof.
  intros Hc Hc' Hs m d Hm Hm'.
  destruct (node_edges_both g s Hc m Hm) as (i & o & Hi & Ho & Hio & Li & Lo).
  destruct (node_edges_both g' s' Hc' m Hm') as (i' & o' & Hi' & Ho' & Hio' & Li' & Lo').
  assert (i' ≡ₚ filter (fun e => ~ incident s n e) i) as Pi.
  { eapply lists_perm; [exact Li'|]. eapply lists_ext; [|apply lists_filter, Li].
    intros e. unfold is_in, incident. rewrite Hs. setoid_rewrite s_detach_lookup.
    split.
    - intros [(x & Hx & Ht) Hne]. rewrite Hx in Hne. naive_solver.
    - intros (x & (Hx & Hf & Ht) & Hm1). rewrite Hx. naive_solver. }
  assert (o' ≡ₚ filter (fun e => ~ incident s n e) o) as Po.
  { eapply lists_perm; [exact Lo'|]. eapply lists_ext; [|apply lists_filter, Lo].
    intros e. unfold is_out, incident. rewrite Hs. setoid_rewrite s_detach_lookup.
    split.
    - intros [(x & Hx & Ht) Hne]. rewrite Hx in Hne. naive_solver.
    - intros (x & (Hx & Hf & Ht) & Hm1). rewrite Hx. naive_solver. }
  destruct d; [exists i, i'|exists (i ++ o), (i' ++ o')|exists o, o']; try done.
  split; [done|]. split; [done|]. by rewrite filter_app, Pi, Po.
Qed.
