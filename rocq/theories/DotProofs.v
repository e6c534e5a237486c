(** Proofs about dotrenderer.go. *)
From Verif Require Import Base Value Index Graph GraphSpec CoreProofs CoreStep NodeListProofs EdgeListProofs Sizes JsonAddProofs Dot DotSpec.
From stdpp Require Import pretty.
Local Open Scope list_scope.

Lemma nodes_of_app l k : nodes_of (l ++ k) = nodes_of l ++ nodes_of k.
Proof. unfold nodes_of. by rewrite map_app, mjoin_app. Qed.
Lemma edges_of_app l k : edges_of (l ++ k) = edges_of l ++ edges_of k.
Proof. unfold edges_of. by rewrite map_app, mjoin_app. Qed.
Lemma edges_of_in l e : e ∈ edges_of l <-> exists a b r, EEdge a b e r ∈ l.
Proof.
  unfold edges_of. rewrite elem_of_list_join. split.
  - intros (x & Hx & Hin). apply elem_of_list_fmap in Hin as (v & -> & Hv). destruct v; [by apply elem_of_nil in Hx| |by apply elem_of_nil in Hx].
    apply elem_of_list_singleton in Hx as ->. eauto.
  - intros (a & b & r & H). exists [e]. split; [left|]. apply elem_of_list_fmap. by exists (EEdge a b e r).
Qed.
Lemma node_id_inj x y : node_id x = node_id y -> x = y.
Proof. unfold node_id. intros H. injection H as H. by apply pretty_nat_inj. Qed.

Section dot.
  Context {T : Type} (ops : list op) (g : graph) (Hv : valid_history ops) (Hr : run ops = Ok g).
  Context (nr : node_renderer T) (er : edge_renderer T).
  Notation s := (srun ops).
  (** the log of the loop over the nodes *)
  Record nodes_log (ns : list nat) (x : nat) (m : gmap nat string) (l : list event) : Prop := NodesLog {
    nl_nodes : nodes_of l = ns; nl_edges : edges_of l = [];
    nl_map : forall n id, m !! n = Some id <-> accepted l id n;
    nl_ids : forall n id, m !! n = Some id -> exists k, k < x /\ id = node_id k;
    nl_inj : forall n1 n2 id, m !! n1 = Some id -> m !! n2 = Some id -> n1 = n2;
    nl_ok : forall v, v ∈ l -> ~ failed v
  }.
  Lemma accepted_snoc l v id n : accepted (l ++ [v]) id n <-> accepted l id n \/ v = ENode id n (Some true).
  Proof. unfold accepted. rewrite elem_of_app, elem_of_list_singleton. naive_solver. Qed.
  Lemma render_nodes_ok ns : forall done x m t l, NoDup (done ++ ns) -> (forall n, n ∈ done ++ ns -> live_node s n) -> nodes_log done x m l ->
    exists om t' l', render_nodes (log_node nr) ns x m (t, l) = (om, (t', l')) /\ render_nodes nr ns x m t = (om, t') /\
      match om with
      | Some m' => exists x', nodes_log (done ++ ns) x' m' l'
      | None => faithful s l' /\ stopped l'
      end.
  Proof.
    induction ns as [|n ns IH]; intros dn x m t l Hnd Hlive Hl; cbn [render_nodes].
    { exists (Some m), t, l. split; [done|]. split; [done|]. rewrite app_nil_r. by exists x. }
    unfold log_node at 1. cbn [fst snd]. destruct (nr (node_id x) n t) as [o t1] eqn:E.
    assert (Hn : n ∉ dn). { rewrite NoDup_app in Hnd. destruct Hnd as (_ & H & _). intros Hin. apply (H n Hin). left. }
    assert (Enew : forall r, nodes_of (l ++ [ENode (node_id x) n r]) = dn ++ [n] /\ edges_of (l ++ [ENode (node_id x) n r]) = []).
    { intros r. rewrite nodes_of_app, edges_of_app, (nl_nodes _ _ _ _ Hl), (nl_edges _ _ _ _ Hl). done. }
    assert (Happ : dn ++ n :: ns = (dn ++ [n]) ++ ns) by (by rewrite <-app_assoc).
    assert (Hmn : m !! n = None).
    { destruct (m !! n) as [id|] eqn:Em; [|done]. exfalso. apply Hn. apply (nl_map _ _ _ _ Hl) in Em. rewrite <-(nl_nodes _ _ _ _ Hl).
      unfold nodes_of. apply elem_of_list_join. exists [n]. split; [left|]. apply elem_of_list_fmap. by exists (ENode id n (Some true)). }
    destruct o as [[]|].
    - rewrite Happ in Hnd, Hlive |- *. destruct (IH (dn ++ [n]) (S x) (<[n := node_id x]> m) t1 (l ++ [ENode (node_id x) n (Some true)]) Hnd Hlive) as (om & t' & l' & E1 & E2 & H).
      { destruct (Enew (Some true)) as [En Ee]. destruct Hl as [H1 H2 H3 H4 H5 H6]. split; try done.
        - intros n' id. rewrite accepted_snoc, <-H3. destruct (decide (n' = n)) as [->|Hne].
          + rewrite lookup_insert, Hmn. naive_solver.
          + rewrite lookup_insert_ne by done. naive_solver.
        - intros n' id. destruct (decide (n' = n)) as [->|Hne]; [rewrite lookup_insert|rewrite lookup_insert_ne by done].
          + intros [= <-]. exists x. split; [lia|done].
          + intros H. destruct (H4 n' id H) as (k & Hk & ->). exists k. split; [lia|done].
        - intros n1 n2 id. destruct (decide (n1 = n)) as [->|N1], (decide (n2 = n)) as [->|N2]; rewrite ?lookup_insert, ?lookup_insert_ne by done; try done.
          + intros [= <-] H. destruct (H4 n2 _ H) as (k & Hk & Ek). apply node_id_inj in Ek. lia.
          + intros H [= <-]. destruct (H4 n1 _ H) as (k & Hk & Ek). apply node_id_inj in Ek. lia.
          + apply H5.
        - intros v [Hin| ->%elem_of_list_singleton]%elem_of_app; [by apply H6|done]. }
      by exists om, t', l'.
    - rewrite Happ in Hnd, Hlive |- *. destruct (IH (dn ++ [n]) x m t1 (l ++ [ENode (node_id x) n (Some false)]) Hnd Hlive) as (om & t' & l' & E1 & E2 & H).
      { destruct (Enew (Some false)) as [En Ee]. destruct Hl as [H1 H2 H3 H4 H5 H6]. split; try done.
        - intros n' id. rewrite accepted_snoc, <-H3. naive_solver.
        - intros v [Hin| ->%elem_of_list_singleton]%elem_of_app; [by apply H6|done]. }
      by exists om, t', l'.
    - exists None, t1, (l ++ [ENode (node_id x) n None]). split; [done|]. split; [done|].
      destruct (Enew None) as [En Ee]. destruct Hl as [H1 H2 H3 H4 H5 H6]. split; [|by exists l, (ENode (node_id x) n None)]. split.
      + rewrite En. rewrite Happ, NoDup_app in Hnd. split; [apply Hnd|]. intros n' Hn'. apply Hlive. rewrite Happ. apply elem_of_app. by left.
      + intros id n1 n2. rewrite !accepted_snoc, <-!H3. intros [A|?] [B|?]; try done. by eapply H5.
      + rewrite Ee. split; [constructor|]. intros a b e r [Hin|Hin%elem_of_list_singleton]%elem_of_app; [|done].
        exfalso. assert (e ∈ edges_of l) as He by (apply edges_of_in; eauto). rewrite H2 in He. by apply elem_of_nil in He.
  Qed.
  (** the log of the loop over the edges *)
  Record edges_log (ns : list nat) (m : gmap nat string) (es : list nat) (l : list event) : Prop := EdgesLog {
    el_nodes : nodes_of l = ns;
    el_map : forall n id, m !! n = Some id <-> accepted l id n;
    el_inj : forall n1 n2 id, m !! n1 = Some id -> m !! n2 = Some id -> n1 = n2;
    el_edges : NoDup (edges_of l) /\ (forall e, e ∈ edges_of l -> e ∈ es);
    el_ends : forall a b e r, EEdge a b e r ∈ l -> exists x, s_edges s !! e = Some x /\ accepted l a (e_from x) /\ accepted l b (e_to x);
    el_all : forall e x, e ∈ es -> s_edges s !! e = Some x -> is_Some (m !! e_from x) -> is_Some (m !! e_to x) -> e ∈ edges_of l;
    el_ok : forall v, v ∈ l -> ~ failed v
  }.
  Lemma edges_log_faithful ns m es l : lists_nodes s ns -> edges_log ns m es l -> faithful s l.
  Proof.
    intros [[N1 N2] _] [H1 H2 H3 H4 H5 H6 H7]. split.
    - rewrite H1. split; [done|]. intros n. apply N2.
    - intros id n1 n2. rewrite <-!H2. apply H3.
    - split; [apply H4|done].
  Qed.
  Lemma render_edges_ok ns m es : lists_nodes s ns -> forall done t l, NoDup (done ++ es) -> (forall e, e ∈ done ++ es -> live_edge s e) -> edges_log ns m done l ->
    exists ok t' l', render_edges g (log_edge er) m es (t, l) = (ok, (t', l')) /\ render_edges g er m es t = (ok, t') /\ faithful s l' /\
      if ok then edges_log ns m (done ++ es) l' else stopped l'.
  Proof.
    intros HN. induction es as [|e es IH]; intros dn t l Hnd Hlive Hl; cbn [render_edges].
    { exists true, t, l. split; [done|]. split; [done|]. rewrite app_nil_r. split; [by eapply edges_log_faithful|done]. }
    assert (Happ : dn ++ e :: es = (dn ++ [e]) ++ es) by (by rewrite <-app_assoc).
    destruct (Hlive e) as [x Hx]; [set_solver|].
    destruct (core_edge _ _ _ _ (core_run _ _ Hv Hr) Hx) as (He & _). unfold edge_from, edge_to. rewrite He.
    assert (Hn : e ∉ dn). { rewrite NoDup_app in Hnd. destruct Hnd as (_ & H & _). intros Hin. apply (H e Hin). left. }
    assert (Hskip : m !! e_from x = None \/ m !! e_to x = None ->
      exists ok t' l', render_edges g (log_edge er) m es (t, l) = (ok, (t', l')) /\ render_edges g er m es t = (ok, t') /\ faithful s l' /\
        if ok then edges_log ns m (dn ++ e :: es) l' else stopped l').
    { intros Hm. rewrite Happ in Hnd, Hlive |- *. destruct (IH (dn ++ [e]) t l Hnd Hlive) as (ok & t' & l' & ?); [|by exists ok, t', l'].
      destruct Hl as [H1 H2 H3 H4 H5 H6 H7]. split; try done.
      - split; [apply H4|]. intros e' He'. apply elem_of_app. left. by apply H4.
      - intros e' y [Hin| ->%elem_of_list_singleton]%elem_of_app Hy [? A] [? B]; [by eapply H6|]. assert (y = x) as -> by congruence. destruct Hm; congruence. }
    destruct (m !! e_from x) as [a|] eqn:Ea; [|by apply Hskip; left].
    destruct (m !! e_to x) as [b|] eqn:Eb; [|by apply Hskip; right]. clear Hskip.
    unfold log_edge at 1. cbn [fst snd]. destruct (er a b e t) as [o t1] eqn:E.
    assert (Hnew : edges_of (l ++ [EEdge a b e o]) = edges_of l ++ [e] /\ nodes_of (l ++ [EEdge a b e o]) = nodes_of l /\
      (forall id n, accepted (l ++ [EEdge a b e o]) id n <-> accepted l id n)).
    { rewrite edges_of_app, nodes_of_app. split; [done|]. split; [by rewrite app_nil_r|]. intros id n. rewrite accepted_snoc. naive_solver. }
    destruct Hnew as (E1 & E2 & E3). destruct Hl as [H1 H2 H3 H4 H5 H6 H7].
    assert (HF : faithful s (l ++ [EEdge a b e o]) /\
      (forall a' b' e' r, EEdge a' b' e' r ∈ l ++ [EEdge a b e o] -> exists x, s_edges s !! e' = Some x /\ accepted (l ++ [EEdge a b e o]) a' (e_from x) /\ accepted (l ++ [EEdge a b e o]) b' (e_to x)) /\
      NoDup (edges_of (l ++ [EEdge a b e o]))).
    { destruct HN as [[N1 N2] _]. 
      assert (A1 : forall a' b' e' r, EEdge a' b' e' r ∈ l ++ [EEdge a b e o] -> exists x, s_edges s !! e' = Some x /\ accepted (l ++ [EEdge a b e o]) a' (e_from x) /\ accepted (l ++ [EEdge a b e o]) b' (e_to x)).
      { intros a' b' e' r [Hin|Hin%elem_of_list_singleton]%elem_of_app.
        - destruct (H5 a' b' e' r Hin) as (y & ? & ? & ?). exists y. by rewrite !E3.
        - injection Hin as -> -> -> ->. exists x. rewrite !E3, <-!H2. done. }
      assert (A2 : NoDup (edges_of (l ++ [EEdge a b e o]))).
      { rewrite E1. apply NoDup_app. split; [apply H4|]. split; [|apply NoDup_singleton]. intros e' He' ->%elem_of_list_singleton. by apply Hn, H4. }
      split; [|done]. split.
      - rewrite E2, H1. split; [done|]. intros n. apply N2.
      - intros id n1 n2. rewrite !E3, <-!H2. apply H3.
      - done. }
    destruct HF as (HF & A1 & A2).
    assert (Hsome : o <> None -> exists ok t' l', render_edges g (log_edge er) m es (t1, l ++ [EEdge a b e o]) = (ok, (t', l')) /\ render_edges g er m es t1 = (ok, t') /\ faithful s l' /\
        if ok then edges_log ns m (dn ++ e :: es) l' else stopped l').
    { intros Ho. rewrite Happ in Hnd, Hlive |- *. destruct (IH (dn ++ [e]) t1 (l ++ [EEdge a b e o]) Hnd Hlive) as (ok & t' & l' & ?); [|by exists ok, t', l'].
      split; try done.
      - by rewrite E2.
      - intros n id. by rewrite E3.
      - split; [done|]. rewrite E1. intros e' [Hin|Hin]%elem_of_app; apply elem_of_app; [left; by apply H4|by right].
      - intros e' y Hin Hy A B. rewrite E1. apply elem_of_app in Hin as [Hin|Hin]; apply elem_of_app; [left; by eapply H6|by right].
      - intros v [Hin| ->%elem_of_list_singleton]%elem_of_app; [by apply H7|done]. }
    destruct o as [r|]; [by apply Hsome|]. exists false, t1, (l ++ [EEdge a b e None]). split; [done|]. split; [done|]. split; [done|].
    by exists l, (EEdge a b e None).
  Qed.
  Lemma render_ok t : node_list_safe ops -> edge_list_safe ops ->
    exists ok t' l, render_nodes_edges g (log_node nr) (log_edge er) (t, []) = Ok (ok, (t', l)) /\ render_nodes_edges g nr er t = Ok (ok, t') /\
      faithful s l /\ if ok then complete s l else stopped l.
  Proof.
    intros Hns Hes. destruct (get_nodes_ok ops g Hv Hr Hns) as (ns & En & HN). destruct (get_edges_ok ops g Hv Hr Hes) as ((es & Ee & E1 & E2) & _).
    unfold render_nodes_edges. rewrite En, Ee. cbn [rbind]. pose proof HN as [[N1 N2] _].
    destruct (render_nodes_ok ns [] 0 ∅ t []) as (om & t1 & l1 & R1 & R2 & H); [done|intros n; apply N2| |].
    { split; try done; [|intros v Hin; by apply elem_of_nil in Hin]. intros n id. unfold accepted. rewrite lookup_empty. split; [done|]. by intros ?%elem_of_nil. }
    rewrite R1, R2. destruct om as [m|]; [|by exists false, t1, l1]. destruct H as [x HL]. cbn [rbind app] in *.
    destruct (render_edges_ok ns m es HN [] t1 l1) as (ok & t2 & l2 & S1 & S2 & F & H); [done|intros e; apply E2| |].
    { destruct HL as [H1 H2 H3 H4 H5 H6]. split; try done.
      - rewrite H2. split; [constructor|done].
      - intros a b e r Hin. exfalso. assert (e ∈ edges_of l1) as He by (apply edges_of_in; eauto). rewrite H2 in He. by apply elem_of_nil in He.
      - intros e y Hin. by apply elem_of_nil in Hin. }
    exists ok, t2, l2. split; [by rewrite S1|]. split; [by rewrite S2|]. split; [done|]. destruct ok; [|done].
    destruct H as [H1 H2 H3 H4 H5 H6 H7]. split; [|split; [|done]].
    - intros n Hn. rewrite H1. by apply N2.
    - intros e y Hy [a Ha] [b Hb]. apply (H6 e y); [apply E2; by exists y|done| |]; [exists a|exists b]; by apply H2.
  Qed.
  (** logging starts with what is in the log *)
  Lemma log_nodes_app ns : forall x m t l, render_nodes (log_node nr) ns x m (t, l) =
    let r := render_nodes (log_node nr) ns x m (t, []) in (r.1, (r.2.1, l ++ r.2.2)).
  Proof.
    induction ns as [|n ns IH]; intros x m t l; cbn [render_nodes]; [cbv zeta; cbn; by rewrite app_nil_r|].
    assert (forall k, log_node nr (node_id x) n (t, k) = let (r, t') := nr (node_id x) n t in (r, (t', k ++ [ENode (node_id x) n r]))) as Hlog by done.
    rewrite !Hlog. clear Hlog. destruct (nr (node_id x) n t) as [[[]|] t1]; cbn [app].
    - rewrite (IH _ _ t1 (l ++ [_])). cbv zeta. rewrite (IH _ _ t1 [_]). cbv zeta. cbn [fst snd]. by rewrite <-app_assoc.
    - rewrite (IH _ _ t1 (l ++ [_])). cbv zeta. rewrite (IH _ _ t1 [_]). cbv zeta. cbn [fst snd]. by rewrite <-app_assoc.
    - done.
  Qed.
  Lemma log_edges_app m es : forall t l, render_edges g (log_edge er) m es (t, l) =
    let r := render_edges g (log_edge er) m es (t, []) in (r.1, (r.2.1, l ++ r.2.2)).
  Proof.
    induction es as [|e es IH]; intros t l; cbn [render_edges]; [cbv zeta; cbn; by rewrite app_nil_r|].
    destruct (m !! edge_from g e) as [a|]; [|apply IH]. destruct (m !! edge_to g e) as [b|]; [|apply IH].
    assert (forall k, log_edge er a b e (t, k) = let (r, t') := er a b e t in (r, (t', k ++ [EEdge a b e r]))) as Hlog by done.
    rewrite !Hlog. clear Hlog. destruct (er a b e t) as [[r|] t1]; cbn [app]; [|done].
    rewrite (IH t1 (l ++ [_])). cbv zeta. rewrite (IH t1 [_]). cbv zeta. cbn [fst snd]. by rewrite <-app_assoc.
  Qed.
  Lemma log_app t l : render_nodes_edges g (log_node nr) (log_edge er) (t, l) =
    let! r := render_nodes_edges g (log_node nr) (log_edge er) (t, []) in Ok (r.1, (r.2.1, l ++ r.2.2)).
  Proof.
    unfold render_nodes_edges. destruct (get_nodes g) as [ns| |]; [|done..]. cbn [rbind]. rewrite log_nodes_app. cbv zeta.
    destruct (render_nodes _ ns 0 ∅ (t, [])) as [[m|] [t1 l1]]; cbn [fst snd]; [|done].
    destruct (get_edges g) as [es| |]; [|done..]. cbn [rbind]. rewrite (log_edges_app m es t1 (l ++ l1)), (log_edges_app m es t1 l1).
    cbv zeta. cbn [fst snd]. by rewrite app_assoc.
  Qed.
  Lemma render_all write name t : node_list_safe ops -> edge_list_safe ops ->
    exists ok t' l, render g (log_node nr) (log_edge er) (log_write write) name (t, []) = Ok (ok, (t', l)) /\
      render g nr er write name t = Ok (ok, t') /\ rendering s name ok l.
  Proof.
    intros Hns Hes. unfold render. unfold log_write at 1. cbn [fst snd]. fold (first_line name).
    destruct (write (first_line name) t) as [[] t1]; [|exists false, t1; eexists; split; [done|]; split; [done|]; by left].
    unfold log_write at 1. cbn [fst snd]. fold second_line.
    destruct (write second_line t1) as [[] t2]; [|exists false, t2; eexists; split; [done|]; split; [done|]; by right; left].
    destruct (render_ok t2 Hns Hes) as (ok & t3 & l3 & E1 & E2 & F & H).
    rewrite log_app, E1, E2. cbn [rbind fst snd]. fold last_line. destruct ok.
    - unfold log_write. cbn [fst snd]. destruct (write last_line t3) as [ok4 t4]. exists ok4, t4. eexists. split; [done|]. split; [done|].
      destruct ok4; [|right; right; right]; by exists l3.
    - exists false, t3. eexists. split; [done|]. split; [done|]. right. right. left. by exists l3.
  Qed.
End dot.

(** ** The default renderers *)
Local Open Scope string_scope.
Local Open Scope list_scope.
Lemma sapp_assoc (a b c : string) : (a +:+ b) +:+ c = a +:+ b +:+ c.
Proof. induction a as [|x a IH]; [done|]. exact (f_equal (String x) IH). Qed.
Lemma sapp_nil (a : string) : a +:+ "" = a.
Proof. induction a as [|x a IH]; [done|]. exact (f_equal (String x) IH). Qed.
Section text.
  Context (ops : list op) (g : graph) (Hv : valid_history ops) (Hr : run ops = Ok g).
  Notation s := (srun ops).
  Lemma default_nodes ns : forall dn m t, NoDup (dn ++ ns) -> (forall n i, dn !! i = Some n -> m !! n = Some (node_id i)) ->
    exists m', render_nodes (default_node builder) ns (length dn) m t = (Some m', t +:+ concat_text (map node_line (seq (length dn) (length ns)))) /\
      forall n i, (dn ++ ns) !! i = Some n -> m' !! n = Some (node_id i).
  Proof.
    induction ns as [|n ns IH]; intros dn m t Hnd Hm; cbn [render_nodes length seq map].
    { exists m. rewrite app_nil_r. unfold concat_text. cbn [foldr]. by rewrite sapp_nil. }
    unfold default_node at 1, builder at 1. assert (Happ : dn ++ n :: ns = (dn ++ [n]) ++ ns) by (by rewrite <-app_assoc).
    rewrite Happ in Hnd |- *.
    destruct (IH (dn ++ [n]) (<[n := node_id (length dn)]> m) (t +:+ "  " +:+ node_id (length dn) +:+ ";" +:+ nl) Hnd) as (m' & E & H').
    { intros n' i Hi. apply lookup_app_Some in Hi as [Hi|[Hl Hi]].
      - rewrite lookup_insert_ne; [by apply Hm|]. intros <-. rewrite NoDup_app in Hnd. destruct Hnd as (Hnd & _).
        rewrite NoDup_app in Hnd. destruct Hnd as (_ & Hnd & _). apply (Hnd n); [by apply elem_of_list_lookup_2 in Hi|left].
      - apply list_lookup_singleton_Some in Hi as [Hi <-]. assert (i = length dn) as -> by lia. by rewrite lookup_insert. }
    exists m'. split; [|done]. rewrite app_length in E. cbn [length] in E. rewrite Nat.add_1_r in E. rewrite E. f_equal.
    unfold concat_text. cbn [foldr]. unfold node_line at 2. by rewrite sapp_assoc.
  Qed.
  Lemma default_edges ns m es : (forall n i, ns !! i = Some n -> m !! n = Some (node_id i)) -> (forall n, live_node s n -> n ∈ ns) ->
    (forall e, e ∈ es -> live_edge s e) ->
    forall t, exists lines, edge_lines s ns es lines /\ render_edges g (default_edge g builder) m es t = (true, t +:+ concat_text lines).
  Proof.
    intros Hm Hn. induction es as [|e es IH]; intros Hes t; cbn [render_edges].
    { exists []. split; [constructor|]. unfold concat_text. cbn. by rewrite sapp_nil. }
    destruct (Hes e) as [x Hx]; [left|]. destruct (core_edge _ _ _ _ (core_run _ _ Hv Hr) Hx) as (He & LF & LT & _).
    apply Hn, elem_of_list_lookup in LF as [i Hi], LT as [j Hj].
    unfold edge_from, edge_to. rewrite He. rewrite (Hm _ _ Hi), (Hm _ _ Hj).
    assert (Ed : forall u, default_edge g builder (node_id i) (node_id j) e u = (Some true, u +:+ edge_line i j (e_label x))).
    { intros u. unfold default_edge, builder. rewrite He. cbv zeta. unfold edge_line. destruct (decide (e_label x = "")); f_equal; f_equal; rewrite ?sapp_assoc; done. }
    rewrite Ed. destruct (IH (fun e H => Hes e (elem_of_list_further _ _ _ H)) (t +:+ edge_line i j (e_label x))) as (lines & HL & E).
    exists (edge_line i j (e_label x) :: lines). split; [constructor; [by exists x, i, j|done]|]. rewrite E. f_equal. unfold concat_text. cbn [foldr]. by rewrite sapp_assoc.
  Qed.
  Lemma default_text name : node_list_safe ops -> edge_list_safe ops ->
    exists ns es lines, lists_nodes s ns /\ lists (live_edge s) es /\ edge_lines s ns es lines /\
      render g (default_node builder) (default_edge g builder) builder name "" =
        Ok (true, "digraph " +:+ name +:+ " {" +:+ nl +:+ "rankdir=" +:+ quote +:+ "LR" +:+ quote +:+ ";" +:+ nl +:+
          concat_text (map node_line (seq 0 (length ns))) +:+ concat_text lines +:+ "}" +:+ nl).
  Proof.
    intros Hns Hes. destruct (get_nodes_ok ops g Hv Hr Hns) as (ns & En & HN). destruct (get_edges_ok ops g Hv Hr Hes) as ((es & Ee & E1 & E2) & _).
    unfold render, render_nodes_edges. assert (forall w t, builder w t = (true, t +:+ w)) as Hb by done. rewrite !Hb, En, Ee. cbn [rbind]. pose proof HN as [[N1 N2] _].
    match goal with |- context [render_nodes (default_node builder) ns 0 ∅ ?u] => set (t0 := u) end.
    destruct (default_nodes ns [] ∅ t0) as (m & Rn & Hm); [done|by intros ? ? ?|]. cbn [length app] in *. rewrite Rn. cbn [rbind].
    destruct (default_edges ns m es Hm (fun n => proj2 (N2 n)) (fun e => proj1 (E2 e)) (t0 +:+ concat_text (map node_line (seq 0 (length ns))))) as (lines & HL & Re).
    rewrite Re. cbn [rbind fst snd]. rewrite Hb. exists ns, es, lines. split; [done|]. split; [done|]. split; [done|].
    do 2 f_equal. unfold t0. unfold nl, quote. rewrite !sapp_assoc. reflexivity.
  Qed.
End text.
