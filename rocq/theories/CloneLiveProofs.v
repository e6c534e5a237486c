From Verif Require Import Base Value Links EdgeMap Graph GraphSpec Sizes EdgeMapPtr ItrLive ItrLiveSpec Clone CloneSpec CloneLive.
From Verif Require Import LinksProofs EdgeMapProofs CoreProofs CoreStep AdjProofs ReadProofs NodeListProofs EdgeListProofs ItrProofs EdgeMapPtrProofs ItrLiveProofs StoreProofs LiveLoopProofs VPathProofs CloneProofs.

(** [rx] is [r], with a state related by [P] *)
Definition like {A B} (r : res A) (rx : res B) (P : A -> B -> Prop) : Prop :=
  match r with Ok a => exists b, rx = Ok b /\ P a b | Panic => rx = Panic | Diverge => rx = Diverge end.
Lemma like_ok {A B} (a : A) (b : B) (P : A -> B -> Prop) : P a b -> like (Ok a) (Ok b) P.
Proof. intros H. by exists b. Qed.
Lemma like_bind {A B A' B'} (r : res A) (rx : res B) (k : A -> res A') (kx : B -> res B') P Q :
  like r rx P -> (forall a b, r = Ok a -> rx = Ok b -> P a b -> like (k a) (kx b) Q) -> like (rbind r k) (rbind rx kx) Q.
Proof. destruct r as [a| |]; cbn; [|by intros ->..]. intros (b & -> & H) Hk. by apply Hk. Qed.
Lemma like_mono {A B} (r : res A) (rx : res B) (P Q : A -> B -> Prop) : like r rx P -> (forall a b, P a b -> Q a b) -> like r rx Q.
Proof. destruct r as [a| |]; cbn; [|done..]. intros (b & -> & H) Hq. exists b. auto. Qed.

Lemma rbind_rbind {A B C} (r : res A) (k : A -> res B) (h : B -> res C) : rbind (rbind r k) h = rbind r (fun a => rbind (k a) h).
Proof. by destruct r. Qed.

Section within.
  Context (s0 : sgraph) (f : string -> value -> value) (ord : nat -> list string).
  Notation N := (s_next s0).
  Context (Hn0 : forall n, live_node s0 n -> n < N) (He0 : forall e, live_edge s0 e -> e < N).
  Context (Hends : forall e x, s_edges s0 !! e = Some x -> live_node s0 (e_to x)).
  Context (Hord : forall n x, s_nodes s0 !! n = Some x -> order_of (sn_labels x) (ord n)).

  (** the calls that the copying makes: they create nodes, and edges from nodes that were not there at the start *)
  Definition new_call (o : op) : Prop :=
    match o with ONewNode _ _ _ => True | ONewEdge from _ _ _ => N <= from | _ => False end.
  Definition grown (s : sgraph) : Prop :=
    (forall n, n < N -> s_nodes s !! n = s_nodes s0 !! n) /\
    (forall e x, e_from x < N -> s_edges s !! e = Some x <-> s_edges s0 !! e = Some x) /\
    N <= s_next s.
  Lemma grown_start : grown s0.
  Proof. split; [done|]. split; [done|lia]. Qed.
  Lemma grown_step s o : grown s -> new_call o -> grown (sstep s o).
  Proof.
    intros (G1 & G2 & G3) Ho. destruct o; cbn in Ho; try done; split; cbn.
    - intros i Hi. rewrite lookup_insert_ne by lia. by apply G1.
    - split; [done|lia].
    - done.
    - split; [|lia]. intros i x Hx. destruct (decide (i = s_next s)) as [->|Hne].
      + rewrite lookup_insert. split; [intros [= <-]; cbn in Hx; lia|]. intros Hs. assert (s_next s < N) by (apply He0; by exists x). lia.
      + rewrite lookup_insert_ne by done. by apply G2.
  Qed.
  Lemma grown_calls calls : forall s, grown s -> Forall new_call calls -> grown (fold_left sstep calls s).
  Proof.
    induction calls as [|o calls IH]; intros s Hg Hf; [done|]. apply Forall_cons in Hf as [Ho Hf]. cbn. apply IH; [|done]. by apply grown_step.
  Qed.
  Lemma new_keeps n r calls : n < N -> Forall new_call calls -> forall s, calls_keep (node_keeps n Outgoing QAll) s r calls.
  Proof.
    intros Hn. induction 1 as [|o calls Ho Hf IH]; intros s; cbn; [done|]. split; [|apply IH].
    destruct o; cbn in *; try done. intros _. split; [intros _; lia|done].
  Qed.
  Definition images (s : sgraph) (m : gmap nat nat) : Prop := forall a b, m !! a = Some b -> live_node s b.
  Lemma new_live calls : forall s n, Forall new_call calls -> live_node s n -> live_node (fold_left sstep calls s) n.
  Proof.
    induction calls as [|o calls IH]; intros s n Hf Hl; [done|]. apply Forall_cons in Hf as [Ho Hf]. cbn. apply IH; [done|].
    destruct o; cbn in Ho; try done. unfold live_node in *. cbn. destruct (decide (n = s_next s)) as [->|Hne]; [rewrite lookup_insert; by eexists|].
    by rewrite lookup_insert_ne.
  Qed.

  (** calls leading from one state to another *)
  Definition leads (calls : list op) (g : graph) (a : store) (s : sgraph) (g' : graph) (a' : store) : Prop :=
    rfold step calls g = Ok g' /\ rfold x_step calls (XG g a) = Ok (XG g' a') /\ valid_from s calls /\ Forall new_call calls.
  Lemma leads_app c1 c2 g a s g1 a1 g2 a2 : leads c1 g a s g1 a1 -> leads c2 g1 a1 (fold_left sstep c1 s) g2 a2 -> leads (c1 ++ c2) g a s g2 a2.
  Proof.
    intros (H1 & H2 & H3 & H4) (K1 & K2 & K3 & K4). split; [rewrite rfold_app, H1; exact K1|]. split; [rewrite rfold_app, H2; exact K2|].
    split; [by apply valid_from_app|by apply Forall_app].
  Qed.
  Lemma leads_sim calls : forall F g a s g' a', leads calls g a s g' a' -> sim F g a -> core g s ->
    exists F', sim F' g' a' /\ core g' (fold_left sstep calls s).
  Proof.
    induction calls as [|o calls IH]; intros F g a s g' a' (H1 & H2 & H3 & H4) Hs Hc; cbn [rfold fold_left] in *.
    { injection H1 as <-. injection H2 as <-. by exists F. }
    apply rbind_Ok_inv in H1 as (g1 & E1 & H1). destruct H3 as [Hv H3]. apply Forall_cons in H4 as [Ho H4].
    destruct (step_sim (fun _ => True) F g g1 a s o Hs Hc Hv E1) as (F1 & a1 & E & S1 & _).
    unfold x_step at 1 in H2. cbn [x_g x_a] in H2. rewrite E1 in H2. cbn [rbind] in H2. rewrite E in H2. cbn [rbind] in H2.
    apply (IH F1 g1 a1); [done|done|]. by eapply core_step.
  Qed.
  Lemma leads_one F g a s o : sim F g a -> core g s -> valid s o -> new_call o ->
    like (step g o) (x_step (XG g a) o) (fun g' x' => exists a', x' = XG g' a' /\ leads [o] g a s g' a').
  Proof.
    intros Hs Hc Hv Ho. destruct (step g o) as [g'| |] eqn:E; cbn; [|unfold x_step; cbn [x_g x_a]; by rewrite E..].
    destruct (step_sim (fun _ => True) F g g' a s o Hs Hc Hv E) as (F1 & a1 & E1 & _).
    assert (x_step (XG g a) o = Ok (XG g' a1)) as Ex by (unfold x_step; cbn [x_g x_a]; rewrite E; cbn [rbind]; by rewrite E1).
    exists (XG g' a1). split; [done|]. exists a1. split; [done|]. unfold leads. cbn [rfold]. rewrite E, Ex. split; [done|]. split; [done|].
    split; [done|]. by constructor.
  Qed.

  (** the iterator over the edges from a node *)
  Lemma out_iterator F g a s n es : sim F g a -> core g s -> live_node s n -> node_edges g n Outgoing = Ok es ->
    exists its, x_node_edges (XG g a) n Outgoing QAll = Ok its /\
      forall ops, valid_from s ops -> state (selects QAll) (owners n Outgoing) F ∅ g a s its es ops.
  Proof.
    intros Hs Hc Hn Hes. pose proof Hc as ((Hadj & _) & _).
    destruct (Hadj n) as (nd & Hnd & Hi & Ho); [by apply elem_of_dom|].
    destruct (node_query_owners g n Outgoing QAll es (ex_intro _ _ Hnd) Hes) as (ess & Hq1 & Hq2).
    destruct (iterators_ok (selects QAll) F g a (s_edges s) QAll (owners n Outgoing) ess Hs I) as (its & E & Hl & Hos); [| | |exact Hq1|].
    { intros o ->%elem_of_list_singleton. exists (lbl g), (outs (s_edges s) n). cbn [links_at em_at own]. rewrite Hnd. split; [done|]. split; [|done].
      eapply core_edges_size; [done|]. intros e He. apply elem_of_outs in He as (x & ? & _). by exists x. }
    { intros x xd Hx. destruct Hc as ((_ & HC) & _). apply HC in Hx as (Hx & _). unfold lbl. by rewrite Hx. }
    { intros o ->%elem_of_list_singleton. by left. }
    exists its. split; [done|]. intros ops Hv. rewrite <-Hq2 in Hl. split; try done; [by rewrite Hos|]. by intros [=]%elem_of_list_singleton.
  Qed.

  Notation within := (copy_gen f ord id).
  Definition result (g : graph) (a : store) (s : sgraph) (m : gmap nat nat) (mt : gmap nat nat * graph) (mx : gmap nat nat * xgraph) : Prop :=
    exists calls a', mx = (mt.1, XG mt.2 a') /\ leads calls g a s mt.2 a' /\ m ⊆ mt.1 /\ images (fold_left sstep calls s) mt.1.

  Lemma clone_live F g a s n : sim F g a -> core g s -> grown s -> live_node s0 n ->
    like (clone_node g g f n (ord n)) (x_clone_node f (XG g a) n (ord n))
      (fun r rx => exists calls a', rx = (XG r.1 a', r.2) /\ leads calls g a s r.1 a' /\ r.2 = s_next s /\ live_node (fold_left sstep calls s) r.2).
  Proof.
    intros Hs Hc Hgr [x Hx]. assert (s_nodes s !! n = Some x) as Hx' by (rewrite (proj1 Hgr); [done|by apply Hn0; exists x]).
    destruct (core_node _ _ _ _ Hc Hx') as (nd & Hnd & El & Ep). unfold clone_node, x_clone_node, deref_node. cbn [x_g]. rewrite Hnd. cbn [rbind].
    set (o := ONewNode (n_labels nd) (clone_props f (n_props nd)) (ord n)).
    assert (valid s o) as Hv by (cbn; rewrite El; by apply (Hord n)).
    pose proof (leads_one F g a s o Hs Hc Hv I) as Hl. unfold o in Hl at 1. cbn [step] in Hl.
    destruct (new_node g (n_labels nd) (clone_props f (n_props nd)) (ord n)) as [[g' n']| |] eqn:En; cbn [rbind fst] in Hl; cbn [like] in Hl |- *.
    - destruct Hl as (x' & -> & a' & -> & Hl). cbn [rbind]. eexists. split; [done|]. exists [o], a'.
      destruct (new_node_shape _ _ _ _ _ _ En) as (En' & _). pose proof Hc as (_ & Hnx & _). cbn [fst snd]. rewrite En'. split; [done|]. split; [done|]. split; [done|].
      exists (SNode (n_labels nd) (clone_props f (n_props nd))). cbn. rewrite Hnx. by rewrite lookup_insert.
    - by rewrite Hl.
    - by rewrite Hl.
  Qed.
  Lemma copy_edge_live F g a s m e : sim F g a -> core g s -> images s m -> (forall b, m !! edge_from g e = Some b -> N <= b) ->
    like (copy_edge g g f m e) (x_copy_edge f (XG g a) m e) (fun r rx => exists calls a', rx = XG r.1 a' /\ leads calls g a s r.1 a').
  Proof.
    intros Hs Hc Him Hm. unfold copy_edge, x_copy_edge. cbn [x_g]. destruct (m !! edge_from g e) as [b|] eqn:Eb; [|done].
    destruct (m !! edge_to g e) as [c|] eqn:Ec; [|done]. unfold clone_edge.
    destruct (deref_edge g e) as [ed| |] eqn:Ed; cbn [rbind like]; [|done..].
    set (o := ONewEdge b c (e_label ed) (clone_props f (e_props ed))).
    assert (valid s o) as Hv by (split; by eapply Him).
    pose proof (leads_one F g a s o Hs Hc Hv (Hm b eq_refl)) as Hl. unfold o in Hl at 1. cbn [step] in Hl.
    destruct (new_edge g b c (e_label ed) (clone_props f (e_props ed))) as [[g' e']| |] eqn:En; cbn [rbind fst] in Hl; cbn [like] in Hl |- *; [|done..].
    destruct Hl as (x' & -> & a' & -> & Hl). eexists. split; [done|]. exists [o], a'. done.
  Qed.
  Lemma grown_out s n e : grown s -> live_node s0 n -> is_out s n e <-> is_out s0 n e.
  Proof.
    intros (_ & G & _) Hn%Hn0. unfold is_out. split; intros (x & Hx & Hf); exists x; (split; [|done]); apply (G e x); try done; by rewrite Hf.
  Qed.
  Lemma sub_live j k : size (s_edges s0) < j -> forall n F g a s m, sim F g a -> core g s -> grown s -> live_node s0 n -> images s m ->
    like (within k n g m) (x_copy_subgraph f ord j k n (XG g a) m) (result g a s m).
  Proof.
    intros Hj. induction k as [|k IHk]; intros n F g a s m Hs Hc Hgr Hn Him; cbn [copy_gen x_copy_subgraph]; [done|].
    destruct (m !! n) eqn:En. { apply like_ok. exists [], a. split; [done|]. split; [|done]. by split_and!. }
    eapply like_bind; [exact (clone_live F g a s n Hs Hc Hgr Hn)|]. intros [g1 n'] rx _ _ (c1 & a1 & -> & L1 & En' & Ln'). cbn [fst snd] in *.
    destruct (leads_sim _ _ _ _ _ _ _ L1 Hs Hc) as (F1 & Hs1 & Hc1). set (s1 := fold_left sstep c1 s) in *.
    assert (Hgr1 : grown s1) by (apply grown_calls; [done|apply L1]). pose proof (Hn0 _ Hn) as HnN.
    assert (Hn1 : live_node s1 n). { destruct Hn as [x Hx]. exists x. by rewrite (proj1 Hgr1). }
    assert (HnN' : N <= n') by (rewrite En'; apply Hgr).
    assert (Him1 : images s1 (<[n := n']> m)).
    { intros y b. destruct (decide (y = n)) as [->|Hne]; [rewrite lookup_insert; by intros [= <-]|rewrite lookup_insert_ne by done].
      intros Hb. apply new_live; [apply L1|]. by eapply Him. }
    destruct (node_edges_out g1 s1 Hc1 n Hn1) as (es & Hes & Hnd & Hin). change (id g1) with g1. rewrite Hes. cbn [rbind].
    destruct (out_iterator F1 g1 a1 s1 n es Hs1 Hc1 Hn1 Hes) as (its & -> & Hst). cbn [rbind].
    assert (Hloop : forall es its j' F g a s m, state (selects QAll) (owners n Outgoing) F ∅ g a s its es [] -> length es < j' -> grown s -> images s m ->
      m !! n = Some n' -> (forall e, e ∈ es -> is_out s0 n e) ->
      like (rfold (fun mt e =>
                let! mt1 := within k (edge_to (id mt.2) e) mt.2 mt.1 in
                let! r := copy_edge (id mt1.2) mt1.2 f mt1.1 e in
                Ok (mt1.1, r.1)) es (m, g)) (x_sub_loop f (x_copy_subgraph f ord j k) j' its (XG g a) m) (result g a s m)).
    { clear -IHk Hn0 He0 Hends HnN HnN'. intros es. induction es as [|e es IH]; intros its j' F g a s m Hst Hlen Hgr Him Hm Hin;
        (destruct j' as [|j']; [cbn in Hlen; lia|]); cbn [rfold x_sub_loop x_a x_g].
      - destruct (xs_next_ok _ _ _ _ _ _ (st_left _ _ _ _ _ _ _ _ _ _ Hst)) as [its' ->]. cbn [rbind fst]. apply like_ok.
        exists [], a. split; [done|]. split; [|done]. by split_and!.
      - destruct (xs_next_ok _ _ _ _ _ _ (st_left _ _ _ _ _ _ _ _ _ _ Hst)) as (its' & -> & Hl & Hi). cbn [rbind fst snd id].
        destruct Hst as [Hs Hc H3 H4 H5 H6].
        destruct (Hin e) as (x & Hx & Hfx); [left|]. 
        assert (Hxs : s_edges s !! e = Some x) by (apply Hgr; [by rewrite Hfx|done]).
        destruct (edge_ends g s Hc _ _ Hxs) as [Ef Et]. rewrite Et.
        rewrite rbind_rbind. eapply like_bind; [exact (IHk (e_to x) F g a s m Hs Hc Hgr (Hends _ _ Hx) Him)|].
        intros [m1 g1] mx _ _ (c1 & a1 & -> & L1 & M1 & Him1). cbn [fst snd] in *.
        destruct (leads_sim _ _ _ _ _ _ _ L1 Hs Hc) as (F1 & Hs1 & Hc1).
        assert (Hgr1 : grown (fold_left sstep c1 s)) by (apply grown_calls; [done|apply L1]).
        assert (Hxs1 : s_edges (fold_left sstep c1 s) !! e = Some x) by (apply Hgr1; [by rewrite Hfx|done]).
        destruct (edge_ends g1 _ Hc1 _ _ Hxs1) as [Ef1 Et1].
        rewrite rbind_rbind. eapply like_bind.
        { apply (copy_edge_live F1 g1 a1 (fold_left sstep c1 s) m1 e Hs1 Hc1 Him1). rewrite Ef1, Hfx, (lookup_weaken _ _ _ _ Hm M1). by intros b [= <-]. }
        intros [g2 e'] x2 _ _ (c2 & a2 & -> & L2). cbn [rbind fst snd] in *.
        pose proof (leads_app _ _ _ _ _ _ _ _ _ L1 L2) as L.
        assert (Hst' : state (selects QAll) (owners n Outgoing) F ∅ g a s its' es ((c1 ++ c2) ++ [])).
        { split; try done; [intros o Ho; by apply H4, Hi|rewrite app_nil_r; apply L|intros [=]%elem_of_list_singleton]. }
        destruct (state_calls (node_keeps n Outgoing QAll) _ _ (fun s r c o => node_keeps_owner n Outgoing QAll s r c o) (c1 ++ c2) F ∅ g a s its' es [] g2 Hst')
          as (F2 & Fl2 & a2' & Ea & Hst2); [apply new_keeps; [done|apply L]|apply L|].
        assert (a2' = a2) as ->. { destruct L as (_ & L' & _). clear -L' Ea. congruence. }
        assert (Hgr2 : grown (fold_left sstep (c1 ++ c2) s)) by (apply grown_calls; [done|apply L]).
        assert (Him2 : images (fold_left sstep (c1 ++ c2) s) m1).
        { intros y b Hb. rewrite fold_left_app. apply new_live; [apply L2|]. by eapply Him1. }
        eapply like_mono; [apply (IH its' j' F2 g2 a2 (fold_left sstep (c1 ++ c2) s) m1)|]; try done.
        + destruct Hst2; split; try done. intros [=]%elem_of_list_singleton.
        + cbn in Hlen. lia.
        + by eapply lookup_weaken.
        + intros y Hy. apply Hin. by right.
        + intros [m3 g3] mx (c3 & a3 & -> & L3 & M3 & Him3). cbn [fst snd] in *. exists ((c1 ++ c2) ++ c3), a3. split; [done|].
          split; [by eapply leads_app|]. split; [by etrans|]. by rewrite fold_left_app. }
    eapply like_mono; [apply (Hloop es its j F1 g1 a1 s1 (<[n := n']> m))|]; try done.
    - apply Hst. done.
    - eapply Nat.le_lt_trans; [|exact Hj]. rewrite <-(size_dom (D := gset nat)). rewrite <-(size_list_to_set (C := gset nat)) by done.
      apply subseteq_size. intros e He%elem_of_list_to_set. apply Hin, (grown_out s1 n e Hgr1 Hn) in He as (x & Hx & _). apply elem_of_dom. by exists x.
    - by rewrite lookup_insert.
    - intros e He. by apply (grown_out s1 n e Hgr1 Hn), Hin.
    - intros [m3 g3] mx (c3 & a3 & -> & L3 & M3 & Him3). cbn [fst snd] in *. exists (c1 ++ c3), a3. split; [done|].
      split; [by eapply leads_app|]. split; [|by rewrite fold_left_app]. etrans; [|exact M3]. by apply insert_subseteq.
  Qed.
End within.

Section self.
  Context (ops : list op) (g : graph) (f : string -> value -> value) (ord : nat -> list string).
  Context (Hv : valid_history ops) (Hr : run ops = Ok g).
  Context (Hord : forall n x, s_nodes (srun ops) !! n = Some x -> order_of (sn_labels x) (ord n)).

  Lemma self_agrees m0 ops' tgt m h : good (srun ops) f ops m0 ops' tgt m h -> fresh_from (srun ops) m0 h -> agrees (srun ops) tgt.
  Proof.
    intros (Hv' & Hr' & _ & X & _) Hff. pose proof (core_run _ _ Hv' Hr') as Hc. destruct X as [X1 X2 X3 X4 X5 X6 X7 X8 X9]. split; [|split].
    - intros n x Hx. destruct (core_node _ _ _ _ Hc (lookup_weaken _ _ _ _ Hx X2)) as (nd & ? & ? & ?). eauto.
    - intros e x Hx. by destruct (core_edge _ _ _ _ Hc (lookup_weaken _ _ _ _ Hx X3)) as (? & _).
    - intros n Hn. assert (live_node (srun (ops ++ ops')) n) as Hn'. { destruct Hn as [x Hx]. exists x. by eapply lookup_weaken. }
      destruct (node_edges_out _ _ Hc n Hn') as (es & Hes & Hnd & Hin). exists es. split; [done|]. split; [done|]. intros e. rewrite Hin. split.
      + intros (y & Hy & Hf). destruct (X9 e) as [[x Hx]|[e0 He0]]; [by exists y| |].
        * exists x. split; [done|]. apply (lookup_weaken _ _ _ _ Hx) in X3. assert (x = y) as -> by (clear -X3 Hy; congruence). done.
        * destruct (X5 _ _ He0) as (_ & x & y' & Hx & Hy' & E1 & _). assert (y' = y) as -> by (clear -Hy Hy'; congruence).
          destruct (X4 _ _ E1) as (Hno & _); [by eapply Hff; [done|eexists]|]. rewrite Hf in Hno. destruct Hn as [z Hz]. clear -Hno Hz. congruence.
      + intros (x & Hx & Hf). exists x. split; [by eapply lookup_weaken|done].
  Qed.
  Lemma self_like j k n m0 : live_node (srun ops) n -> (forall a b, m0 !! a = Some b -> live_node (srun ops) b) -> size (s_edges (srun ops)) < j ->
    like (copy_gen f ord id k n g m0) (let! x := x_run ops in x_copy_subgraph f ord j k n x m0) (fun mt mx => mx.1 = mt.1 /\ x_g mx.2 = mt.2).
  Proof.
    intros Hn Hm Hj. destruct (x_run_sim ops g Hv Hr) as (F & a & -> & Hs). cbn [rbind]. pose proof (core_run _ _ Hv Hr) as Hc.
    destruct (ids_bounded _ _ Hv Hr) as [B1 B2].
    eapply like_mono; [eapply (sub_live (srun ops) f ord B1 B2)|]; try done.
    - intros e x Hx. by destruct (core_edge _ _ _ _ Hc Hx) as (_ & _ & ? & _).
    - intros mt mx (calls & a' & -> & _). done.
  Qed.
  Theorem self_sound j k n m0 m x' : live_node (srun ops) n -> (forall a b, m0 !! a = Some b -> live_node (srun ops) b) ->
    size (s_nodes (srun ops)) < k -> size (s_edges (srun ops)) < j ->
    (let! x := x_run ops in x_copy_subgraph f ord j k n x m0) = Ok (m, x') ->
    exists ops' h, valid_history (ops ++ ops') /\ run (ops ++ ops') = Ok (x_g x') /\ Forall (clone_op f (srun ops)) ops' /\
      copied_part f (srun ops) (srun ops) (srun (ops ++ ops')) n m0 m h.
  Proof.
    intros Hn Hm Hk Hj Hx. pose proof (self_like j k n m0 Hn Hm Hj) as Hl.
    pose proof (copy_gen_sat ops ops g g f ord Hv Hr Hv Hr Hord id k n m0 (self_agrees m0) Hn Hm Hk) as [Hsat _].
    destruct (copy_gen f ord id k n g m0) as [[m1 g1]| |]; cbn [like] in Hl; [|rewrite Hl in Hx; discriminate Hx..].
    destruct Hl as (mx & E & E1 & E2). rewrite E in Hx. injection Hx as ->. cbn [fst snd] in *. subst m1 g1. exact (Hsat _ eq_refl).
  Qed.
  Theorem self_returns j k n m0 : live_node (srun ops) n -> (forall a b, m0 !! a = Some b -> live_node (srun ops) b) ->
    size (s_nodes (srun ops)) < k -> size (s_edges (srun ops)) < j -> calls_safe ops -> can_hold ops f (srun ops) ->
    exists r, (let! x := x_run ops in x_copy_subgraph f ord j k n x m0) = Ok r.
  Proof.
    intros Hn Hm Hk Hj Hs Hh. pose proof (self_like j k n m0 Hn Hm Hj) as Hl.
    pose proof (copy_gen_sat ops ops g g f ord Hv Hr Hv Hr Hord id k n m0 (self_agrees m0) Hn Hm Hk) as [_ Hsat].
    destruct (Hsat (conj Hs Hh)) as [mt E]. rewrite E in Hl. destruct Hl as (mx & E' & _). by exists mx.
  Qed.
End self.

(** CopyGraph into the same graph *)
Lemma copy_nodes_never f ord k : forall x xs v t, chain (g_nl (x_g x)) (Some v) (v :: xs ++ [t]) -> ll_tail (g_list (x_g x)) = Some t ->
  (forall y, y ∈ v :: xs ++ [t] -> y < g_next (x_g x)) -> (forall y, g_next (x_g x) <= y -> lk (g_nl (x_g x)) y = Elem None None) -> NoDup (v :: xs ++ [t]) ->
  forall m r, x_copy_nodes f ord k (Some v) x m <> Ok r.
Proof.
  induction k as [|k IH]; intros x xs v t Hch Ht Hlt Hfr Hnd m r; [done|]. cbn [x_copy_nodes]. set (g := x_g x) in *.
  destruct Hch as [_ Hch]. set (n := g_next g) in *. intros (rx & Hx & Hgo)%rbind_Ok_inv. revert Hgo. unfold x_clone_node in Hx.
  apply rbind_Ok_inv in Hx as (nd & _ & Hx). apply rbind_Ok_inv in Hx as (x' & Hst & [= <-]). cbn [fst snd]. unfold x_step in Hst.
  apply rbind_Ok_inv in Hst as (g' & Hs & Hst). apply rbind_Ok_inv in Hst as (a' & _ & [= <-]). fold g in Hs.
  pose proof (step_list _ _ _ Hs) as Hl. cbn in Hl. fold n in Hl.
  assert (g_next g' = S n) as Hn. { apply step_next in Hs as (cr & Hcr & [[-> ?]|[_ ?]]); [|done]. simpl in Hcr. by inv_ok Hcr. }
  unfold nl_add in Hl. rewrite Ht in Hl. injection Hl as El EL. apply NoDup_cons in Hnd as [Hv Hnd].
  assert (t < n) as Htn by (apply Hlt; clear; set_solver).
  assert (forall y, y <> t -> y <> n -> lk (g_nl g') y = lk (g_nl g) y) as Hoth.
  { intros y H1 H2. rewrite EL, lk_set_next, decide_False, lk_set_prev, decide_False by done. done. }
  assert (chain (g_nl g') (el_next (lk (g_nl g) v)) (xs ++ [t; n])) as Hch'.
  { eapply chain_snoc; [exact Hch|..].
    - intros y Hy. rewrite Hoth; [done|..].
      + intros ->. apply NoDup_app in Hnd as (_ & Hd & _). apply (Hd t Hy). left.
      + assert (y < n) by (apply Hlt; clear -Hy; set_solver). lia.
    - by rewrite EL, lk_set_next, decide_True.
    - rewrite EL, lk_set_next, decide_False by lia. rewrite lk_set_prev, decide_True by done. cbn. by rewrite Hfr. }
  assert (xs ++ [t; n] = (xs ++ [t]) ++ [n]) as E by (by rewrite <-app_assoc). rewrite E in Hch'.
  assert (NoDup ((xs ++ [t]) ++ [n])) as Hnd'.
  { apply NoDup_app. split; [done|]. split; [|apply NoDup_singleton]. intros y Hy ->%elem_of_list_singleton.
    assert (n < n) by (apply Hlt; by right). lia. }
  assert (forall y, y ∈ (xs ++ [t]) ++ [n] -> y < g_next g') as Hlt'.
  { intros y [Hy|Hy%elem_of_list_singleton]%elem_of_app; [|subst y; lia]. assert (y < n) by (apply Hlt; by right). lia. }
  destruct (xs ++ [t]) as [|w ys] eqn:Exs; [by destruct xs|]. cbn [app] in *. destruct Hch' as [Hw Hch']. rewrite Hw.
  apply (IH (XG g' a') ys w n); cbn [x_g]; try done.
  - by rewrite El.
  - intros y Hy. rewrite Hn in Hy. rewrite Hoth by lia. apply Hfr. lia.
Qed.
Theorem copy_graph_never ops g ns f ord k r : valid_history ops -> run ops = Ok g -> node_list_safe (ops ++ creating []) -> get_nodes g = Ok ns ->
  2 <= length ns -> (let! x := x_run ops in x_copy_graph f ord k x) <> Ok r.
Proof.
  intros Hv Hr Hsafe Hns Hlen. destruct (x_run_sim ops g Hv Hr) as (F & a & -> & Hs). cbn [rbind].
  apply node_list_safe_snoc in Hsafe as [Hsafe Hok]. destruct (nodes_inv_run _ _ Hv Hr Hsafe) as (xs & Hl & Hi).
  pose proof (nl_inv_walk _ _ _ _ _ (fuel g) Hi) as Hw. unfold get_nodes in Hns. rewrite Hw in Hns by (eapply nodes_fuel; [by eapply core_run|done]).
  injection Hns as <-. pose proof Hi as (Hnd & Hh & Hs' & _ & Ht & Hlt & Hfr).
  destruct xs as [|v xs]; [cbn in Hlen; lia|]. destruct xs as [|t xs _] using rev_ind; [cbn in Hlen; lia|].
  unfold x_copy_graph. cbn [x_g]. rewrite Hh. cbn [head]. intros (mr & Hgo & _)%rbind_Ok_inv. revert Hgo. apply (copy_nodes_never f ord k (XG g a) xs v t); cbn [x_g]; try done.
  - apply chain_walk with (f := fuel g). change (Some v) with (head (v :: xs ++ [t])). rewrite <-Hh. apply Hw. eapply nodes_fuel; [by eapply core_run|done].
  - assert (ng_stale (ng_run ng_init s_empty ops) = false) as Hst.
    { destruct (ng_stale _) eqn:E; [|done]. cbn in Hok. specialize (Hok E). destruct Hl as [[_ Hin] _].
      assert (live_node (srun ops) v) as [x Hx] by (apply Hin; left). unfold srun in Hx. rewrite Hok in Hx. by rewrite lookup_empty in Hx. }
    rewrite Hst in Ht. rewrite Ht. change (v :: xs ++ [t]) with ((v :: xs) ++ [t]). apply list.last_snoc.
Qed.
