(** The edge maps on the heap (EdgeMapPtr.v) follow those of the graph in every history, and what is left of an iterator
    over an edge map is not changed by calls that do not concern it. *)
From Verif Require Import Base Assoc Value Links EdgeMap Graph GraphSpec AssocProofs LinksProofs EdgeMapProofs CoreProofs CoreStep.
From Verif Require Import EdgeMapPtr EdgeMapPtrProofs ItrLive ItrLiveProofs.

(** the edge map of Graph.v with its link fields *)
Definition em_at (g : graph) (o : owner) : emap :=
  match o with
  | OAll => g_all g
  | OOut n => match g_nodes g !! n with Some nd => n_out nd | None => em_empty end
  | OIn n => match g_nodes g !! n with Some nd => n_in nd | None => em_empty end
  end.
Definition links_at (g : graph) (o : owner) : links :=
  match o with OAll => g_l0 g | OOut _ => g_l1 g | OIn _ => g_l2 g end.
Definition ix (o : owner) : nat := match o with OAll => 0 | OOut _ => 1 | OIn _ => 2 end.

(** the map of [o] is stored in the objects [F o] *)
Definition sim (F : owner -> gset nat) (g : graph) (a : store) : Prop :=
  (forall o, xrel (st_h a) (st_map a o) (em_at g o) (F o)) /\
  (forall o o' x, x ∈ F o -> x ∈ F o' -> o = o') /\
  (forall o, st_links a o = links_at g o) /\
  hp_ok (st_h a).
Lemma sim_ext F g g' a : (forall o, em_at g' o = em_at g o) -> (forall o, links_at g' o = links_at g o) -> sim F g a -> sim F g' a.
Proof.
  intros He Hl (H1 & H2 & H3 & H4). split; [|split; [done|split; [|done]]].
  - intros o. rewrite He. apply H1.
  - intros o. by rewrite Hl, H3.
Qed.
(** [g'] is [g] with the map of [o] and its links replaced *)
Definition put_at (g g' : graph) (o : owner) (em : emap) (L : links) : Prop :=
  em_at g' o = em /\ (forall o', o' <> o -> em_at g' o' = em_at g o') /\
  forall o', links_at g' o' = if decide (ix o = ix o') then L else links_at g o'.

(** the objects [J] do not belong to maps other than that of [o] *)
Definition apart (F : owner -> gset nat) (J : gset nat) (o : owner) (h : xheap) : Prop :=
  (forall x, x ∈ J -> x < xh_next h) /\ (forall o' x, o' <> o -> x ∈ J -> x ∉ F o').
Section sel.
(** the labels that the iterators select *)
Context (sel : string -> Prop).
Definition picks (it : xitr) : Prop := forall l, ~ sel l -> avoids it l.
(** an iterator over the map of [o] with [r] left keeps it *)
Definition moves (o : owner) (r : list nat) (F : owner -> gset nat) (a : store) (F' : owner -> gset nat) (a' : store) : Prop :=
  forall J it, picks it -> apart F J o (st_h a) -> remains J (st_h a) (st_links a o) it r ->
    apart F' J o (st_h a') /\ remains J (st_h a') (st_links a' o) it r.
Lemma moves_refl o r F a : moves o r F a F a.
Proof. by intros J it. Qed.
Lemma moves_trans o r F1 a1 F2 a2 F3 a3 : moves o r F1 a1 F2 a2 -> moves o r F2 a2 F3 a3 -> moves o r F1 a1 F3 a3.
Proof. intros H1 H2 J it P A R. destruct (H1 J it P A R). by apply H2. Qed.

Lemma st_put_map a o h m L o' : st_map (st_put a o h m L) o' = if decide (o' = o) then m else st_map a o'.
Proof.
  destruct o as [|n|n], o' as [|n'|n']; cbn; try done;
    (case_decide as D; [injection D as ->; by rewrite lookup_insert|rewrite lookup_insert_ne; [done|]; intros ->; by apply D]).
Qed.
Lemma st_put_h a o h m L : st_h (st_put a o h m L) = h.
Proof. by destruct o. Qed.
Lemma st_put_links a o h m L o' : st_links (st_put a o h m L) o' = if decide (ix o = ix o') then L else st_links a o'.
Proof. by destruct o, o'. Qed.

Definition upd (F : owner -> gset nat) (o : owner) (X : gset nat) : owner -> gset nat := fun o' => if decide (o' = o) then X else F o'.
Lemma sim_put F g g' a o em L h m F' :
  sim F g a -> hp_ok h -> xrel h m em F' -> within (F o) (st_h a) h -> grown (F o) F' (st_h a) h -> put_at g g' o em L ->
  sim (upd F o F') g' (st_put a o h m L) /\
  forall J o', apart F J o' (st_h a) -> apart (upd F o F') J o' h.
Proof.
  intros (H1 & H2 & H3 & _) Hh Hx W G (P1 & P2 & P3). unfold upd. split; [split; [|split; [|split]]|].
  - intros o'. rewrite st_put_map, st_put_h. case_decide as D; [subst o'; by rewrite P1|]. rewrite P2 by done.
    eapply xrel_frame; [apply H1|exact W|]. intros x Hx1 Hx2. apply D. by eapply H2.
  - intros o1 o2 x. assert (forall o', o' <> o -> x ∈ F' -> x ∈ F o' -> False) as Hd.
    { intros o' Hne Hx1 Hx2. apply G in Hx1 as [Hx1|Hx1]; [apply Hne; by eapply H2|]. apply (xr_lt _ _ _ _ (H1 o')) in Hx2. lia. }
    case_decide as D1; case_decide as D2; subst; try done; [intros; exfalso; by eapply Hd..|]. apply H2.
  - intros o'. rewrite st_put_links, P3. case_decide; [done|]. apply H3.
  - by rewrite st_put_h.
  - intros J o' [A1 A2]. pose proof (proj1 W). split; [intros x Hj; specialize (A1 x Hj); lia|].
    intros o2 x Hne Hj. case_decide as D; [|by apply A2]. subst o2. rewrite (G x). intros [Hf|Hf]; [by apply (A2 o x)|].
    specialize (A1 x Hj). lia.
Qed.
(** an iterator over another map *)
Lemma moves_other F F' a o1 o r h m L : o <> o1 -> within (F o1) (st_h a) h ->
  (forall J o', apart F J o' (st_h a) -> apart F' J o' h) ->
  (ix o1 = ix o -> forall x, x ∈ r -> lk L x = lk (st_links a o1) x) -> moves o r F a F' (st_put a o1 h m L).
Proof.
  intros Hne [W1 W2] HA Hl J it _ A R. rewrite st_put_h, st_put_links. split; [by apply HA|].
  eapply remains_frame; [exact R| |].
  - split; [done|]. intros x Hx. destruct A as [A1 A2]. apply W2; [by apply (A2 o1)|by apply A1].
  - intros x Hx. case_decide as D; [|done]. rewrite (Hl D x Hx). destruct o, o1; done.
Qed.
Lemma st_add_sim F g g' a o lb e em L : sim F g a -> em_add lb (em_at g o) (links_at g o) e = Ok (em, L) -> put_at g g' o em L ->
  exists F' a', st_add lb a o e = Ok a' /\ sim F' g' a' /\
    forall o' r, (o' <> o -> ix o = ix o' -> forall x, x ∈ r -> lk L x = lk (links_at g o) x) ->
      (o' = o -> exists X, em_rep lb (links_at g o) (em_at g o) X /\ e ∉ X /\ ~ sel (lb e) /\ forall x, x ∈ r -> x ∈ X /\ sel (lb x)) ->
      moves o' r F a F' a'.
Proof.
  intros Hs Ha HP. pose proof Hs as (H1 & H2 & H3 & H4). destruct (x_add_sim _ _ _ _ _ _ _ _ _ (H1 o) Ha) as (h & m & F' & E & Hx & W & G).
  unfold st_add. rewrite H3, E. cbn [rbind fst snd]. destruct (sim_put _ _ _ _ _ _ _ _ _ _ Hs (hp_ok_add _ _ _ _ _ _ _ _ E H4) Hx W G HP) as [S A].
  eexists _, _. split; [done|]. split; [exact S|]. intros o' r Hl Hk. destruct (decide (o' = o)) as [->|Hne].
  - destruct (Hk eq_refl) as (X & Hrep & Hin & Hsel & Hr). intros J it Hp Ha' R. rewrite st_put_h, st_put_links, decide_True by done.
    split; [by apply A|]. eapply (x_add_remains lb J (st_h a) _ _ (F o) _ X e); try done.
    + intros x Hx'. destruct (Hr x Hx') as [? Hs']. split; [done|]. intros Heq. apply Hsel. by rewrite <-Heq.
    + apply Ha'.
    + by apply Hp.
    + by rewrite <-H3.
  - apply moves_other; try done. rewrite H3. by apply Hl.
Qed.
Lemma st_remove_sim F g g' a o lb e em L : sim F g a -> em_remove lb (em_at g o) (links_at g o) e = (em, L) -> put_at g g' o em L ->
  exists F', sim F' g' (st_remove lb a o e) /\
    forall o' r, (o' <> o -> ix o = ix o' -> forall x, x ∈ r -> lk L x = lk (links_at g o) x) ->
      (o' = o -> exists key X, em_rep key (links_at g o) (em_at g o) X /\ e ∈ X /\ (2 <= size X -> key e = lb e) /\ e ∉ r) ->
      moves o' r F a F' (st_remove lb a o e).
Proof.
  intros Hs Ha HP. pose proof Hs as (H1 & H2 & H3 & H4). destruct (x_remove_sim _ _ _ _ _ _ _ _ _ (H1 o) Ha) as (h & m & F' & E & Hx & W & G).
  unfold st_remove. rewrite H3, E. cbn [fst snd]. destruct (sim_put _ _ _ _ _ _ _ _ _ _ Hs (hp_ok_remove _ _ _ _ _ _ _ _ E H4) Hx W G HP) as [S A].
  eexists. split; [exact S|]. intros o' r Hl Hk. destruct (decide (o' = o)) as [->|Hne].
  - destruct (Hk eq_refl) as (key & X & Hrep & Hin & Hkey & Hr). intros J it _ Ha' R. rewrite st_put_h, st_put_links, decide_True by done.
    split; [by apply A|]. eapply (x_remove_remains lb key J (st_h a) _ _ (F o) _ X e); try done. apply Ha'. by rewrite <-H3.
  - apply moves_other; try done. rewrite H3. by apply Hl.
Qed.
Lemma sim_reset F g g' a o : sim F g a -> put_at g g' o em_empty (links_at g o) ->
  exists F', sim F' g' (st_put a o (st_h a) xm_empty (st_links a o)) /\
    forall o' r, moves o' r F a F' (st_put a o (st_h a) xm_empty (st_links a o)).
Proof.
  intros (H1 & H2 & H3 & H4) (P1 & P2 & P3). exists (upd F o ∅). unfold upd. split; [split; [|split; [|split]]|].
  - intros o'. rewrite st_put_map, st_put_h. case_decide as D; [subst o'; rewrite P1; apply xrel_empty|]. by rewrite P2.
  - intros o1 o2 x. case_decide; case_decide; try set_solver.
  - intros o'. rewrite st_put_links, P3, !H3. case_decide; done.
  - by rewrite st_put_h.
  - intros o' r J it _ [A1 A2] R. rewrite st_put_h, st_put_links. split.
    + split; [done|]. intros o2 x Hne Hj. case_decide; [set_solver|by apply A2].
    + case_decide as D; [|done]. destruct o, o'; done.
Qed.

Lemma put_in g n nd em L : g_nodes g !! n = Some nd ->
  put_at g (set_l2 (set_nodes g (<[n := Node (n_labels nd) (n_props nd) em (n_out nd)]> (g_nodes g))) L) (OIn n) em L.
Proof.
  intros Hn. split; [|split].
  - cbn. by rewrite lookup_insert.
  - intros [|n'|n'] Hne; cbn; [done| |].
    + destruct (decide (n' = n)) as [->|]; [by rewrite lookup_insert, Hn|by rewrite lookup_insert_ne].
    + rewrite lookup_insert_ne; [done|]. by intros ->.
  - by intros [].
Qed.
Lemma put_out g n nd em L : g_nodes g !! n = Some nd ->
  put_at g (set_l1 (set_nodes g (<[n := Node (n_labels nd) (n_props nd) (n_in nd) em]> (g_nodes g))) L) (OOut n) em L.
Proof.
  intros Hn. split; [|split].
  - cbn. by rewrite lookup_insert.
  - intros [|n'|n'] Hne; cbn; [done| |].
    + rewrite lookup_insert_ne; [done|]. by intros ->.
    + destruct (decide (n' = n)) as [->|]; [by rewrite lookup_insert, Hn|by rewrite lookup_insert_ne].
  - by intros [].
Qed.
Lemma put_all g em L : put_at g (set_all g em L) OAll em L.
Proof. split; [done|]. split; [by intros [] Hne|by intros []]. Qed.

Lemma lbl_edges g g' : g_edges g' = g_edges g -> lbl g' = lbl g.
Proof. unfold lbl. by intros ->. Qed.
Lemma deref_edge_Ok g e ed : deref_edge g e = Ok ed -> g_edges g !! e = Some ed.
Proof. unfold deref_edge. destruct (g_edges g !! e); congruence. Qed.
Lemma deref_node_Ok g n nd : deref_node g n = Ok nd -> g_nodes g !! n = Some nd.
Proof. unfold deref_node. destruct (g_nodes g !! n); congruence. Qed.

(** the edges [C] in the map of [o] *)
Definition own (C : gmap nat edge) (o : owner) (x : nat) : Prop :=
  match o with OAll => True | OOut n => x ∈ outs C n | OIn n => x ∈ ins C n end.
Lemma outs_other C n m x : x ∈ outs C n -> n <> m -> x ∉ outs C m.
Proof. rewrite !elem_of_outs. naive_solver. Qed.
Lemma ins_other C n m x : x ∈ ins C n -> n <> m -> x ∉ ins C m.
Proof. rewrite !elem_of_ins. naive_solver. Qed.

Lemma connect_sim F g g' a N C e ed lb : sim F g a -> adj g N C -> C !! e = None -> e_from ed ∈ N -> e_to ed ∈ N ->
  connect g e = Ok g' -> g_edges g !! e = Some ed -> lb = lbl g ->
  exists F' a', st_connect lb a ed e = Ok a' /\ sim F' g' a' /\ g_edges g' = g_edges g /\
    forall o r, (forall x, x ∈ r -> own C o x) ->
      (o = OIn (e_to ed) \/ o = OOut (e_from ed) -> ~ sel (e_label ed) /\ forall x xd, x ∈ r -> C !! x = Some xd -> sel (e_label xd)) ->
      moves o r F a F' a'.
Proof.
  intros Hs [Hadj HC] Hfresh Hf Ht Hc He ->. unfold connect in Hc. apply rbind_Ok_inv in Hc as (ed' & Ed & Hc). apply deref_edge_Ok in Ed. assert (ed' = ed) as -> by congruence.
  destruct (Hadj _ Ht) as (tn' & Htn & Hin & _). destruct (Hadj _ Hf) as (fn' & Hfn & _ & Hout).
  apply rbind_Ok_inv in Hc as (tn & Et & Hc). apply deref_node_Ok in Et. assert (tn' = tn) as -> by congruence.
  apply rbind_Ok_inv in Hc as ([em L] & Ea & Hc). cbn [fst snd] in Hc. cbv zeta in Hc. set (g1 := set_l2 _ _) in Hc.
  pose proof (put_in g (e_to ed) tn em L Et) as P1. fold g1 in P1.
  assert (lbl g1 = lbl g) as Hl1 by done. assert (g_edges g1 = g_edges g) as Hg1 by done.
  assert (links_at g1 (OOut (e_from ed)) = links_at g (OOut (e_from ed))) as Hk1 by done. clearbody g1.
  apply rbind_Ok_inv in Hc as (fn & Ef & Hc). apply deref_node_Ok in Ef.
  apply rbind_Ok_inv in Hc as ([em' L'] & Ea' & Hc). cbn [fst snd] in Hc.
  pose proof (put_out g1 (e_from ed) fn em' L' Ef) as P2.
  assert (g_edges g' = g_edges g1) as Hg' by (by injection Hc as <-).
  assert (e ∉ ins C (e_to ed)) as Hni by (rewrite elem_of_ins, Hfresh; naive_solver).
  assert (e ∉ outs C (e_from ed)) as Hno by (rewrite elem_of_outs, Hfresh; naive_solver).
  destruct (em_add_ok (lbl g) (lbl g) (lbl g) _ _ _ e Hin Hni) as (em1 & L1 & Ea1 & _ & Fr1); [done|by intros; case_decide|].
  assert (n_out fn = n_out fn') as Eo.
  { destruct P1 as (_ & P1 & _). specialize (P1 (OOut (e_from ed))). cbn in P1. rewrite Ef, Hfn in P1. by apply P1. }
  destruct (em_add_ok (lbl g) (lbl g) (lbl g) _ _ _ e Hout Hno) as (em2 & L2 & Ea2 & _ & Fr2); [done|by intros; case_decide|].
  cbn [links_at] in Hk1. rewrite Eo, Hl1, Hk1 in Ea'.
  assert (L = L1) as -> by congruence. assert (L' = L2) as -> by congruence.
  unfold st_connect.
  destruct (st_add_sim F g g1 a (OIn (e_to ed)) (lbl g) e em L1 Hs) as (F1 & a1 & E1 & S1 & M1); [cbn; by rewrite Et|done|].
  rewrite E1. cbn [rbind].
  destruct (st_add_sim F1 g1 g' a1 (OOut (e_from ed)) (lbl g) e em' L2 S1) as (F2 & a2 & E2 & S2 & M2).
  - cbn [em_at links_at]. rewrite Ef, Eo, Hk1. exact Ea'.
  - injection Hc as <-. exact P2.
  - exists F2, a2. split; [done|]. split; [exact S2|]. split; [by rewrite Hg'|]. intros o r Hr Hk.
    assert (o = OIn (e_to ed) \/ o = OOut (e_from ed) -> ~ sel (lbl g e) /\ forall x, x ∈ r -> is_Some (C !! x) -> sel (lbl g x)) as Hk'.
    { intros Ho. destruct (Hk Ho) as [K1 K2]. split; [unfold lbl; by rewrite He|]. intros x Hx [xd Hxd]. unfold lbl.
      pose proof (HC _ _ Hxd) as (Hxg & _). rewrite Hxg. cbn. by eapply K2. }
    eapply moves_trans; [apply M1|apply M2].
    + intros N1 Hix x Hx. specialize (Hr x Hx). destruct o as [|n|n]; try done. cbn in Hr |- *. apply Fr1; [eapply ins_other; [exact Hr|congruence]|].
      intros ->. rewrite elem_of_ins, Hfresh in Hr. naive_solver.
    + intros ->. destruct (Hk' (or_introl eq_refl)) as [K1 K2]. exists (ins C (e_to ed)). cbn [em_at links_at]. rewrite Et.
      split; [done|]. split; [done|]. split; [done|]. intros x Hx. specialize (Hr x Hx). split; [done|]. apply K2; [done|].
      apply elem_of_ins in Hr as (xd & ? & _). by exists xd.
    + intros N2 Hix x Hx. specialize (Hr x Hx). destruct o as [|n|n]; try done. cbn in Hr |- *. rewrite Hk1. apply Fr2; [eapply outs_other; [exact Hr|congruence]|].
      intros ->. rewrite elem_of_outs, Hfresh in Hr. naive_solver.
    + intros ->. destruct (Hk' (or_intror eq_refl)) as [K1 K2]. exists (outs C (e_from ed)). cbn [em_at links_at]. rewrite Ef, Eo, Hk1.
      split; [done|]. split; [done|]. split; [done|]. intros x Hx. specialize (Hr x Hx). split; [done|]. apply K2; [done|].
      apply elem_of_outs in Hr as (xd & ? & _). by exists xd.
Qed.
Lemma disconnect_sim F g g' a N C e ed lb : sim F g a -> adj g N C -> C !! e = Some ed -> disconnect g e = Ok g' -> lb = lbl g ->
  exists F', sim F' g' (st_disconnect lb a ed e) /\ g_edges g' = g_edges g /\
    forall o r, (forall x, x ∈ r -> own C o x) -> (o <> OAll -> e ∉ r) -> moves o r F a F' (st_disconnect lb a ed e).
Proof.
  intros Hs [Hadj HC] Hce Hc ->. destruct (HC _ _ Hce) as (He & Hf & Ht). destruct (Hadj _ Ht) as (tn' & Htn & Hin & _). destruct (Hadj _ Hf) as (fn' & Hfn & _ & Hout).
  unfold disconnect in Hc. apply rbind_Ok_inv in Hc as (ed' & Ed & Hc). apply deref_edge_Ok in Ed. assert (ed' = ed) as -> by congruence.
  apply rbind_Ok_inv in Hc as (tn & Et & Hc). apply deref_node_Ok in Et. assert (tn' = tn) as -> by congruence.
  destruct (em_remove (lbl g) (n_in tn) (g_l2 g) e) as [em L] eqn:Ea. cbv zeta in Hc. set (g1 := set_l2 _ _) in Hc.
  pose proof (put_in g (e_to ed) tn em L Et) as P1. fold g1 in P1.
  assert (lbl g1 = lbl g) as Hl1 by done. assert (g_edges g1 = g_edges g) as Hg1 by done.
  assert (links_at g1 (OOut (e_from ed)) = links_at g (OOut (e_from ed))) as Hk1 by done. clearbody g1.
  apply rbind_Ok_inv in Hc as (fn & Ef & Hc). apply deref_node_Ok in Ef.
  destruct (em_remove (lbl g1) (n_out fn) (g_l1 g1) e) as [em' L'] eqn:Ea'.
  pose proof (put_out g1 (e_from ed) fn em' L' Ef) as P2.
  assert (e ∈ ins C (e_to ed)) as Hni by (rewrite elem_of_ins; eauto).
  assert (e ∈ outs C (e_from ed)) as Hno by (rewrite elem_of_outs; eauto).
  assert (n_out fn = n_out fn') as Eo.
  { destruct P1 as (_ & P1 & _). specialize (P1 (OOut (e_from ed))). cbn in P1. rewrite Ef, Hfn in P1. by apply P1. }
  cbn [links_at] in Hk1.
  destruct (em_remove_ok _ (lbl g) _ _ _ _ _ _ Ea Hin Hni) as [_ Fr1]; [done|].
  rewrite <-Eo, <-Hk1 in Hout. destruct (em_remove_ok _ (lbl g) _ _ _ _ _ _ Ea' Hout Hno) as [_ Fr2]; [by rewrite Hl1|].
  assert (g_edges g' = g_edges g1) as Hg' by (by injection Hc as <-).
  unfold st_disconnect.
  destruct (st_remove_sim F g g1 a (OIn (e_to ed)) (lbl g) e em L Hs) as (F1 & S1 & M1); [cbn; by rewrite Et|done|].
  destruct (st_remove_sim F1 g1 g' _ (OOut (e_from ed)) (lbl g) e em' L' S1) as (F2 & S2 & M2).
  { cbn [em_at links_at]. rewrite Ef, <-Hl1. exact Ea'. }
  { injection Hc as <-. exact P2. }
  exists F2. split; [exact S2|]. split; [by rewrite Hg'|]. intros o r Hr Her.
  eapply moves_trans; [apply M1|apply M2].
  - intros Hne Hix x Hx. specialize (Hr x Hx). destruct o as [|n|n]; try done. cbn in Hr |- *. apply Fr1. eapply ins_other; [exact Hr|congruence].
  - intros ->. exists (lbl g), (ins C (e_to ed)). cbn [em_at links_at]. rewrite Et. by specialize (Her ltac:(done)).
  - intros Hne Hix x Hx. specialize (Hr x Hx). destruct o as [|n|n]; try done. cbn in Hr |- *. apply Fr2. eapply outs_other; [exact Hr|congruence].
  - intros ->. exists (lbl g), (outs C (e_from ed)). cbn [em_at links_at]. rewrite Ef. by specialize (Her ltac:(done)).
Qed.
Lemma all_remove_sim F g a e lb : sim F g a -> lb = lbl g ->
  exists F', sim F' (all_remove g e) (st_remove lb a OAll e) /\
    forall o r, (o = OAll -> exists key X, em_rep key (g_l0 g) (g_all g) X /\ e ∈ X /\ (2 <= size X -> key e = lbl g e) /\ e ∉ r) ->
      moves o r F a F' (st_remove lb a OAll e).
Proof.
  intros Hs ->. unfold all_remove. destruct (em_remove _ _ _ _) as [em L] eqn:E.
  destruct (st_remove_sim F g _ a OAll (lbl g) e em L Hs E (put_all _ _ _)) as (F' & S & M). exists F'. split; [exact S|].
  intros o r Hr. apply M; [|exact Hr]. intros Hne Hix. by destruct o.
Qed.
Lemma drop_sim F g0 g g' a N C e : sim F g a -> adj g N C -> is_Some (C !! e) -> (let! g1 := disconnect g e in Ok (all_remove g1 e)) = Ok g' ->
  g_edges g = g_edges g0 ->
  exists F' a', st_drop g0 a e = Ok a' /\ sim F' g' a' /\ g_edges g' = g_edges g /\
    forall o r, (forall x, x ∈ r -> own C o x) -> e ∉ r ->
      (o = OAll -> exists key X, em_rep key (g_l0 g) (g_all g) X /\ e ∈ X /\ (2 <= size X -> key e = lbl g e)) -> moves o r F a F' a'.
Proof.
  intros Hs Hadj [ed Hce] Hd Hg. apply rbind_Ok_inv in Hd as (g1 & Ed & [= <-]). unfold st_drop, deref_edge. rewrite <-Hg.
  destruct Hadj as [H1 HC]. destruct (HC _ _ Hce) as (He & _). rewrite He. cbn [rbind].
  destruct (disconnect_sim F g g1 a N C e ed (lbl g0) Hs (conj H1 HC) Hce Ed) as (F1 & S1 & E1 & M1); [symmetry; by apply lbl_edges|].
  destruct (all_remove_sim F1 g1 _ e (lbl g0) S1) as (F2 & S2 & M2); [symmetry; apply lbl_edges; congruence|].
  eexists F2, _. split; [done|]. split; [exact S2|]. split; [by rewrite all_remove_eq|]. intros o r Hr Her Hall.
  eapply moves_trans; [by apply M1|]. apply M2. intros Ho. destruct (Hall Ho) as (key & X & Hrep & Hin & Hk). exists key, X.
  apply disconnect_shape in Ed as (_ & _ & -> & _ & -> & _). split; [done|]. split; [done|]. split; [|done]. by rewrite (lbl_edges _ _ E1).
Qed.
Lemma sim_eix F g a x : sim F g a -> sim F (set_eix g x) a.
Proof. apply sim_ext; by intros []. Qed.
Lemma drop_edge_sim F g0 g g' a N C e : sim F g a -> adj g N C -> is_Some (C !! e) -> drop_edge g e = Ok g' -> g_edges g = g_edges g0 ->
  exists F' a', st_drop g0 a e = Ok a' /\ sim F' g' a' /\ g_edges g' = g_edges g /\
    forall o r, (forall x, x ∈ r -> own C o x) -> e ∉ r ->
      (o = OAll -> exists key X, em_rep key (g_l0 g) (g_all g) X /\ e ∈ X /\ (2 <= size X -> key e = lbl g e)) -> moves o r F a F' a'.
Proof.
  intros Hs Hadj Hce Hd Hg. unfold drop_edge in Hd. apply rbind_Ok_inv in Hd as (g1 & Ed & Hd).
  apply rbind_Ok_inv in Hd as (ed & _ & Hd). apply rbind_Ok_inv in Hd as (eix & _ & [= <-]).
  destruct (drop_sim F g0 g (all_remove g1 e) a N C e Hs Hadj Hce) as (F' & a' & E & S & Eq & M); [by rewrite Ed|done|].
  exists F', a'. split; [done|]. split; [by apply sim_eix|]. split; [done|exact M].
Qed.
(** the map of all edges, if it is iterated over *)
Definition all_rep (g : graph) (es : list nat) : Prop := exists key X, em_rep key (g_l0 g) (g_all g) X /\
  forall e, e ∈ es -> e ∈ X /\ (2 <= size X -> key e = lbl g e).
Lemma drop_all_rep g g' e es : drop_edge g e = Ok g' -> g_edges g' = g_edges g -> NoDup (e :: es) -> all_rep g (e :: es) -> all_rep g' es.
Proof.
  intros Hd Hg Hnd (key & X & Hrep & Hes). apply NoDup_cons in Hnd as [Hni Hnd]. destruct (Hes e) as [He Hk]; [left|].
  apply drop_edge_shape in Hd as (_ & Ha & _). destruct (em_remove (lbl g) (g_all g) (g_l0 g) e) as [em L] eqn:E.
  injection Ha as E1 E2. destruct (em_remove_ok _ _ _ _ _ _ _ _ E Hrep He Hk) as [Hrep' _].
  exists key, (X ∖ {[e]}). rewrite E1, E2. split; [done|]. intros x Hx. destruct (Hes x) as [H1 H2]; [by right|]. split; [set_solver|].
  rewrite (lbl_edges _ _ Hg). intros Hs. apply H2. etrans; [exact Hs|]. apply subseteq_size. set_solver.
Qed.
Lemma drop_edges_sim g0 es : forall F g g' a N C, sim F g a -> adj g N C -> NoDup es -> (forall e, e ∈ es -> is_Some (C !! e)) ->
  rfold drop_edge es g = Ok g' -> g_edges g = g_edges g0 ->
  exists F' a', rfold (st_drop g0) es a = Ok a' /\ sim F' g' a' /\ g_edges g' = g_edges g /\
    forall o r, (forall x, x ∈ r -> own C o x /\ x ∉ es) -> (o = OAll -> all_rep g es) -> moves o r F a F' a'.
Proof.
  induction es as [|e es IH]; intros F g g' a N C Hs Hadj Hnd Hin Hr Hg; cbn [rfold] in *.
  { injection Hr as <-. exists F, a. split; [done|]. split; [done|]. split; [done|]. intros. apply moves_refl. }
  apply rbind_Ok_inv in Hr as (g1 & Ed & Hr). destruct (Hin e) as [ed Hed]; [left|].
  destruct (drop_edge_sim F g0 g g1 a N C e Hs Hadj (ex_intro _ ed Hed) Ed Hg) as (F1 & a1 & E1 & S1 & Q1 & M1).
  pose proof (drop_edge_adj _ _ _ _ _ _ Ed Hadj Hed) as Hadj1. pose proof Hnd as Hnd'. apply NoDup_cons in Hnd' as [Hni Hnd'].
  rewrite E1. cbn [rbind]. destruct (IH F1 g1 g' a1 N (delete e C) S1 Hadj1 Hnd') as (F2 & a2 & E2 & S2 & Q2 & M2); [|done|congruence|].
  { intros x Hx. rewrite lookup_delete_ne by (intros ->; done). apply Hin. by right. }
  exists F2, a2. split; [done|]. split; [done|]. split; [congruence|]. intros o r Hx Hall. eapply moves_trans; [apply M1|apply M2].
  - intros x Hxr. by apply Hx.
  - intros Her. apply (Hx e) in Her as [_ Her]. apply Her. left.
  - intros Ho. destruct (Hall Ho) as (key & X & Hrep & Hes). exists key, X. split; [done|]. apply Hes. left.
  - intros x Hxr. destruct (Hx x Hxr) as [Ho Hxe]. apply not_elem_of_cons in Hxe as [Hne Hxe]. split; [|done]. destruct o as [|n|n]; cbn in *; [done|..].
    + rewrite elem_of_outs in *. destruct Ho as (xd & ? & ?). exists xd. by rewrite lookup_delete_ne.
    + rewrite elem_of_ins in *. destruct Ho as (xd & ? & ?). exists xd. by rewrite lookup_delete_ne.
  - intros Ho. eapply drop_all_rep; [exact Ed|done|done|by apply Hall].
Qed.
Lemma drop_edges_all_rep es : forall g g' fs, rfold drop_edge es g = Ok g' -> NoDup (es ++ fs) -> all_rep g (es ++ fs) -> all_rep g' fs.
Proof.
  induction es as [|e es IH]; intros g g' fs Hr Hnd Hall; cbn [rfold] in Hr; [by injection Hr as <-|].
  apply rbind_Ok_inv in Hr as (g1 & Ed & Hr). apply (IH g1 g' fs Hr); [by apply NoDup_cons in Hnd as [_ ?]|].
  eapply drop_all_rep; [exact Ed| |exact Hnd|exact Hall]. by apply drop_edge_shape in Ed as ((E & _) & _).
Qed.
Lemma all_rep_mono g es fs : (forall e, e ∈ fs -> e ∈ es) -> all_rep g es -> all_rep g fs.
Proof. intros Hi (key & X & Hrep & Hes). exists key, X. split; [done|]. intros e He. by apply Hes, Hi. Qed.
Lemma sim_slice F g a o k : sim F g a -> x_slice k (st_h a) (st_links a o) (st_map a o) = em_iter k (links_at g o) (em_at g o).
Proof. intros (H1 & _ & H3 & _). rewrite H3. eapply x_slice_sim. apply H1. Qed.

Lemma detach_sim F g g' a s n : sim F g a -> core g s -> live_node s n -> detach_node g n = Ok g' ->
  exists F' a', st_detach g a n = Ok a' /\ sim F' g' a' /\
    forall o r, (forall x, x ∈ r -> own (s_edges s) o x) ->
      (forall x ed, x ∈ r -> s_edges s !! x = Some ed -> e_from ed <> n /\ e_to ed <> n) ->
      (o = OAll -> exists key X, em_rep key (g_l0 g) (g_all g) X /\
         forall e ed, s_edges s !! e = Some ed -> e_from ed = n \/ e_to ed = n -> e ∈ X /\ (2 <= size X -> key e = lbl g e)) ->
      moves o r F a F' a'.
Proof.
  intros Hs Hc Hlive Hd. pose proof Hc as ([Hn HC] & _). assert (n ∈ dom (s_nodes s)) as HnN by (by apply elem_of_dom).
  unfold detach_node in Hd. apply rbind_Ok_inv in Hd as (nd & En & Hd). apply deref_node_Ok in En.
  apply rbind_Ok_inv in Hd as (inl & Ei & Hd). apply rbind_Ok_inv in Hd as (g1 & E1 & Hd).
  apply rbind_Ok_inv in Hd as (nd1 & En1 & Hd). apply deref_node_Ok in En1.
  set (g2 := set_nodes g1 _) in Hd. apply rbind_Ok_inv in Hd as (nd2 & En2 & Hd). apply deref_node_Ok in En2.
  apply rbind_Ok_inv in Hd as (outl & Eo & Hd). apply rbind_Ok_inv in Hd as (g3 & E3 & Hd).
  apply rbind_Ok_inv in Hd as (nd3 & En3 & Hd). apply deref_node_Ok in En3. injection Hd as <-.
  destruct (Hn n HnN) as (nd' & Hnd' & Hi & _). assert (nd' = nd) as -> by congruence. clear Hnd'.
  destruct (em_iter_ok _ _ _ _ (fuel g) Hi) as (xs & Hxs & Hxnd & Hxin).
  { eapply core_edges_size; [done|]. intros e He. apply elem_of_ins in He as (x & ? & _). by exists x. }
  assert (xs = inl) as -> by congruence. clear Hxs.
  assert (forall e, e ∈ inl -> is_Some (s_edges s !! e)) as Hinl. { intros e He. apply Hxin, elem_of_ins in He as (x & ? & _). by exists x. }
  destruct (drop_edges_sim g inl F g g1 a _ _ Hs (conj Hn HC) Hxnd Hinl E1 eq_refl) as (F1 & a1 & X1 & S1 & Q1 & M1).
  pose proof (drop_edges_adj _ _ _ _ _ E1 (conj Hn HC) Hxnd Hinl) as Hadj1. pose proof (drop_edges_shape _ _ _ E1) as (Hsb & _).
  set (C1 := filter (fun p => p.1 ∉ inl) (s_edges s)) in *.
  assert (forall e x, C1 !! e = Some x <-> s_edges s !! e = Some x /\ e_to x <> n) as HC1.
  { intros e x. unfold C1. rewrite map_filter_lookup_Some. cbn. rewrite Hxin, elem_of_ins. naive_solver. }
  unfold st_detach. pose proof (sim_slice F g a (OIn n) (fuel g) Hs) as A1. cbn [st_links em_at links_at] in A1. rewrite En in A1.
  rewrite A1, Ei. cbn [rbind]. rewrite X1. cbn [rbind].
  destruct (sim_reset F1 g1 g2 a1 (OIn n) S1) as (F2 & S2 & M2).
  { pose proof (put_in g1 n nd1 em_empty (g_l2 g1) En1) as (P1 & P2 & P3).
    split; [|split]; [exact P1|exact P2|]. intros o'. specialize (P3 o'). destruct o'; done. }
  cbn [st_links] in S2, M2. set (a2 := st_put a1 _ _ _ _) in *.
  assert (adj g2 (dom (s_nodes s)) C1) as Hadj2.
  { destruct Hadj1 as [Hn1 HC1']. split; [|done]. intros m Hm.
    destruct (Hn1 m Hm) as (ndm & Hndm & Hmi & Hmo). subst g2. cbn [set_nodes g_nodes g_l1 g_l2].
    destruct (decide (m = n)) as [->|Hne].
    - rewrite lookup_insert. eexists. split; [done|]. cbn [n_in n_out]. assert (ndm = nd1) as -> by congruence.
      split; [|done]. assert (ins C1 n = ∅) as ->; [|apply em_rep_empty].
      apply set_eq. intros e. rewrite elem_of_ins. split; [|set_solver]. intros (x & Hx & Hx'). apply HC1 in Hx. naive_solver.
    - rewrite lookup_insert_ne by done. eauto. }
  pose proof (proj1 Hadj2 n HnN) as (nd4 & Hnd4 & _ & Ho2). assert (nd4 = nd2) as -> by congruence. clear Hnd4.
  assert (fuel g = fuel g2) as Ef.
  { subst g2. unfold fuel. cbn [set_nodes g_next g_edges]. destruct Hsb as (_&_&_&_&_&E&_). by rewrite E. }
  destruct (em_iter_ok _ _ _ _ (fuel g2) Ho2) as (ys & Hys & Hynd & Hyin).
  { rewrite <-Ef. eapply core_edges_size; [done|]. intros e He. apply elem_of_outs in He as (x & Hx & _). apply HC1 in Hx as [? _]. by exists x. }
  assert (ys = outl) as -> by congruence. clear Hys.
  assert (forall e, e ∈ outl -> is_Some (C1 !! e)) as Houtl. { intros e He. apply Hyin, elem_of_outs in He as (x & ? & _). by exists x. }
  pose proof (sim_slice F2 g2 a2 (OOut n) (fuel g) S2) as A2. cbn [st_links em_at links_at] in A2. rewrite En2 in A2. rewrite A2, Ef, Eo. cbn [rbind].
  destruct (drop_edges_sim g outl F2 g2 g3 a2 _ _ S2 Hadj2 Hynd Houtl E3 Q1) as (F3 & a3 & X3 & S3 & Q3 & M3). rewrite X3. cbn [rbind].
  set (g4 := set_nodes g3 _).
  destruct (sim_reset F3 g3 g4 a3 (OOut n) S3) as (F4 & S4 & M4).
  { pose proof (put_out g3 n nd3 em_empty (g_l1 g3) En3) as (P1 & P2 & P3).
    split; [|split]; [exact P1|exact P2|]. intros o'. specialize (P3 o'). destruct o'; done. }
  eexists F4, _. split; [done|]. split; [exact S4|]. intros o r Hr Hrn Hall.
  assert (o = OAll -> NoDup (inl ++ outl) /\ all_rep g (inl ++ outl)) as Hall'.
  { intros Ho. destruct (Hall Ho) as (key & X & Hrep & Hx). split.
    - apply NoDup_app. split; [done|]. split; [|done]. intros e H1 H2. apply Hyin, elem_of_outs in H2 as (x & H2 & _). apply HC1 in H2 as [H2 Hne].
      apply Hxin, elem_of_ins in H1 as (x' & H1 & Hx'). congruence.
    - exists key, X. split; [done|]. intros e [He|He]%elem_of_app.
      + apply Hxin, elem_of_ins in He as (x & H1 & H2). eapply Hx; [exact H1|by right].
      + apply Hyin, elem_of_outs in He as (x & H1 & H2). apply HC1 in H1 as [H1 _]. eapply Hx; [exact H1|by left]. }
  assert (forall x, x ∈ r -> x ∉ inl) as Hd1. { intros x Hx Hxi. apply Hxin, elem_of_ins in Hxi as (xd & H1 & H2). by destruct (Hrn _ _ Hx H1). }
  eapply moves_trans; [apply M1|eapply moves_trans; [apply M2|eapply moves_trans; [apply M3|apply M4]]].
  - intros x Hx. split; [by apply Hr|by apply Hd1].
  - intros Ho. destruct (Hall' Ho) as [_ ?]. eapply all_rep_mono; [|done]. intros e He. apply elem_of_app. by left.
  - intros x Hx. split.
    + specialize (Hr x Hx). destruct o as [|m|m]; cbn in Hr |- *; [done|..].
      * rewrite elem_of_outs in *. destruct Hr as (xd & H1 & H2). exists xd. split; [|done]. apply HC1. split; [done|]. by apply (Hrn x).
      * rewrite elem_of_ins in *. destruct Hr as (xd & H1 & H2). exists xd. split; [|done]. apply HC1. split; [done|]. by apply (Hrn x).
    + intros Hxi. apply Hyin, elem_of_outs in Hxi as (xd & H1 & H2). apply HC1 in H1 as [H1 _]. by destruct (Hrn _ _ Hx H1).
  - intros Ho. destruct (Hall' Ho) as [H1 H2]. exact (drop_edges_all_rep _ _ _ _ E1 H1 H2).
Qed.

(** node data other than the edge maps do not matter *)
Lemma em_at_nodes g g' : g_all g' = g_all g ->
  (forall n, (fun nd => (n_in nd, n_out nd)) <$> g_nodes g' !! n = (fun nd => (n_in nd, n_out nd)) <$> g_nodes g !! n) ->
  forall o, em_at g' o = em_at g o.
Proof.
  intros Ha Hn [|n|n]; cbn; [done|specialize (Hn n)..]; destruct (g_nodes g' !! n), (g_nodes g !! n); cbn in Hn; congruence.
Qed.
(** a call that does not concern an iterator over the map of [o] with [r] left, which selects the labels [sel] *)
Definition owner_keeps (o : owner) (s : sgraph) (r : list nat) (c : op) : Prop :=
  match c with
  | ORemoveEdge e => e ∉ r
  | ODetach m | ODetachRemove m _ => forall x ed, x ∈ r -> s_edges s !! x = Some ed -> e_from ed <> m /\ e_to ed <> m
  | ONewEdge from to l _ => o <> OAll /\ (o = OIn to \/ o = OOut from -> ~ sel l)
  | OSetEdgeLabel e l => forall ed, s_edges s !! e = Some ed -> l <> e_label ed ->
      o = OIn (e_to ed) \/ o = OOut (e_from ed) -> ~ sel l /\ e ∉ r
  | _ => True
  end.
Definition selected (C : gmap nat edge) (o : owner) (x : nat) : Prop :=
  own C o x /\ (o <> OAll -> forall xd, C !! x = Some xd -> sel (e_label xd)).
Lemma step_sim F g g' a s c : sim F g a -> core g s -> valid s c -> step g c = Ok g' ->
  exists F' a', st_step g g' a c = Ok a' /\ sim F' g' a' /\
    forall o r, (forall x, x ∈ r -> selected (s_edges s) o x) -> owner_keeps o s r c ->
      (o = OAll -> exists key X, em_rep key (g_l0 g) (g_all g) X /\
         forall e, removes s c e -> e ∈ X /\ (2 <= size X -> key e = lbl g e)) ->
      moves o r F a F' a'.
Proof.
  intros Hs Hc Hv H. pose proof Hc as (Hadj & _ & _ & Hlt & Hlte & _).
  assert (forall n nd l p, g_nodes g !! n = Some nd -> forall m, (fun nd => (n_in nd, n_out nd)) <$> <[n := Node l p (n_in nd) (n_out nd)]> (g_nodes g) !! m
    = (fun nd => (n_in nd, n_out nd)) <$> g_nodes g !! m) as Hupd.
  { intros n nd l p Hn m. destruct (decide (m = n)) as [->|]; [by rewrite lookup_insert, Hn|by rewrite lookup_insert_ne]. }
  assert (sim F g' a -> exists F' a', Ok a = Ok a' /\ sim F' g' a' /\ forall o r, (forall x, x ∈ r -> selected (s_edges s) o x) -> owner_keeps o s r c ->
      (o = OAll -> exists key X, em_rep key (g_l0 g) (g_all g) X /\
         forall e, removes s c e -> e ∈ X /\ (2 <= size X -> key e = lbl g e)) -> moves o r F a F' a') as Hsame.
  { intros S. exists F, a. split; [done|]. split; [done|]. intros. apply moves_refl. }
  destruct c as [labels p ord|from to label p|n labels ordo ordn|n k v|n k|n|n ord|e label|e k v|e k|e|k it|k it]; cbn [step st_step owner_keeps] in *.
  - apply Hsame. apply rbind_Ok_inv in H as ([g1 n] & H & [= <-]). unfold new_node in H. destruct (nl_add _ _ _) as [l L].
    apply rbind_Ok_inv in H as (nix & _ & [= <- <-]). revert Hs. apply sim_ext; [|by intros []].
    intros [|m|m]; cbn; [done|..]; (destruct (decide (m = g_next g)) as [->|]; [rewrite lookup_insert|by rewrite lookup_insert_ne]);
      (destruct (g_nodes g !! g_next g) as [x|] eqn:E; [exfalso; specialize (Hlt _ (ex_intro _ x E)); lia|done]).
  - clear Hsame. apply rbind_Ok_inv in H as ([g1 e] & H & [= <-]). unfold new_edge in H. apply rbind_Ok_inv in H as (? & _ & H). apply rbind_Ok_inv in H as (? & _ & H).
    apply rbind_Ok_inv in H as (g2 & Ea & H). apply rbind_Ok_inv in H as (g3 & Ec & H). apply rbind_Ok_inv in H as (eix & _ & [= <- <-]).
    assert (s_edges s !! g_next g = None) as Hfrs.
    { destruct (s_edges s !! g_next g) eqn:Hx; [|done]. apply Hadj in Hx as (Hx & _). specialize (Hlte _ (ex_intro _ _ Hx)). lia. }
    set (g0 := bump _) in Ea. assert (sim F g0 a) as S0 by (revert Hs; apply sim_ext; by intros []).
    unfold all_add in Ea. apply rbind_Ok_inv in Ea as ([em L] & Ea & [= <-]). cbn [fst snd] in Ec.
    assert (adj g0 (dom (s_nodes s)) (s_edges s)) as Hadj0.
    { eapply adj_frame; [exact Hadj| |done|done|]; cbn; eauto. intros e ed He. rewrite lookup_insert_ne; [done|]. intros <-. congruence. }
    assert (adj (set_all g0 em L) (dom (s_nodes s)) (s_edges s)) as Hadj1.
    { eapply adj_frame; [exact Hadj0| |done|done|]; cbn; eauto. }
    assert (g_edges (set_all g0 em L) !! g_next g = Some (Edge from to label p)) as He by (cbn; apply lookup_insert).
    assert (lbl (set_eix g3 eix) = lbl g0) as Hl. { apply lbl_edges. cbn [set_eix g_edges]. apply connect_shape in Ec as (Ec & _). by rewrite Ec. }
    rewrite Hl. destruct (st_add_sim F g0 (set_all g0 em L) a OAll (lbl g0) (g_next g) em L S0 Ea (put_all _ _ _)) as (F1 & a1 & E1 & S1 & M1).
    rewrite E1. cbn [rbind]. destruct Hv as [Hf Ht].
    destruct (connect_sim F1 _ g3 a1 _ _ (g_next g) (Edge from to label p) (lbl g0) S1 Hadj1 Hfrs) as (F2 & a2 & E2 & S2 & _ & M2);
      [by apply elem_of_dom|by apply elem_of_dom|done|done|by apply lbl_edges|].
    exists F2, a2. split; [done|]. split; [by apply sim_eix|]. intros o r Hr (K1 & K2) _.
    eapply moves_trans; [apply M1|apply M2].
    + intros Ho Hix. by destruct o.
    + by intros ->.
    + intros y Hy. by apply Hr.
    + intros Ho. split; [by apply K2|]. intros y yd Hy. by apply Hr.
  - apply Hsame. unfold set_labels in H. apply rbind_Ok_inv in H as (nd & En & [= <-]). apply deref_node_Ok in En.
    revert Hs. apply sim_ext; [|by intros []]. apply em_at_nodes; [done|]. intros m. cbn. by apply Hupd.
  - apply Hsame. unfold set_node_prop in H. apply rbind_Ok_inv in H as (nd & En & H). apply rbind_Ok_inv in H as (nix & _ & [= <-]). apply deref_node_Ok in En.
    revert Hs. apply sim_ext; [|by intros []]. apply em_at_nodes; [done|]. intros m. cbn. by apply Hupd.
  - apply Hsame. unfold rem_node_prop in H. apply rbind_Ok_inv in H as (nd & En & H). apply deref_node_Ok in En.
    destruct (n_props nd !! k); [|by injection H as <-]. apply rbind_Ok_inv in H as (nix & _ & [= <-]).
    revert Hs. apply sim_ext; [|by intros []]. apply em_at_nodes; [done|]. intros m. cbn. by apply Hupd.
  - clear Hsame. destruct (detach_sim F g g' a s n Hs Hc Hv H) as (F' & a' & E & S & M). exists F', a'. split; [done|]. split; [done|].
    intros o r Hr Hk Hall. apply M; [intros; by apply Hr|done|]. intros Ho. destruct (Hall Ho) as (key & X & Hrep & Hx). exists key, X. split; [done|].
    intros e ed He Hn. apply Hx. split; [by exists ed|]. intros [x Hx']. cbn in Hx'. unfold s_detach in Hx'. rewrite map_filter_lookup_Some in Hx'.
    destruct Hx' as [Hx1 Hx2]. cbn in Hx2. assert (x = ed) as -> by congruence. naive_solver.
  - clear Hsame. assert (live_node s n) as Hl by (destruct Hv as (sn & ? & _); by exists sn). unfold detach_remove_node in H. apply rbind_Ok_inv in H as (g1 & Ed & H). apply rbind_Ok_inv in H as (nd & _ & H).
    destruct (nl_remove _ _ _) as [l L]. apply rbind_Ok_inv in H as (nix & _ & [= <-]).
    destruct (detach_sim F g g1 a s n Hs Hc Hl Ed) as (F' & a' & E & S & M). exists F', a'. split; [done|].
    split; [revert S; apply sim_ext; by intros []|].
    intros o r Hr Hk Hall. apply M; [intros; by apply Hr|done|]. intros Ho. destruct (Hall Ho) as (key & X & Hrep & Hx). exists key, X. split; [done|].
    intros e ed He Hn. apply Hx. split; [by exists ed|]. intros [x Hx']. cbn in Hx'. unfold s_detach in Hx'. rewrite map_filter_lookup_Some in Hx'.
    destruct Hx' as [Hx1 Hx2]. cbn in Hx2. assert (x = ed) as -> by congruence. naive_solver.
  - destruct Hv as [ed0 Hed0]. pose proof (proj2 Hadj _ _ Hed0) as (Hge & Hf & Ht).
    unfold set_edge_label in H. apply rbind_Ok_inv in H as (ed & Ed & H). rewrite Ed. cbn [rbind]. apply deref_edge_Ok in Ed.
    assert (ed0 = ed) as -> by congruence.
    case_decide as Dl; [injection H as <-; by apply Hsame|]. clear Hsame. apply rbind_Ok_inv in H as (g1 & E1 & H).
    destruct (disconnect_sim F g g1 a _ _ e ed (lbl g) Hs Hadj Hed0 E1 eq_refl) as (F1 & S1 & Q1 & M1).
    destruct (disconnect_ok _ _ _ _ _ Hadj Hed0) as (g1' & E1' & Hadj1). assert (g1' = g1) as -> by congruence. clear E1'.
    set (g2 := set_edges g1 _) in H.
    assert (sim F1 g2 (st_disconnect (lbl g) a ed e)) as S2 by (revert S1; apply sim_ext; by intros []).
    assert (adj g2 (dom (s_nodes s)) (delete e (s_edges s))) as Hadj2.
    { eapply adj_frame; [exact Hadj1| |done|done|]; cbn; eauto. intros x xd Hx. rewrite lookup_insert_ne; [done|]. intros <-. by rewrite lookup_delete in Hx. }
    assert (g_edges g2 !! e = Some (Edge (e_from ed) (e_to ed) label (e_props ed))) as He by (cbn; apply lookup_insert).
    destruct (connect_sim F1 g2 g' _ _ _ e (Edge (e_from ed) (e_to ed) label (e_props ed)) (lbl g') S2 Hadj2 (lookup_delete _ _) Hf Ht H He) as (F2 & a' & E & S & _ & M2).
    { apply connect_shape in H as (H & _). by apply lbl_edges. }
    exists F2, a'. split; [exact E|]. split; [done|]. intros o r Hr Hk _. specialize (Hk _ Hed0 Dl).
    assert (o <> OAll -> e ∉ r) as Her.
    { intros Ho Her. pose proof (Hr _ Her) as [Hown _]. destruct o as [|m|m]; cbn in Hown; [done|..].
      - apply elem_of_outs in Hown as (x & H1 & H2). destruct Hk as [_ Hk]; [right; congruence|done].
      - apply elem_of_ins in Hown as (x & H1 & H2). destruct Hk as [_ Hk]; [left; congruence|done]. }
    eapply moves_trans; [apply M1; [intros; by apply Hr|done]|]. destruct (decide (o = OAll)) as [->|Ho].
    + apply M2; [done|]. by intros [?|?].
    + apply M2.
      * intros x Hx. pose proof (Hr x Hx) as [Hown _].
        assert (x <> e) by (intros ->; by apply (Her Ho)). destruct o as [|m|m]; cbn in *; [done|..].
        -- rewrite elem_of_outs in *. destruct Hown as (xd & ? & ?). exists xd. by rewrite lookup_delete_ne.
        -- rewrite elem_of_ins in *. destruct Hown as (xd & ? & ?). exists xd. by rewrite lookup_delete_ne.
      * intros Ho'. split; [by apply Hk|]. intros x xd Hx [_ Hxd]%lookup_delete_Some. by apply (Hr x Hx).
  - apply Hsame. unfold set_edge_prop in H. apply rbind_Ok_inv in H as (ed & Ed & H). apply rbind_Ok_inv in H as (eix & _ & [= <-]).
    revert Hs. apply sim_ext; by intros [].
  - apply Hsame. unfold rem_edge_prop in H. apply rbind_Ok_inv in H as (ed & Ed & H).
    destruct (e_props ed !! k); [|by injection H as <-]. apply rbind_Ok_inv in H as (eix & _ & [= <-]). revert Hs. apply sim_ext; by intros [].
  - clear Hsame. destruct (drop_sim F g g g' a _ _ e Hs Hadj Hv H eq_refl) as (F' & a' & E & S & _ & M). exists F', a'. split; [done|]. split; [done|].
    intros o r Hr Hk Hall. apply M; [intros; by apply Hr|done|]. intros Ho. destruct (Hall Ho) as (key & X & Hrep & Hx). exists key, X. split; [done|].
    apply Hx. split; [done|]. unfold live_edge. cbn. rewrite lookup_delete. by intros [? ?].
  - apply Hsame. unfold add_node_index in H. destruct (g_nix g !! k); [by injection H as <-|].
    apply rbind_Ok_inv in H as (ns & _ & H). apply rbind_Ok_inv in H as (ix & _ & [= <-]). revert Hs. apply sim_ext; by intros [].
  - apply Hsame. unfold add_edge_index in H. destruct (g_eix g !! k); [by injection H as <-|].
    apply rbind_Ok_inv in H as (ns & _ & H). apply rbind_Ok_inv in H as (ix & _ & [= <-]). revert Hs. apply sim_ext; by intros [].
Qed.
End sel.
Lemma sim_init : sim (fun _ => ∅) new_graph st_new.
Proof.
  split; [|split; [set_solver|split; [by intros []|apply hp_ok_new]]].
  intros [|n|n]; cbn; rewrite ?lookup_empty; apply xrel_empty.
Qed.
Lemma x_run_app ops1 ops2 : x_run (ops1 ++ ops2) = let! x := x_run ops1 in rfold x_step ops2 x.
Proof. unfold x_run. apply rfold_app. Qed.
(** the representation with heap objects follows that of Graph.v *)
Lemma x_run_sim ops g : valid_history ops -> run ops = Ok g -> exists F a, x_run ops = Ok (XG g a) /\ sim F g a.
Proof.
  revert ops g. apply (history_ind (fun ops g => exists F a, x_run ops = Ok (XG g a) /\ sim F g a)).
  - eexists _, _. split; [done|apply sim_init].
  - intros ops g o g' Hv Hr (F & a & E & S) Ho Hs.
    destruct (step_sim (fun _ => True) F g g' a _ o S (core_run _ _ Hv Hr) Ho Hs) as (F' & a' & E' & S' & _).
    exists F', a'. split; [|done]. rewrite x_run_app, E. cbn [rbind rfold]. unfold x_step at 1. cbn [x_g x_a]. rewrite Hs. cbn [rbind].
    rewrite E'. done.
Qed.
