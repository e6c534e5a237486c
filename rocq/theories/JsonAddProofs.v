(** Proofs about the calls Decode makes. *)
From Verif Require Import Base Value Index Graph GraphSpec CoreProofs CoreStep AdjProofs NodeListProofs EdgeListProofs IndexGraphProofs
  ProgressProofs Sizes VPathProofs CloneProofs JsonText JsonTextProofs Json JsonSpec JsonDecProofs.
Local Open Scope string_scope.
Local Open Scope list_scope.

Lemma add_adds V W ops : Forall (add_op V W) ops -> Forall adds ops.
Proof. intros H. eapply Forall_impl; [exact H|]. by intros []. Qed.
(** ** The target's history *)
Lemma node_index_adds V W ops ops' k : Forall (add_op V W) ops' -> node_index (ops ++ ops') k = node_index ops k.
Proof.
  intros H. induction ops as [|o ops IH]; simpl.
  - induction H as [|o ops' Ho H IH]; simpl; [done|]. by destruct o.
  - rewrite IH. done.
Qed.
Lemma edge_index_adds V W ops ops' k : Forall (add_op V W) ops' -> edge_index (ops ++ ops') k = edge_index ops k.
Proof.
  intros H. induction ops as [|o ops IH]; simpl.
  - induction H as [|o ops' Ho H IH]; simpl; [done|]. by destruct o.
  - rewrite IH. done.
Qed.
Lemma node_filed_adds V W ops ops' k v : Forall (add_op V W) ops' -> node_filed (ops ++ ops') k v -> node_filed ops k v \/ V k v.
Proof.
  intros H Hf. induction ops' as [|o ops' IH] using rev_ind; [left; by rewrite app_nil_r in Hf|].
  apply Forall_app in H as [H1 H2]. apply Forall_cons in H2 as [H _]. rewrite app_assoc in Hf.
  apply node_filed_snoc in Hf as [Hf|[Hi Hw]]; [by apply IH|right].
  destruct Hw as [Hw|[Hn _]]; [|rewrite node_index_snoc, Hn in Hi; by destruct o, Hi]. destruct o; try done; simpl in *. by apply H.
Qed.
Lemma edge_filed_adds V W ops ops' k v : Forall (add_op V W) ops' -> edge_filed (ops ++ ops') k v -> edge_filed ops k v \/ W k v.
Proof.
  intros H Hf. induction ops' as [|o ops' IH] using rev_ind; [left; by rewrite app_nil_r in Hf|].
  apply Forall_app in H as [H1 H2]. apply Forall_cons in H2 as [H _]. rewrite app_assoc in Hf.
  apply edge_filed_snoc in Hf as [Hf|[Hi Hw]]; [by apply IH|right].
  destruct Hw as [Hw|[Hn _]]; [|rewrite edge_index_snoc, Hn in Hi; by destruct o, Hi]. destruct o; try done; simpl in *. by apply H.
Qed.
Lemma edge_list_safe_adds V W ops ops' : Forall (add_op V W) ops' -> edge_list_safe ops -> edge_list_safe (ops ++ ops').
Proof.
  intros H Hs. induction ops' as [|o ops' IH] using rev_ind; [by rewrite app_nil_r|].
  apply Forall_app in H as [H1 H2]. rewrite app_assoc. apply edge_list_safe_snoc. split; [by apply IH|].
  apply Forall_cons in H2 as [Ho _]. intros e [[x Hx] Hn]. exfalso. apply Hn. unfold live_edge in *.
  destruct o; try (by destruct Ho).
  - by exists x.
  - cbn [sstep s_edges]. destruct (decide (e = s_next (fold_left sstep (ops ++ ops') s_empty))) as [->|Hne].
    + rewrite lookup_insert. by eexists.
    + rewrite lookup_insert_ne by done. by exists x.
Qed.
Lemma scan_adds V W ops ops' (P : list op -> Prop) k : Forall (add_op V W) ops' ->
  (forall o1 o2 it, ops = o1 ++ OAddNodeIndex k it :: o2 -> P o1) ->
  forall o1 o2 it, ops ++ ops' = o1 ++ OAddNodeIndex k it :: o2 -> P o1.
Proof.
  intros H HP o1 o2 it E. apply app_eq_app in E as (l & [[-> E]|[-> E]]).
  - destruct l as [|o l].
    + simpl in E. rewrite <-E in H. apply Forall_cons in H as [[] _].
    + injection E as <- E. by eapply HP.
  - rewrite E in H. apply Forall_app in H as [_ H]. apply Forall_cons in H as [[] _].
Qed.
Lemma calls_safe_adds V W ops ops' : Forall (add_op V W) ops' -> calls_safe ops -> accepts ops V W -> calls_safe (ops ++ ops').
Proof.
  intros H (H1 & H2 & H3) [C1 C2]. split; [by eapply edge_list_safe_adds|]. split.
  - intros k it Hk. rewrite (node_index_adds V W) in Hk by done. split.
    + eapply storable_mono; [|by apply C1]. intros v. by apply (node_filed_adds V W).
    + intros o1 o2 t. eapply (scan_adds V W ops ops' node_list_safe k H). intros. by eapply (proj2 (H2 k it Hk)).
  - intros k it Hk. rewrite (edge_index_adds V W) in Hk by done.
    eapply storable_mono; [|by apply C2]. intros v. by apply (edge_filed_adds V W).
Qed.

(** ** What is decoded, one call at a time *)
Lemma stands_for_app nds ids nd n i a : length nds = length ids -> stands_for nds ids i a -> stands_for (nds ++ [nd]) (ids ++ [n]) i a.
Proof. intros El (k & x & H1 & H2 & H3). exists k, x. split_and!; [by apply lookup_app_l_Some|done|by apply lookup_app_l_Some]. Qed.
Lemma stands_for_last nds ids nd n : length nds = length ids -> stands_for (nds ++ [nd]) (ids ++ [n]) (jn_n nd) n.
Proof.
  intros El. exists (length nds), nd. split_and!; [by rewrite lookup_app_r, Nat.sub_diag by lia|done|].
  by rewrite El, lookup_app_r, Nat.sub_diag by lia.
Qed.
Lemma stands_for_in nds ids i n : stands_for nds ids i n -> n ∈ ids.
Proof. intros (k & nd & _ & _ & H). by apply elem_of_list_lookup_2 in H. Qed.
Lemma decoded_init pu t : decoded pu [] [] t t [] [].
Proof.
  split; try done; try (intros n Hn; by left); try (intros n Hn%elem_of_nil; done); apply NoDup_nil_2.
Qed.
Lemma decoded_node pu nds eds t t' t'' ids es nd n p : decoded pu nds eds t t' ids es -> unmarshal_props pu (jn_props nd) = Some p ->
  s_nodes t' !! n = None -> s_nodes t'' = <[n := SNode (list_to_set (jn_labels nd)) p]> (s_nodes t') -> s_edges t'' = s_edges t' ->
  decoded pu (nds ++ [nd]) eds t t'' (ids ++ [n]) es.
Proof.
  intros [D1 D2 D3 D4 D5 D6 D7 D8 D9 D10] Hp Hn En Ee. pose proof (Forall2_length _ _ _ D1) as El.
  assert (Hnid : n ∉ ids).
  { intros Hin. apply elem_of_list_lookup in Hin as [k Hk]. destruct (Forall2_lookup_r _ _ _ _ _ D1 Hk) as (x & _ & q & _ & Hq). congruence. }
  split; rewrite ?Ee; try done.
  - apply Forall2_app.
    + eapply Forall2_impl; [exact D1|]. intros x m (q & Hq & Hm). exists q. split; [done|]. rewrite En, lookup_insert_ne; [done|congruence].
    + constructor; [|constructor]. exists p. split; [done|]. by rewrite En, lookup_insert.
  - eapply Forall2_impl; [exact D2|]. intros x m (a & b & q & Hq & Ha & Hb & Hm). exists a, b, q. split; [done|].
    split; [by apply stands_for_app|]. split; [by apply stands_for_app|]. done.
  - apply NoDup_app. split; [done|]. split; [|apply NoDup_singleton]. intros x Hx ->%elem_of_list_singleton. done.
  - intros x [Hx|Hx]%elem_of_app; [by apply D5|]. apply elem_of_list_singleton in Hx as ->. intros [y Hy].
    apply (lookup_weaken _ _ _ _ Hy) in D7. congruence.
  - rewrite En. etrans; [exact D7|]. by apply insert_subseteq.
  - intros x [y Hy]. rewrite elem_of_app, elem_of_list_singleton. destruct (decide (x = n)) as [->|Hne]; [tauto|].
    rewrite En, lookup_insert_ne in Hy by done. destruct (D9 x) as [?|?]; [by eexists|tauto|tauto].
  - intros x Hx. apply D10. unfold live_edge in *. by rewrite Ee in Hx.
Qed.
Lemma decoded_edge pu nds eds t t' t'' ids es ed e from to p : decoded pu nds eds t t' ids es -> unmarshal_props pu (je_props ed) = Some p ->
  stands_for nds ids (je_from ed) from -> stands_for nds ids (je_to ed) to ->
  s_edges t' !! e = None -> s_nodes t'' = s_nodes t' -> s_edges t'' = <[e := Edge from to (je_label ed) p]> (s_edges t') ->
  decoded pu nds (eds ++ [ed]) t t'' ids (es ++ [e]).
Proof.
  intros [D1 D2 D3 D4 D5 D6 D7 D8 D9 D10] Hp Hf Ht He En Ee.
  assert (Hnid : e ∉ es).
  { intros Hin. apply elem_of_list_lookup in Hin as [k Hk]. destruct (Forall2_lookup_r _ _ _ _ _ D2 Hk) as (x & _ & a & b & q & _ & _ & _ & Hq). congruence. }
  split; rewrite ?En; try done.
  - apply Forall2_app.
    + eapply Forall2_impl; [exact D2|]. intros x m (a & b & q & Hq & Ha & Hb & Hm). exists a, b, q. split_and!; try done.
      rewrite Ee, lookup_insert_ne; [done|congruence].
    + constructor; [|constructor]. exists from, to, p. split_and!; try done. by rewrite Ee, lookup_insert.
  - apply NoDup_app. split; [done|]. split; [|apply NoDup_singleton]. intros x Hx ->%elem_of_list_singleton. done.
  - intros x [Hx|Hx]%elem_of_app; [by apply D6|]. apply elem_of_list_singleton in Hx as ->. intros [y Hy].
    apply (lookup_weaken _ _ _ _ Hy) in D8. congruence.
  - rewrite Ee. etrans; [exact D8|]. by apply insert_subseteq.
  - intros x Hx. apply D9. unfold live_node in *. by rewrite En in Hx.
  - intros x [y Hy]. rewrite elem_of_app, elem_of_list_singleton. destruct (decide (x = e)) as [->|Hne]; [tauto|].
    rewrite Ee, lookup_insert_ne in Hy by done. destruct (D10 x) as [?|?]; [by eexists|tauto|tauto].
Qed.
Lemma decoded_live pu nds eds t t' ids es n : decoded pu nds eds t t' ids es -> n ∈ ids -> live_node t' n.
Proof.
  intros D Hin. apply elem_of_list_lookup in Hin as [k Hk].
  destruct (Forall2_lookup_r _ _ _ _ _ (dd_nodes _ _ _ _ _ _ _ D) Hk) as (x & _ & q & _ & Hq). by eexists.
Qed.

Section decode.
  Context (pu : unmarshaler) (lord : nat -> gset string -> list string) (Hlord : forall i X, order_of X (lord i X)).
  Context (tops : list op) (V W : string -> value -> Prop).

  Definition jsafe : Prop := calls_safe tops /\ accepts tops V W.
  Definition jsat {A} (r : res A) (P : A -> Prop) : Prop := (forall a, r = Ok a -> P a) /\ (jsafe -> exists a, r = Ok a).
  Lemma jsat_ok {A} (a : A) (P : A -> Prop) : P a -> jsat (Ok a) P.
  Proof. intros H. split; [by intros ? [= <-]|eauto]. Qed.
  Lemma jsat_bind {A B} (r : res A) (k : A -> res B) (P : A -> Prop) (Q : B -> Prop) : jsat r P -> (forall a, P a -> jsat (k a) Q) -> jsat (rbind r k) Q.
  Proof.
    intros [H1 H2] H. split.
    - intros b Hb. apply rbind_Ok_inv in Hb as (a & Ha & Hb). by apply (H a (H1 a Ha)).
    - intros Hs. destruct (H2 Hs) as [a Ha]. rewrite Ha. simpl. by apply (H a (H1 a Ha)).
  Qed.
  Lemma jsat_mono {A} (r : res A) (P Q : A -> Prop) : jsat r P -> (forall a, P a -> Q a) -> jsat r Q.
  Proof. intros [H1 H2] H. split; [|done]. auto. Qed.

  (** the graph is the target after more calls *)
  Definition extends (g : graph) (ops' : list op) : Prop :=
    valid_history (tops ++ ops') /\ run (tops ++ ops') = Ok g /\ Forall (add_op V W) ops'.
  Lemma extends_step g ops' o : extends g ops' -> add_op V W o -> valid (srun (tops ++ ops')) o ->
    jsat (step g o) (fun g' => extends g' (ops' ++ [o])).
  Proof.
    intros (Hv & Hr & Hf) Ho Hvo. assert (Hf' : Forall (add_op V W) (ops' ++ [o])) by (apply Forall_app; by repeat constructor).
    split.
    - intros g' Hs. split_and!; [|rewrite app_assoc, run_snoc, Hr; done|done]. rewrite app_assoc. by apply valid_history_snoc.
    - intros [S1 S2]. apply (step_progress (tops ++ ops') o g); try done. rewrite <-app_assoc. by apply (calls_safe_adds V W).
  Qed.
  Lemma extends_node g ops' L p i : extends g ops' -> (forall k v, p !! k = Some v -> V k v) ->
    jsat (new_node g L p (lord i L)) (fun r => extends r.1 (ops' ++ [ONewNode L p (lord i L)]) /\
      let t' := srun (tops ++ ops') in let t'' := srun (tops ++ ops' ++ [ONewNode L p (lord i L)]) in
      s_nodes t' !! r.2 = None /\ s_nodes t'' = <[r.2 := SNode L p]> (s_nodes t') /\ s_edges t'' = s_edges t').
  Proof.
    intros Hg HV. set (o := ONewNode L p (lord i L)).
    destruct (extends_step g ops' o Hg HV (Hlord i L)) as [Hs1 Hs2]. unfold o in Hs1, Hs2. cbn [step] in Hs1, Hs2.
    split; [|intros Hsafe; apply Hs2 in Hsafe as [g' Hg']; apply rbind_Ok_inv in Hg' as (r & Hr & _); eauto].
    intros [g' n] Hr. rewrite Hr in Hs1. cbn [rbind fst snd] in *. split; [by apply Hs1|].
    destruct (new_node_shape _ _ _ _ _ _ Hr) as (En & _). destruct Hg as (Hv & Hrun & _).
    destruct (ids_bounded _ _ Hv Hrun) as [B _]. pose proof (core_run _ _ Hv Hrun) as (_ & Enext & _). rewrite Enext in En.
    cbv zeta. split.
    - destruct (s_nodes (srun (tops ++ ops')) !! n) eqn:E; [|done]. assert (n < s_next (srun (tops ++ ops'))); [|lia]. apply B. by eexists.
    - rewrite app_assoc, srun_snoc, En. done.
  Qed.
  Lemma extends_edge g ops' from to l p : extends g ops' -> (forall k v, p !! k = Some v -> W k v) ->
    live_node (srun (tops ++ ops')) from -> live_node (srun (tops ++ ops')) to ->
    jsat (new_edge g from to l p) (fun r => extends r.1 (ops' ++ [ONewEdge from to l p]) /\
      let t' := srun (tops ++ ops') in let t'' := srun (tops ++ ops' ++ [ONewEdge from to l p]) in
      s_edges t' !! r.2 = None /\ s_nodes t'' = s_nodes t' /\ s_edges t'' = <[r.2 := Edge from to l p]> (s_edges t')).
  Proof.
    intros Hg HW Lf Lt. set (o := ONewEdge from to l p).
    destruct (extends_step g ops' o Hg HW (conj Lf Lt)) as [Hs1 Hs2]. unfold o in Hs1, Hs2. cbn [step] in Hs1, Hs2.
    split; [|intros Hsafe; apply Hs2 in Hsafe as [g' Hg']; apply rbind_Ok_inv in Hg' as (r & Hr & _); eauto].
    intros [g' n] Hr. rewrite Hr in Hs1. cbn [rbind fst snd] in *. split; [by apply Hs1|].
    destruct (new_edge_shape _ _ _ _ _ _ _ Hr) as (En & _). destruct Hg as (Hv & Hrun & _).
    destruct (ids_bounded _ _ Hv Hrun) as [_ B]. pose proof (core_run _ _ Hv Hrun) as (_ & Enext & _). rewrite Enext in En.
    cbv zeta. split.
    - destruct (s_edges (srun (tops ++ ops')) !! n) eqn:E; [|done]. assert (n < s_next (srun (tops ++ ops'))); [|lia]. apply B. by eexists.
    - rewrite app_assoc, srun_snoc, En. done.
  Qed.

  (** the state after adding [nds] and the edges [dn] *)
  Definition inv (nds : list jnode) (ids : list nat) (dn : list (jedge * nat)) (s : dstate) : Prop :=
    (exists ops', extends (d_graph s) ops' /\ decoded pu nds dn.*1 (srun tops) (srun (tops ++ ops')) ids dn.*2) /\
    (forall i n, d_map s !! i = Some n -> stands_for nds ids i n) /\ (forall nd, nd ∈ nds -> is_Some (d_map s !! jn_n nd)).
  (** nodes and edges as in [B] were added *)
  Definition bad (B : list jnode -> list jedge -> Prop) (s : dstate) : Prop :=
    exists ops' nds ids eds es, extends (d_graph s) ops' /\ decoded pu nds eds (srun tops) (srun (tops ++ ops')) ids es /\ B nds eds.
  (** no error; or an error, and [R] is false *)
  Definition outcome (R : Prop) (B : list jnode -> list jedge -> Prop) (G : dstate -> Prop) (r : dstate * bool) : Prop :=
    (r.2 = true /\ G r.1) \/ (r.2 = false /\ ~ R /\ bad B r.1).
  Lemma inv_bad (B : list jnode -> list jedge -> Prop) nds ids dn s : inv nds ids dn s -> B nds dn.*1 -> bad B s.
  Proof. intros [(ops' & H & Hd) _] HB. by exists ops', nds, ids, dn.*1, dn.*2. Qed.
  Lemma bad_mono (B B' : list jnode -> list jedge -> Prop) s : (forall N E, B N E -> B' N E) -> bad B s -> bad B' s.
  Proof. intros H (ops' & nds & ids & eds & es & H1 & H2 & H3). exists ops', nds, ids, eds, es. auto. Qed.
  Lemma outcome_mono (R R' : Prop) (B B' : list jnode -> list jedge -> Prop) (G G' : dstate -> Prop) r :
    (R' -> R) -> (forall N E, B N E -> B' N E) -> (forall s, G s -> G' s) -> outcome R B G r -> outcome R' B' G' r.
  Proof.
    unfold outcome. intros H1 H0 H2 [(? & ?)|(? & ? & ?)]; [left|right]; split_and!; auto. by eapply bad_mono.
  Qed.
  (** the nodes are [nds] and a prefix of [l], the edges [E0] and some of those embedded in the latter *)
  Definition some_nodes (nds l : list jnode) (E0 : list jedge) (N : list jnode) (E : list jedge) : Prop :=
    exists l1 q, l1 `prefix_of` l /\ N = nds ++ l1 /\ E = E0 ++ q /\ q ⊆+ mjoin (map embedded l1).
  (** the nodes are [nds], the edges [E0] and some of [l] *)
  Definition some_edges (nds : list jnode) (E0 l : list jedge) (N : list jnode) (E : list jedge) : Prop :=
    exists q, N = nds /\ E = E0 ++ q /\ q ⊆+ l.
  Lemma no_edges nds E0 l : some_edges nds E0 l nds E0.
  Proof. exists []. rewrite app_nil_r. split_and!; [done|done|apply submseteq_nil_l]. Qed.
  Lemma no_nodes nds l E0 : some_nodes nds l E0 nds E0.
  Proof. exists [], []. rewrite !app_nil_r. split_and!; try done. apply prefix_nil. Qed.

  Definition edge_vals (ed : jedge) : Prop := forall p, unmarshal_props pu (je_props ed) = Some p -> forall k v, p !! k = Some v -> W k v.
  Definition node_vals (nd : jnode) : Prop := forall p, unmarshal_props pu (jn_props nd) = Some p -> forall k v, p !! k = Some v -> V k v.

  Lemma add_edge_ok nds ids dn s from to ed ed' : inv nds ids dn s -> edge_vals ed -> je_label ed' = je_label ed -> je_props ed' = je_props ed ->
    stands_for nds ids (je_from ed') from -> stands_for nds ids (je_to ed') to ->
    jsat (add_edge pu s from to ed) (outcome (readable pu (je_props ed)) (some_edges nds dn.*1 []) (fun s' =>
      d_map s' = d_map s /\ d_queue s' = d_queue s /\ exists e, inv nds ids (dn ++ [(ed', e)]) s')).
  Proof.
    intros Hi HW El Ep Hf Ht. pose proof Hi as ((ops' & He & Hd) & Hm1 & Hm2). unfold add_edge, readable.
    destruct (unmarshal_props pu (je_props ed)) as [p|] eqn:E.
    2:{ apply jsat_ok. right. split; [done|]. split; [by intros [? ?]|]. eapply inv_bad; [exact Hi|apply no_edges]. }
    eapply jsat_bind; [apply (extends_edge _ ops' from to (je_label ed) p He (HW p E))|].
    - by eapply decoded_live; [|eapply stands_for_in].
    - by eapply decoded_live; [|eapply stands_for_in].
    - intros [g' e] (He' & Hn & En & Ee). cbn [fst snd] in *. apply jsat_ok. left. cbn [fst snd]. split; [done|].
      split; [done|]. split; [done|]. exists e. split; [|done]. cbn [d_graph]. eexists. split; [exact He'|].
      rewrite !fmap_app. cbn [fmap list_fmap fst snd]. eapply (decoded_edge pu nds dn.*1 _ _ _ ids dn.*2 ed' e from to p Hd); try done; [by rewrite Ep|by rewrite El].
  Qed.

  (** a loop over edges, each of which is added or queued *)
  Lemma edges_loop nds ids (f : dstate -> jedge -> res (dstate * bool)) (conv : jedge -> jedge) l :
    (forall s dn ed, ed ∈ l -> inv nds ids dn s -> jsat (f s ed) (outcome (readable pu (je_props ed)) (some_edges nds dn.*1 []) (fun s' =>
       exists dn' q', inv nds ids (dn ++ dn') s' /\ d_queue s' = d_queue s ++ q' /\ dn'.*1 ++ q' = [conv ed]))) ->
    forall s dn, inv nds ids dn s ->
    jsat (dfold f l s) (outcome (forall ed, ed ∈ l -> readable pu (je_props ed)) (some_edges nds dn.*1 (map conv l)) (fun s' =>
       exists dn' q', inv nds ids (dn ++ dn') s' /\ d_queue s' = d_queue s ++ q' /\ dn'.*1 ++ q' ≡ₚ map conv l)).
  Proof.
    induction l as [|ed l IH]; intros Hf s dn Hi; cbn [dfold].
    { apply jsat_ok. left. cbn [fst snd]. split; [done|]. exists [], [].
      split; [by rewrite app_nil_r|]. split; [by rewrite app_nil_r|done]. }
    eapply jsat_bind; [apply (Hf s dn ed (elem_of_list_here _ _) Hi)|]. intros [s1 b] [(Hb & dn1 & q1 & Hi1 & Hq1 & E1)|(Hb & Hr & Hbad)]; cbn [fst snd] in *; subst b.
    - eapply jsat_mono; [apply (IH (fun s dn ed H => Hf s dn ed (elem_of_list_further _ _ _ H)) s1 _ Hi1)|]. intros r.
      apply outcome_mono.
      + intros H x Hx. apply H. by right.
      + intros N E (q & -> & -> & Hq). exists (dn1.*1 ++ q). split; [done|]. split; [by rewrite fmap_app, app_assoc|].
        cbn [map]. change (conv ed :: map conv l) with ([conv ed] ++ map conv l). rewrite <-E1. apply submseteq_app; [|done].
        by apply submseteq_inserts_r.
      + intros s' (dn2 & q2 & Hi2 & Hq2 & E2). exists (dn1 ++ dn2), (q1 ++ q2). split; [by rewrite app_assoc|]. split; [by rewrite Hq2, Hq1, app_assoc|].
        cbn [map]. rewrite <-E2. change (conv ed :: dn2.*1 ++ q2) with ([conv ed] ++ dn2.*1 ++ q2). rewrite <-E1, fmap_app. solve_Permutation.
    - apply jsat_ok. right. cbn [fst snd]. split; [done|]. split; [intros H; apply Hr, H; left|].
      eapply bad_mono; [|exact Hbad]. intros N E (q & -> & -> & Hq). exists q. split_and!; try done.
      apply submseteq_nil_r in Hq as ->. apply submseteq_nil_l.
  Qed.
  Lemma enqueue_ok nds ids dn s ed (R : Prop) B : inv nds ids dn s ->
    outcome R B (fun s' => exists dn' q', inv nds ids (dn ++ dn') s' /\ d_queue s' = d_queue s ++ q' /\ dn'.*1 ++ q' = [ed]) (enqueue s ed, true).
  Proof. intros Hi. left. split; [done|]. exists [], [ed]. split; [by rewrite app_nil_r|]. done. Qed.
  Lemma added_ok nds ids dn s from to ed ed' : inv nds ids dn s -> edge_vals ed -> je_label ed' = je_label ed -> je_props ed' = je_props ed ->
    stands_for nds ids (je_from ed') from -> stands_for nds ids (je_to ed') to ->
    jsat (add_edge pu s from to ed) (outcome (readable pu (je_props ed)) (some_edges nds dn.*1 []) (fun s' =>
      exists dn' q', inv nds ids (dn ++ dn') s' /\ d_queue s' = d_queue s ++ q' /\ dn'.*1 ++ q' = [ed'])).
  Proof.
    intros. eapply jsat_mono; [by eapply add_edge_ok|]. intros r. apply outcome_mono; [done|done|].
    intros s' (_ & Hq & e & Hi). exists [(ed', e)], []. split; [done|]. split; [by rewrite app_nil_r|done].
  Qed.

  Lemma add_node_ok nds ids dn s nd : inv nds ids dn s -> node_vals nd -> (forall ed, ed ∈ jn_edges nd -> edge_vals ed) ->
    jsat (add_node pu lord s nd) (outcome (readable pu (jn_props nd) /\ forall ed, ed ∈ jn_edges nd -> readable pu (je_props ed)) (some_nodes nds [nd] dn.*1) (fun s' =>
      exists n dn' q', inv (nds ++ [nd]) (ids ++ [n]) (dn ++ dn') s' /\ d_queue s' = d_queue s ++ q' /\ dn'.*1 ++ q' ≡ₚ embedded nd)).
  Proof.
    intros Hi HV HW. pose proof Hi as ((ops' & He & Hd) & Hm1 & Hm2). unfold add_node.
    destruct (unmarshal_props pu (jn_props nd)) as [p|] eqn:E.
    2:{ apply jsat_ok. right. split; [done|]. split; [|eapply inv_bad; [exact Hi|apply no_nodes]]. unfold readable. rewrite E. by intros [[? ?] _]. }
    cbv zeta. eapply jsat_bind; [apply (extends_node _ ops' _ p (g_next (d_graph s)) He (HV p E))|].
    intros [g' n] (He' & Hn & En & Ee). cbn [fst snd] in *.
    pose proof (decoded_node pu nds dn.*1 _ _ _ ids dn.*2 nd n p Hd E Hn En Ee) as Hd'.
    pose proof (Forall2_length _ _ _ (dd_nodes _ _ _ _ _ _ _ Hd)) as El.
    assert (Hi' : inv (nds ++ [nd]) (ids ++ [n]) dn (DState g' (<[jn_n nd := n]> (d_map s)) (d_queue s))).
    { split; [by eexists|]. cbn [d_map]. split.
      - intros i m. destruct (decide (i = jn_n nd)) as [->|Hne].
        + rewrite lookup_insert. intros [= <-]. by apply stands_for_last.
        + rewrite lookup_insert_ne by done. intros H. apply stands_for_app; [done|]. by apply Hm1.
      - intros x [Hx|Hx]%elem_of_app.
        + destruct (decide (jn_n x = jn_n nd)) as [->|Hne]; [rewrite lookup_insert; by eexists|]. rewrite lookup_insert_ne by done. by apply Hm2.
        + apply elem_of_list_singleton in Hx as ->. rewrite lookup_insert. by eexists. }
    eapply jsat_mono; [apply (edges_loop (nds ++ [nd]) (ids ++ [n]) _ (fun ed => JEdge (jn_n nd) (je_to ed) (je_label ed) (je_props ed)) (jn_edges nd)) with (dn := dn); [|exact Hi']|].
    - intros s1 dn1 ed Hed Hi1. destruct (d_map s1 !! je_to ed) as [to|] eqn:Eto.
      + apply added_ok; try done; [by apply HW|by apply stands_for_last|]. by apply Hi1.
      + apply jsat_ok. by apply enqueue_ok.
    - intros r. apply outcome_mono; [tauto| |].
      + intros N E' (q & -> & -> & Hq). exists [nd], q. split_and!; try done. cbn [map mjoin list_join]. by rewrite app_nil_r.
      + intros s' (dn' & q' & H1 & H2 & H3). by exists n, dn', q'.
  Qed.
  Lemma nodes_loop l : (forall nd, nd ∈ l -> node_vals nd /\ forall ed, ed ∈ jn_edges nd -> edge_vals ed) -> forall nds ids dn s, inv nds ids dn s ->
    jsat (dfold (add_node pu lord) l s) (outcome (forall nd, nd ∈ l -> readable pu (jn_props nd) /\ forall ed, ed ∈ jn_edges nd -> readable pu (je_props ed)) (some_nodes nds l dn.*1) (fun s' =>
      exists ids' dn' q', inv (nds ++ l) (ids ++ ids') (dn ++ dn') s' /\ d_queue s' = d_queue s ++ q' /\ dn'.*1 ++ q' ≡ₚ mjoin (map embedded l))).
  Proof.
    induction l as [|nd l IH]; intros Hv nds ids dn s Hi; cbn [dfold].
    { apply jsat_ok. left. cbn [fst snd]. split; [done|]. exists [], [], []. rewrite !app_nil_r. done. }
    destruct (Hv nd (elem_of_list_here _ _)) as [HV HW].
    eapply jsat_bind; [apply (add_node_ok nds ids dn s nd Hi HV HW)|]. intros [s1 b] [(Hb & n & dn1 & q1 & Hi1 & Hq1 & E1)|(Hb & Hr & Hbad)]; cbn [fst snd] in *; subst b.
    - eapply jsat_mono; [apply (IH (fun nd H => Hv nd (elem_of_list_further _ _ _ H)) _ _ _ s1 Hi1)|]. intros r. apply outcome_mono.
      + intros H x Hx. apply H. by right.
      + intros N E (l1 & q & Hl & -> & -> & Hq). exists (nd :: l1), (dn1.*1 ++ q). split; [by apply prefix_cons|].
        split; [by rewrite <-app_assoc|]. split; [by rewrite fmap_app, app_assoc|].
        cbn [map mjoin list_join]. rewrite <-E1. apply submseteq_app; [by apply submseteq_inserts_r|done].
      + intros s' (ids2 & dn2 & q2 & Hi2 & Hq2 & E2). exists (n :: ids2), (dn1 ++ dn2), (q1 ++ q2). split.
        * rewrite <-!app_assoc in Hi2. exact Hi2.
        * split; [by rewrite Hq2, Hq1, app_assoc|]. cbn [map mjoin list_join]. rewrite <-E2, <-E1, fmap_app. solve_Permutation.
    - apply jsat_ok. right. cbn [fst snd]. split; [done|]. split; [intros H; apply Hr, H; left|].
      eapply bad_mono; [|exact Hbad]. intros N E (l1 & q & Hl & -> & -> & Hq). exists l1, q. split_and!; try done.
      etrans; [exact Hl|]. by exists l.
  Qed.
  Lemma jedges_loop l nds ids dn s : (forall ed, ed ∈ l -> edge_vals ed) -> inv nds ids dn s ->
    jsat (dfold (add_jedge pu) l s) (outcome (forall ed, ed ∈ l -> readable pu (je_props ed)) (some_edges nds dn.*1 l) (fun s' =>
      exists dn' q', inv nds ids (dn ++ dn') s' /\ d_queue s' = d_queue s ++ q' /\ dn'.*1 ++ q' ≡ₚ l)).
  Proof.
    intros HW Hi. eapply jsat_mono; [apply (edges_loop nds ids _ id l) with (dn := dn); [|exact Hi]|].
    - intros s1 dn1 ed Hed Hi1. unfold add_jedge. destruct (d_map s1 !! je_from ed) as [from|] eqn:Ef; [|apply jsat_ok; by apply enqueue_ok].
      destruct (d_map s1 !! je_to ed) as [to|] eqn:Eto; [|apply jsat_ok; by apply enqueue_ok].
      apply added_ok; try done; [by apply HW|by apply Hi1|by apply Hi1].
    - intros r. apply outcome_mono; [done| |].
      + intros N E (q & HN & HE & Hq). exists q. by rewrite list_fmap_id in Hq.
      + intros s' (dn' & q' & H1 & H2 & H3). exists dn', q'. by rewrite list_fmap_id in H3.
  Qed.
  Lemma queue_loop l nds ids : (forall ed, ed ∈ l -> edge_vals ed) -> forall dn s, inv nds ids dn s ->
    jsat (dfold (add_queued pu) l s) (outcome (forall ed, ed ∈ l -> readable pu (je_props ed) /\ declared nds (je_from ed) /\ declared nds (je_to ed)) (some_edges nds dn.*1 l) (fun s' =>
      exists dn', inv nds ids (dn ++ dn') s' /\ dn'.*1 = l)).
  Proof.
    induction l as [|ed l IH]; intros HW dn s Hi; cbn [dfold].
    { apply jsat_ok. left. cbn [fst snd]. split; [done|]. exists []. by rewrite app_nil_r. }
    pose proof Hi as (_ & Hm1 & Hm2).
    eapply jsat_bind.
    - instantiate (1 := outcome (readable pu (je_props ed) /\ declared nds (je_from ed) /\ declared nds (je_to ed)) (some_edges nds dn.*1 []) (fun s' => exists e, inv nds ids (dn ++ [(ed, e)]) s')).
      unfold add_queued. destruct (d_map s !! je_from ed) as [from|] eqn:Ef.
      2:{ apply jsat_ok. right. split; [done|]. split; [|eapply inv_bad; [exact Hi|apply no_edges]]. intros (_ & (nd & Hnd & E) & _). apply Hm2 in Hnd as [? Hnd]. congruence. }
      destruct (d_map s !! je_to ed) as [to|] eqn:Et.
      2:{ apply jsat_ok. right. split; [done|]. split; [|eapply inv_bad; [exact Hi|apply no_edges]]. intros (_ & _ & nd & Hnd & E). apply Hm2 in Hnd as [? Hnd]. congruence. }
      eapply jsat_mono; [eapply (add_edge_ok nds ids dn s from to ed ed); try done; [apply HW; left|by apply Hi|by apply Hi]|].
      intros r. apply outcome_mono; [tauto|done|]. intros s' (_ & _ & ?). done.
    - intros [s1 b] [(Hb & e & Hi1)|(Hb & Hr & Hbad)]; cbn [fst snd] in *; subst b.
      + eapply jsat_mono; [apply (IH (fun ed H => HW ed (elem_of_list_further _ _ _ H)) _ s1 Hi1)|]. intros r. apply outcome_mono.
        * intros H x Hx. apply H. by right.
        * intros N E (q & -> & -> & Hq). exists (ed :: q). split; [done|]. split; [|by apply submseteq_skip].
          rewrite fmap_app. cbn [fmap list_fmap fst]. by rewrite <-app_assoc.
        * intros s' (dn2 & Hi2 & E2). exists ((ed, e) :: dn2). split; [by rewrite <-app_assoc in Hi2|]. cbn [fmap list_fmap fst]. by rewrite E2.
      + apply jsat_ok. right. cbn [fst snd]. split; [done|]. split; [intros H; apply Hr, H; left|].
        eapply bad_mono; [|exact Hbad]. intros N E (q & -> & -> & Hq). exists q. split_and!; try done.
        apply submseteq_nil_r in Hq as ->. apply submseteq_nil_l.
  Qed.

  (** the values of the members *)
  Definition member_vals (ms : list (string * json)) : Prop :=
    (forall v l nd, ("nodes", v) ∈ ms -> read_list read_node v = Some l -> nd ∈ l -> node_vals nd /\ forall ed, ed ∈ jn_edges nd -> edge_vals ed) /\
    (forall v l ed, ("edges", v) ∈ ms -> read_list (read_edge true) v = Some l -> ed ∈ l -> edge_vals ed).
  Lemma member_vals_tail p ms : member_vals (p :: ms) -> member_vals ms.
  Proof. intros [H1 H2]. split; intros v l x Hin; [apply (H1 v l x)|apply (H2 v l x)]; by right. Qed.
  Lemma mjoin_app {A} (l k : list (list A)) : mjoin (l ++ k) = mjoin l ++ mjoin k.
  Proof. induction l as [|x l IH]; [done|].
    change (x ++ mjoin (l ++ k) = (x ++ mjoin l) ++ mjoin k). by rewrite IH, app_assoc. Qed.
  (** the nodes are [nds0] and a prefix of those of a prefix of [ms], the edges are among [es] and the latter's *)
  Definition some_members (nds0 : list jnode) (es : list jedge) (ms : list (string * json)) (N : list jnode) (E : list jedge) : Prop :=
    exists ms1 n e n1, ms1 `prefix_of` ms /\ doc_nodes ms1 = Some n /\ doc_edges ms1 = Some e /\
      n1 `prefix_of` n /\ N = nds0 ++ n1 /\ E ⊆+ es ++ mjoin (map embedded n1) ++ e.
  Lemma no_members nds0 E0 q ms : some_members nds0 (E0 ++ q) ms nds0 E0.
  Proof.
    exists [], [], [], []. split_and!; try done; [apply prefix_nil|by rewrite app_nil_r|]. rewrite !app_nil_r. by apply submseteq_inserts_r.
  Qed.
  Lemma doc_nodes_cons_nodes v ms : doc_nodes (("nodes", v) :: ms) = (l ← read_list read_node v; nds ← doc_nodes ms; Some (l ++ nds)).
  Proof.
    unfold doc_nodes. rewrite filter_cons, decide_True by done. cbn [mapM snd]. destruct (read_list read_node v) as [l|]; [|done]. cbn.
    by destruct (mapM _ _).
  Qed.
  Lemma doc_edges_cons_edges v ms : doc_edges (("edges", v) :: ms) = (l ← read_list (read_edge true) v; nds ← doc_edges ms; Some (l ++ nds)).
  Proof.
    unfold doc_edges. rewrite filter_cons, decide_True by done. cbn [mapM snd]. destruct (read_list (read_edge true) v) as [l|]; [|done]. cbn.
    by destruct (mapM _ _).
  Qed.
  Lemma process_ok ms : member_vals ms -> forall nds0 ids dn s, inv nds0 ids dn s -> (forall ed, ed ∈ d_queue s -> edge_vals ed) ->
    jsat (process pu lord ms s) (outcome
      (exists nds es, doc_nodes ms = Some nds /\ doc_edges ms = Some es /\
         sound_doc pu (nds0 ++ nds) (dn.*1 ++ d_queue s ++ mjoin (map embedded nds) ++ es))
      (some_members nds0 (dn.*1 ++ d_queue s) ms)
      (fun s' => exists nds es ids' dn', doc_nodes ms = Some nds /\ doc_edges ms = Some es /\ inv (nds0 ++ nds) ids' dn' s' /\
         dn'.*1 ≡ₚ dn.*1 ++ d_queue s ++ mjoin (map embedded nds) ++ es)).
  Proof.
    induction ms as [|[key v] ms IH]; intros Hv nds0 ids dn s Hi Hq; cbn [process].
    { eapply jsat_mono; [by apply (queue_loop (d_queue s) nds0 ids Hq dn s Hi)|]. intros r. apply outcome_mono.
      - intros (nds & es & [= <-] & [= <-] & _ & HE) ed Hed. rewrite !app_nil_r in HE. apply HE. set_solver.
      - intros N E (q & -> & -> & Hq'). exists [], [], [], []. split_and!; try done; [by rewrite app_nil_r|].
        rewrite !app_nil_r. by apply submseteq_app.
      - intros s' (dn' & Hi' & E). exists [], [], ids, (dn ++ dn'). split; [done|]. split; [done|]. rewrite !app_nil_r. split; [done|].
        by rewrite fmap_app, E. }
    pose proof (member_vals_tail _ _ Hv) as Hv'. destruct Hv as [Hv1 Hv2].
    destruct (decide (key = "nodes")) as [->|N1].
    { assert (Ed : doc_edges (("nodes", v) :: ms) = doc_edges ms) by done.
      pose proof (doc_nodes_cons_nodes v ms) as En. rewrite Ed, En. destruct (read_list read_node v) as [l|] eqn:El.
      2:{ apply jsat_ok. right. split; [done|]. split; [by intros (? & ? & ? & _)|]. eapply inv_bad; [exact Hi|apply no_members]. }
      cbn [mbind option_bind].
      eapply jsat_bind; [apply (nodes_loop l (fun nd H => Hv1 v l nd (elem_of_list_here _ _) El H) nds0 ids dn s Hi)|].
      intros [s1 b] [(Hb & ids1 & dn1 & q1 & Hi1 & Hq1 & E1)|(Hb & Hr & Hbad)]; cbn [fst snd] in *; subst b.
      - assert (Hperm : forall nds es, (dn ++ dn1).*1 ++ d_queue s1 ++ mjoin (map embedded nds) ++ es ≡ₚ dn.*1 ++ d_queue s ++ mjoin (map embedded (l ++ nds)) ++ es).
        { intros nds es. rewrite (map_app embedded), mjoin_app, <-E1, Hq1, fmap_app. solve_Permutation. }
        eapply jsat_mono; [apply (IH Hv' _ _ _ s1 Hi1)|].
        + intros ed. rewrite Hq1. intros [?|Hed]%elem_of_app; [by apply Hq|].
          assert (ed ∈ mjoin (map embedded l)) as Hem. { rewrite <-E1. apply elem_of_app. by right. }
          apply elem_of_list_join in Hem as (x & Hx & Hin). apply elem_of_list_fmap in Hin as (nd & -> & Hnd).
          apply elem_of_list_fmap in Hx as (ed' & -> & Hed'). exact (proj2 (Hv1 v l nd (elem_of_list_here _ _) El Hnd) ed' Hed').
        + intros r. apply outcome_mono.
          * intros (nds & es & Hn & He & Hs). apply bind_Some in Hn as (nds' & Hn & [= <-]). exists nds', es. split; [done|]. split; [done|].
            rewrite <-app_assoc. destruct Hs as [S1 S2]. split; [done|]. intros ed Hed. apply S2. by rewrite <-Hperm.
          * intros N E (ms1 & n & e & n1 & Hms & Hn & He & Hn1 & -> & HE). exists (("nodes", v) :: ms1), (l ++ n), e, (l ++ n1).
            split; [by apply prefix_cons|]. rewrite doc_nodes_cons_nodes, El, Hn. cbn. split; [done|]. split; [done|].
            split; [by apply prefix_app|]. split; [by rewrite app_assoc|]. rewrite HE. rewrite <-!app_assoc, Hperm. done.
          * intros s' (nds & es & ids' & dn' & Hn & He & Hi' & E'). exists (l ++ nds), es, ids', dn'. rewrite Hn. cbn. split; [done|]. split; [done|].
            rewrite app_assoc. split; [done|]. by rewrite E', Hperm.
      - apply jsat_ok. right. cbn [fst snd]. split; [done|]. split.
        2:{ eapply bad_mono; [|exact Hbad]. intros N E (l1 & q & Hl & -> & -> & Hq'). exists [("nodes", v)], l, [], l1.
            split; [by apply prefix_cons, prefix_nil|]. rewrite doc_nodes_cons_nodes, El. cbn. rewrite !app_nil_r.
            split_and!; try done. apply submseteq_app; [by apply submseteq_inserts_r|done]. }
        intros (nds & es & Hn & He & S1 & S2). apply bind_Some in Hn as (nds' & Hn & [= <-]). apply Hr. intros nd Hnd. split.
        + apply S1. set_solver.
        + intros ed Hed. apply (S2 (JEdge (jn_n nd) (je_to ed) (je_label ed) (je_props ed))).
          apply elem_of_app. right. apply elem_of_app. right. apply elem_of_app. left. apply elem_of_list_join. exists (embedded nd).
          split; [unfold embedded; apply elem_of_list_fmap; by exists ed|]. apply elem_of_list_fmap. exists nd. split; [done|]. set_solver. }
    destruct (decide (key = "edges")) as [->|N2].
    { assert (En : doc_nodes (("edges", v) :: ms) = doc_nodes ms) by done.
      pose proof (doc_edges_cons_edges v ms) as Ed. rewrite Ed, En. destruct (read_list (read_edge true) v) as [l|] eqn:El.
      2:{ apply jsat_ok. right. split; [done|]. split; [by intros (? & ? & _ & ? & _)|]. eapply inv_bad; [exact Hi|apply no_members]. }
      cbn [mbind option_bind].
      eapply jsat_bind; [apply (jedges_loop l nds0 ids dn s (fun ed H => Hv2 v l ed (elem_of_list_here _ _) El H) Hi)|].
      intros [s1 b] [(Hb & dn1 & q1 & Hi1 & Hq1 & E1)|(Hb & Hr & Hbad)]; cbn [fst snd] in *; subst b.
      - assert (Hperm : forall nds es, (dn ++ dn1).*1 ++ d_queue s1 ++ mjoin (map embedded nds) ++ es ≡ₚ dn.*1 ++ d_queue s ++ mjoin (map embedded nds) ++ (l ++ es)).
        { intros nds es. rewrite <-E1, Hq1, fmap_app. solve_Permutation. }
        eapply jsat_mono; [apply (IH Hv' _ _ _ s1 Hi1)|].
        + intros ed. rewrite Hq1. intros [?|Hed]%elem_of_app; [by apply Hq|].
          apply (Hv2 v l ed (elem_of_list_here _ _) El). rewrite <-E1. apply elem_of_app; by right.
        + intros r. apply outcome_mono.
          * intros (nds & es & Hn & He & Hs). apply bind_Some in He as (es' & He & [= <-]). exists nds, es'. split; [done|]. split; [done|].
            destruct Hs as [S1 S2]. split; [done|]. intros ed Hed. apply S2. by rewrite <-Hperm.
          * intros N E (ms1 & n & e & n1 & Hms & Hn & He & Hn1 & -> & HE). exists (("edges", v) :: ms1), n, (l ++ e), n1.
            split; [by apply prefix_cons|]. rewrite doc_edges_cons_edges, El, He. cbn. split; [done|]. split; [done|].
            split; [done|]. split; [done|]. rewrite HE. rewrite <-!app_assoc, Hperm. done.
          * intros s' (nds & es & ids' & dn' & Hn & He & Hi' & E'). exists nds, (l ++ es), ids', dn'. rewrite He. cbn. split; [done|]. split; [done|].
            split; [done|]. by rewrite E', Hperm.
      - apply jsat_ok. right. cbn [fst snd]. split; [done|]. split.
        2:{ eapply bad_mono; [|exact Hbad]. intros N E (q & -> & -> & Hq'). exists [("edges", v)], [], l, [].
            split; [by apply prefix_cons, prefix_nil|]. rewrite doc_edges_cons_edges, El. cbn. rewrite !app_nil_r.
            split_and!; try done. apply submseteq_app; [by apply submseteq_inserts_r|done]. }
        intros (nds & es & Hn & He & S1 & S2). apply bind_Some in He as (es' & He & [= <-]). apply Hr. intros ed Hed.
        apply (S2 ed). set_solver. }
    assert (En : doc_nodes ((key, v) :: ms) = doc_nodes ms) by (unfold doc_nodes; by rewrite filter_cons, decide_False).
    assert (Ed : doc_edges ((key, v) :: ms) = doc_edges ms) by (unfold doc_edges; by rewrite filter_cons, decide_False).
    rewrite En, Ed. eapply jsat_mono; [by apply (IH Hv' nds0 ids)|]. intros r. apply outcome_mono; [done| |done].
    intros N E (ms1 & n & e & n1 & Hms & Hn & He & HN). exists ((key, v) :: ms1), n, e, n1. split; [by apply prefix_cons|].
    split; [unfold doc_nodes in *; by rewrite filter_cons, decide_False|]. split; [|done].
    unfold doc_edges in *; by rewrite filter_cons, decide_False.
  Qed.

  (** any input at all *)
  Hypothesis Hany : (forall k v, V k v) /\ (forall k v, W k v).
  Lemma loop_any k : forall d depth s nds ids dn, length (dc_in d) < k -> inv nds ids dn s ->
    jsat (decode_loop pu lord k d depth s) (fun r => bad (fun _ _ => True) r.1).
  Proof.
    destruct Hany as [HV HW].
    induction k as [|k IH]; intros d depth s nds ids dn Hk Hi; [lia|]. cbn [decode_loop].
    pose proof (inv_bad (fun _ _ => True) _ _ _ _ Hi I) as Hbad.
    destruct (token d) as [[t d']|] eqn:Et; [|by apply jsat_ok]. pose proof (token_shorter _ _ _ Et) as Hl.
    destruct depth as [|n]; [|destruct t; by eapply IH; [lia|]].
    destruct t as [| | | |sc]; try (by eapply IH; [lia|]).
    { eapply jsat_mono; [eapply queue_loop; [|exact Hi]|].
      - intros ed _ p _ k' v' _. apply HW.
      - intros r [(_ & dn' & Hi' & _)|(_ & _ & ?)]; [by eapply inv_bad|by eapply bad_mono]. }
    destruct sc as [| | | |key]; try (by eapply IH; [lia|]).
    destruct (decide (key = "nodes")).
    { destruct (decode_value d') as [[v d2]|] eqn:Ed; [|by apply jsat_ok]. apply decode_value_shorter in Ed.
      destruct (read_list read_node v) as [l|]; [|by apply jsat_ok].
      eapply jsat_bind; [apply (nodes_loop l) with (nds := nds) (ids := ids) (dn := dn); [|exact Hi]|].
      - intros nd _. split; [intros p _ k' v' _; apply HV|]. intros ed _ p _ k' v' _. apply HW.
      - intros [s1 b] [(E & ids1 & dn1 & q1 & Hi1 & _)|(E & _ & Hb)]; cbn [fst snd] in *; subst b.
        + eapply IH; [lia|exact Hi1].
        + apply jsat_ok. by eapply bad_mono. }
    destruct (decide (key = "edges")); [|by eapply IH; [lia|]].
    destruct (decode_value d') as [[v d2]|] eqn:Ed; [|by apply jsat_ok]. apply decode_value_shorter in Ed.
    destruct (read_list (read_edge true) v) as [l|]; [|by apply jsat_ok].
    eapply jsat_bind; [apply (jedges_loop l nds ids dn s); [|exact Hi]|].
    - intros ed _ p _ k' v' _. apply HW.
    - intros [s1 b] [(E & dn1 & q1 & Hi1 & _)|(E & _ & Hb)]; cbn [fst snd] in *; subst b.
      + eapply IH; [lia|exact Hi1].
      + apply jsat_ok. by eapply bad_mono.
  Qed.
End decode.

Section top.
  Context (pu : unmarshaler) (lord : nat -> gset string -> list string) (Hlord : forall i X, order_of X (lord i X)).
  Context (tops : list op) (g : graph) (Hv : valid_history tops) (Hr : run tops = Ok g).
  Lemma inv_init V W : inv pu tops V W [] [] [] (DState g ∅ []).
  Proof.
    split; [|split; [done|by intros nd H%elem_of_nil]]. exists []. unfold extends. rewrite app_nil_r. split; [|apply decoded_init].
    split; [done|]. split; [done|]. constructor.
  Qed.
  Lemma decode_adds ts g' b : decode pu lord g ts = Ok (g', b) -> exists ops' nds eds ids es, valid_history (tops ++ ops') /\
    run (tops ++ ops') = Ok g' /\ Forall adds ops' /\ decoded pu nds eds (srun tops) (srun (tops ++ ops')) ids es.
  Proof.
    intros H. set (T := fun (_ : string) (_ : value) => True). unfold decode in H.
    assert (Hno : g = g' -> exists ops' nds eds ids es, valid_history (tops ++ ops') /\
      run (tops ++ ops') = Ok g' /\ Forall adds ops' /\ decoded pu nds eds (srun tops) (srun (tops ++ ops')) ids es).
    { intros <-. exists [], [], [], [], []. rewrite app_nil_r. split_and!; [done|done|by constructor|apply decoded_init]. }
    destruct (token (new_decoder ts)) as [[t d]|] eqn:Et; [|injection H as <- <-; by apply Hno].
    destruct t; try (injection H as <- <-; by apply Hno).
    apply rbind_Ok_inv in H as (r & H & [= <- <-]). apply token_shorter in Et. cbn [new_decoder dc_in] in Et.
    destruct (loop_any pu lord Hlord tops T T (conj (fun _ _ => I) (fun _ _ => I)) (length ts) d 0 _ [] [] [] Et (inv_init T T)) as [Ha _].
    destruct (Ha _ H) as (ops' & nds & ids & eds & es & (V1 & V2 & V3%add_adds) & Hd & _). by exists ops', nds, eds, ids, es.
  Qed.
  Lemma decode_any ts g' b : decode pu lord g ts = Ok (g', b) -> exists ops', valid_history (tops ++ ops') /\ run (tops ++ ops') = Ok g' /\ Forall adds ops'.
  Proof. intros (ops' & _ & _ & _ & _ & H1 & H2 & H3 & _)%decode_adds. eauto. Qed.
  Lemma decode_returns ts : edge_list_safe tops -> (forall k, node_index tops k = None) -> (forall k, edge_index tops k = None) ->
    exists r, decode pu lord g ts = Ok r.
  Proof.
    intros Hs Hn He. set (T := fun (_ : string) (_ : value) => True). unfold decode.
    destruct (token (new_decoder ts)) as [[t d]|] eqn:Et; [|by eexists]. destruct t; try by eexists.
    apply token_shorter in Et. cbn [new_decoder dc_in] in Et.
    destruct (loop_any pu lord Hlord tops T T (conj (fun _ _ => I) (fun _ _ => I)) (length ts) d 0 _ [] [] [] Et (inv_init T T)) as [_ Hp].
    destruct Hp as [r ->]; [|by eexists]. split.
    - split; [done|]. split; intros k it; rewrite ?Hn, ?He; done.
    - split; intros k it; rewrite ?Hn, ?He; done.
  Qed.

  Lemma decode_sound ms r g' b : skippable ms -> decode pu lord g (toks (JObj ms) ++ r) = Ok (g', b) ->
    exists ops', valid_history (tops ++ ops') /\ run (tops ++ ops') = Ok g' /\ Forall adds ops' /\
      (b = true <-> exists nds eds, declares ms nds eds /\ sound_doc pu nds eds) /\
      (b = true -> exists nds eds ids es, declares ms nds eds /\ decoded pu nds eds (srun tops) (srun (tops ++ ops')) ids es).
  Proof.
    intros Hs H. rewrite decode_process in H by done. apply rbind_Ok_inv in H as (x & H & [= <- <-]).
    set (T := fun (_ : string) (_ : value) => True).
    destruct (process_ok pu lord Hlord tops T T ms) with (nds0 := @nil jnode) (ids := @nil nat) (dn := @nil (jedge * nat)) (s := DState g ∅ []) as [Hp _].
    - split; [intros; split; done|done].
    - apply inv_init.
    - by intros ed Hed%elem_of_nil.
    - destruct (Hp x H) as [(Hb & nds & es & ids & dn & Hn & He & Hi & E)|(Hb & Hno & ops' & _ & _ & _ & _ & (X1 & X2 & X3%add_adds) & _)].
      + destruct Hi as ((ops' & (X1 & X2 & X3%add_adds) & Hd) & _). cbn [app fmap list_fmap d_queue] in *.
        assert (exists es', decoded pu nds (mjoin (map embedded nds) ++ es) (srun tops) (srun (tops ++ ops')) ids es') as (es' & Hd').
        { assert (exists es', mjoin (map embedded nds) ++ es ≡ₚ dn.*1 /\ dn.*2 ≡ₚ es' /\
            Forall2 (fun ed e => exists from to p, unmarshal_props pu (je_props ed) = Some p /\
              stands_for nds ids (je_from ed) from /\ stands_for nds ids (je_to ed) to /\
              s_edges (srun (tops ++ ops')) !! e = Some (Edge from to (je_label ed) p)) (mjoin (map embedded nds) ++ es) es') as (es' & _ & P2 & F).
          { destruct Hd as [_ D2 _ _ _ _ _ _ _ _]. 
            destruct (Permutation_Forall2 E D2) as (k & Hk1 & Hk2). by exists k. }
          exists es'. destruct Hd as [D1 D2 D3 D4 D5 D6 D7 D8 D9 D10]. split; try done.
          - by rewrite <-P2.
          - intros e He'. apply D6. by rewrite P2.
          - intros e He'. destruct (D10 e He'); [by left|right]. by rewrite <-P2. }
        exists ops'. split; [done|]. split; [done|]. split; [done|].
        assert (declares ms nds (mjoin (map embedded nds) ++ es)) as Hdec by (by exists es).
        split; [|intros _; by exists nds, (mjoin (map embedded nds) ++ es), ids, es'].
        split; [intros _|done]. exists nds, (mjoin (map embedded nds) ++ es). split; [done|]. split.
        * intros nd Hnd. apply elem_of_list_lookup in Hnd as [k Hk].
          destruct (Forall2_lookup_l _ _ _ _ _ (dd_nodes _ _ _ _ _ _ _ Hd') Hk) as (n & _ & p & Hp' & _). by exists p.
        * intros ed Hed. apply elem_of_list_lookup in Hed as [k Hk].
          destruct (Forall2_lookup_l _ _ _ _ _ (dd_edges _ _ _ _ _ _ _ Hd') Hk) as (n & _ & a & c & p & Hp' & (k1 & n1 & A1 & A2 & _) & (k2 & n2 & B1 & B2 & _) & _).
          split; [by exists p|]. split; [exists n1|exists n2]; (split; [|done]); by apply elem_of_list_lookup_2 in A1, B1.
      + exists ops'. split; [done|]. split; [done|]. split; [done|]. rewrite Hb. split; [|done]. split; [done|].
        intros (nds & eds & (es & Hn & He & ->) & Hsound). exfalso. apply Hno. by exists nds, es.
  Qed.
  Lemma decode_progress ms r nds eds : skippable ms -> declares ms nds eds -> calls_safe tops -> accepts tops (node_reads pu nds) (edge_reads pu eds) ->
    exists x, decode pu lord g (toks (JObj ms) ++ r) = Ok x.
  Proof.
    intros Hs (es & Hn & He & ->) Hsafe Hacc. rewrite decode_process by done.
    assert (Hnodes : forall v l nd, ("nodes", v) ∈ ms -> read_list read_node v = Some l -> nd ∈ l -> nd ∈ nds).
    { clear - Hn. intros v l nd Hin Hl Hnd. unfold doc_nodes in Hn. apply fmap_Some in Hn as (ls & Hls & ->).
      apply mapM_Some in Hls. assert (("nodes", v) ∈ filter (fun p => p.1 = "nodes") ms) as Hf by (by apply elem_of_list_filter).
      apply elem_of_list_lookup in Hf as [k Hk]. destruct (Forall2_lookup_l _ _ _ _ _ Hls Hk) as (l' & Hl' & El). cbn [snd] in El.
      assert (l' = l) as -> by congruence. apply elem_of_list_join. exists l. split; [done|]. by apply elem_of_list_lookup_2 in Hl'. }
    assert (Hedges : forall v l ed, ("edges", v) ∈ ms -> read_list (read_edge true) v = Some l -> ed ∈ l -> ed ∈ es).
    { clear - He. intros v l nd Hin Hl Hnd. unfold doc_edges in He. apply fmap_Some in He as (ls & Hls & ->).
      apply mapM_Some in Hls. assert (("edges", v) ∈ filter (fun p => p.1 = "edges") ms) as Hf by (by apply elem_of_list_filter).
      apply elem_of_list_lookup in Hf as [k Hk]. destruct (Forall2_lookup_l _ _ _ _ _ Hls Hk) as (l' & Hl' & El). cbn [snd] in El.
      assert (l' = l) as -> by congruence. apply elem_of_list_join. exists l. split; [done|]. by apply elem_of_list_lookup_2 in Hl'. }
    destruct (process_ok pu lord Hlord tops (node_reads pu nds) (edge_reads pu (mjoin (map embedded nds) ++ es)) ms)
      with (nds0 := @nil jnode) (ids := @nil nat) (dn := @nil (jedge * nat)) (s := DState g ∅ []) as [_ Hp].
    - split.
      + intros v l nd Hin Hl Hnd. pose proof (Hnodes v l nd Hin Hl Hnd) as Hnd'. split.
        * intros p Hp k w Hk. by exists nd, p.
        * intros ed Hed p Hp k w Hk. exists (JEdge (jn_n nd) (je_to ed) (je_label ed) (je_props ed)), p. split; [|done].
          apply elem_of_app. left. apply elem_of_list_join. exists (embedded nd).
          split; apply elem_of_list_fmap; [by exists ed|by exists nd].
      + intros v l ed Hin Hl Hed p Hp k w Hk. exists ed, p. split; [|done]. apply elem_of_app. right. by eapply Hedges.
    - apply inv_init.
    - by intros ed Hed%elem_of_nil.
    - destruct Hp as [x ->]; [by split|]. by eexists.
  Qed.
End top.
