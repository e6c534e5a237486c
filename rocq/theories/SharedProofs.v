(** What the holders of a shared map see, in all programs. *)
From Verif Require Import Base Value Graph Clone CoreProofs Sharing SharingSpec SharingProofs.

(** the labels and properties in the graph are always those in memory *)
Lemma ndata_refresh st n : ndata (sh_g (refresh st)) n = (fun _ => (set_at st (sh_nset st !! n), map_at st (sh_nmap st !! n))) <$> ndata (sh_g st) n.
Proof. unfold ndata, refresh. cbn. rewrite map_lookup_imap. by destruct (g_nodes (sh_g st) !! n). Qed.
Lemma edata_refresh st n : edata (sh_g (refresh st)) n = (fun _ => map_at st (sh_emap st !! n)) <$> edata (sh_g st) n.
Proof. unfold edata, refresh. cbn. rewrite map_lookup_imap. by destruct (g_edges (sh_g st) !! n). Qed.
Lemma refresh_is_tidy st : bounded st -> (forall n, ndata (sh_g st) n = None -> sh_nset st !! n = None) -> tidy (refresh st).
Proof.
  intros [A B C D E] H. split; try done.
  - intros n d. rewrite ndata_refresh. by intros (? & _ & ->)%fmap_Some.
  - intros n d. rewrite edata_refresh. by intros (? & _ & ->)%fmap_Some.
  - intros n. rewrite ndata_refresh, fmap_None. apply H.
Qed.
Lemma dom_step g o g' n : step g o = Ok g' -> ndata g' n = None -> ndata g n = None /\ match o with ONewNode _ _ _ => n <> g_next g | _ => True end.
Proof.
  intros Hs. destruct (step_data _ _ _ Hs) as (-> & _). destruct o; cbn; try done; case_decide; try done; by rewrite ?fmap_None.
Qed.
Lemma bounded_retarget st id o : bounded st -> bounded (retarget st id o).
Proof.
  intros Hb. destruct o as [ls ps ord|from to label ps|n ls ordo ordn|n k x|n k|n|n ord|e label|e k x|e k|e|k it|k it]; cbn [retarget]; try done.
  - apply (k_bounded (fresh_node_set st id ls)), keeps_fresh_node_map, (k_bounded st), keeps_fresh_node_set, Hb.
  - by apply (k_bounded st), keeps_fresh_edge_map.
  - by apply (k_bounded st), keeps_fresh_node_set.
  - destruct (_ !! _); [by apply bounded_write|]. by apply (k_bounded st), keeps_fresh_node_map.
  - destruct (_ !! _); [by apply bounded_write|done].
  - destruct (_ !! _); [by apply bounded_write|]. by apply (k_bounded st), keeps_fresh_edge_map.
  - destruct (_ !! _); [by apply bounded_write|done].
Qed.
Lemma retarget_nset st id o n : match o with ONewNode _ _ _ => n <> id | OSetLabels m _ _ _ => n <> m | _ => True end ->
  sh_nset (retarget st id o) !! n = sh_nset st !! n.
Proof.
  destruct o as [ls ps ord|from to label ps|m ls ordo ordn|m k x|m k|m|m ord|e label|e k x|e k|e|k it|k it]; cbn [retarget]; try done; intros Hn.
  - unfold fresh_node_map. case_decide; cbn; by rewrite point_other.
  - unfold fresh_edge_map. by case_decide.
  - cbn. by rewrite point_other.
  - destruct (sh_nmap st !! m); [done|]. unfold fresh_node_map. by case_decide.
  - by destruct (sh_nmap st !! m).
  - destruct (sh_emap st !! e); [done|]. unfold fresh_edge_map. by case_decide.
  - by destruct (sh_emap st !! e).
Qed.
Lemma step_tidy st c st' : tidy st -> sh_step st c = Ok st' -> tidy st'.
Proof.
  intros H Hs. pose proof (tidy_bounded _ H) as Hb.
  destruct c as [v ls|v u|v ls|v u|v ls|v n|v x|v x|n v ordo ordn|p ps|p q|p k x|p k|v p ord|from to label p|n fp ord|o]; cbn [sh_step] in Hs.
  1,3,4,5: injection Hs as <-; apply tidy_bind_set; [by apply tidy_new_set|]; intros i [= <-]; cbn; lia.
  - injection Hs as <-. apply tidy_bind_set; [done|tidy_old H].
  - injection Hs as <-. apply tidy_bind_set; [done|tidy_old H].
  - destruct (_ !! _) as [r|]; [|done]. injection Hs as <-. apply refresh_is_tidy; [|apply (t_dom _ H)]. by destruct Hb.
  - destruct (_ !! _) as [r|]; [|by injection Hs as <-]. injection Hs as <-. apply refresh_is_tidy; [|apply (t_dom _ H)]. by destruct Hb.
  - inv_ok Hs. injection Hs as <-. apply refresh_is_tidy.
    + pose proof (bounded_node_set st n (sh_vset st !! v) Hb) as B. destruct B; [tidy_old H|]. by split.
    + intros m Hm. cbn in Hm |- *. destruct (dom_step _ _ _ _ Ha Hm) as [Hm' _]. destruct (step_node _ _ _ n Ha eq_refl) as [d Hd].
      rewrite point_other by congruence. by apply (t_dom _ H).
  - injection Hs as <-. apply tidy_bind_map; [by apply tidy_new_map|]. intros i [= <-]. cbn. lia.
  - injection Hs as <-. apply tidy_bind_map; [done|tidy_old H].
  - destruct (_ !! _) as [r|]; [|done]. injection Hs as <-. apply refresh_is_tidy; [|apply (t_dom _ H)]. by destruct Hb.
  - destruct (_ !! _) as [r|]; [|by injection Hs as <-]. injection Hs as <-. apply refresh_is_tidy; [|apply (t_dom _ H)]. by destruct Hb.
  - inv_ok Hs. injection Hs as <-. apply refresh_is_tidy.
    + assert (bounded (node_map (node_set st (g_next (sh_g st)) (sh_vset st !! v)) (g_next (sh_g st)) (sh_vmap st !! p))) as B.
      { apply bounded_node_map; [apply bounded_node_set; [done|]|]; tidy_old H. }
      destruct B. by split.
    + intros m Hm. cbn in Hm |- *. destruct (dom_step _ _ _ _ Ha Hm) as [Hm' Hne]. rewrite point_other by congruence. by apply (t_dom _ H).
  - inv_ok Hs. injection Hs as <-. apply refresh_is_tidy.
    + pose proof (bounded_edge_map st (g_next (sh_g st)) (sh_vmap st !! p) Hb) as B. destruct B; [tidy_old H|]. by split.
    + intros m Hm. cbn in Hm |- *. destruct (dom_step _ _ _ _ Ha Hm) as [Hm' Hne]. by apply (t_dom _ H).
  - inv_ok Hs. inv_ok Hs. injection Hs as <-. apply refresh_is_tidy.
    + match goal with |- bounded (with_graph ?s _) => assert (B : bounded s) end.
      { eapply k_bounded, keeps_fresh_node_map. apply bounded_node_set; [done|tidy_old H]. }
      destruct B. by split.
    + intros m Hm. cbn in Hm. match goal with Hstep : step _ _ = Ok _ |- _ => destruct (dom_step _ _ _ _ Hstep Hm) as [Hm' Hne] end.
      unfold fresh_node_map. case_decide; cbn; rewrite point_other by congruence; by apply (t_dom _ H).
  - inv_ok Hs. injection Hs as <-. apply refresh_is_tidy.
    + destruct (bounded_retarget st (g_next (sh_g st)) o Hb). by split.
    + intros m Hm. cbn in Hm |- *. destruct (dom_step _ _ _ _ Ha Hm) as [Hm' Hne]. rewrite retarget_nset; [by apply (t_dom _ H)|].
      destruct o; try done. destruct (step_node _ _ _ n Ha eq_refl) as [d Hd]. congruence.
Qed.
Lemma run_from_tidy p : forall st st', tidy st -> sh_run_from st p = Ok st' -> tidy st'.
Proof.
  unfold sh_run_from. induction p as [|c p IH]; intros st st' H Hr; cbn [rfold] in Hr; [by injection Hr as <-|]. inv_ok Hr.
  eapply IH; [by eapply step_tidy|done].
Qed.
Lemma run_tidy p st : sh_run p = Ok st -> tidy st.
Proof. apply run_from_tidy, in_step_start. Qed.
Lemma and_then_run p ws st st' : and_then p ws st st' -> tidy st /\ sh_run_from st ws = Ok st'.
Proof. intros [H1 H2]. split; [by eapply run_tidy|]. unfold sh_run, sh_run_from in *. rewrite rfold_app, H1 in H2. done. Qed.

(** ** Holders *)
Lemma prop_node st n k : tidy st -> is_Some (ndata (sh_g st) n) -> node_prop (sh_g st) n k = map_at st (sh_nmap st !! n) !! k.
Proof.
  intros H [d Hd]. pose proof (t_node _ H _ _ Hd) as E. unfold node_prop. unfold ndata in Hd. destruct (g_nodes (sh_g st) !! n) as [x|]; [|done].
  injection Hd as <-. unfold nd_data in E. by injection E as _ ->.
Qed.
Lemma prop_edge st n k : tidy st -> is_Some (edata (sh_g st) n) -> edge_prop (sh_g st) n k = map_at st (sh_emap st !! n) !! k.
Proof.
  intros H [d Hd]. pose proof (t_edge _ H _ _ Hd) as E. unfold edge_prop. unfold edata in Hd. destruct (g_edges (sh_g st) !! n) as [x|]; [|done].
  injection Hd as <-. by rewrite E.
Qed.
(** a write to a set: all its holders see it *)
Lemma set_edit_seen st v w f st' : tidy st -> edits_set v w f -> sh_step st w = Ok st' ->
  (forall u, sh_vset st !! u = sh_vset st !! v -> set_in st' u = f (set_in st u)) /\
  (forall n, sh_nset st !! n = sh_vset st !! v -> labels_of (sh_g st') n = f (labels_of (sh_g st) n)).
Proof.
  intros H He Hs. pose proof (step_tidy _ _ _ H Hs) as H'. unfold set_in.
  assert (sh_vset st' = sh_vset st /\ sh_nset st' = sh_nset st /\ set_at st' (sh_vset st !! v) = f (set_at st (sh_vset st !! v))) as (A & B & C).
  { destruct He; cbn [sh_step] in Hs; destruct (sh_vset st !! v) as [r|]; try done; injection Hs as <-; split_and!; try done.
    - unfold set_at at 1. cbn. rewrite lookup_insert. cbn. apply union_comm_L.
    - unfold set_at at 1. cbn. by rewrite lookup_insert.
    - cbn. clear. set_solver. }
  split.
  - intros u E. by rewrite A, E.
  - intros n E. by rewrite (tidy_labels _ _ H), (tidy_labels _ _ H'), B, E.
Qed.
Lemma map_edit_seen st p w f st' : tidy st -> edits_map p w f -> sh_step st w = Ok st' ->
  (forall q, sh_vmap st !! q = sh_vmap st !! p -> map_in st' q = f (map_in st q)) /\
  (forall n k, is_Some (ndata (sh_g st) n) -> sh_nmap st !! n = sh_vmap st !! p -> node_prop (sh_g st') n k = f (map_in st p) !! k) /\
  (forall n k, is_Some (edata (sh_g st) n) -> sh_emap st !! n = sh_vmap st !! p -> edge_prop (sh_g st') n k = f (map_in st p) !! k).
Proof.
  intros H He Hs. pose proof (step_tidy _ _ _ H Hs) as H'. unfold map_in.
  assert (sh_vmap st' = sh_vmap st /\ sh_nmap st' = sh_nmap st /\ sh_emap st' = sh_emap st /\ map_at st' (sh_vmap st !! p) = f (map_at st (sh_vmap st !! p)) /\
    (forall n, is_Some (ndata (sh_g st) n) -> is_Some (ndata (sh_g st') n)) /\ (forall n, is_Some (edata (sh_g st) n) -> is_Some (edata (sh_g st') n)))
    as (A & B & B' & C & D & E).
  { destruct He; cbn [sh_step] in Hs; destruct (sh_vmap st !! p) as [r|]; try done; injection Hs as <-; split_and!; try done.
    all: try (unfold map_at at 1; cbn; by rewrite lookup_insert).
    all: try (intros n [d Hd]; rewrite ?ndata_refresh, ?edata_refresh; cbn; rewrite Hd; by eexists).
    cbn. by rewrite delete_empty. }
  split_and!.
  - intros q Eq. by rewrite A, Eq.
  - intros n k Hn Eq. rewrite (prop_node st') by auto. by rewrite B, Eq, C.
  - intros n k Hn Eq. rewrite (prop_edge st') by auto. by rewrite B', Eq, C.
Qed.
Lemma node_edit_seen st n w f st' r p : tidy st -> edits_node n w f -> sh_step st w = Ok st' -> sh_nmap st !! n = Some r -> sh_vmap st !! p = Some r ->
  map_in st' p = f (map_in st p).
Proof.
  intros H He Hs Hn Hp. unfold map_in. destruct He; cbn [sh_step retarget] in Hs; rewrite Hn in Hs; inv_ok Hs; injection Hs as <-; cbn; rewrite Hp; unfold map_at at 1; cbn; by rewrite lookup_insert.
Qed.
Lemma edge_edit_seen st n w f st' r p : tidy st -> edits_edge n w f -> sh_step st w = Ok st' -> sh_emap st !! n = Some r -> sh_vmap st !! p = Some r ->
  map_in st' p = f (map_in st p).
Proof.
  intros H He Hs Hn Hp. unfold map_in. destruct He; cbn [sh_step retarget] in Hs; rewrite Hn in Hs; inv_ok Hs; injection Hs as <-; cbn; rewrite Hp; unfold map_at at 1; cbn; by rewrite lookup_insert.
Qed.

Lemma two_steps p c w st st' : and_then p [c; w] st st' -> exists st1, tidy st /\ sh_step st c = Ok st1 /\ tidy st1 /\ sh_step st1 w = Ok st'.
Proof.
  intros H. apply and_then_run in H as [H Hr]. unfold sh_run_from in Hr. cbn [rfold] in Hr. inv_ok Hr. injection Hr as <-.
  exists a. split_and!; try done. by eapply step_tidy.
Qed.
Lemma shared_sets p st st' v w f : edits_set v w f ->
  (forall n, and_then p [CGetLabels v n; w] st st' -> labels_of (sh_g st') n = f (labels_of (sh_g st) n)) /\
  (forall n ordo ordn, and_then p [CSetLabels n v ordo ordn; w] st st' -> labels_of (sh_g st') n = f (set_in st v)) /\
  (forall q ord, and_then p [CFastNode v q ord; w] st st' -> labels_of (sh_g st') (g_next (sh_g st)) = f (set_in st v)) /\
  (forall u, and_then p [CClone v u; w] st st' -> set_in st' u = f (set_in st u)).
Proof.
  intros He. split_and!.
  - intros n (st1 & H & Hc & H1 & Hw)%two_steps. destruct (set_edit_seen _ _ _ _ _ H1 He Hw) as [_ Hn]. injection Hc as <-.
    rewrite Hn; [done|]. cbn. by rewrite point_same.
  - intros n o1 o2 (st1 & H & Hc & H1 & Hw)%two_steps. destruct (set_edit_seen _ _ _ _ _ H1 He Hw) as [_ Hn]. cbn [sh_step] in Hc. inv_ok Hc. injection Hc as <-.
    rewrite Hn; [|cbn; by rewrite point_same]. rewrite (tidy_labels _ _ H1). cbn. by rewrite point_same.
  - intros q ord (st1 & H & Hc & H1 & Hw)%two_steps. destruct (set_edit_seen _ _ _ _ _ H1 He Hw) as [_ Hn]. cbn [sh_step] in Hc. inv_ok Hc. injection Hc as <-.
    rewrite Hn; [|cbn; by rewrite point_same]. rewrite (tidy_labels _ _ H1). cbn. by rewrite point_same.
  - intros u (st1 & H & Hc & H1 & Hw)%two_steps. destruct (set_edit_seen _ _ _ _ _ H1 He Hw) as [Hv _]. injection Hc as <-.
    assert (E : sh_vset (bind_set st v (sh_vset st !! u)) !! u = sh_vset st !! u) by (cbn; rewrite point_lookup; by case_decide).
    rewrite Hv; [|rewrite E; cbn; by rewrite point_same]. unfold set_in. rewrite E. done.
Qed.
Lemma shared_maps p st st' q w f : edits_map q w f ->
  (forall v ord k, and_then p [CFastNode v q ord; w] st st' -> node_prop (sh_g st') (g_next (sh_g st)) k = f (map_in st q) !! k) /\
  (forall from to label k, and_then p [CFastEdge from to label q; w] st st' -> edge_prop (sh_g st') (g_next (sh_g st)) k = f (map_in st q) !! k) /\
  (forall u, and_then p [CAlias q u; w] st st' -> map_in st' u = f (map_in st u)).
Proof.
  intros He. split_and!.
  - intros v ord k (st1 & H & Hc & H1 & Hw)%two_steps. destruct (map_edit_seen _ _ _ _ _ H1 He Hw) as (_ & Hn & _). cbn [sh_step] in Hc. inv_ok Hc. injection Hc as <-.
    rewrite Hn; [done| |cbn; by rewrite point_same]. rewrite ndata_refresh. cbn. destruct (step_data _ _ _ Ha) as (-> & _). cbn. rewrite decide_True by done. by eexists.
  - intros from to label k (st1 & H & Hc & H1 & Hw)%two_steps. destruct (map_edit_seen _ _ _ _ _ H1 He Hw) as (_ & _ & Hn). cbn [sh_step] in Hc. inv_ok Hc. injection Hc as <-.
    rewrite Hn; [done| |cbn; by rewrite point_same]. rewrite edata_refresh. cbn. destruct (step_data _ _ _ Ha) as (_ & -> & _). cbn. rewrite decide_True by done. by eexists.
  - intros u (st1 & H & Hc & H1 & Hw)%two_steps. destruct (map_edit_seen _ _ _ _ _ H1 He Hw) as [Hv _]. injection Hc as <-.
    assert (E : sh_vmap (bind_map st q (sh_vmap st !! u)) !! u = sh_vmap st !! u) by (cbn; rewrite point_lookup; by case_decide).
    rewrite Hv; [|rewrite E; cbn; by rewrite point_same]. unfold map_in. rewrite E. done.
Qed.
Lemma shared_objects p st st' q f : has_map st q ->
  (forall v ord w, edits_node (g_next (sh_g st)) w f -> and_then p [CFastNode v q ord; w] st st' -> map_in st' q = f (map_in st q)) /\
  (forall from to label w, edits_edge (g_next (sh_g st)) w f -> and_then p [CFastEdge from to label q; w] st st' -> map_in st' q = f (map_in st q)).
Proof.
  unfold has_map. intros Hq. destruct (sh_vmap st !! q) as [r|] eqn:Hr; [|done]. split.
  - intros v ord w He (st1 & H & Hc & H1 & Hw)%two_steps. cbn [sh_step] in Hc. inv_ok Hc. injection Hc as <-.
    rewrite (node_edit_seen _ _ _ _ _ r q H1 He Hw); [done|cbn; by rewrite point_same|done].
  - intros from to label w He (st1 & H & Hc & H1 & Hw)%two_steps. cbn [sh_step] in Hc. inv_ok Hc. injection Hc as <-.
    rewrite (edge_edit_seen _ _ _ _ _ r q H1 He Hw); [done|cbn; by rewrite point_same|done].
Qed.
Lemma nil_panics p st v q x k y : sh_run p = Ok st -> ~ has_set st v -> ~ has_map st q ->
  sh_run (p ++ [CInsert v x]) = Panic /\ sh_run (p ++ [CPut q k y]) = Panic /\
  exists st', sh_run (p ++ [CAdd v ∅; CInsert v x]) = Ok st' /\ set_in st' v = {[x]}.
Proof.
  unfold has_set, has_map. intros Hp Hv Hq.
  assert (Hv' : sh_vset st !! v = None) by (destruct (sh_vset st !! v); [by destruct Hv|done]).
  assert (Hq' : sh_vmap st !! q = None) by (destruct (sh_vmap st !! q); [by destruct Hq|done]).
  unfold sh_run, sh_run_from in *. rewrite !rfold_app, Hp. cbn [rbind rfold sh_step]. rewrite Hv', Hq'. split_and!; [done|done|].
  cbn [rebind_set bind_set sh_vset]. rewrite point_same. eexists. split; [done|]. unfold set_in. cbn. rewrite point_same. unfold set_at. cbn.
  rewrite !lookup_insert. cbn. clear. set_solver.
Qed.

(** ** Copies of nodes *)
Lemma three_steps p c d w st st' : and_then p [c; d; w] st st' ->
  exists st1 st2, tidy st /\ sh_step st c = Ok st1 /\ tidy st1 /\ sh_step st1 d = Ok st2 /\ tidy st2 /\ sh_step st2 w = Ok st'.
Proof.
  intros H. apply and_then_run in H as [H Hr]. unfold sh_run_from in Hr. cbn [rfold] in Hr. inv_ok Hr. inv_ok Hr. injection Hr as <-.
  exists a, a0. split_and!; try done; repeat (eapply step_tidy; [|done]); done.
Qed.
Lemma copy_node_inv st n fp ord st1 : tidy st -> sh_step st (CCopyNode n fp ord) = Ok st1 ->
  let id := g_next (sh_g st) in
  is_Some (ndata (sh_g st) n) /\ is_Some (ndata (sh_g st1) id) /\
  sh_nset st1 !! id = sh_nset st !! n /\ (n <> id -> sh_nset st1 !! n = sh_nset st !! n) /\ (n <> id -> sh_nmap st1 !! n = sh_nmap st !! n) /\
  (forall r, sh_nmap st1 !! id = Some r -> sh_next st <= r) /\
  (forall r, old st r -> set_at st1 r = set_at st r) /\ (forall r, old st r -> map_at st1 r = map_at st r) /\
  (forall k, map_at st1 (sh_nmap st1 !! id) !! k = (fp k) <$> node_prop (sh_g st) n k) /\
  (n <> id -> is_Some (ndata (sh_g st1) n)).
Proof.
  intros H Hc id. cbn [sh_step] in Hc. inv_ok Hc. rename a into nd, Ha into Hnd. rename a0 into g', Ha0 into Hs. injection Hc as <-.
  apply deref_node_ok in Hnd. fold id. set (st1 := node_set st id (sh_nset st !! n)). set (ps := clone_props fp (n_props nd)) in *.
  assert (K1 : keeps st st1) by (split; try done; apply bounded_node_set; [by apply tidy_bounded|tidy_old H]).
  destruct (keeps_fresh_node_map st1 id ps (k_bounded _ _ K1)) as (K2 & Hns & Hem' & Ho' & Hn'). pose proof (keeps_trans _ _ _ K1 K2) as K.
  assert (Dn : forall m, is_Some (ndata_after (sh_g st) (ONewNode (n_labels nd) ps ord) m) ->
    is_Some (ndata (sh_g (refresh (with_graph (fresh_node_map st1 id ps) g'))) m)).
  { intros m Hm. rewrite ndata_refresh. cbn. destruct (step_data _ _ _ Hs) as (-> & _). destruct Hm as [d Hm]. rewrite Hm. by eexists. }
  split_and!.
  - unfold ndata. rewrite Hnd. by eexists.
  - apply Dn. cbn. rewrite decide_True by done. by eexists.
  - cbn. rewrite Hns. cbn. by rewrite point_same.
  - intros Hne. cbn. rewrite Hns. cbn. by rewrite point_other.
  - intros Hne. cbn. by rewrite Ho'.
  - intros r. cbn. unfold fresh_node_map. case_decide; cbn; rewrite point_same; [done|]. intros [= <-]. lia.
  - apply (k_sets _ _ K).
  - apply (k_maps _ _ K).
  - intros k. etransitivity; [exact (f_equal (fun m => m !! k) Hn')|]. unfold ps, clone_props, node_prop. rewrite map_lookup_imap, Hnd. cbn.
    unfold get_property. by destruct (n_props nd !! k).
  - intros Hne. apply Dn. cbn. rewrite decide_False by done. unfold ndata. rewrite Hnd. by eexists.
Qed.
(** the id of a new node is that of no node *)
Definition ids_below (g : graph) : Prop := forall n, is_Some (ndata g n) -> n < g_next g.
Lemma step_ids g o g' : step g o = Ok g' -> ids_below g -> ids_below g'.
Proof.
  intros Hs H n. destruct (step_data _ _ _ Hs) as (-> & _ & ->). specialize (H n). destruct o; cbn; try done; try (case_decide; subst); try done; try lia.
  all: rewrite ?fmap_is_Some; try done. all: intros Hn%H; lia.
Qed.
Lemma refresh_ids st : ids_below (sh_g st) -> ids_below (sh_g (refresh st)).
Proof. intros H n. rewrite ndata_refresh, fmap_is_Some. apply H. Qed.
Lemma sh_step_ids st c st' : sh_step st c = Ok st' -> ids_below (sh_g st) -> ids_below (sh_g st').
Proof.
  intros Hs H. destruct c; cbn [sh_step] in Hs; try (injection Hs as <-; exact H).
  all: try (destruct (_ !! _); try done; injection Hs as <-; first [exact H | by apply refresh_ids]).
  all: inv_ok Hs; injection Hs as <-; apply refresh_ids; cbn; by eapply step_ids.
Qed.
Lemma run_ids p st : sh_run p = Ok st -> ids_below (sh_g st).
Proof.
  unfold sh_run, sh_run_from. assert (ids_below (sh_g sh_start)) as H by (intros n [d Hd]; done). revert H. generalize sh_start.
  induction p as [|c p IH]; intros st0 H Hr; cbn [rfold] in Hr; [by injection Hr as <-|]. inv_ok Hr. eapply IH; [|done]. by eapply sh_step_ids.
Qed.
Lemma copy_fresh p n fp ord ws st st' : and_then p (CCopyNode n fp ord :: ws) st st' -> n <> g_next (sh_g st).
Proof.
  intros H. pose proof (run_ids _ _ (proj1 H)) as Hi. apply and_then_run in H as [H Hr]. unfold sh_run_from in Hr. cbn [rfold] in Hr. inv_ok Hr.
  destruct (copy_node_inv _ _ _ _ _ H Ha) as (Hn & _). apply Hi in Hn. lia.
Qed.
Lemma copies_sets p st st' n fp ord v w f : edits_set v w f ->
  and_then p [CCopyNode n fp ord; CGetLabels v (g_next (sh_g st)); w] st st' \/ and_then p [CCopyNode n fp ord; CGetLabels v n; w] st st' ->
  labels_of (sh_g st') n = f (labels_of (sh_g st) n) /\ labels_of (sh_g st') (g_next (sh_g st)) = f (labels_of (sh_g st) n).
Proof.
  intros He Hrun. assert (Hne : n <> g_next (sh_g st)) by (destruct Hrun as [H|H]; by eapply copy_fresh).
  assert (exists m, (m = n \/ m = g_next (sh_g st)) /\ and_then p [CCopyNode n fp ord; CGetLabels v m; w] st st') as (m & Hm & Hr)
    by (destruct Hrun; eauto). clear Hrun.
  apply three_steps in Hr as (st1 & st2 & H & Hc & H1 & Hg & H2 & Hw).
  destruct (copy_node_inv _ _ _ _ _ H Hc) as (_ & _ & Es & En & _ & _ & Ks & _). specialize (En Hne).
  destruct (set_edit_seen _ _ _ _ _ H2 He Hw) as [_ Hn]. injection Hg as <-.
  assert (El : forall k, labels_of (sh_g st1) k = set_at st1 (sh_nset st1 !! k)) by (intros; by apply tidy_labels).
  assert (Eo : forall k, k = n \/ k = g_next (sh_g st) -> sh_nset st1 !! k = sh_nset st !! n) by (intros k [-> | ->]; done).
  assert (Ek : forall k, k = n \/ k = g_next (sh_g st) -> labels_of (sh_g st') k = f (labels_of (sh_g st) n)).
  { intros k Hk. rewrite Hn; [|cbn; rewrite point_same; by rewrite !Eo]. cbn [sh_g bind_set]. rewrite El, Eo, (tidy_labels _ _ H) by done. by rewrite Ks by tidy_old H. }
  split; apply Ek; auto.
Qed.
Lemma node_write st n w f st' : tidy st -> edits_node n w f -> sh_step st w = Ok st' ->
  forall m k, is_Some (ndata (sh_g st) m) -> node_prop (sh_g st') m k =
    if decide (m = n \/ sh_nmap st !! n <> None /\ sh_nmap st !! m = sh_nmap st !! n) then f (map_at st (sh_nmap st !! n)) !! k else node_prop (sh_g st) m k.
Proof.
  intros H He Hs m k Hm. pose proof (step_tidy _ _ _ H Hs) as H'.
  assert (Hm' : is_Some (ndata (sh_g st') m)).
  { destruct He; cbn [sh_step] in Hs; inv_ok Hs; injection Hs as <-; rewrite ndata_refresh; cbn; destruct (step_data _ _ _ Ha) as (-> & _); cbn;
      destruct Hm as [d Hd]; case_decide; subst; rewrite Hd; by eexists. }
  rewrite (prop_node st') by done. rewrite (prop_node st m) by done. destruct (sh_nmap st !! n) as [r|] eqn:Hr.
  - assert (E : sh_nmap st' = sh_nmap st /\ map_at st' (Some r) = f (map_at st (Some r)) /\ forall q, q <> Some r -> map_at st' q = map_at st q).
    { destruct He; cbn [sh_step retarget] in Hs; rewrite Hr in Hs; inv_ok Hs; injection Hs as <-; (split; [done|split; [apply map_at_here|]]); intros q Hq; by apply (map_at_write st). }
    destruct E as (-> & E1 & E2). case_decide as Hd.
    + assert (sh_nmap st !! m = Some r) as -> by (destruct Hd as [->|[_ Hd]]; done). by rewrite E1.
    + rewrite E2; [done|]. intros Hq. apply Hd. right. split; [done|congruence].
  - destruct He as [kk x|kk]; cbn [sh_step retarget] in Hs; rewrite Hr in Hs; inv_ok Hs; injection Hs as <-.
    + destruct (keeps_fresh_node_map st n {[kk := x]} (tidy_bounded _ H)) as (K & Hns & Hem & Ho & Hn). cbn.
      case_decide as Hd.
      * destruct Hd as [->|[[] _]]; [|done]. etransitivity; [exact (f_equal (fun y => y !! k) Hn)|]. done.
      * rewrite Ho by tauto. assert (Hold : old st (sh_nmap st !! m)) by tidy_old H. etransitivity; [exact (f_equal (fun y => y !! k) (k_maps _ _ K (sh_nmap st !! m) Hold))|]. done.
    + cbn. case_decide as Hd; [|done]. destruct Hd as [->|[[] _]]; [|done]. rewrite Hr. cbn. by rewrite delete_empty.
Qed.
Lemma copies_maps p st st' n fp ord w f k :
  (edits_node (g_next (sh_g st)) w f -> and_then p [CCopyNode n fp ord; w] st st' ->
    node_prop (sh_g st') n k = node_prop (sh_g st) n k) /\
  (edits_node n w f -> and_then p [CCopyNode n fp ord; w] st st' ->
    node_prop (sh_g st') (g_next (sh_g st)) k = fp k <$> node_prop (sh_g st) n k).
Proof.
  split; intros He Hrun; pose proof (copy_fresh _ _ _ _ _ _ _ Hrun) as Hne; apply two_steps in Hrun as (st1 & H & Hc & H1 & Hw);
    destruct (copy_node_inv _ _ _ _ _ H Hc) as (Hn & Hi & Es & En & Em & Eid & Ks & Km & Ep & Hn1); specialize (En Hne); specialize (Em Hne); specialize (Hn1 Hne).
  - rewrite (node_write _ _ _ _ _ H1 He Hw n k Hn1). rewrite decide_False.
    + rewrite (prop_node st1), (prop_node st), Em by done. by rewrite Km by tidy_old H.
    + intros [E|[Hnn E]]; [done|]. destruct (sh_nmap st1 !! g_next (sh_g st)) as [r|] eqn:Er; [|done]. rewrite Em in E.
      apply (t_nmap _ H) in E. specialize (Eid r eq_refl). lia.
  - rewrite (node_write _ _ _ _ _ H1 He Hw _ k Hi). rewrite decide_False.
    + rewrite (prop_node st1) by done. apply Ep.
    + intros [E|[Hnn E]]; [done|]. rewrite Em in *. destruct (sh_nmap st !! n) as [r|] eqn:Er; [|done].
      apply (t_nmap _ H) in Er. specialize (Eid r E). lia.
Qed.
