(** Proofs about which calls panic (JamSpec.v): histories. *)
From Verif Require Import Base Value ValueProofs FastSet FastSetProofs Links EdgeMap NodeMap Index IndexProofs Graph GraphSpec.
From Verif Require Import LinksProofs EdgeMapProofs CoreProofs CoreStep AdjProofs ReadProofs NodeListProofs EdgeListProofs IndexGraphProofs ProgressProofs HashLiveProofs.
From Verif Require Import RecoverProofs HashOnlySpec HashOnlyProofs OrderSpec QueryOrderSpec QueryOrderProofs QueryEdgeOrderProofs JamSpec JamProofs.

(** ** What the indexes hold *)
Definition nplain (ops : list op) (k : string) : Prop := node_index ops k = Some BtreeIndex -> forall v, node_filed ops k v -> plain v.
Definition eplain (ops : list op) (k : string) : Prop := edge_index ops k = Some BtreeIndex -> forall v, edge_filed ops k v -> plain v.
Lemma nplain_prefix ops1 ops2 k : nplain (ops1 ++ ops2) k -> nplain ops1 k.
Proof. intros H Hi v Hf. apply H; [by apply node_index_prefix|by apply node_filed_app]. Qed.
Lemma eplain_prefix ops1 ops2 k : eplain (ops1 ++ ops2) k -> eplain ops1 k.
Proof. intros H Hi v Hf. apply H; [by apply edge_index_prefix|by apply edge_filed_app]. Qed.

Lemma node_vals_has s k n v : node_vals s k !! n = Some v -> node_has s k v n.
Proof. rewrite node_vals_lookup. unfold node_has. destruct (s_nodes s !! n) as [x|]; [|done]. by exists x. Qed.
Lemma edge_vals_has s k e v : edge_vals s k !! e = Some v -> edge_has s k v e.
Proof. rewrite edge_vals_lookup. unfold edge_has. destruct (s_edges s !! e) as [x|]; [|done]. by exists x. Qed.

Lemma node_scan_exact ops g k it : valid_history ops -> run ops = Ok g -> node_list_safe ops ->
  (forall v n, it = BtreeIndex -> node_has (srun ops) k v n -> plain v) -> g_nix g !! k = None ->
  let bad := jams_all it (node_vals (srun ops) k) in
  (exists ix, add_node_index g k it = Ok (set_nix g (<[k := ix]> (g_nix g))) /\ ix_type ix = it /\ held ix (node_vals (srun ops) k) /\ ~ bad) \/
  add_node_index g k it = Panic /\ bad.
Proof.
  intros Hv Hr Hls Hpl Hg bad. pose proof (core_run _ _ Hv Hr) as Hc. unfold add_node_index. rewrite Hg.
  destruct (get_nodes_ok _ _ Hv Hr Hls) as (xs & -> & [[Hnd Hin] _]). cbn [rbind].
  rewrite (rfold_ext_ok _ (fun ix n => match node_vals (srun ops) k !! n with Some v => ix_add ix v n | None => Ok ix end)).
  2: { intros ix n Hn. apply Hin in Hn as [x Hx]. destruct (core_props _ _ _ _ Hc Hx) as (nd & -> & Hp & _). simpl.
       by rewrite node_vals_lookup, Hx, Hp. }
  destruct (held_scan_all it (node_vals (srun ops) k) xs Hnd) as [(ix & -> & Ht & Hh & Hn)|[-> Hj]].
  - intros i [v Hv']. apply Hin. apply node_vals_has in Hv' as (x & Hx & _). by exists x.
  - intros x v Hx Hb. eapply Hpl; [done|]. by apply node_vals_has.
  - left. exists ix. done.
  - by right.
Qed.
Lemma edge_scan_exact ops g k it : valid_history ops -> run ops = Ok g -> edge_list_safe ops ->
  (forall v n, it = BtreeIndex -> edge_has (srun ops) k v n -> plain v) -> g_eix g !! k = None ->
  let bad := jams_all it (edge_vals (srun ops) k) in
  (exists ix, add_edge_index g k it = Ok (set_eix g (<[k := ix]> (g_eix g))) /\ ix_type ix = it /\ held ix (edge_vals (srun ops) k) /\ ~ bad) \/
  add_edge_index g k it = Panic /\ bad.
Proof.
  intros Hv Hr Hls Hpl Hg bad. pose proof (core_run _ _ Hv Hr) as Hc. unfold add_edge_index. rewrite Hg.
  destruct (get_edges_ok _ _ Hv Hr Hls) as [(xs & -> & [Hnd Hin]) _]. cbn [rbind].
  rewrite (rfold_ext_ok _ (fun ix n => match edge_vals (srun ops) k !! n with Some v => ix_add ix v n | None => Ok ix end)).
  2: { intros ix n Hn. apply Hin in Hn as [x Hx]. unfold deref_edge. destruct (core_edge _ _ _ _ Hc Hx) as [-> _]. simpl.
       by rewrite edge_vals_lookup, Hx. }
  destruct (held_scan_all it (edge_vals (srun ops) k) xs Hnd) as [(ix & -> & Ht & Hh & Hn)|[-> Hj]].
  - intros i [v Hv']. apply Hin. apply edge_vals_has in Hv' as (x & Hx & _). by exists x.
  - intros x v Hx Hb. eapply Hpl; [done|]. by apply edge_vals_has.
  - left. exists ix. done.
  - by right.
Qed.

Lemma nheld_step k ops g o g' :
  valid_history ops -> run ops = Ok g -> valid (srun ops) o -> step g o = Ok g' ->
  nplain (ops ++ [o]) k -> (forall it, o = OAddNodeIndex k it -> node_list_safe ops) ->
  kheld (g_nix g) k (node_index ops k) (node_vals (srun ops) k) ->
  kheld (g_nix g') k (node_index (ops ++ [o]) k) (node_vals (srun (ops ++ [o])) k).
Proof.
  intros Hv Hr Ho Hs HD Hsafe Hk. pose proof (core_run _ _ Hv Hr) as Hc. pose proof Hc as (_ & Hnext & _).
  unfold nplain in HD. rewrite node_index_snoc in HD |- *. rewrite srun_snoc. set (s := srun ops) in *.
  assert (node_index ops k = match node_index ops k with Some it => Some it | None => None end) as Hni
    by (by destruct (node_index ops k)).
  assert (forall v, node_index ops k = Some BtreeIndex -> node_filed (ops ++ [o]) k v -> plain v) as HP.
  { intros v Hi. apply HD. by rewrite Hi. }
  assert (s_nodes (sstep s o) = s_nodes s -> g_nix g' = g_nix g ->
     kheld (g_nix g') k (node_index ops k) (node_vals (sstep s o) k)) as Hsame.
  { intros E ->. eapply kheld_ext; [exact Hk|done|by apply node_vals_same]. }
  destruct o; simpl in Hs, Ho; try rewrite <- Hni.
  - inv_ok Hs. destruct a as [g1 n]. injection Hs as <-.
    apply new_node_shape in Ha as (->&_&_&_&_&_&_&_&_&Hix&_).
    assert (s_nodes s !! g_next g = None) as Hfr.
    { destruct (s_nodes s !! g_next g) as [x|] eqn:Hx; [|done].
      assert (g_next g < s_next s); [|lia]. eapply core_live_lt; [done|]. by eexists. }
    eapply kheld_ext; [eapply kheld_add; [exact Hix|exact Hk| |]|done|].
    + by rewrite node_vals_lookup, Hfr.
    + intros v Hi Hpv. apply HP; [done|]. apply node_filed_write; [by rewrite Hi|done].
    + apply map_eq. intros i. rewrite node_vals_lookup. simpl. rewrite <- Hnext.
      destruct (decide (i = g_next g)) as [->|].
      * rewrite lookup_insert. simpl. destruct (p !! k); [by rewrite lookup_insert|]. by rewrite node_vals_lookup, Hfr.
      * rewrite lookup_insert_ne by done. destruct (p !! k); [rewrite lookup_insert_ne by done|]; by rewrite node_vals_lookup.
  - inv_ok Hs. destruct a as [g1 e]. injection Hs as <-.
    apply new_edge_shape in Ha as (->&_&_&_&_&_&Hix&_). by apply Hsame.
  - unfold set_labels in Hs. inv_ok Hs. injection Hs as <-. cbn [g_nix set_nodes set_lab].
    eapply kheld_ext; [exact Hk|done|]. apply map_eq. intros i. rewrite !node_vals_lookup. simpl. destruct (decide (i = n)) as [->|].
    + rewrite lookup_alter. by destruct (s_nodes s !! n).
    + by rewrite lookup_alter_ne.
  - unfold set_node_prop in Hs. inv_ok Hs. injection Hs as <-. cbn [g_nix set_nodes set_nix].
    destruct Ho as [x Hx]. destruct (core_props _ _ _ _ Hc Hx) as (nd & Hnd & Hp & _).
    assert (a = nd) as -> by congruence.
    destruct (decide (k0 = k)) as [->|Hne].
    + eapply kheld_ext; [eapply kheld_update; [exact Ha0|exact Hk| |]|done|].
      * rewrite node_vals_lookup, Hx. by rewrite Hp.
      * intros w Hi [= <-]. apply HP; [done|]. apply node_filed_write; [by rewrite Hi|done].
      * apply map_eq. intros i. rewrite node_vals_lookup. simpl. destruct (decide (i = n)) as [->|].
        -- rewrite lookup_alter, Hx. simpl. by rewrite !lookup_insert.
        -- rewrite lookup_alter_ne, lookup_insert_ne by done. by rewrite node_vals_lookup.
    + eapply kheld_ext; [eapply kheld_update_ne; [exact Ha0|done|exact Hk]|done|].
      apply map_eq. intros i. rewrite !node_vals_lookup. simpl. destruct (decide (i = n)) as [->|].
      * rewrite lookup_alter, Hx. simpl. by rewrite !lookup_insert_ne.
      * by rewrite lookup_alter_ne.
  - unfold rem_node_prop in Hs. inv_ok Hs.
    destruct Ho as [x Hx]. destruct (core_props _ _ _ _ Hc Hx) as (nd & Hnd & Hp & _).
    assert (a = nd) as -> by congruence.
    assert (node_vals (sstep s (ORemNodeProp n k0)) k = if decide (k0 = k) then delete n (node_vals s k) else node_vals s k) as E.
    { apply map_eq. intros i. rewrite node_vals_lookup. simpl. destruct (decide (i = n)) as [->|].
      - rewrite lookup_alter, Hx. simpl. destruct (decide (k0 = k)) as [->|].
        + by rewrite !lookup_delete.
        + rewrite lookup_delete_ne by done. by rewrite node_vals_lookup, Hx.
      - rewrite lookup_alter_ne by done. destruct (decide (k0 = k)); [rewrite lookup_delete_ne by done|]; by rewrite node_vals_lookup. }
    rewrite E. destruct (n_props nd !! k0) as [v|] eqn:Hv0.
    + inv_ok Hs. injection Hs as <-. cbn [g_nix set_nodes set_nix]. destruct (decide (k0 = k)) as [->|Hne].
      * eapply (kheld_update k _ _ _ _ None) in Ha0; [exact (proj1 Ha0)|exact Hk| |done]. rewrite node_vals_lookup, Hx. congruence.
      * eapply kheld_update_ne; [exact Ha0|done|exact Hk].
    + injection Hs as <-. destruct (decide (k0 = k)) as [->|]; [|done].
      rewrite delete_notin; [done|]. rewrite node_vals_lookup, Hx. congruence.
  - apply detach_shape in Hs as (_&_&_&_&E&_). by apply Hsame.
  - apply detach_remove_shape in Hs as (g1 & nd & Hd & Hnd & _&_&_&_&_&_&_&_&_&_& Hix).
    apply detach_shape in Hd as (_&_&_&_&E&_&Hdata). rewrite E in Hix.
    destruct Ho as (x & Hx & _). destruct (core_props _ _ _ _ Hc Hx) as (nd0 & Hnd0 & Hp & _).
    assert (n_props nd = sn_props x) as Hp'.
    { specialize (Hdata n). unfold data, deref_node in *. rewrite Hnd in Hdata. destruct (g_nodes g !! n) as [y|]; [|done].
      injection Hnd0 as ->. simpl in Hdata. injection Hdata as _ ?. congruence. }
    eapply kheld_ext; [eapply kheld_remove; [exact Hix|exact Hk|]|done|].
    + by rewrite node_vals_lookup, Hx, Hp'.
    + apply map_eq. intros i. rewrite node_vals_lookup. simpl. destruct (decide (i = n)) as [->|].
      * by rewrite !lookup_delete.
      * rewrite !lookup_delete_ne by done. by rewrite node_vals_lookup.
  - apply set_edge_label_shape in Hs as (?&_&_&_&_&_&_&_&_&E&_). by apply Hsame.
  - unfold set_edge_prop in Hs. inv_ok Hs. injection Hs as <-. by apply Hsame.
  - unfold rem_edge_prop in Hs. inv_ok Hs.
    destruct (e_props _ !! _); [inv_ok Hs|]; injection Hs as <-; by apply Hsame.
  - apply remove_edge_shape in Hs as ((_&_&_&_&E&_) & _). by apply Hsame.
  - destruct (decide (k0 = k)) as [->|Hne].
    + destruct (node_index ops k) as [t|] eqn:Hit.
      * unfold add_node_index in Hs. pose proof Hk as (ix & Hix & _). rewrite Hix in Hs. injection Hs as <-. by apply Hsame.
      * simpl in Hk. destruct (node_scan_exact ops g k it Hv Hr (Hsafe _ eq_refl)) as [(ix & Ha & Ht & Hh & _)|[Hp _]]; [|done| |congruence].
        { intros v n -> Hn. apply HD; [done|]. by eapply node_filed_scan. }
        rewrite Hs in Ha. injection Ha as ->. exists ix. cbn [g_nix set_nix]. rewrite lookup_insert. split; [done|]. split; [done|].
        eapply (eq_rect _ (held ix)); [exact Hh|]. by apply node_vals_same.
    + rewrite <- Hni. unfold add_node_index in Hs. eapply kheld_ext; [exact Hk| |by apply node_vals_same].
      destruct (g_nix g !! k0); [by injection Hs as <-|]. inv_ok Hs. injection Hs as <-. simpl. by rewrite lookup_insert_ne.
  - unfold add_edge_index in Hs.
    destruct (g_eix g !! _); [injection Hs as <-; by apply Hsame|]. inv_ok Hs. injection Hs as <-. by apply Hsame.
Qed.
Lemma nheld_run k ops g : valid_history ops -> run ops = Ok g -> nplain ops k -> node_scan_safe ops k ->
  kheld (g_nix g) k (node_index ops k) (node_vals (srun ops) k).
Proof.
  revert ops g. apply (history_ind (fun ops g => nplain ops k -> node_scan_safe ops k ->
    kheld (g_nix g) k (node_index ops k) (node_vals (srun ops) k))).
  { intros _ _. done. }
  intros ops g o g' Hv Hr IH Ho Hs HD Hsafe. eapply nheld_step; eauto.
  - intros it ->. eapply (Hsafe ops []). done.
  - apply IH; [by eapply nplain_prefix|by eapply node_scan_safe_app].
Qed.

Lemma eheld_step k ops g o g' :
  valid_history ops -> run ops = Ok g -> valid (srun ops) o -> step g o = Ok g' ->
  eplain (ops ++ [o]) k -> (forall it, o = OAddEdgeIndex k it -> edge_list_safe ops) ->
  kheld (g_eix g) k (edge_index ops k) (edge_entries ops k) ->
  kheld (g_eix g') k (edge_index (ops ++ [o]) k) (edge_entries (ops ++ [o]) k).
Proof.
  intros Hv Hr Ho Hs HD Hsafe Hk. pose proof (core_run _ _ Hv Hr) as Hc. pose proof Hc as (_ & Hnext & _).
  pose proof (step_eix _ _ _ _ Hc Ho Hs) as Hix. unfold eplain in HD.
  rewrite edge_index_snoc in HD |- *. unfold edge_entries in *. rewrite srun_snoc.
  set (s := srun ops) in *. set (st := stale ops k) in *.
  assert (match edge_index ops k with Some it => Some it | None => None end = edge_index ops k) as Hni
    by (by destruct (edge_index ops k)).
  assert (forall v, edge_index ops k = Some BtreeIndex -> edge_filed (ops ++ [o]) k v -> plain v) as HP.
  { intros v Hi. apply HD. by rewrite Hi. }
  assert (Hlive : forall e x, s_edges s !! e = Some x -> st !! e = None) by (intros e x; apply stale_live).
  assert ((forall e, o <> ORemoveEdge e) -> stale (ops ++ [o]) k = st) as Hst.
  { intros Hne. rewrite stale_snoc. by destruct o; try done; destruct (Hne e). }
  assert ((forall i, match s_edges (sstep s o) !! i with Some x => e_props x !! k | None => None end =
                     match s_edges s !! i with Some x => e_props x !! k | None => None end) ->
     (forall e, o <> ORemoveEdge e) -> forall ixs, ixs !! k = g_eix g !! k ->
     kheld ixs k (edge_index ops k) (edge_vals (sstep s o) k ∪ stale (ops ++ [o]) k)) as Hsame.
  { intros E Ho' ixs Eix. rewrite Hst by done. eapply kheld_ext; [exact Hk|done|]. f_equal.
    apply map_eq. intros i. rewrite !edge_vals_lookup. apply E. }
  assert (forall n dropped ixs', (forall e x, s_edges (sstep s o) !! e = Some x <-> s_edges s !! e = Some x /\ ~ (e_from x = n \/ e_to x = n)) ->
     (forall e, e ∈ dropped <-> incident s n e) -> NoDup dropped -> (forall e, o <> ORemoveEdge e) ->
     rfold (fun ixs e => match g_edges g !! e with Some ed => ixs_remove ixs (e_props ed) e | None => Panic end) dropped (g_eix g) = Ok ixs' ->
     kheld ixs' k (edge_index ops k) (edge_vals (sstep s o) k ∪ stale (ops ++ [o]) k)) as Hdet.
  { intros n dropped ixs' Hlk Hin Hnd Ho' Hf. rewrite Hst by done.
    eapply kheld_ext; [eapply kheld_removes; [exact Hf|done|exact Hk|]|done|].
    - intros e ed He Hed. rewrite entries_lookup. apply Hin in He. unfold incident in He.
      destruct (s_edges s !! e) as [x|] eqn:Hx; [|done]. destruct (core_edge _ _ _ _ Hc Hx) as [Hx' _].
      assert (x = ed) as -> by congruence. rewrite (Hlive _ _ Hx). by destruct (e_props ed !! k).
    - apply map_eq. intros i. apply option_eq. intros v. rewrite map_filter_lookup_Some, !entries_lookup. simpl. rewrite Hin.
      destruct (s_edges (sstep s o) !! i) as [x|] eqn:Hx.
      + apply Hlk in Hx as [Hx Hn]. rewrite Hx. unfold incident. rewrite Hx. naive_solver.
      + destruct (s_edges s !! i) as [x|] eqn:Hx0; [|unfold incident; rewrite Hx0; naive_solver].
        assert (e_from x = n \/ e_to x = n) as Hi.
        { destruct (decide (e_from x = n)); [by left|]. destruct (decide (e_to x = n)); [by right|].
          assert (s_edges (sstep s o) !! i = Some x); [|congruence]. apply Hlk. split; [done|]. by intros [?|?]. }
        rewrite (Hlive _ _ Hx0). unfold incident. rewrite Hx0. naive_solver. }
  destruct o; simpl in Ho; try rewrite Hni.
  - apply Hsame; [done|done|by rewrite Hix].
  - rewrite Hst by done.
    assert (s_edges s !! g_next g = None) as Hfr.
    { destruct (s_edges s !! g_next g) as [x|] eqn:Hx; [|done].
      assert (g_next g < s_next s); [|lia]. apply s_edge_lt. by exists x. }
    assert (st !! g_next g = None) as Hsn by (apply stale_new; fold s; lia).
    eapply kheld_ext; [eapply kheld_add; [exact Hix|exact Hk| |]|done|].
    + by rewrite entries_lookup, Hfr.
    + intros v Hi Hpv. apply HP; [done|]. apply edge_filed_write; [by rewrite Hi|done].
    + apply map_eq. intros i. rewrite entries_lookup. simpl. rewrite <- Hnext.
      destruct (decide (i = g_next g)) as [->|].
      * rewrite lookup_insert. simpl. destruct (p !! k); [by rewrite lookup_insert|]. by rewrite entries_lookup, Hfr.
      * rewrite lookup_insert_ne by done. destruct (p !! k); [rewrite lookup_insert_ne by done|]; by rewrite entries_lookup.
  - apply Hsame; [done|done|by rewrite Hix].
  - apply Hsame; [done|done|by rewrite Hix].
  - apply Hsame; [done|done|by rewrite Hix].
  - destruct Hix as (dropped & Hnd & Hin & Hix). eapply Hdet; [|exact Hin|done|done|exact Hix]. intros e x. simpl. rewrite s_detach_lookup. tauto.
  - destruct Hix as (dropped & Hnd & Hin & Hix). eapply Hdet; [|exact Hin|done|done|exact Hix]. intros e x. simpl. rewrite s_detach_lookup. tauto.
  - apply Hsame; [|done|by rewrite Hix]. intros i. simpl. destruct (decide (i = e)) as [->|].
    + rewrite lookup_alter. by destruct (s_edges s !! e).
    + by rewrite lookup_alter_ne.
  - rewrite Hst by done. destruct Ho as [x Hx]. destruct (core_edge _ _ _ _ Hc Hx) as (Hed & _).
    unfold edge_prop in Hix. rewrite Hed in Hix. unfold get_property in Hix. pose proof (Hlive _ _ Hx) as Hsx.
    destruct (decide (k0 = k)) as [->|Hne].
    + eapply kheld_ext; [eapply kheld_update; [exact Hix|exact Hk| |]|done|].
      * rewrite entries_lookup, Hx, Hsx. by destruct (e_props x !! k).
      * intros w Hi [= <-]. apply HP; [done|]. apply edge_filed_write; [by rewrite Hi|done].
      * apply map_eq. intros i. rewrite entries_lookup. simpl. destruct (decide (i = e)) as [->|].
        -- rewrite lookup_alter, Hx. simpl. by rewrite !lookup_insert.
        -- rewrite lookup_alter_ne, lookup_insert_ne by done. by rewrite entries_lookup.
    + eapply kheld_ext; [eapply kheld_update_ne; [exact Hix|done|exact Hk]|done|].
      apply map_eq. intros i. rewrite !entries_lookup. simpl. destruct (decide (i = e)) as [->|].
      * rewrite lookup_alter, Hx. simpl. by rewrite !lookup_insert_ne.
      * by rewrite lookup_alter_ne.
  - rewrite Hst by done. cbn [step] in Hs. unfold rem_edge_prop in Hs. inv_ok Hs. clear Hix.
    destruct Ho as [x Hx]. destruct (core_edge _ _ _ _ Hc Hx) as (Hed & _). unfold deref_edge in Ha. rewrite Hed in Ha.
    injection Ha as <-. pose proof (Hlive _ _ Hx) as Hsx.
    assert (forall i, i = e -> (edge_vals s k ∪ st) !! i = e_props x !! k) as Hcur.
    { intros i ->. rewrite entries_lookup, Hx, Hsx. by destruct (e_props x !! k). }
    assert (edge_vals (sstep s (ORemEdgeProp e k0)) k ∪ st =
      if decide (k0 = k) then delete e (edge_vals s k ∪ st) else edge_vals s k ∪ st) as E.
    { apply map_eq. intros i. rewrite entries_lookup. simpl. destruct (decide (i = e)) as [->|].
      - rewrite lookup_alter, Hx. simpl. destruct (decide (k0 = k)) as [->|].
        + rewrite !lookup_delete. done.
        + rewrite lookup_delete_ne by done. by rewrite entries_lookup, Hx.
      - rewrite lookup_alter_ne by done. destruct (decide (k0 = k)); [rewrite lookup_delete_ne by done|]; by rewrite entries_lookup. }
    rewrite E. destruct (e_props x !! k0) as [v|] eqn:Hv0.
    + inv_ok Hs. injection Hs as <-. cbn [g_eix set_edges set_eix]. destruct (decide (k0 = k)) as [->|Hne].
      * eapply (kheld_update k _ _ _ _ None) in Ha; [exact (proj1 Ha)|exact Hk| |done]. by rewrite Hcur.
      * eapply kheld_update_ne; [exact Ha|done|exact Hk].
    + injection Hs as <-. destruct (decide (k0 = k)) as [->|]; [|done]. rewrite delete_notin; [done|]. by rewrite Hcur.
  - rewrite stale_snoc. unfold stale_step, indexed. fold s st. destruct (edge_index ops k) as [t|] eqn:Hit.
    2: { simpl in Hk |- *. by rewrite Hix. }
    eapply kheld_ext; [exact Hk|by rewrite Hix|].
    apply map_eq. intros i. rewrite !entries_lookup, edge_vals_lookup. simpl. destruct (decide (i = e)) as [->|].
    + rewrite lookup_delete. destruct (s_edges s !! e) as [x|]; [|done].
      destruct (e_props x !! k); [by rewrite lookup_insert|done].
    + rewrite lookup_delete_ne by done. destruct (s_edges s !! e) as [y|]; [|done].
      destruct (e_props y !! k); [|done]. by rewrite lookup_insert_ne.
  - apply Hsame; [done|done|by rewrite Hix].
  - cbn [step] in Hs. destruct (decide (k0 = k)) as [->|Hne].
    + destruct (edge_index ops k) as [t|] eqn:Hit.
      * unfold add_edge_index in Hs. pose proof Hk as (ix & Hixx & _). rewrite Hixx in Hs. injection Hs as <-. by apply Hsame.
      * simpl in Hk. destruct (edge_scan_exact ops g k it Hv Hr (Hsafe _ eq_refl)) as [(ix & Ha & Ht & Hh & _)|[Hp _]]; [|done| |congruence].
        { intros v n -> Hn. apply HD; [done|]. by eapply edge_filed_scan. }
        rewrite Hs in Ha. injection Ha as ->. exists ix. cbn [g_eix set_eix]. rewrite lookup_insert. split; [done|]. split; [done|].
        rewrite Hst by done. unfold st. rewrite (stale_unindexed ops k Hit), (right_id_L ∅ (∪)).
        eapply (eq_rect _ (held ix)); [exact Hh|]. by apply edge_vals_same.
    + rewrite Hni. apply Hsame; [done|done|]. unfold add_edge_index in Hs.
      destruct (g_eix g !! k0); [by injection Hs as <-|]. inv_ok Hs. injection Hs as <-. simpl. by rewrite lookup_insert_ne.
Qed.
Lemma eheld_run k ops g : valid_history ops -> run ops = Ok g -> eplain ops k -> edge_scan_safe ops k ->
  kheld (g_eix g) k (edge_index ops k) (edge_entries ops k).
Proof.
  revert ops g. apply (history_ind (fun ops g => eplain ops k -> edge_scan_safe ops k ->
    kheld (g_eix g) k (edge_index ops k) (edge_entries ops k))).
  { intros _ _. done. }
  intros ops g o g' Hv Hr IH Ho Hs HD Hsafe. eapply eheld_step; eauto.
  - intros it ->. eapply (Hsafe ops []). done.
  - apply IH; [by eapply eplain_prefix|by eapply edge_scan_safe_app].
Qed.

(** ** Detaching ends *)
Lemma drop_edges_ends es g N C : adj g N C -> NoDup es -> (forall e, e ∈ es -> is_Some (C !! e)) -> rfold drop_edge es g <> Diverge.
Proof.
  revert g C; induction es as [|e es IH]; intros g C Hadj Hnd Hin; cbn [rfold]; [done|].
  apply NoDup_cons in Hnd as [Hni Hnd]. destruct (Hin e) as [ed Hed]; [left|].
  assert (drop_edge g e <> Diverge) as Hd.
  { unfold drop_edge. destruct (disconnect_ok _ _ _ _ _ Hadj Hed) as (g1 & Hg1 & _). rewrite Hg1. cbn [rbind].
    rewrite all_remove_eq. unfold deref_edge. simpl. destruct (g_edges g1 !! e) as [ed1|]; [|done]. simpl.
    pose proof (ixs_loop_ends (fun ix v => ix_remove ix v e) (g_eix g1) (map_to_list (e_props ed1))) as H.
    change (ixs_loop _ _ _) with (ixs_remove (g_eix g1) (e_props ed1) e) in H. destruct (ixs_remove _ _ _); try done.
    intros _. apply H; [intros; apply ix_remove_ends|done]. }
  destruct (drop_edge g e) as [g1| |] eqn:Hg1; [|done|done]. cbn [rbind].
  eapply IH; [by eapply drop_edge_adj|done|]. intros e' He'. rewrite lookup_delete_ne by (intros ->; done). apply Hin. by right.
Qed.
Lemma detach_ends g s n : core g s -> live_node s n -> detach_node g n <> Diverge.
Proof.
  intros Hc Hlive. pose proof Hc as ([Hn HC] & Hnext & Hdata & Hlt & Hlte & Hdis).
  assert (n ∈ dom (s_nodes s)) as HnN by (by apply elem_of_dom).
  unfold detach_node, deref_node. destruct (Hn n HnN) as (nd & Hnd & Hi & Ho). rewrite Hnd. cbn [rbind].
  destruct (em_iter_ok _ _ _ _ (fuel g) Hi) as (inl & Hinl & Hxnd & Hxin).
  { eapply core_edges_size; [done|]. intros e He. apply elem_of_ins in He as (x & ? & _). by exists x. }
  rewrite Hinl. cbn [rbind].
  assert (forall e, e ∈ inl -> is_Some (s_edges s !! e)) as Hinls.
  { intros e He. apply Hxin, elem_of_ins in He as (x & ? & _). by exists x. }
  pose proof (drop_edges_ends inl g _ _ (conj Hn HC) Hxnd Hinls) as He1.
  destruct (rfold drop_edge inl g) as [g1| |] eqn:Hg1; [|done|done]. cbn [rbind].
  pose proof (drop_edges_shape _ _ _ Hg1) as (Hs1 & _ & Hix1).
  pose proof (drop_edges_adj _ _ _ _ _ Hg1 (conj Hn HC) Hxnd Hinls) as Hadj1.
  set (C1 := filter (fun p => p.1 ∉ inl) (s_edges s)) in *.
  assert (forall e x, C1 !! e = Some x <-> s_edges s !! e = Some x /\ e_to x <> n) as HC1.
  { intros e x. unfold C1. rewrite map_filter_lookup_Some. simpl. rewrite Hxin, elem_of_ins. naive_solver. }
  destruct (proj1 Hadj1 n HnN) as (nd1 & Hg1n & _). rewrite Hg1n. cbn [rbind].
  set (g2 := set_nodes g1 _).
  assert (adj g2 (dom (s_nodes s)) C1) as Hadj2.
  { destruct Hadj1 as [Hn1 HC1']. split; [|done]. intros m Hm.
    destruct (Hn1 m Hm) as (ndm & Hndm & Hmi & Hmo). subst g2. simpl.
    destruct (decide (m = n)) as [->|Hne].
    - rewrite lookup_insert. eexists. split; [done|]. simpl. assert (ndm = nd1) as -> by congruence.
      split; [|done].
      assert (ins C1 n = ∅) as ->; [|apply em_rep_empty].
      apply set_eq. intros e. rewrite elem_of_ins. split; [|set_solver]. intros (x & Hx & Hx').
      apply HC1 in Hx. naive_solver.
    - rewrite lookup_insert_ne by done. eauto. }
  destruct (proj1 Hadj2 n HnN) as (nd2 & Hg2n & Hi2 & Ho2). rewrite Hg2n. cbn [rbind].
  destruct (em_iter_ok _ _ _ _ (fuel g2) Ho2) as (outl & Houtl & Hynd & Hyin).
  { change (fuel g2) with (g_next g1). destruct Hs1 as (_&_&_&_&_&->&_). eapply core_edges_size; [done|].
    intros e He. apply elem_of_outs in He as (x & Hx & _). apply HC1 in Hx as [? _]. by exists x. }
  rewrite Houtl. cbn [rbind].
  assert (rfold drop_edge outl g2 <> Diverge) as He2.
  { eapply drop_edges_ends; [exact Hadj2|done|]. intros e He. apply Hyin, elem_of_outs in He as (x & ? & _). by exists x. }
  destruct (rfold drop_edge outl g2) as [g3| |]; [|done|done]. cbn [rbind]. by destruct (g_nodes g3 !! n).
Qed.

(** ** Which calls panic *)
Definition exactly (r : res graph) (bad : Prop) : Prop := (exists g', r = Ok g') /\ ~ bad \/ r = Panic /\ bad.
Lemma exactly_iff r bad bad' : exactly r bad -> (bad <-> bad') -> exactly r bad'.
Proof. unfold exactly. intros H E. destruct H as [[H1 H2]|[H1 H2]]; [left; by rewrite <- E|right; by rewrite <- E]. Qed.
Lemma exactly_ok r g' bad : r = Ok g' -> ~ bad -> exactly r bad.
Proof. intros -> H. left. split; [eauto|done]. Qed.

Local Instance index_type_eq : EqDecision index_type.
Proof. solve_decision. Defined.
Section calls.
  Context (ops : list op) (g : graph) (Hv : valid_history ops) (Hr : run ops = Ok g).
  Notation s := (srun ops).
  Lemma live_entries e x k : s_edges s !! e = Some x -> edge_entries ops k !! e = e_props x !! k.
  Proof. intros Hx. unfold edge_entries. rewrite entries_lookup, Hx, (stale_live _ _ _ _ Hx). by destruct (e_props x !! k). Qed.
  Lemma entries_unindexed k : edge_index ops k = None -> edge_entries ops k = edge_vals s k.
  Proof. intros H. unfold edge_entries. by rewrite (stale_unindexed _ _ H), (right_id_L ∅ (∪)). Qed.

  Lemma detach_exact n : all_held (g_eix g) (edge_index ops) (edge_entries ops) -> live_node s n ->
    exactly (detach_node g n) (exists k t e, edge_index ops k = Some t /\ incident s n e /\ jams_out t (edge_entries ops k) e).
  Proof.
    intros He Hn. pose proof (core_run _ _ Hv Hr) as Hc. pose proof (detach_ends _ _ _ Hc Hn) as Hend.
    destruct (detach_node g n) as [g'| |] eqn:Hd; [left|right|done].
    - split; [eauto|]. intros (k & t & e & Hi & Hinc & Hj).
      destruct (core_detach _ _ _ _ Hd Hn Hc) as (_ & dropped & _ & _ & Hix & Hnd & Hin).
      destruct (kheld_removes k _ _ _ _ _ _ Hix Hnd (He k)) as [_ Hno].
      + intros e' ed He' Hed. apply Hin in He' as (ed' & Hed' & _). destruct (core_edge _ _ _ _ Hc Hed') as [Hx' _].
        rewrite (live_entries _ _ _ Hed'). congruence.
      + apply (Hno t e); [done| |done]. apply Hin. unfold incident in Hinc. destruct (s_edges s !! e) as [x|]; [|done]. by exists x.
    - split; [done|].
      destruct (decide (Exists (fun e => incident s n e /\ Exists (fun kx => edge_index ops kx.1 = Some BtreeIndex /\ kind kx.2 = None)
        (match s_edges s !! e with Some x => map_to_list (e_props x) | None => [] end)) ((map_to_list (s_edges s)).*1))) as [HE|HE].
      + apply Exists_exists in HE as (e & _ & Hinc & HE). apply Exists_exists in HE as ([k v] & Hkv & Hi & Hj). exists k, BtreeIndex, e. split; [done|]. split; [done|].
        exists v. split; [|done]. destruct (s_edges s !! e) as [x|] eqn:Hx; [|by apply elem_of_nil in Hkv]. rewrite (live_entries _ _ _ Hx). by apply elem_of_map_to_list in Hkv.
      + exfalso. destruct (detach_progress g s n Hc Hn) as [g' Hg']; [|congruence]. intros es Hnd Hes.
        eapply ixs_removes_exact; [exact He|done| |].
        * intros e Hine. destruct (Hes e Hine) as (ed & Hed & _). exists ed. split; [by destruct (core_edge _ _ _ _ Hc Hed)|].
          intros k. by apply live_entries.
        * intros e k t Hine Ht Hj. apply HE. destruct (Hes e Hine) as (ed & Hed & Hinc). apply Exists_exists. exists e. split.
          { apply elem_of_list_fmap. exists (e, ed). split; [done|]. by apply elem_of_map_to_list. }
          split; [unfold incident; by rewrite Hed|]. rewrite Hed. destruct t; [|done]. destruct Hj as (v & Hv' & Hk).
          rewrite (live_entries _ _ _ Hed) in Hv'. apply Exists_exists. exists (k, v). split; [by apply elem_of_map_to_list|done].
  Qed.

  Lemma jam_step o : valid s o -> lists_safe (ops ++ [o]) -> plain_trees (ops ++ [o]) -> exactly (step g o) (jams ops o).
  Proof.
    intros Ho Hl Hpl. pose proof (core_run _ _ Hv Hr) as Hc. pose proof Hc as (_ & Hnext & _).
    assert (forall k, nplain (ops ++ [o]) k) as Hnp by (intros k Hi v Hf; apply (Hpl k); auto).
    assert (forall k, eplain (ops ++ [o]) k) as Hep by (intros k Hi v Hf; apply (Hpl k); auto).
    assert (all_held (g_nix g) (node_index ops) (fun k => node_vals s k)) as Hnx.
    { intros k. apply nheld_run; [done|done|by eapply nplain_prefix|]. apply (lists_safe_prefix _ _ Hl). }
    assert (all_held (g_eix g) (edge_index ops) (edge_entries ops)) as Hex.
    { intros k. apply eheld_run; [done|done|by eapply eplain_prefix|]. eapply lists_safe_edges. by eapply lists_safe_prefix. }
    pose proof (lists_safe_prefix _ _ Hl) as [Hels _].
    assert (forall k, node_index ops k = Some BtreeIndex -> forall v, node_filed (ops ++ [o]) k v -> plain v) as HPn.
    { intros k Hi v. apply Hnp. by rewrite node_index_snoc, Hi. }
    assert (forall k, edge_index ops k = Some BtreeIndex -> forall v, edge_filed (ops ++ [o]) k v -> plain v) as HPe.
    { intros k Hi v. apply Hep. by rewrite edge_index_snoc, Hi. }
    assert ((forall k, ~ jams_node ops o k) -> (forall k, ~ jams_edge ops o k) -> (exists g', step g o = Ok g') -> exactly (step g o) (jams ops o)) as Hok.
    { intros H1 H2 [g' H]. eapply exactly_ok; [exact H|]. intros (k & [?|?]); [by eapply H1|by eapply H2]. }
    destruct o; cbn [step] in *; cbn [valid] in Ho.
    - unfold new_node. set (g1 := bump _). destruct (nl_add _ _ _) as [l L]. cbn zeta.
      match goal with |- context [ixs_add ?a p ?c] => change a with (g_nix g); change c with (g_next g) end.
      assert (jams ops (ONewNode labels p ord) <-> exists k t v, node_index ops k = Some t /\ p !! k = Some v /\ jams_in t (node_vals s k) v) as Hj.
      { unfold jams, jams_node, jams_edge. split.
        - intros (k & [H|H]); [|by destruct (edge_index ops k)]. destruct (node_index ops k) as [t|] eqn:E; [|done]. destruct H as (v & ? & ?). by exists k, t, v.
        - intros (k & t & v & Ht & ? & ?). exists k. left. rewrite Ht. by exists v. }
      destruct (ixs_add_exact (g_nix g) (node_index ops) (fun k => node_vals s k) p (g_next g) Hnx) as [(ixs' & -> & Hn)|[-> Hb]].
      + intros k. rewrite node_vals_lookup. destruct (s_nodes s !! g_next g) as [x|] eqn:Hx; [|done].
        assert (g_next g < s_next s); [|lia]. eapply core_live_lt; [done|]. by eexists.
      + intros k v Hi Hp. eapply HPn; [done|]. apply node_filed_write; [by rewrite Hi|done].
      + eapply exactly_ok; [done|]. by rewrite Hj.
      + right. split; [done|]. by rewrite Hj.
    - destruct Ho as [Hf Ht]. destruct (new_edge_parts ops g from to label p Hv Hr Hels Hf Ht) as [g3 ->].
      assert (jams ops (ONewEdge from to label p) <-> exists k t v, edge_index ops k = Some t /\ p !! k = Some v /\ jams_in t (edge_entries ops k) v) as Hj.
      { unfold jams, jams_node, jams_edge. split.
        - intros (k & [H|H]); [by destruct (node_index ops k)|]. destruct (edge_index ops k) as [t|] eqn:E; [|done]. destruct H as (v & ? & ?). by exists k, t, v.
        - intros (k & t & v & Hit & ? & ?). exists k. right. rewrite Hit. by exists v. }
      destruct (ixs_add_exact (g_eix g) (edge_index ops) (edge_entries ops) p (g_next g) Hex) as [(ixs' & -> & Hn)|[-> Hb]].
      + intros k. unfold edge_entries. rewrite entries_lookup, (stale_new _ _ (g_next g)) by lia. destruct (s_edges s !! g_next g) as [x|] eqn:Hx; [|done].
        assert (g_next g < s_next s); [|lia]. apply s_edge_lt. by exists x.
      + intros k v Hi Hp. eapply HPe; [done|]. apply edge_filed_write; [by rewrite Hi|done].
      + eapply exactly_ok; [done|]. by rewrite Hj.
      + right. split; [done|]. by rewrite Hj.
    - apply Hok; [intros k; unfold jams_node; destruct (node_index ops k); by intros []|intros k; unfold jams_edge; destruct (edge_index ops k); by intros []|].
      destruct Ho as (_ & x & Hx & _). destruct (core_node _ _ _ _ Hc Hx) as (nd & Hnd & _). unfold set_labels, deref_node. rewrite Hnd. simpl. eauto.
    - destruct Ho as [x Hx]. destruct (core_node _ _ _ _ Hc Hx) as (nd & Hnd & _ & Hp). unfold set_node_prop, deref_node. rewrite Hnd. cbn [rbind].
      assert (jams ops (OSetNodeProp n k v) <-> exists t, node_index ops k = Some t /\
        (jams_out t (node_vals s k) n \/ exists w, Some v = Some w /\ jams_in t (delete n (node_vals s k)) w)) as Hj.
      { unfold jams, jams_node, jams_edge. split.
        - intros (k' & [H|H]); [|by destruct (edge_index ops k')]. destruct (node_index ops k') as [t|] eqn:E; [|done]. destruct H as [<- H].
          exists t. split; [done|]. destruct H; [by left|right; by exists v].
        - intros (t & Ht & H). exists k. left. rewrite Ht. split; [done|]. destruct H as [?|(w & [= <-] & ?)]; auto. }
      destruct (ix_update_exact (g_nix g) (node_index ops k) (node_vals s k) k (n_props nd !! k) (Some v) n (Hnx k)) as [(ixs' & -> & Hn)|[-> Hb]].
      + by rewrite node_vals_lookup, Hx, Hp.
      + intros w Hi [= <-]. eapply HPn; [done|]. apply node_filed_write; [by rewrite Hi|done].
      + eapply exactly_ok; [done|]. by rewrite Hj.
      + right. split; [done|]. by rewrite Hj.
    - destruct Ho as [x Hx]. destruct (core_node _ _ _ _ Hc Hx) as (nd & Hnd & _ & Hp). unfold rem_node_prop, deref_node. rewrite Hnd. cbn [rbind].
      assert (jams ops (ORemNodeProp n k) <-> exists t, node_index ops k = Some t /\
        (jams_out t (node_vals s k) n \/ exists w, None = Some w /\ jams_in t (delete n (node_vals s k)) w)) as Hj.
      { unfold jams, jams_node, jams_edge. split.
        - intros (k' & [H|H]); [|by destruct (edge_index ops k')]. destruct (node_index ops k') as [t|] eqn:E; [|done]. destruct H as [<- H].
          exists t. split; [done|]. by left.
        - intros (t & Ht & H). exists k. left. rewrite Ht. split; [done|]. destruct H as [?|(w & ? & _)]; [done|done]. }
      assert (node_vals s k !! n = n_props nd !! k) as Hval by (by rewrite node_vals_lookup, Hx, Hp).
      destruct (n_props nd !! k) as [v|] eqn:Hk.
      + destruct (ix_update_exact (g_nix g) (node_index ops k) (node_vals s k) k (Some v) None n (Hnx k)) as [(ixs' & -> & Hn)|[-> Hb]]; [done|done| |].
        * eapply exactly_ok; [done|]. by rewrite Hj.
        * right. split; [done|]. by rewrite Hj.
      + eapply exactly_ok; [done|]. rewrite Hj. intros (t & _ & [Ho|(w & ? & _)]); [|done]. destruct t; [|done]. destruct Ho as (w & Hw & _). congruence.
    - eapply exactly_iff; [by apply detach_exact|]. unfold jams, jams_node, jams_edge. split.
      + intros (k & t & e & Hi & Hinc & Hj). exists k. right. rewrite Hi. by exists e.
      + intros (k & [H|H]); [by destruct (node_index ops k)|]. destruct (edge_index ops k) as [t|] eqn:E; [|done]. destruct H as (e & ? & ?). by exists k, t, e.
    - destruct Ho as (x & Hx & _). unfold detach_remove_node.
      assert (jams ops (ODetachRemove n ord) <-> (exists k t, node_index ops k = Some t /\ jams_out t (node_vals s k) n) \/
        (exists k t e, edge_index ops k = Some t /\ incident s n e /\ jams_out t (edge_entries ops k) e)) as Hj.
      { unfold jams, jams_node, jams_edge. split.
        - intros (k & [H|H]).
          + destruct (node_index ops k) as [t|] eqn:E; [|done]. left. by exists k, t.
          + destruct (edge_index ops k) as [t|] eqn:E; [|done]. destruct H as (e & ? & ?). right. by exists k, t, e.
        - intros [(k & t & Ht & H)|(k & t & e & Ht & ? & ?)]; exists k; [left|right]; rewrite Ht; [done|by exists e]. }
      destruct (detach_exact n Hex (ex_intro _ x Hx)) as [[[g1 Hg1] Hn1]|[-> Hb]]; [|right; split; [done|]; rewrite Hj; by right].
      rewrite Hg1. cbn [rbind].
      destruct (core_detach _ _ _ _ Hg1 (ex_intro _ x Hx) Hc) as (Hc1 & _ & (_&_&_&_&E5&_) & _).
      destruct (core_node _ _ n x Hc1 Hx) as (nd & Hnd & _ & Hp). unfold deref_node. rewrite Hnd. cbn [rbind].
      destruct (nl_remove _ _ _) as [l L]. simpl. rewrite E5.
      destruct (ixs_remove_exact (g_nix g) (node_index ops) (fun k => node_vals s k) (n_props nd) n Hnx) as [(ixs' & -> & Hn)|[-> Hb]].
      + intros k. by rewrite node_vals_lookup, Hx, Hp.
      + eapply exactly_ok; [done|]. rewrite Hj. by intros [?|?].
      + right. split; [done|]. rewrite Hj. by left.
    - apply Hok; [intros k; unfold jams_node; destruct (node_index ops k); by intros []|intros k; unfold jams_edge; destruct (edge_index ops k); by intros []|].
      destruct Ho as [x Hx]. destruct (core_edge _ _ _ _ Hc Hx) as (Hed & Hf & Ht & _). unfold set_edge_label, deref_edge.
      rewrite Hed. cbn [rbind]. destruct (decide (label = e_label x)); [eauto|].
      pose proof Hc as (Hadj & _). destruct (disconnect_ok _ _ _ _ _ Hadj Hx) as (g1 & Hg1 & Hadj1). rewrite Hg1. cbn [rbind].
      apply disconnect_shape in Hg1 as (E1&_).
      edestruct (connect_ok (set_edges g1 (<[e:=Edge (e_from x) (e_to x) label (e_props x)]> (g_edges g1))) (dom (s_nodes s)) (delete e (s_edges s)) e) as (g2 & Hg2 & _).
      + eapply adj_frame; [exact Hadj1|..]; simpl; eauto. intros e' ed'. rewrite lookup_delete_Some. intros [? _]. by rewrite lookup_insert_ne.
      + apply lookup_delete.
      + simpl. apply lookup_insert.
      + simpl. by apply elem_of_dom.
      + simpl. by apply elem_of_dom.
      + eauto.
    - destruct Ho as [x Hx]. destruct (core_edge _ _ _ _ Hc Hx) as (Hed & _). unfold set_edge_prop, deref_edge. rewrite Hed. cbn [rbind].
      assert (jams ops (OSetEdgeProp e k v) <-> exists t, edge_index ops k = Some t /\
        (jams_out t (edge_entries ops k) e \/ exists w, Some v = Some w /\ jams_in t (delete e (edge_entries ops k)) w)) as Hj.
      { unfold jams, jams_node, jams_edge. split.
        - intros (k' & [H|H]); [by destruct (node_index ops k')|]. destruct (edge_index ops k') as [t|] eqn:E; [|done]. destruct H as [<- H].
          exists t. split; [done|]. destruct H; [by left|right; by exists v].
        - intros (t & Ht & H). exists k. right. rewrite Ht. split; [done|]. destruct H as [?|(w & [= <-] & ?)]; auto. }
      destruct (ix_update_exact (g_eix g) (edge_index ops k) (edge_entries ops k) k (e_props x !! k) (Some v) e (Hex k)) as [(ixs' & -> & Hn)|[-> Hb]].
      + by apply live_entries.
      + intros w Hi [= <-]. eapply HPe; [done|]. apply edge_filed_write; [by rewrite Hi|done].
      + eapply exactly_ok; [done|]. by rewrite Hj.
      + right. split; [done|]. by rewrite Hj.
    - destruct Ho as [x Hx]. destruct (core_edge _ _ _ _ Hc Hx) as (Hed & _). unfold rem_edge_prop, deref_edge. rewrite Hed. cbn [rbind].
      assert (jams ops (ORemEdgeProp e k) <-> exists t, edge_index ops k = Some t /\
        (jams_out t (edge_entries ops k) e \/ exists w, None = Some w /\ jams_in t (delete e (edge_entries ops k)) w)) as Hj.
      { unfold jams, jams_node, jams_edge. split.
        - intros (k' & [H|H]); [by destruct (node_index ops k')|]. destruct (edge_index ops k') as [t|] eqn:E; [|done]. destruct H as [<- H].
          exists t. split; [done|]. by left.
        - intros (t & Ht & H). exists k. right. rewrite Ht. split; [done|]. destruct H as [?|(w & ? & _)]; [done|done]. }
      pose proof (live_entries _ _ k Hx) as Hval.
      destruct (e_props x !! k) as [v|] eqn:Hk.
      + destruct (ix_update_exact (g_eix g) (edge_index ops k) (edge_entries ops k) k (Some v) None e (Hex k)) as [(ixs' & -> & Hn)|[-> Hb]]; [done|done| |].
        * eapply exactly_ok; [done|]. by rewrite Hj.
        * right. split; [done|]. by rewrite Hj.
      + eapply exactly_ok; [done|]. rewrite Hj. intros (t & _ & [Ho|(w & ? & _)]); [|done]. destruct t; [|done]. destruct Ho as (w & Hw & _). congruence.
    - apply Hok; [intros k; unfold jams_node; destruct (node_index ops k); by intros []|intros k; unfold jams_edge; destruct (edge_index ops k); by intros []|].
      destruct Ho as [x Hx]. pose proof Hc as (Hadj & _). unfold remove_edge. destruct (disconnect_ok _ _ _ _ _ Hadj Hx) as (g1 & -> & _). simpl. eauto.
    - assert (jams ops (OAddNodeIndex k it) <-> node_index ops k = None /\ jams_all it (node_vals s k)) as Hj.
      { unfold jams, jams_node, jams_edge. split.
        - intros (k' & [H|H]); [|by destruct (edge_index ops k')]. destruct (node_index ops k') as [t|] eqn:E; [done|]. destruct H as [<- H]. done.
        - intros [Ht H]. exists k. left. by rewrite Ht. }
      pose proof (Hnx k) as Hk. destruct (node_index ops k) as [t|] eqn:Hi.
      + destruct Hk as (ix & Hix & _). unfold add_node_index. rewrite Hix. eapply exactly_ok; [done|]. rewrite Hj. by intros [? _].
      + simpl in Hk. destruct (node_scan_exact ops g k it Hv Hr) as [(ix & Ha & _ & _ & Hn)|[Hp Hb]]; [by eapply (proj2 Hl k ops [])| |done| |].
        * intros v n -> Hn. apply (Hnp k); [by rewrite node_index_snoc, Hi, decide_True|]. by eapply node_filed_scan.
        * eapply exactly_ok; [exact Ha|]. rewrite Hj. by intros [_ ?].
        * right. split; [done|]. by rewrite Hj.
    - assert (jams ops (OAddEdgeIndex k it) <-> edge_index ops k = None /\ jams_all it (edge_vals s k)) as Hj.
      { unfold jams, jams_node, jams_edge. split.
        - intros (k' & [H|H]); [by destruct (node_index ops k')|]. destruct (edge_index ops k') as [t|] eqn:E; [done|]. destruct H as [<- H].
          by rewrite (entries_unindexed _ E) in H.
        - intros [Ht H]. exists k. right. rewrite Ht. by rewrite (entries_unindexed _ Ht). }
      pose proof (Hex k) as Hk. destruct (edge_index ops k) as [t|] eqn:Hi.
      + destruct Hk as (ix & Hix & _). unfold add_edge_index. rewrite Hix. eapply exactly_ok; [done|]. rewrite Hj. by intros [? _].
      + simpl in Hk. destruct (edge_scan_exact ops g k it Hv Hr) as [(ix & Ha & _ & _ & Hn)|[Hp Hb]]; [done| |done| |].
        * intros v n -> Hn. apply (Hep k); [by rewrite edge_index_snoc, Hi, decide_True|]. by eapply edge_filed_scan.
        * eapply exactly_ok; [exact Ha|]. rewrite Hj. by intros [_ ?].
        * right. split; [done|]. by rewrite Hj.
  Qed.
End calls.

Theorem jam_calls ops g o : valid_history ops -> run ops = Ok g -> valid (srun ops) o -> lists_safe (ops ++ [o]) -> plain_trees (ops ++ [o]) ->
  (step g o = Panic <-> jams ops o) /\ ((exists g', step g o = Ok g') <-> ~ jams ops o).
Proof.
  intros Hv Hr Ho Hl Hp. destruct (jam_step ops g Hv Hr o Ho Hl Hp) as [[[g' H] Hn]|[H Hj]].
  - split; [split; [congruence|done]|]. split; [done|eauto].
  - split; [done|]. split; [|done]. intros [g' ?]. congruence.
Qed.
Lemma plain_trees_prefix ops1 ops2 : plain_trees (ops1 ++ ops2) -> plain_trees ops1.
Proof.
  intros H k v [[H1 H2]|[H1 H2]]; apply (H k); [left|right]; (split; [by apply node_index_prefix || by apply edge_index_prefix|]);
    [by apply node_filed_app|by apply edge_filed_app].
Qed.
Theorem jam_histories ops : valid_history ops -> lists_safe ops -> plain_trees ops ->
  ((exists g, run ops = Ok g) <-> forall ops1 o ops2, ops = ops1 ++ o :: ops2 -> ~ jams ops1 o).
Proof.
  induction ops as [|o ops IH] using rev_ind; intros Hv Hl Hp.
  { split; [|by eexists]. intros _ ops1 o ops2 E. by destruct ops1. }
  pose proof (lists_safe_prefix _ _ Hl) as Hl0. pose proof (plain_trees_prefix _ _ Hp) as Hp0. apply valid_history_snoc in Hv as [Hv Ho].
  specialize (IH Hv Hl0 Hp0). split.
  - intros [g Hg]. unfold run in Hg. rewrite rfold_app in Hg. apply rbind_Ok_inv in Hg as (g0 & Hg0 & Hg). cbn [rfold] in Hg. apply rbind_Ok_inv in Hg as (g1 & Hg1 & _).
    intros ops1 o' ops2 E. destruct ops2 as [|o2 ops2 _] using rev_ind.
    + apply app_inj_tail in E as [<- <-]. apply (jam_calls ops g0 o Hv Hg0 Ho Hl Hp). eauto.
    + rewrite app_comm_cons, app_assoc in E. apply app_inj_tail in E as [-> _]. by eapply (proj1 IH (ex_intro _ g0 Hg0)).
  - intros H. destruct (proj2 IH) as [g0 Hg0].
    { intros ops1 o' ops2 ->. apply (H ops1 o' (ops2 ++ [o])). by rewrite <- app_assoc. }
    destruct (proj2 (proj2 (jam_calls ops g0 o Hv Hg0 Ho Hl Hp))) as [g' Hg']; [by apply (H ops o [])|].
    exists g'. unfold run in *. rewrite rfold_app, Hg0. simpl. by rewrite Hg'.
Qed.
