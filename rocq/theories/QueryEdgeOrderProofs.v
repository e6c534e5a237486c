(** The order of GetEdgesWithProperty. *)
From Verif Require Import Base Value ValueProofs FastSet FastSetProofs Index IndexProofs Graph GraphSpec.
From Verif Require Import CoreProofs CoreStep AdjProofs ReadProofs NodeListProofs EdgeListProofs IndexGraphProofs HashLiveProofs.
From Verif Require Import OrderSpec OrderProofs OrderGraphProofs OrderRunProofs QueryOrderSpec LabelOrderProofs IndexOrderProofs QueryOrderProofs.

Definition indexed (ops : list op) (k : string) : bool :=
  match edge_index ops k with Some _ => true | None => false end.
Lemma indexed_cons o ops k : indexed (o :: ops) k = adds_edge_index k o || indexed ops k.
Proof.
  unfold indexed. destruct o; simpl; try done. destruct (decide (k0 = k)) as [->|].
  - by rewrite bool_decide_eq_true_2.
  - by rewrite bool_decide_eq_false_2.
Qed.
Lemma stale_from_snoc k idx s st ops o :
  stale_from k idx s st (ops ++ [o]) =
  stale_step k (idx || indexed ops k) (fold_left sstep ops s) o (stale_from k idx s st ops).
Proof.
  revert idx s st. induction ops as [|o' ops IH]; intros idx s st; [simpl; by rewrite orb_false_r|].
  cbn [app stale_from fold_left]. rewrite IH. by rewrite indexed_cons, orb_assoc.
Qed.
Lemma stale_snoc ops o k : stale (ops ++ [o]) k = stale_step k (indexed ops k) (srun ops) o (stale ops k).
Proof. apply stale_from_snoc. Qed.
Lemma edge_prop_order_snoc ops o k :
  edge_prop_order (ops ++ [o]) k =
  if indexed ops k then edge_prop_step k (srun ops) (stale (ops ++ [o]) k) o (edge_prop_order ops k)
  else with_prop (edge_vals (sstep (srun ops) o) k) (all_order (ops ++ [o])).
Proof.
  assert (forall idx F s st all xs, edge_prop_from k idx F s st all xs (ops ++ [o]) =
    if idx || indexed ops k then edge_prop_step k (fold_left sstep ops s) (stale_from k idx s st (ops ++ [o])) o
      (edge_prop_from k idx F s st all xs ops)
    else with_prop (edge_vals (sstep (fold_left sstep ops s) o) k) (all_order_from F s all (ops ++ [o]))) as H.
  { induction ops as [|o' ops IH]; intros idx F s st all xs; [simpl; by rewrite orb_false_r|].
    cbn [app edge_prop_from fold_left]. rewrite IH. by rewrite indexed_cons, orb_assoc. }
  apply H.
Qed.
Lemma stale_left_over ops k e v : stale ops k !! e = Some v <-> left_over ops k v e.
Proof.
  induction ops as [|o ops IH] using rev_ind.
  { split; [done|]. intros (ops1 & ops2 & E & _). by destruct ops1. }
  rewrite stale_snoc, left_over_snoc. unfold stale_step, indexed.
  destruct o as [| | | | | | | | | |e'| |]; try (rewrite IH; naive_solver).
  destruct (edge_index ops k) as [t|] eqn:Hi.
  2: { rewrite IH. split; [auto|]. intros [?|(_ & [? ?] & _)]; done. }
  rewrite edge_vals_lookup. unfold edge_has.
  destruct (s_edges (srun ops) !! e') as [x|] eqn:Hx.
  2: { rewrite IH. split; [auto|]. intros [?|([= ->] & _ & y & Hy & _)]; [done|congruence]. }
  destruct (e_props x !! k) as [w|] eqn:Hw.
  2: { rewrite IH. split; [auto|]. intros [?|([= ->] & _ & y & Hy & ?)]; [done|congruence]. }
  destruct (decide (e' = e)) as [->|Hne].
  - rewrite lookup_insert. split.
    + intros [= <-]. right. split; [done|]. split; [by eexists|]. by exists x.
    + intros [Hl|(_ & _ & y & Hy & ?)]; [|congruence]. apply left_over_dead in Hl as [[] _]. by exists x.
  - rewrite lookup_insert_ne by done. rewrite IH. split; [auto|]. intros [?|([= ->] & _)]; done.
Qed.
Lemma stale_live ops k e x : s_edges (srun ops) !! e = Some x -> stale ops k !! e = None.
Proof.
  intros Hx. destruct (stale ops k !! e) eqn:H; [|done]. apply stale_left_over, left_over_dead in H as [[] _]. by exists x.
Qed.
Lemma stale_new ops k e : s_next (srun ops) <= e -> stale ops k !! e = None.
Proof.
  intros Hx. destruct (stale ops k !! e) eqn:H; [|done]. apply stale_left_over, left_over_dead in H as [_ ?]. lia.
Qed.
Lemma stale_unindexed ops k : edge_index ops k = None -> stale ops k = ∅.
Proof.
  intros Hi. apply map_eq. intros e. rewrite lookup_empty. destruct (stale ops k !! e) eqn:H; [|done].
  apply stale_left_over, left_over_indexed in H as [? ?]. congruence.
Qed.
Lemma entries_lookup s k (st : gmap nat value) i : (edge_vals s k ∪ st) !! i =
  match s_edges s !! i with
  | Some x => match e_props x !! k with Some v => Some v | None => st !! i end
  | None => st !! i
  end.
Proof.
  destruct (edge_vals s k !! i) as [v|] eqn:H; pose proof H as H'; rewrite edge_vals_lookup in H'.
  - rewrite (lookup_union_Some_l _ _ _ _ H). destruct (s_edges s !! i); [|done]. by rewrite H'.
  - rewrite lookup_union_r by done. destruct (s_edges s !! i); [|done]. by rewrite H'.
Qed.

Lemma kseq_removes (D : value -> Prop) k (E : gmap nat edge) (es : list nat) ixs ixs' it c xs :
  rfold (fun ixs e => match E !! e with Some ed => ixs_remove ixs (e_props ed) e | None => Panic end) es ixs = Ok ixs' ->
  NoDup es -> (forall e ed, e ∈ es -> E !! e = Some ed -> c !! e = e_props ed !! k) ->
  kseq D ixs k it c xs -> kseq D ixs' k it (filter (fun p => p.1 ∉ es) c) (without es xs).
Proof.
  revert ixs c xs. induction es as [|e es IH]; intros ixs c xs Hr Hnd HP Hk; simpl in Hr.
  - injection Hr as <-. eapply kseq_ext; [exact Hk| |].
    + apply map_filter_id. intros i x _. simpl. apply not_elem_of_nil.
    + intros _ _. unfold without. apply OrderProofs.filter_all, Forall_forall. intros x _. apply not_elem_of_nil.
  - apply rbind_Ok_inv in Hr as (ixs1 & H1 & Hr). apply NoDup_cons in Hnd as [Hni Hnd].
    destruct (E !! e) as [ed|] eqn:He; [|done].
    eapply kseq_remove in H1; [|exact Hk|].
    2: { eapply HP; [|done]. by apply elem_of_cons; left. }
    eapply IH in H1; [|exact Hr|done|].
    + eapply kseq_ext; [exact H1| |].
      * apply map_eq. intros i. apply option_eq. intros v. rewrite !map_filter_lookup_Some, lookup_delete_Some. simpl.
        rewrite not_elem_of_cons. naive_solver.
      * intros _ _. unfold without, unfile. rewrite list_filter_filter. apply filter_ext_at.
        intros x _. rewrite not_elem_of_cons. tauto.
    + intros e' ed' He' HE. rewrite lookup_delete_ne by (by intros ->). apply HP; [by apply elem_of_cons; right|done].
Qed.

Lemma eseq_step (D : value -> Prop) k ops g o g' :
  valid_history ops -> run ops = Ok g -> valid (srun ops) o -> step g o = Ok g' ->
  (forall v, edge_filed (ops ++ [o]) k v -> D v) ->
  (forall it, o = OAddEdgeIndex k it -> edge_list_safe ops) ->
  kseq D (g_eix g) k (edge_index ops k) (edge_entries ops k) (edge_prop_order ops k) ->
  kseq D (g_eix g') k (edge_index (ops ++ [o]) k) (edge_entries (ops ++ [o]) k) (edge_prop_order (ops ++ [o]) k).
Proof.
  intros Hv Hr Ho Hs HD Hsafe Hk. pose proof (core_run _ _ Hv Hr) as Hc. pose proof Hc as (_ & Hnext & _).
  pose proof (step_eix _ _ _ _ Hc Ho Hs) as Hix.
  rewrite edge_index_snoc, edge_prop_order_snoc. unfold edge_entries in *. rewrite srun_snoc.
  set (s := srun ops) in *. set (st := stale ops k) in *. set (xs := edge_prop_order ops k) in *.
  assert (match edge_index ops k with Some it => Some it | None => None end = edge_index ops k) as Hni
    by (by destruct (edge_index ops k)).
  assert (Hlive : forall e x, s_edges s !! e = Some x -> st !! e = None) by (intros e x; apply stale_live).
  assert ((forall e, o <> ORemoveEdge e) -> stale (ops ++ [o]) k = st) as Hst.
  { intros Hne. rewrite stale_snoc. by destruct o; try done; destruct (Hne e). }
  assert ((forall i, match s_edges (sstep s o) !! i with Some x => e_props x !! k | None => None end =
                     match s_edges s !! i with Some x => e_props x !! k | None => None end) ->
     match o with ONewEdge _ _ _ _ | OSetEdgeProp _ _ _ | ORemoveEdge _ => False | _ => True end ->
     forall ixs, ixs !! k = g_eix g !! k ->
     kseq D ixs k (edge_index ops k) (edge_vals (sstep s o) k ∪ stale (ops ++ [o]) k)
       (if indexed ops k then edge_prop_step k s (stale (ops ++ [o]) k) o xs
        else with_prop (edge_vals (sstep s o) k) (all_order (ops ++ [o])))) as Hsame.
  { intros E Ho' ixs Eix. rewrite Hst by (by intros e ->).
    assert (edge_vals (sstep s o) k = edge_vals s k) as E'.
    { apply map_eq. intros i. rewrite !edge_vals_lookup. apply E. }
    eapply kseq_ext; [|by rewrite E'|].
    - unfold kseq in *. by rewrite Eix.
    - intros Hin Hne. unfold indexed. destruct (edge_index ops k) as [t|]; [|done].
      destruct o; try done; unfold edge_prop_step; (eapply with_prop_all; [exact Hin|by rewrite E']). }
  assert (forall n dropped ixs', (forall e x, s_edges (sstep s o) !! e = Some x <-> s_edges s !! e = Some x /\ ~ (e_from x = n \/ e_to x = n)) ->
     (forall e, e ∈ dropped <-> incident s n e) -> NoDup dropped ->
     match o with ODetach _ | ODetachRemove _ _ => True | _ => False end ->
     rfold (fun ixs e => match g_edges g !! e with Some ed => ixs_remove ixs (e_props ed) e | None => Panic end) dropped (g_eix g) = Ok ixs' ->
     kseq D ixs' k (edge_index ops k) (edge_vals (sstep s o) k ∪ stale (ops ++ [o]) k)
       (if indexed ops k then edge_prop_step k s (stale (ops ++ [o]) k) o xs
        else with_prop (edge_vals (sstep s o) k) (all_order (ops ++ [o])))) as Hdet.
  { intros n dropped ixs' Hlk Hin Hnd Ho' Hf. rewrite Hst by (by intros e ->).
    assert (edge_vals (sstep s o) k ∪ st = filter (fun p => p.1 ∉ dropped) (edge_vals s k ∪ st)) as E.
    { apply map_eq. intros i. apply option_eq. intros v. rewrite map_filter_lookup_Some, !entries_lookup. simpl. rewrite Hin.
      destruct (s_edges (sstep s o) !! i) as [x|] eqn:Hx.
      - apply Hlk in Hx as [Hx Hn]. rewrite Hx. unfold incident. rewrite Hx. naive_solver.
      - destruct (s_edges s !! i) as [x|] eqn:Hx0; [|unfold incident; rewrite Hx0; naive_solver].
        assert (e_from x = n \/ e_to x = n) as Hi.
        { destruct (decide (e_from x = n)); [by left|]. destruct (decide (e_to x = n)); [by right|].
          assert (s_edges (sstep s o) !! i = Some x); [|congruence]. apply Hlk. split; [done|]. by intros [?|?]. }
        rewrite (Hlive _ _ Hx0). unfold incident. rewrite Hx0. naive_solver. }
    eapply kseq_ext; [eapply kseq_removes; [exact Hf|done| |exact Hk]|exact E|].
    - intros e ed He Hed. rewrite entries_lookup. apply Hin in He. unfold incident in He.
      destruct (s_edges s !! e) as [x|] eqn:Hx; [|done]. destruct (core_edge _ _ _ _ Hc Hx) as [Hx' _].
      assert (x = ed) as -> by congruence. rewrite (Hlive _ _ Hx). by destruct (e_props ed !! k).
    - intros Hi Hne. unfold indexed. destruct (edge_index ops k) as [t|]; [|done].
      assert (edge_prop_step k s st o xs = with_prop (edge_vals (sstep s o) k ∪ st) xs) as -> by (by destruct o).
      rewrite E. unfold with_prop, without in *. apply filter_ext_at. intros i Hix'. split.
      + intros [v Hv']. by apply map_filter_lookup_Some in Hv' as [_ ?].
      + intros Hni'. apply Hi. by apply elem_of_list_filter. }
  destruct o; simpl in Ho; try rewrite Hni.
  - apply Hsame; [done|done|by rewrite Hix].
  - rewrite Hst by done.
    assert (s_edges s !! g_next g = None) as Hfr.
    { destruct (s_edges s !! g_next g) as [x|] eqn:Hx; [|done].
      assert (g_next g < s_next s); [|lia]. apply s_edge_lt. by exists x. }
    assert (st !! g_next g = None) as Hsn by (apply stale_new; fold s; lia).
    eapply kseq_ext; [eapply kseq_add; [exact Hix|exact Hk| |]| |].
    + by rewrite entries_lookup, Hfr.
    + intros v Hin' Hpv. by apply HD, edge_filed_write.
    + apply map_eq. intros i. rewrite entries_lookup. simpl. rewrite <- Hnext.
      destruct (decide (i = g_next g)) as [->|].
      * rewrite lookup_insert. simpl. destruct (p !! k); [by rewrite lookup_insert|]. by rewrite entries_lookup, Hfr.
      * rewrite lookup_insert_ne by done. destruct (p !! k); [rewrite lookup_insert_ne by done|]; by rewrite entries_lookup.
    + intros _ Hne. unfold indexed. destruct (edge_index ops k) as [t|]; [|done]. simpl. by rewrite Hnext.
  - apply Hsame; [done|done|by rewrite Hix].
  - apply Hsame; [done|done|by rewrite Hix].
  - apply Hsame; [done|done|by rewrite Hix].
  - destruct Hix as (dropped & Hnd & Hin & Hix). eapply Hdet; [|exact Hin|done|done|exact Hix]. intros e x. simpl. rewrite s_detach_lookup. tauto.
  - destruct Hix as (dropped & Hnd & Hin & Hix). eapply Hdet; [|exact Hin|done|done|exact Hix]. intros e x. simpl. rewrite s_detach_lookup. tauto.
  - apply Hsame; [|done|by rewrite Hix]. intros i. simpl. destruct (decide (i = e)) as [->|].
    + rewrite lookup_alter. by destruct (s_edges s !! e).
    + by rewrite lookup_alter_ne.
  - rewrite Hst by done. destruct Ho as [x Hx]. destruct (core_edge _ _ _ _ Hc Hx) as (Hed & _).
    unfold edge_prop in Hix. rewrite Hed in Hix. unfold get_property in Hix. pose proof (Hlive _ _ Hx) as Hsx.
    destruct (decide (k0 = k)) as [->|Hne].
    + eapply kseq_ext; [eapply kseq_update; [exact Hix|exact Hk| |]| |].
      * rewrite entries_lookup, Hx, Hsx. by destruct (e_props x !! k).
      * intros w Hin' [= <-]. by apply HD, edge_filed_write.
      * apply map_eq. intros i. rewrite entries_lookup. simpl. destruct (decide (i = e)) as [->|].
        -- rewrite lookup_alter, Hx. simpl. by rewrite !lookup_insert.
        -- rewrite lookup_alter_ne, lookup_insert_ne by done. by rewrite entries_lookup.
      * intros _ Hne. unfold indexed. destruct (edge_index ops k) as [t|]; [|done]. simpl. by rewrite decide_True.
    + eapply kseq_ext; [eapply kseq_update_ne; [exact Hix|done|exact Hk]| |].
      * apply map_eq. intros i. rewrite !entries_lookup. simpl. destruct (decide (i = e)) as [->|].
        -- rewrite lookup_alter, Hx. simpl. by rewrite !lookup_insert_ne.
        -- by rewrite lookup_alter_ne.
      * intros _ Hne'. unfold indexed. destruct (edge_index ops k) as [t|]; [|done]. simpl. by rewrite decide_False.
  - rewrite Hst by done. cbn [step] in Hs. unfold rem_edge_prop in Hs. inv_ok Hs. clear Hix.
    destruct Ho as [x Hx]. destruct (core_edge _ _ _ _ Hc Hx) as (Hed & _). unfold deref_edge in Ha. rewrite Hed in Ha.
    injection Ha as <-. pose proof (Hlive _ _ Hx) as Hsx.
    assert (forall i, i = e -> (edge_vals s k ∪ st) !! i = e_props x !! k) as Hcur.
    { intros i ->. rewrite entries_lookup, Hx, Hsx. by destruct (e_props x !! k). }
    assert (edge_vals (sstep s (ORemEdgeProp e k0)) k ∪ st =
      if decide (k0 = k) then delete e (edge_vals s k ∪ st) else edge_vals s k ∪ st) as E.
    { apply map_eq. intros i. rewrite entries_lookup. simpl. destruct (decide (i = e)) as [->|].
      - rewrite lookup_alter, Hx. simpl. destruct (decide (k0 = k)) as [->|].
        + rewrite !lookup_delete. done.
        + rewrite lookup_delete_ne by done. by rewrite entries_lookup, Hx.
      - rewrite lookup_alter_ne by done. destruct (decide (k0 = k)); [rewrite lookup_delete_ne by done|]; by rewrite entries_lookup. }
    assert (kseq D (g_eix g') k (edge_index ops k)
      (if decide (k0 = k) then delete e (edge_vals s k ∪ st) else edge_vals s k ∪ st)
      (if decide (k0 = k) then unfile e xs else xs)) as Hk'.
    { destruct (e_props x !! k0) as [v|] eqn:Hv0.
      - inv_ok Hs. injection Hs as <-. cbn [g_eix set_edges set_eix]. destruct (decide (k0 = k)) as [->|Hne].
        + eapply (kseq_update D k _ _ _ _ _ None) in Ha; [exact Ha|exact Hk| |done]. by rewrite Hcur.
        + eapply kseq_update_ne; [exact Ha|done|exact Hk].
      - injection Hs as <-. destruct (decide (k0 = k)) as [->|]; [|done].
        assert ((edge_vals s k ∪ st) !! e = None) as Hn by (by rewrite Hcur).
        eapply kseq_ext; [exact Hk|by apply delete_notin|]. intros Hin _. apply unfile_out. rewrite Hin, Hn. by intros [? ?]. }
    eapply kseq_ext; [exact Hk'|exact E|]. intros Hin Hne. unfold indexed. destruct (edge_index ops k) as [t|]; [|done].
    unfold edge_prop_step. rewrite E. destruct (decide (k0 = k)) as [->|].
    + unfold with_prop. unfold unfile. apply filter_ext_at. intros i Hi.
      rewrite lookup_delete_is_Some. split; [intros [? _]; auto|]. intros Hi'. split; [auto|].
      assert (i ∈ unfile e xs) as Hiu by (unfold unfile; apply elem_of_list_filter; done).
      apply Hin in Hiu. by rewrite lookup_delete_ne in Hiu by auto.
    + by eapply with_prop_all.
  - rewrite stale_snoc. unfold stale_step, indexed. fold s st. destruct (edge_index ops k) as [t|] eqn:Hit.
    2: { simpl in Hk |- *. by rewrite Hix. }
    assert (edge_vals (sstep s (ORemoveEdge e)) k ∪ (match edge_vals s k !! e with Some v => <[e := v]> st | None => st end) =
      edge_vals s k ∪ st) as E.
    { apply map_eq. intros i. rewrite !entries_lookup, edge_vals_lookup. simpl. destruct (decide (i = e)) as [->|].
      - rewrite lookup_delete. destruct (s_edges s !! e) as [x|]; [|done].
        destruct (e_props x !! k); [by rewrite lookup_insert|done].
      - rewrite lookup_delete_ne by done. destruct (s_edges s !! e) as [y|]; [|done].
        destruct (e_props y !! k); [|done]. by rewrite lookup_insert_ne. }
    rewrite Hix. eapply kseq_ext; [exact Hk|exact E|]. intros Hin _. unfold edge_prop_step.
    eapply with_prop_all; [exact Hin|exact E].
  - apply Hsame; [done|done|by rewrite Hix].
  - cbn [step] in Hs. unfold add_edge_index in Hs. destruct (decide (k0 = k)) as [->|Hne].
    + destruct (g_eix g !! k) as [ix|] eqn:Hg.
      * injection Hs as <-. destruct (edge_index ops k) as [t|]; [by apply Hsame|]. simpl in Hk. congruence.
      * inv_ok Hs. injection Hs as <-. destruct (edge_index ops k) as [t|] eqn:Hit; simpl in Hk.
        -- intros Hd. destruct (Hk Hd) as (ix & Hixx & _). congruence.
        -- intros Hd. simpl. rewrite lookup_insert. pose proof (Hsafe _ eq_refl) as Hsf.
           destruct (get_edges_ok _ _ Hv Hr Hsf) as [(ys & Hys & [Hnd Hin]) _].
           pose proof (get_edges_order _ _ Hv Hr Hsf) as Hall.
           rewrite Ha in Hys, Hall. injection Hys as <-. injection Hall as Hall.
           eapply (rfold_ext' _ (fun ix n => match edge_vals s k !! n with Some v => ix_add ix v n | None => Ok ix end)) in Ha0.
           2: { intros ix n Hn. apply Hin in Hn as [x Hx]. unfold deref_edge.
                destruct (core_edge _ _ _ _ Hc Hx) as [-> _]. simpl. rewrite edge_vals_lookup. fold s in Hx. by rewrite Hx. }
           destruct (scan_seq D it (edge_vals s k) a) with (ix0 := ix_new it) (c0 := (∅ : gmap nat value)) (ys := @nil nat)
             as (ix & c1 & Hixx & Ht & Hh & Hc1); try done.
           { intros n v Hn Hv'. eapply HD, (edge_filed_scan ops it k v n); [done|]. rewrite edge_vals_lookup in Hv'. unfold edge_has. fold s.
             destruct (s_edges s !! n) as [x|]; [|done]. by exists x. }
           { by destruct it. }
           { apply ix_seq_new. }
           assert (ix = a0) as -> by congruence. exists a0. split; [done|]. split; [done|].
           simpl in Hh. unfold indexed. rewrite Hit. rewrite Hst by done. unfold st. rewrite (stale_unindexed ops k Hit).
           rewrite (right_id_L ∅ (∪)). rewrite all_order_snoc, <- Hall. simpl.
           change (edge_vals (SGraph (s_nodes s) (s_edges s) (s_next s)) k) with (edge_vals s k).
           assert (c1 = edge_vals s k) as Ec.
           { apply map_eq. intros i. rewrite Hc1, lookup_empty.
             destruct (decide (i ∈ a)) as [Hi|Hi]; [by destruct (edge_vals s k !! i)|].
             rewrite edge_vals_lookup. destruct (s_edges s !! i) eqn:Hx; [|done]. destruct Hi. apply Hin. by eexists. }
           rewrite Ec in Hh. unfold with_prop. rewrite list_filter_filter.
           rewrite (filter_ext_at _ (fun n => is_Some (edge_vals s k !! n)) a); [exact Hh|]. intros e He. split; [by intros [? _]|].
           intros ?. split; [done|]. by apply Hin in He.
    + rewrite Hni. apply Hsame; [done|done|].
      destruct (g_eix g !! k0); [by injection Hs as <-|]. inv_ok Hs. injection Hs as <-. simpl. by rewrite lookup_insert_ne.
Qed.

Lemma eseq_run (D : value -> Prop) k ops g :
  valid_history ops -> run ops = Ok g -> (forall v, edge_filed ops k v -> D v) -> edge_scan_safe ops k ->
  kseq D (g_eix g) k (edge_index ops k) (edge_entries ops k) (edge_prop_order ops k).
Proof.
  revert ops g. apply (history_ind (fun ops g => (forall v, edge_filed ops k v -> D v) -> edge_scan_safe ops k ->
    kseq D (g_eix g) k (edge_index ops k) (edge_entries ops k) (edge_prop_order ops k))).
  { intros _ _. done. }
  intros ops g o g' Hv Hr IH Ho Hs HD Hsafe. eapply eseq_step; eauto.
  - intros it ->. eapply (Hsafe ops []). done.
  - apply IH.
    + intros v Hw. apply HD, edge_filed_snoc. by left.
    + intros ops1 ops2 it ->. eapply (Hsafe ops1 (ops2 ++ [o])). by rewrite <- app_assoc.
Qed.

Theorem edges_with_property_order ops g k :
  valid_history ops -> run ops = Ok g -> edge_query_safe ops k ->
  get_edges_with_property g k = Ok (arranged (edge_index ops k) (edge_entries ops k) (edge_prop_order ops k)).
Proof.
  intros Hv Hr Hq. unfold edge_query_safe in Hq. destruct (edge_index ops k) as [it|] eqn:Hi.
  - destruct Hq as [Hst Hsafe]. pose proof (eseq_run _ k ops g Hv Hr (fun v H => H) Hsafe) as Hk. rewrite Hi in Hk.
    apply storable_domain in Hst. destruct (Hk Hst) as (ix & Hix & Ht & (_ & _ & Hval)). unfold get_edges_with_property.
    by rewrite Hix, Hval, Ht.
  - pose proof (eix_run (fun _ => True) k ops g Hv Hr (fun _ _ => I) (edge_index_none_safe _ _ Hi)) as Hk.
    rewrite Hi in Hk. simpl in Hk. unfold get_edges_with_property. rewrite Hk.
    rewrite (get_edges_order _ _ Hv Hr Hq). simpl. f_equal. pose proof (core_run _ _ Hv Hr) as Hc.
    assert (edge_prop_order ops k = with_prop (edge_vals (srun ops) k) (all_order ops)) as ->.
    { clear -Hi. destruct ops as [|o ops _] using rev_ind; [done|]. rewrite edge_prop_order_snoc, srun_snoc.
      rewrite edge_index_snoc in Hi. unfold indexed. by destruct (edge_index ops k). }
    destruct (get_edges_ok _ _ Hv Hr Hq) as [(ys & Hys & [_ Hin]) _]. rewrite (get_edges_order _ _ Hv Hr Hq) in Hys.
    injection Hys as <-. apply filter_ext_at. intros n Hn. apply Hin in Hn as [x Hx].
    unfold edge_prop. destruct (core_edge _ _ _ _ Hc Hx) as [-> _]. by rewrite edge_vals_lookup, Hx.
Qed.

(** ** B-trees and hash tables *)
Lemma sorted_impl (R R' : nat -> nat -> Prop) xs : (forall i j, R i j -> R' i j) -> StronglySorted R xs -> StronglySorted R' xs.
Proof. intros H. induction 1 as [|x xs _ IH HF]; constructor; [done|]. eapply Forall_impl; [exact HF|]. auto. Qed.
Lemma prop_order_elem ops g k : valid_history ops -> run ops = Ok g -> node_query_safe ops k ->
  forall i, i ∈ node_prop_order ops k -> is_Some (node_vals (srun ops) k !! i).
Proof.
  intros Hv Hr Hq i Hi. unfold node_query_safe in Hq. destruct (node_index ops k) as [it|] eqn:E.
  - destruct Hq as [Hst Hsafe]. pose proof (nseq_run _ k ops g Hv Hr (fun v H => H) Hsafe) as Hk. rewrite E in Hk.
    apply storable_domain in Hst. destruct (Hk Hst) as (ix & Hix & Ht & (_ & Hin & _)). by apply Hin.
  - rewrite prop_order_scan in Hi by done. by apply elem_of_list_filter in Hi as [? _].
Qed.
Theorem node_btree_ascending ops g k :
  valid_history ops -> run ops = Ok g -> node_query_safe ops k -> node_index ops k = Some BtreeIndex ->
  exists xs, get_nodes_with_property g k = Ok xs /\
    StronglySorted (fun i j => forall v w, node_has (srun ops) k v i -> node_has (srun ops) k w j ->
      compare_value w v <> Some Lt) xs.
Proof.
  intros Hv Hr Hq Hi. pose proof (prop_order_elem _ _ _ Hv Hr Hq) as Hel.
  rewrite (nodes_with_property_order _ _ _ Hv Hr Hq), Hi. eexists. split; [done|]. cbn [arranged].
  unfold node_query_safe in Hq. rewrite Hi in Hq. destruct Hq as [Hst _].
  assert (StronglySorted (fun i j => ~ lower (node_vals (srun ops) k) j i) (by_value (node_vals (srun ops) k) (node_prop_order ops k))) as Hs.
  { apply (by_value_ascending _ (node_filed ops k)).
    - exact (proj1 (storable_domain _ _) Hst).
    - intros i v Hl. eapply node_has_filed; [by eexists|]. rewrite node_vals_lookup in Hl.
      destruct (s_nodes (srun ops) !! i) as [x|] eqn:Hx; [|done]. exists x. eauto.
    - apply Forall_forall. exact Hel. }
  eapply sorted_impl; [|exact Hs]. intros i j Hn v w (x & Hx & Hxv) (y & Hy & Hyw) Hc. apply Hn. unfold lower.
  by rewrite !node_vals_lookup, Hx, Hy, Hxv, Hyw, Hc.
Qed.

Lemma edge_entry_lookup ops k e v : edge_entries ops k !! e = Some v <-> edge_has (srun ops) k v e \/ left_over ops k v e.
Proof.
  unfold edge_entries. rewrite entries_lookup, <- stale_left_over. unfold edge_has.
  destruct (s_edges (srun ops) !! e) as [x|] eqn:Hx; [|naive_solver]. rewrite (stale_live _ _ _ _ Hx).
  destruct (e_props x !! k) eqn:E; naive_solver.
Qed.
Lemma edge_entry_filed ops k e v : is_Some (edge_index ops k) -> edge_entries ops k !! e = Some v -> edge_filed ops k v.
Proof.
  intros Hi. rewrite edge_entry_lookup. intros [H|(ops1 & ops2 & -> & Hi' & H)].
  - by eapply edge_has_filed.
  - apply edge_filed_app. by eapply edge_has_filed.
Qed.
Theorem edge_btree_ascending ops g k :
  valid_history ops -> run ops = Ok g -> edge_query_safe ops k -> edge_index ops k = Some BtreeIndex ->
  exists xs, get_edges_with_property g k = Ok xs /\
    StronglySorted (fun i j => forall v w,
      edge_has (srun ops) k v i \/ left_over ops k v i -> edge_has (srun ops) k w j \/ left_over ops k w j ->
      compare_value w v <> Some Lt) xs.
Proof.
  intros Hv Hr Hq Hi. rewrite (edges_with_property_order _ _ _ Hv Hr Hq), Hi. eexists. split; [done|]. cbn [arranged].
  unfold edge_query_safe in Hq. rewrite Hi in Hq. destruct Hq as [Hst Hsafe].
  assert (forall i, i ∈ edge_prop_order ops k -> is_Some (edge_entries ops k !! i)) as Hel.
  { intros i Hin'. pose proof (eseq_run _ k ops g Hv Hr (fun v H => H) Hsafe) as Hk. rewrite Hi in Hk.
    apply storable_domain in Hst. destruct (Hk Hst) as (ix & Hix & Ht & (_ & Hin & _)). by apply Hin. }
  assert (StronglySorted (fun i j => ~ lower (edge_entries ops k) j i) (by_value (edge_entries ops k) (edge_prop_order ops k))) as Hs.
  { apply (by_value_ascending _ (edge_filed ops k)).
    - exact (proj1 (storable_domain _ _) Hst).
    - intros i v. apply edge_entry_filed. by eexists.
    - apply Forall_forall. exact Hel. }
  eapply sorted_impl; [|exact Hs]. intros i j Hn v w Hx Hy Hc. apply Hn. unfold lower.
  apply edge_entry_lookup in Hx, Hy. by rewrite Hx, Hy, Hc.
Qed.
Theorem node_set_last ops g g' n k v :
  let ops' := ops ++ [OSetNodeProp n k v] in
  valid_history ops' -> run ops = Ok g -> run ops' = Ok g' -> node_query_safe ops k -> node_query_safe ops' k ->
  node_index ops k = Some HashIndex ->
  exists xs, get_nodes_with_property g k = Ok xs /\ get_nodes_with_property g' k = Ok (unfile n xs ++ [n]).
Proof.
  intros ops' Hv' Hr Hr' Hq Hq' Hi. pose proof Hv' as Hv. apply valid_history_snoc in Hv as [Hv _].
  exists (node_prop_order ops k). rewrite (nodes_with_property_order _ _ _ Hv Hr Hq), Hi. split; [done|].
  rewrite (nodes_with_property_order _ _ _ Hv' Hr' Hq'). unfold ops'. rewrite node_index_snoc, Hi, prop_order_snoc, Hi. simpl.
  by rewrite decide_True.
Qed.
