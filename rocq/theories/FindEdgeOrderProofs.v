(** The order of FindEdges. *)
From Verif Require Import Base Value ValueProofs FastSet FastSetProofs EdgeMap Index IndexProofs Graph GraphSpec Find.
From Verif Require Import CoreProofs CoreStep AdjProofs ReadProofs NodeListProofs EdgeListProofs IndexGraphProofs HashLiveProofs FindProofs.
From Verif Require Import OrderSpec OrderProofs OrderGraphProofs OrderRunProofs QueryOrderSpec LabelOrderProofs IndexOrderProofs QueryOrderProofs QueryEdgeOrderProofs FindOrderSpec FindOrderProofs.

(** ** Removed edges keep their label and properties *)
Lemma edge_data_snoc ops o : edge_data (ops ++ [o]) = s_edges (srun (ops ++ [o])) ∪ edge_data ops.
Proof.
  unfold edge_data. rewrite fold_left_app, srun_snoc. simpl. f_equal. f_equal. f_equal. clear o.
  assert (forall p : sgraph * gmap nat edge, (fold_left (fun p o => (sstep p.1 o, s_edges (sstep p.1 o) ∪ p.2)) ops p).1 = fold_left sstep ops p.1) as H.
  { induction ops as [|o ops IH]; intros p; [done|]. apply IH. }
  by rewrite H.
Qed.
Lemma edge_data_live ops e x : s_edges (srun ops) !! e = Some x -> edge_data ops !! e = Some x.
Proof.
  destruct ops as [|o ops _] using rev_ind; [done|]. rewrite edge_data_snoc. apply lookup_union_Some_l.
Qed.
Lemma edge_data_left_over ops k v e : left_over ops k v e -> is_Some (edge_data ops !! e).
Proof.
  induction ops as [|o ops IH] using rev_ind.
  { intros (ops1 & ops2 & E & _). by destruct ops1. }
  rewrite left_over_snoc, edge_data_snoc, lookup_union_is_Some. intros [H|(_ & _ & x & Hx & _)]; right; [by apply IH|].
  apply edge_data_live in Hx. eauto.
Qed.
Lemma edges_kept ops g o g' : valid_history ops -> run ops = Ok g -> valid (srun ops) o -> step g o = Ok g' ->
  forall e, s_edges (sstep (srun ops) o) !! e = None -> g_edges g' !! e = g_edges g !! e.
Proof.
  intros Hv Hr Ho Hs. pose proof (core_run _ _ Hv Hr) as Hc. pose proof Hc as (_ & Hnext & _). set (s := srun ops) in *.
  destruct o; cbn [step] in Hs; cbn [valid] in Ho; intros e' He'; cbn [sstep s_edges] in He'.
  - inv_ok Hs. destruct a as [g1 n]. injection Hs as <-. by apply new_node_shape in Ha as (_&_&->&_).
  - inv_ok Hs. destruct a as [g1 e]. injection Hs as <-. apply new_edge_shape in Ha as (->&_&->&_).
    apply lookup_insert_None in He' as [_ He']. rewrite lookup_insert_ne by congruence. done.
  - unfold set_labels in Hs. inv_ok Hs. by injection Hs as <-.
  - unfold set_node_prop in Hs. inv_ok Hs. by injection Hs as <-.
  - unfold rem_node_prop in Hs. inv_ok Hs. destruct (_ !! _); [inv_ok Hs|]; by injection Hs as <-.
  - by apply detach_shape in Hs as (->&_).
  - apply detach_remove_shape in Hs as (g1 & nd & Hd & _ & _ & -> & _). by apply detach_shape in Hd as (->&_).
  - apply set_edge_label_shape in Hs as (ed & Hed & -> & _). destruct (decide _); [done|].
    rewrite lookup_insert_ne; [done|]. intros <-. destruct Ho as [x Hx]. by rewrite lookup_alter, Hx in He'.
  - unfold set_edge_prop in Hs. inv_ok Hs. injection Hs as <-. cbn [g_edges set_edges set_eix].
    rewrite lookup_insert_ne; [done|]. intros <-. destruct Ho as [x Hx]. by rewrite lookup_alter, Hx in He'.
  - unfold rem_edge_prop in Hs. inv_ok Hs. destruct (e_props a !! k); [inv_ok Hs|by injection Hs as <-]. injection Hs as <-. cbn [g_edges set_edges set_eix].
    rewrite lookup_insert_ne; [done|]. intros <-. destruct Ho as [x Hx]. by rewrite lookup_alter, Hx in He'.
  - by apply remove_edge_shape in Hs as ((->&_)&_).
  - unfold add_node_index in Hs. destruct (_ !! _); [by injection Hs as <-|]. inv_ok Hs. by injection Hs as <-.
  - unfold add_edge_index in Hs. destruct (_ !! _); [by injection Hs as <-|]. inv_ok Hs. by injection Hs as <-.
Qed.
Lemma edge_data_run ops g : valid_history ops -> run ops = Ok g -> g_edges g = edge_data ops.
Proof.
  revert ops g. apply (history_ind (fun ops g => g_edges g = edge_data ops)); [done|].
  intros ops g o g' Hv Hr IH Ho Hs. rewrite edge_data_snoc, <- IH. apply map_eq. intros e.
  assert (core g' (srun (ops ++ [o]))) as Hc'.
  { apply core_run; [by apply valid_history_snoc|]. by rewrite run_snoc, Hr. }
  destruct (s_edges (srun (ops ++ [o])) !! e) as [x|] eqn:E.
  - destruct (core_edge _ _ _ _ Hc' E) as [-> _]. symmetry. by apply lookup_union_Some_l.
  - rewrite lookup_union_r by done. eapply edges_kept; [exact Hv|exact Hr|exact Ho|exact Hs|]. by rewrite <- srun_snoc.
Qed.

Lemma edge_answers ops g p k v ix : valid_history ops -> run ops = Ok g -> edge_findable ops p ->
  p !! k = Some v -> g_eix g !! k = Some ix ->
  exists xs, edge_answer ops p k = Some xs /\ ix_find ix v = Ok (xs, Z.of_nat (length xs)).
Proof.
  intros Hv Hr Hp Hk Hix. unfold edge_answer. rewrite Hk. destruct (edge_index ops k) as [it|] eqn:Hi.
  - destruct (Hp k v it Hk Hi) as [Hst Hsafe]. apply storable_domain in Hst.
    pose proof (eseq_run (fun w => edge_filed ops k w \/ w = v) k ops g Hv Hr (fun w H => or_introl H) Hsafe) as Hs.
    rewrite Hi in Hs. destruct (Hs Hst) as (ix' & Hix' & Ht & Hq). assert (ix' = ix) as -> by congruence. subst it.
    eexists. split; [done|]. eapply ix_find_seq; [exact Hst|exact Hq| |by right].
    eapply (proj2 (all_sorted_run ops g Hv Hr)). exact Hix.
  - pose proof (eix_run (fun _ => True) k ops g Hv Hr (fun _ _ => I) (edge_index_none_safe _ _ Hi)) as Hn.
    rewrite Hi in Hn. simpl in Hn. congruence.
Qed.
Lemma edge_no_index ops g k : valid_history ops -> run ops = Ok g ->
  (forall it, edge_index ops k = Some it -> exists D : value -> Prop, ix_domain it D /\ (forall w, edge_filed ops k w -> D w)) ->
  edge_scan_safe ops k -> g_eix g !! k = None -> edge_index ops k = None.
Proof.
  intros Hv Hr HD Hs Hn. destruct (edge_index ops k) as [it|] eqn:Hi; [|done]. destruct (HD it eq_refl) as (D & Hd & Hw).
  pose proof (eix_run D k ops g Hv Hr Hw Hs) as Hk. rewrite Hi in Hk. destruct (Hk Hd) as (ix & Hix & _). congruence.
Qed.

Theorem find_edges_order ops g L p lord pord qord ford :
  valid_history ops -> run ops = Ok g -> edge_list_safe ops -> L <> ∅ -> edge_findable ops p ->
  order_of L lord -> order_of (dom p) pord -> order_of (dom p) qord -> (forall n, prop_order p (ford n)) ->
  find_edges g L p lord pord qord ford =
    Ok ((edge_found ops L p qord).1, Z.of_nat (edge_found ops L p qord).2).
Proof.
  intros Hv Hr Hsafe HL Hfi Hl Hp Hq Hf. pose proof (core_run _ _ Hv Hr) as Hc. unfold find_edges.
  rewrite decide_False by naive_solver. rewrite decide_False by done.
  destruct (get_edges_any_label_ok _ _ _ _ Hv Hr Hsafe Hl) as (lxs & Hlx & _). rewrite Hlx. cbn [rbind].
  destruct (prop_iters_answers (g_eix g) p pord (edge_answer ops p)) as (m & -> & Hm).
  { intros k Hk Hno. unfold edge_answer. destruct (p !! k) as [v|] eqn:Hpk; [|done]. destruct Hno as [?|Hno]; [done|].
    destruct (edge_index ops k) as [it|] eqn:Hi; [|done]. destruct (Hfi k v it Hpk Hi) as [Hst Hs]. apply storable_domain in Hst.
    assert (edge_index ops k = None); [|congruence]. eapply edge_no_index; [done|done| |done|done].
    intros it' Hi'. assert (it' = it) as -> by congruence. eexists. split; [exact Hst|]. by left. }
  { intros k v ix _. by apply edge_answers. }
  cbn [rbind].
  assert (forall n, n ∈ qord -> n ∈ pord) as Hqp. { intros n Hn. apply Hp. by apply Hq. }
  rewrite (min_iter_shortest m (edge_answer ops p)) by (intros k Hk; apply Hm; by apply Hqp).
  pose proof (get_edges_order _ _ Hv Hr Hsafe) as Hall. rewrite Hall. cbn [rbind].
  destruct (get_edges_ok _ _ Hv Hr Hsafe) as [(all & Hall' & Hlist) Hnum]. rewrite Hall in Hall'. injection Hall' as <-.
  assert (em_n (g_all g) = Z.of_nat (length (all_order ops))) as Hn.
  { unfold num_edges in Hnum. rewrite Hnum. f_equal. destruct Hlist as [Hnd Hin].
    rewrite <- (size_list_to_set (C := gset nat)) by done. rewrite <- size_dom. f_equal.
    apply set_eq. intros x. by rewrite elem_of_list_to_set, Hin, elem_of_dom. }
  assert (forall e, (exists x, edge_data ops !! e = Some x) ->
    edge_filter g L (ford e) e = true <-> edge_fits (edge_data ops) L p e = true) as Hfit.
  { intros e [x Hx]. rewrite (edge_filter_ok g L p (ford e) e (Hf e)). unfold lbl, edge_prop, get_property.
    rewrite (edge_data_run _ _ Hv Hr), Hx. unfold edge_fits. rewrite Hx, andb_true_iff, bool_decide_eq_true, has_all_ok. naive_solver. }
  assert (forall xs : list nat, (forall e, e ∈ xs -> exists x, edge_data ops !! e = Some x) ->
    filter (fun e => edge_filter g L (ford e) e = true) xs = filter (fun e => edge_fits (edge_data ops) L p e = true) xs) as Hfl.
  { intros xs Hx. apply filter_ext_at. intros e He. by apply Hfit, Hx. }
  pose proof (edge_data_live ops) as Hlive.
  set (lab := filter (fun e => s_label (srun ops) e ∈ L) (all_order ops)).
  assert (length (all_order ops) <= 1 -> lxs = lab /\ em_iter_any_size (lbl g) (g_all g) lord = Z.of_nat (length lab)) as Hlab.
  { intros Hle. unfold get_edges_any_label, em_iter_any in Hlx. unfold get_edges, em_iter in Hall. unfold em_iter_any_size.
    rewrite Hn in *. destruct (decide (Z.of_nat (length (all_order ops)) = 0)%Z) as [H0|H0].
    { injection Hall as E. injection Hlx as <-. unfold lab. by rewrite <- E. }
    destruct (decide (Z.of_nat (length (all_order ops)) = 1)%Z) as [_|H1]; [|lia]. destruct (em_only (g_all g)) as [e|]; [|done]. injection Hall as E.
    assert (lbl g e = s_label (srun ops) e) as El.
    { assert (live_edge (srun ops) e) as [x Hx] by (apply Hlist; rewrite <- E; left). unfold lbl, s_label.
      destruct (core_edge _ _ _ _ Hc Hx) as [-> _]. by rewrite Hx. }
    unfold lab. rewrite <- E, filter_cons, filter_nil. rewrite El in *.
    destruct (decide (s_label (srun ops) e ∈ L)) as [Hi|Hi].
    - destruct (decide (s_label (srun ops) e ∈ lord)) as [_|Hi']; [by injection Hlx as <-|]. destruct Hi'. by apply Hl.
    - destruct (decide (s_label (srun ops) e ∈ lord)) as [Hi'|_]; [|by injection Hlx as <-]. destruct Hi. by apply Hl. }
  assert (2 <= length (all_order ops) -> em_iter_any_size (lbl g) (g_all g) lord = (-1)%Z) as Hbig.
  { intros Hle. unfold em_iter_any_size. rewrite Hn. rewrite decide_False by lia. by rewrite decide_False by lia. }
  assert (forall e, e ∈ lab -> exists x, edge_data ops !! e = Some x) as Hlabd.
  { intros e [_ He]%elem_of_list_filter. apply Hlist in He as [x Hx]. eauto. }
  assert (forall ord best, (forall (xs : list nat) n, best = Some xs -> n ∈ xs -> is_Some (edge_data ops !! n)) ->
    forall (xs : list nat) n, shortest (edge_answer ops p) best ord = Some xs -> n ∈ xs -> is_Some (edge_data ops !! n)) as Hsh.
  { induction ord as [|k ord IH]; intros best Hb xs n; cbn [shortest]; [apply Hb|]. apply IH. intros ys n' Hys Hn'.
    assert (forall zs, edge_answer ops p k = Some zs -> n' ∈ zs -> is_Some (edge_data ops !! n')) as Ha.
    { unfold edge_answer. destruct (p !! k) as [v|]; [|done]. destruct (edge_index ops k) as [it|]; [|done]. intros zs [= <-].
      unfold found. intros [Hz _]%elem_of_list_filter. unfold edge_entries in Hz. rewrite entries_lookup in Hz.
      destruct (s_edges (srun ops) !! n') as [x|] eqn:Hx; [eauto|]. destruct (stale ops k !! n') as [w|] eqn:Est; [|done].
      eapply edge_data_left_over. by apply stale_left_over. }
    destruct (edge_answer ops p k) as [zs|]; [|by eapply Hb]. destruct best as [bs|].
    - destruct (decide (length zs < length bs)); injection Hys as <-; [by eapply Ha|by eapply Hb].
    - injection Hys as <-. by eapply Ha. }
  specialize (Hsh qord None ltac:(done)). unfold edge_found, choose. fold lab. cbn [fst snd].
  destruct (shortest (edge_answer ops p) None qord) as [xs|]; simpl.
  - assert (filter (fun e => edge_filter g L (ford e) e = true) xs = filter (fun e => edge_fits (edge_data ops) L p e = true) xs) as Hxs.
    { apply Hfl. intros n Hn'. by eapply Hsh. }
    destruct (decide (length (all_order ops) <= 1)) as [Hle|Hle].
    + destruct (Hlab Hle) as [-> ->]. destruct (decide (length lab < length xs)) as [Hlt|Hlt].
      * rewrite bool_decide_eq_true_2 by lia. rewrite decide_True by done. cbn [fst snd]. by rewrite Hfl.
      * rewrite bool_decide_eq_false_2 by lia. rewrite decide_False by lia. cbn [fst snd]. by rewrite Hxs.
    + rewrite Hbig by lia. rewrite bool_decide_eq_false_2 by lia. rewrite decide_False by lia. cbn [fst snd]. by rewrite Hxs.
  - destruct (decide (length (all_order ops) <= 1)) as [Hle|Hle].
    + destruct (Hlab Hle) as [-> ->]. rewrite bool_decide_eq_true_2 by lia. cbn [fst snd]. by rewrite Hfl.
    + rewrite Hbig by lia. rewrite bool_decide_eq_false_2 by lia. cbn [fst snd]. unfold em_iter_size. rewrite Hn.
      rewrite decide_False by lia. by rewrite decide_False by lia.
Qed.
Theorem find_edges_all_order ops g lord pord qord ford :
  valid_history ops -> run ops = Ok g -> edge_list_safe ops ->
  find_edges g ∅ ∅ lord pord qord ford = Ok (all_order ops, Z.of_nat (length (all_order ops))).
Proof.
  intros Hv Hr Hs. unfold find_edges. rewrite decide_True by done. rewrite (get_edges_order _ _ Hv Hr Hs). cbn [rbind]. do 2 f_equal.
  destruct (get_edges_ok _ _ Hv Hr Hs) as [(all & Hall & Hlist) Hnum]. rewrite (get_edges_order _ _ Hv Hr Hs) in Hall. injection Hall as <-.
  unfold num_edges in Hnum. unfold em_iter_size. rewrite Hnum.
  assert (length (all_order ops) = size (s_edges (srun ops))) as ->.
  { destruct Hlist as [Hnd Hin]. rewrite <- (size_list_to_set (C := gset nat)) by done. rewrite <- size_dom. f_equal.
    apply set_eq. intros x. by rewrite elem_of_list_to_set, Hin, elem_of_dom. }
  destruct (decide _); [done|]. destruct (decide _); done.
Qed.
Lemma edge_askable_findable ops p : edge_askable ops p -> edge_findable ops p.
Proof. intros H k v it Hk Hi. destruct (H k v it Hk Hi) as [[? _] ?]. done. Qed.
