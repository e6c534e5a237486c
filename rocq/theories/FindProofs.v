(** FindNodes, FindEdges and the filter functions. *)
From Verif Require Import Base Value ValueProofs FastSet FastSetProofs Links EdgeMap NodeMap Index Graph GraphSpec Find.
From Verif Require Import LinksProofs EdgeMapProofs IndexProofs CoreProofs CoreStep AdjProofs ReadProofs NodeListProofs LabelProofs EdgeListProofs IndexGraphProofs.

Lemma props_match_ok get l :
  props_match get l = true <-> forall k v, (k, v) ∈ l -> exists w, get k = Some w /\ answers v w.
Proof.
  induction l as [|[k v] l IH]; cbn [props_match].
  { split; [by intros _ k v ?%elem_of_nil|done]. }
  destruct (decide (get k = None /\ v <> VNil)) as [[Hn Hv]|Hn].
  { split; [done|]. intros H. destruct (H k v) as (w & Hw & _); [by apply elem_of_cons; left|]. congruence. }
  destruct (get k) as [w|] eqn:Hg; simpl.
  - destruct (compare_value v w) as [[]|] eqn:Hc; rewrite ?IH.
    + split.
      * intros H k' v' [[= -> ->]|Hin]%elem_of_cons; [by exists w|by apply H].
      * intros H k' v' Hin. apply H. by apply elem_of_cons; right.
    + split; [done|]. intros H. destruct (H k v) as (w' & Hw' & Ha); [by apply elem_of_cons; left|].
      unfold answers in Ha. congruence.
    + split; [done|]. intros H. destruct (H k v) as (w' & Hw' & Ha); [by apply elem_of_cons; left|].
      unfold answers in Ha. congruence.
    + split; [done|]. intros H. destruct (H k v) as (w' & Hw' & Ha); [by apply elem_of_cons; left|].
      unfold answers in Ha. congruence.
  - assert (v = VNil) as ->. { destruct (decide (v = VNil)); [done|]. destruct Hn; by split. }
    simpl. split; [done|]. intros H. destruct (H k VNil) as (w' & Hw' & Ha); [by apply elem_of_cons; left|]. congruence.
Qed.
Lemma props_match_order get (p : props) l : prop_order p l ->
  props_match get l = true <-> forall k v, p !! k = Some v -> exists w, get k = Some w /\ answers v w.
Proof.
  intros Hp. rewrite props_match_ok. setoid_rewrite Hp. setoid_rewrite elem_of_map_to_list. done.
Qed.
Lemma node_filter_ok g L p l n : prop_order p l ->
  node_filter g L l n = true <->
  L ⊆ labels_of g n /\ forall k v, p !! k = Some v -> exists w, node_prop g n k = Some w /\ answers v w.
Proof.
  intros Hp. unfold node_filter. destruct (decide (L <> ∅ /\ ~ L ⊆ labels_of g n)) as [[_ H]|H].
  - split; [done|]. by intros [? _].
  - rewrite (props_match_order _ _ _ Hp). split; [|by intros [_ ?]]. intros Hm. split; [|done].
    destruct (decide (L = ∅)) as [->|]; [set_solver|]. destruct (decide (L ⊆ labels_of g n)); [done|]. destruct H. by split.
Qed.
Lemma edge_filter_ok g L p l e : prop_order p l ->
  edge_filter g L l e = true <->
  (L <> ∅ -> lbl g e ∈ L) /\ forall k v, p !! k = Some v -> exists w, edge_prop g e k = Some w /\ answers v w.
Proof.
  intros Hp. unfold edge_filter. destruct (decide (L <> ∅ /\ lbl g e ∉ L)) as [[H1 H]|H].
  - split; [done|]. intros [? _]. by destruct H; auto.
  - rewrite (props_match_order _ _ _ Hp). split; [|by intros [_ ?]]. intros Hm. split; [|done].
    intros Hne. destruct (decide (lbl g e ∈ L)); [done|]. destruct H. by split.
Qed.

Lemma prop_iters_ok ixs (p : props) (ord : list string) :
  (forall k v ix, k ∈ ord -> p !! k = Some v -> ixs !! k = Some ix -> exists r, ix_find ix v = Ok r) ->
  exists m, prop_iters ixs p ord = Ok m /\
    forall k r, m !! k = Some r <-> k ∈ ord /\ exists v ix, p !! k = Some v /\ ixs !! k = Some ix /\ ix_find ix v = Ok r.
Proof.
  unfold prop_iters. intros H.
  enough (forall ord' (m0 : gmap string (list nat * Z)), (forall k, k ∈ ord' -> k ∈ ord) ->
    exists m, rfold (fun m k => match p !! k, ixs !! k with Some v, Some ix => let! r := ix_find ix v in Ok (<[k := r]> m)
                                          | _, _ => Ok m end) ord' m0 = Ok m /\
      forall k r, m !! k = Some r <->
        (k ∈ ord' /\ exists v ix, p !! k = Some v /\ ixs !! k = Some ix /\ ix_find ix v = Ok r) \/
        (~ (k ∈ ord' /\ is_Some (p !! k) /\ is_Some (ixs !! k)) /\ m0 !! k = Some r)) as G.
  { destruct (G ord ∅) as (m & Hm & Hk); [done|]. exists m. split; [done|]. intros k r. rewrite Hk, lookup_empty. naive_solver. }
  induction ord' as [|k0 ord' IH]; intros m0 Hin; simpl.
  { exists m0. split; [done|]. intros k r. rewrite elem_of_nil. naive_solver. }
  assert (forall k, k ∈ ord' -> k ∈ ord) as Hin'. { intros k Hk. apply Hin. by apply elem_of_cons; right. }
  destruct (p !! k0) as [v0|] eqn:Hp; [destruct (ixs !! k0) as [ix0|] eqn:Hix|]; simpl.
  - destruct (H k0 v0 ix0) as [r0 Hr0]; [apply Hin; by apply elem_of_cons; left|done..|]. rewrite Hr0. simpl.
    destruct (IH (<[k0 := r0]> m0) Hin') as (m & Hm & Hk). exists m. split; [done|]. intros k r. rewrite Hk, elem_of_cons.
    destruct (decide (k = k0)) as [->|Hne].
    + rewrite lookup_insert, Hp, Hix. split.
      * intros [(? & v & ix & [= <-] & [= <-] & Hr)|[_ [= <-]]]; [left; split; [by left|]; eauto 10|].
        left. split; [by left|]. eauto 10.
      * intros [(_ & v & ix & [= <-] & [= <-] & Hr)|[Hn _]].
        -- destruct (decide (k0 ∈ ord')); [left; split; [done|]; eauto 10|]. right. split; [naive_solver|congruence].
        -- destruct Hn. eauto.
    + rewrite lookup_insert_ne by done. naive_solver.
  - destruct (IH m0 Hin') as (m & Hm & Hk). exists m. split; [done|]. intros k r. rewrite Hk, elem_of_cons.
    destruct (decide (k = k0)) as [->|Hne]; [|naive_solver]. rewrite Hix.
    assert (~ is_Some (@None index)) by (by intros [? ?]). naive_solver.
  - destruct (IH m0 Hin') as (m & Hm & Hk). exists m. split; [done|]. intros k r. rewrite Hk, elem_of_cons.
    destruct (decide (k = k0)) as [->|Hne]; [|naive_solver]. rewrite Hp.
    assert (~ is_Some (@None value)) by (by intros [? ?]). naive_solver.
Qed.

Lemma min_iter_ok (m : gmap string (list nat * Z)) (ord : list string) :
  (forall k r, m !! k = Some r -> r.2 <> (-1)%Z) ->
  match min_iter m ord with
  | Some r => exists k, k ∈ ord /\ m !! k = Some r
  | None => forall k, k ∈ ord -> m !! k = None
  end.
Proof.
  intros Hsz. unfold min_iter.
  enough (forall ord' cur,
    match fold_left (fun cur k => match m !! k with None => cur | Some (xs, sz) =>
        if decide (sz = -1)%Z then cur else match cur with None => Some (xs, sz)
             | Some (_, sz0) => if decide (sz < sz0)%Z then Some (xs, sz) else cur end end) ord' cur with
    | Some r => cur = Some r \/ exists k, k ∈ ord' /\ m !! k = Some r
    | None => cur = None /\ forall k, k ∈ ord' -> m !! k = None
    end) as G.
  { specialize (G ord None). destruct (fold_left _ ord None); [|by destruct G]. by destruct G as [?|?]. }
  induction ord' as [|k0 ord' IH]; intros cur; simpl.
  { destruct cur; [by left|]. split; [done|]. by intros k ?%elem_of_nil. }
  match goal with |- match fold_left _ _ ?c with _ => _ end => specialize (IH c) end.
  destruct (m !! k0) as [[xs sz]|] eqn:Hm.
  - pose proof (Hsz _ _ Hm) as Hne. simpl in Hne. rewrite (decide_False (P := sz = (-1)%Z)) in IH |- * by done.
    destruct (fold_left _ ord' _) as [r|].
    + destruct IH as [Hc|(k & Hk & Hr)]; [|right; exists k; split; [by apply elem_of_cons; right|done]].
      destruct cur as [[ys sz0]|]; [destruct (decide (sz < sz0)%Z)|].
      * right. exists k0. split; [by apply elem_of_cons; left|]. congruence.
      * by left.
      * right. exists k0. split; [by apply elem_of_cons; left|]. congruence.
    + destruct IH as [Hc _]. destruct cur as [[ys sz0]|]; [destruct (decide (sz < sz0)%Z)|]; done.
  - destruct (fold_left _ ord' _) as [r|].
    + destruct IH as [?|(k & Hk & Hr)]; [by left|right; exists k; split; [by apply elem_of_cons; right|done]].
    + destruct IH as [-> H]. split; [done|]. intros k [->|Hk]%elem_of_cons; [done|by apply H].
Qed.

Lemma choose_filter P Q (lab : list nat * Z) best flt all :
  lists P lab.1 -> (Z.of_nat (length lab.1) <= lab.2)%Z ->
  (forall n, P n /\ flt n = true <-> Q n) ->
  match best with
  | Some r => exists P', lists P' r.1 /\ (Z.of_nat (length r.1) <= r.2)%Z /\ forall n, P' n /\ flt n = true <-> Q n
  | None => True
  end ->
  exists xs m, choose lab best flt all = Ok (xs, m) /\ lists Q xs /\ (Z.of_nat (length xs) <= m)%Z.
Proof.
  intros [Hnd Hin] Hlen HQ Hb. unfold choose.
  assert (forall (ys : list nat) P', lists P' ys -> (forall n, P' n /\ flt n = true <-> Q n) -> forall m : Z,
    (Z.of_nat (length ys) <= m)%Z ->
    lists Q (filter (fun n => flt n = true) ys) /\ (Z.of_nat (length (filter (fun n => flt n = true) ys)) <= m)%Z) as Hf.
  { intros ys P' [Hn Hi] HQ' m Hm. split; [split|].
    - by apply NoDup_filter.
    - intros n. rewrite elem_of_list_filter, Hi, <- HQ'. tauto.
    - pose proof (filter_length (fun n => flt n = true) ys). lia. }
  destruct best as [[ys m]|].
  - destruct Hb as (P' & HP & Hm & HQ'). destruct (bool_decide _).
    + eexists _, _. split; [done|]. by apply (Hf lab.1 P).
    + eexists _, _. split; [done|]. by apply (Hf ys P').
  - rewrite bool_decide_eq_true_2 by lia. eexists _, _. split; [done|]. by apply (Hf lab.1 P).
Qed.

(** what an index answers *)
Lemma ask_index it (D : value -> Prop) ix (P : nat -> value -> Prop) v :
  askable it D v -> ix_type ix = it -> holds (fun w => D w \/ w = v) ix P -> (forall i w, P i w -> D w) ->
  exists xs m, ix_find ix v = Ok (xs, m) /\ Z.of_nat (length xs) = m /\
    exists Q, lists Q xs /\ (forall i, Q i -> exists w, P i w) /\ (forall i w, P i w -> answers v w -> Q i).
Proof.
  intros [Hst Hh] Ht (c & Hc & Hcp) HPD. apply storable_domain in Hst. rewrite <- Ht in Hst.
  destruct (ix_find_ok _ _ _ v Hst Hc (or_intror eq_refl)) as (xs & m & Hf & Hnd & Hlen & Hin).
  exists xs, m. split; [done|]. split; [done|].
  exists (fun i => exists w, c !! i = Some w /\ same_key (ix_type ix) v w). split; [by split|]. split.
  - intros i (w & Hw & _). exists w. by apply Hcp.
  - intros i w HP Ha. exists w. split; [by apply Hcp|]. rewrite Ht. destruct it; simpl.
    + unfold answers in Ha. by rewrite compare_value_opp, Ha.
    + specialize (Hh eq_refl w (HPD _ _ HP) Ha). by destruct w, v.
Qed.

(** ** FindNodes *)
Lemma find_nodes_ok ops g L p lord pord qord ford :
  valid_history ops -> run ops = Ok g -> L <> ∅ -> node_askable ops p ->
  order_of L lord -> order_of (dom p) pord -> order_of (dom p) qord -> (forall n, prop_order p (ford n)) ->
  exists xs m, find_nodes g L p lord pord qord ford = Ok (xs, m) /\
    lists (node_match (srun ops) L p) xs /\ (Z.of_nat (length xs) <= m)%Z.
Proof.
  intros Hv Hr HL Hask Hl Hp Hq Hf. pose proof (core_run _ _ Hv Hr) as Hc. unfold find_nodes.
  rewrite decide_False by naive_solver. rewrite decide_False by done.
  destruct (get_nodes_all_labels_ok _ _ _ _ Hv Hr HL Hl) as (lxs & lsz & -> & Hlab & Hlen). simpl.
  assert (forall k v ix, p !! k = Some v -> g_nix g !! k = Some ix ->
    exists xs m, ix_find ix v = Ok (xs, m) /\ Z.of_nat (length xs) = m /\
    exists Q, lists Q xs /\ (forall i, Q i -> exists w, node_has (srun ops) k w i) /\
      (forall i w, node_has (srun ops) k w i -> answers v w -> Q i)) as Hfind.
  { intros k v ix Hk Hix. destruct (node_index ops k) as [it|] eqn:Hi.
    - destruct (Hask k v it Hk Hi) as [Ha Hsafe].
      pose proof (nix_run (fun w => node_filed ops k w \/ w = v) k ops g Hv Hr (fun w H => or_introl H) Hsafe) as Hkix.
      rewrite Hi in Hkix. pose proof Ha as [Hst _]. apply storable_domain in Hst.
      destruct (Hkix Hst) as (ix' & Hix' & Ht & Hh). assert (ix' = ix) as -> by congruence.
      eapply (ask_index it _ ix (fun i w => node_has (srun ops) k w i)); [exact Ha|done|exact Hh|].
      intros i w Hw. eapply node_has_filed; [by eexists|exact Hw].
    - pose proof (nix_run (fun _ => True) k ops g Hv Hr (fun _ _ => I) (node_index_none_safe _ _ Hi)) as Hkix.
      rewrite Hi in Hkix. simpl in Hkix. congruence. }
  destruct (prop_iters_ok (g_nix g) p pord) as (m & -> & Hm).
  { intros k v ix _ Hk Hix. destruct (Hfind k v ix Hk Hix) as (xs & sz & ? & _). eauto. }
  simpl. 
  assert (forall n, (exists x, s_nodes (srun ops) !! n = Some x) ->
    node_filter g L (ford n) n = true <-> node_match (srun ops) L p n) as Hflt.
  { intros n [x Hx]. rewrite (node_filter_ok g L p (ford n) n (Hf n)).
    destruct (read_node _ _ Hc _ _ Hx) as [-> Hpr]. setoid_rewrite Hpr. unfold node_match. rewrite Hx. naive_solver. }
  eapply choose_filter; [exact Hlab|done| |].
  - intros n. split.
    + intros [(x & Hx & _) H]. apply Hflt; [by exists x|done].
    + intros Hm'. assert (Hm2 := Hm'). destruct Hm2 as (x & Hx & HLx & _). split; [by exists x|]. apply Hflt; [by exists x|done].
  - pose proof (min_iter_ok m qord) as Hmin. destruct (min_iter m qord) as [r|]; [|done].
    destruct Hmin as (k & _ & Hk).
    { intros k r' Hk. apply Hm in Hk as (_ & v & ix & Hv' & Hix & Hr'). destruct (Hfind k v ix Hv' Hix) as (xs & sz & Hfe & Hsz & _).
      rewrite Hfe in Hr'. injection Hr' as <-. simpl. lia. }
    apply Hm in Hk as (_ & v & ix & Hv' & Hix & Hr'). destruct (Hfind k v ix Hv' Hix) as (xs & sz & Hfe & Hsz & Q & HQ & HQ1 & HQ2).
    rewrite Hfe in Hr'. injection Hr' as <-. exists Q. simpl. split; [done|]. split; [lia|].
    intros n. split.
    + intros [HQn H]. apply HQ1 in HQn as (w & x & Hx & _). apply Hflt; [by exists x|done].
    + intros Hm'. assert (Hm2 := Hm'). destruct Hm2 as (x & Hx & _ & Hpr). split; [|apply Hflt; [by exists x|done]].
      destruct (Hpr k v Hv') as (w & Hw & Ha). eapply HQ2; [|exact Ha]. by exists x.
Qed.
Lemma find_nodes_all ops g lord pord qord ford :
  valid_history ops -> run ops = Ok g -> node_list_safe ops ->
  exists xs m, find_nodes g ∅ ∅ lord pord qord ford = Ok (xs, m) /\
    lists (live_node (srun ops)) xs /\ Z.of_nat (length xs) = m.
Proof.
  intros Hv Hr Hs. unfold find_nodes. rewrite decide_True by done.
  destruct (get_nodes_ok _ _ Hv Hr Hs) as (xs & -> & Hl). simpl. exists xs, (num_nodes g). split; [done|].
  destruct Hl as [Hl _]. split; [done|]. rewrite (num_nodes_ok _ _ Hv Hr). f_equal.
  destruct Hl as [Hnd Hin]. rewrite <- (size_list_to_set (C := gset nat)) by done. rewrite <- size_dom. f_equal.
  apply set_eq. intros x. by rewrite elem_of_list_to_set, Hin, elem_of_dom.
Qed.
Lemma find_nodes_panics g p lord pord qord ford : p <> ∅ -> find_nodes g ∅ p lord pord qord ford = Panic.
Proof. intros Hp. unfold find_nodes. rewrite decide_False by naive_solver. by rewrite decide_True. Qed.

(** ** FindEdges *)
Lemma any_size lb fl L em ord xs : em_iter_any lb fl L em ord = Ok xs ->
  (em_n em <> 0 /\ em_n em <> 1 /\ em_iter_any_size lb em ord = -1)%Z \/
  ((em_n em = 0 \/ em_n em = 1) /\ (Z.of_nat (length xs) <= em_iter_any_size lb em ord))%Z.
Proof.
  unfold em_iter_any, em_iter_any_size. destruct (decide (em_n em = 0)%Z).
  { intros [= <-]. right. simpl. split; [by left|lia]. }
  destruct (decide (em_n em = 1)%Z); [|by left].
  destruct (em_only em) as [e1|]; [|done]. destruct (decide (lb e1 ∈ ord)); intros [= <-]; right; simpl; (split; [by right|lia]).
Qed.

Lemma find_edges_ok ops g L p lord pord qord ford :
  valid_history ops -> run ops = Ok g -> edge_list_safe ops -> L <> ∅ -> edge_askable ops p ->
  (forall k v w e, p !! k = Some v -> ~ left_over ops k w e) ->
  order_of L lord -> order_of (dom p) pord -> order_of (dom p) qord -> (forall n, prop_order p (ford n)) ->
  exists xs m, find_edges g L p lord pord qord ford = Ok (xs, m) /\
    ((m = -1)%Z \/ (Z.of_nat (length xs) <= m)%Z) /\
    ((size (s_edges (srun ops)) <= 1 \/ exists k v, p !! k = Some v /\ is_Some (edge_index ops k)) ->
       lists (edge_match (srun ops) L p) xs) /\
    (2 <= size (s_edges (srun ops)) -> (forall k v, p !! k = Some v -> edge_index ops k = None) ->
       lists (live_edge (srun ops)) xs).
Proof.
  intros Hv Hr Hsafe HL Hask Hleft Hl Hp Hq Hf. pose proof (core_run _ _ Hv Hr) as Hc. unfold find_edges.
  rewrite decide_False by naive_solver. rewrite decide_False by done.
  destruct (get_edges_any_label_ok _ _ _ _ Hv Hr Hsafe Hl) as (lxs & Hlx & Hlab). rewrite Hlx. simpl.
  unfold get_edges_any_label in Hlx. apply any_size in Hlx as Hsz.
  destruct (get_edges_ok _ _ Hv Hr Hsafe) as [(all & Hall & Hlall) Hnum]. unfold num_edges in Hnum.
  set (lsz := em_iter_any_size (lbl g) (g_all g) lord) in *. 
  assert (forall k v, p !! k = Some v -> is_Some (g_eix g !! k) <-> is_Some (edge_index ops k)) as Hdom.
  { intros k v Hk. destruct (edge_index ops k) as [it|] eqn:Hi.
    - destruct (Hask k v it Hk Hi) as [[Hst _] Hs].
      pose proof (eix_run (fun w => edge_filed ops k w \/ w = v) k ops g Hv Hr (fun w H => or_introl H) Hs) as Hkix.
      rewrite Hi in Hkix. apply storable_domain in Hst. destruct (Hkix Hst) as (ix & -> & _). split; eauto.
    - pose proof (eix_run (fun _ => True) k ops g Hv Hr (fun _ _ => I) (edge_index_none_safe _ _ Hi)) as Hkix.
      rewrite Hi in Hkix. simpl in Hkix. rewrite Hkix. by split; intros [? ?]. }
  assert (forall k v ix, p !! k = Some v -> g_eix g !! k = Some ix ->
    exists xs m, ix_find ix v = Ok (xs, m) /\ Z.of_nat (length xs) = m /\
    exists Q, lists Q xs /\ (forall i, Q i -> exists w, edge_has (srun ops) k w i) /\
      (forall i w, edge_has (srun ops) k w i -> answers v w -> Q i)) as Hfind.
  { intros k v ix Hk Hix. destruct (edge_index ops k) as [it|] eqn:Hi.
    - destruct (Hask k v it Hk Hi) as [Ha Hs].
      pose proof (eix_run (fun w => edge_filed ops k w \/ w = v) k ops g Hv Hr (fun w H => or_introl H) Hs) as Hkix.
      rewrite Hi in Hkix. pose proof Ha as [Hst _]. apply storable_domain in Hst.
      destruct (Hkix Hst) as (ix' & Hix' & Ht & Hh). assert (ix' = ix) as -> by congruence.
      eapply (ask_index it _ ix (fun i w => edge_has (srun ops) k w i)); [exact Ha|done| |].
      + eapply holds_ext; [exact Hh|]. intros i w. unfold edge_entry. split; [|by left].
        intros [?|H]; [done|]. by eapply Hleft in H.
      + intros i w Hw. eapply edge_has_filed; [by eexists|exact Hw].
    - pose proof (proj1 (Hdom k v Hk) (ex_intro _ ix Hix)) as [? ?]. congruence. }
  destruct (prop_iters_ok (g_eix g) p pord) as (m & -> & Hm).
  { intros k v ix _ Hk Hix. destruct (Hfind k v ix Hk Hix) as (xs & sz & ? & _). eauto. }
  simpl. 
  assert (forall n, (exists x, s_edges (srun ops) !! n = Some x) ->
    edge_filter g L (ford n) n = true <-> edge_match (srun ops) L p n) as Hflt.
  { intros n [x Hx]. rewrite (edge_filter_ok g L p (ford n) n (Hf n)).
    destruct (core_edge _ _ _ _ Hc Hx) as [Hg _]. unfold lbl, edge_prop, get_property. rewrite Hg.
    unfold edge_match. rewrite Hx. naive_solver. }
  assert (forall r, min_iter m qord = Some r ->
    exists P', lists P' r.1 /\ (Z.of_nat (length r.1) <= r.2)%Z /\
      forall n, P' n /\ edge_filter g L (ford n) n = true <-> edge_match (srun ops) L p n) as Hbest.
  { intros r Hb. pose proof (min_iter_ok m qord) as Hmin. rewrite Hb in Hmin.
    destruct Hmin as (k & _ & Hk).
    { intros k r' Hk. apply Hm in Hk as (_ & v & ix & Hv' & Hix & Hr'). destruct (Hfind k v ix Hv' Hix) as (xs & sz & Hfe & Hsz' & _).
      rewrite Hfe in Hr'. injection Hr' as <-. simpl. lia. }
    apply Hm in Hk as (_ & v & ix & Hv' & Hix & Hr'). destruct (Hfind k v ix Hv' Hix) as (xs & sz & Hfe & Hsz' & Q & HQ & HQ1 & HQ2).
    rewrite Hfe in Hr'. injection Hr' as <-. exists Q. simpl. split; [done|]. split; [lia|].
    intros n. split.
    + intros [HQn H]. apply HQ1 in HQn as (w & x & Hx & _). apply Hflt; [by exists x|done].
    + intros Hm'. assert (Hm2 := Hm'). destruct Hm2 as (x & Hx & _ & Hpr). split; [|apply Hflt; [by exists x|done]].
      destruct (Hpr k v Hv') as (w & Hw & Ha). eapply HQ2; [|exact Ha]. by exists x. }
  assert (min_iter m qord = None <-> forall k v, p !! k = Some v -> edge_index ops k = None) as Hnone.
  { pose proof (min_iter_ok m qord) as Hmin.
    assert (forall k r, m !! k = Some r -> r.2 <> (-1)%Z) as Hne.
    { intros k r' Hk. apply Hm in Hk as (_ & v & ix & Hv' & Hix & Hr'). destruct (Hfind k v ix Hv' Hix) as (xs & sz & Hfe & Hsz' & _).
      rewrite Hfe in Hr'. injection Hr' as <-. simpl. lia. }
    specialize (Hmin Hne). destruct (min_iter m qord) as [r|].
    - split; [done|]. intros Hn. destruct Hmin as (k & _ & Hk). apply Hm in Hk as (_ & v & ix & Hv' & Hix & _).
      pose proof (proj1 (Hdom k v Hv') (ex_intro _ ix Hix)) as [? ?]. rewrite (Hn k v Hv') in *. done.
    - split; [|done]. intros _ k v Hk. destruct (edge_index ops k) as [it|] eqn:Hi; [|done].
      assert (is_Some (g_eix g !! k)) as [ix Hix] by (apply (Hdom k v Hk); by rewrite Hi).
      destruct (Hfind k v ix Hk Hix) as (xs & sz & Hfe & _). assert (m !! k = Some (xs, sz)) as Hmk.
      { apply Hm. split; [|eauto 10]. apply Hp. apply elem_of_dom. by eexists. }
      rewrite Hmin in Hmk; [done|]. apply Hq. apply elem_of_dom. by eexists. }
  destruct Hsz as [(Hn0 & Hn1 & Hs)|[Hn01 Hs]].
  - (* at least two edges *)
    unfold choose. cbn [fst snd]. rewrite Hs.
    destruct (min_iter m qord) as [[xs sz]|].
    + destruct (Hbest _ eq_refl) as (P' & [Hnd Hin] & Hlen & HP). simpl in Hlen, Hnd, Hin.
      rewrite bool_decide_eq_false_2 by naive_solver. eexists _, _. split; [done|]. split; [right|split].
      * pose proof (filter_length (fun n => edge_filter g L (ford n) n = true) xs). lia.
      * intros _. split; [by apply NoDup_filter|]. intros n. rewrite elem_of_list_filter, Hin, <- HP. tauto.
      * intros _ Hno. by apply Hnone in Hno.
    + rewrite bool_decide_eq_false_2 by naive_solver. rewrite Hall. simpl. eexists _, _. split; [done|]. split; [right|split].
      * unfold em_iter_size. rewrite decide_False by done. rewrite decide_False by done. rewrite Hnum.
        assert (length all = size (s_edges (srun ops))) as ->; [|lia].
        destruct Hlall as [Hnd Hin]. rewrite <- (size_list_to_set (C := gset nat)) by done. rewrite <- size_dom. f_equal.
        apply set_eq. intros x. by rewrite elem_of_list_to_set, Hin, elem_of_dom.
      * intros [Hsz|(k & v & Hk & Hi)]; [lia|]. destruct Hnone as [Hnone _]. rewrite (Hnone eq_refl k v Hk) in Hi. by destruct Hi.
      * done.
  - (* at most one edge *)
    assert (size (s_edges (srun ops)) <= 1) as Hsz by lia.
    edestruct (choose_filter (label_in (srun ops) L) (edge_match (srun ops) L p) (lxs, lsz) (min_iter m qord)
      (fun e => edge_filter g L (ford e) e)) as (xs & sz & Hch & Hli & Hlen).
    + simpl. eapply lists_ext; [|exact Hlab]. intros e. simpl. rewrite decide_False by lia. done.
    + done.
    + intros e. split.
      * unfold label_in. intros [Hli H]. destruct (s_edges (srun ops) !! e) as [x|] eqn:Hx; [|done]. apply Hflt; [by exists x|done].
      * intros Hm'. assert (Hm2 := Hm'). destruct Hm2 as (x & Hx & HLx & _). split; [unfold label_in; rewrite Hx; auto|]. apply Hflt; [by exists x|done].
    + destruct (min_iter m qord) as [r|]; [|done]. by apply Hbest.
    + rewrite Hch. eexists _, _. split; [done|]. split; [by right|]. split; [done|]. lia.
Qed.
Lemma find_edges_all ops g lord pord qord ford :
  valid_history ops -> run ops = Ok g -> edge_list_safe ops ->
  exists xs m, find_edges g ∅ ∅ lord pord qord ford = Ok (xs, m) /\ lists (live_edge (srun ops)) xs.
Proof.
  intros Hv Hr Hs. unfold find_edges. rewrite decide_True by done.
  destruct (get_edges_ok _ _ Hv Hr Hs) as [(xs & -> & Hl) _]. simpl. eauto.
Qed.
Lemma find_edges_panics g p lord pord qord ford : p <> ∅ -> find_edges g ∅ p lord pord qord ford = Panic.
Proof. intros Hp. unfold find_edges. rewrite decide_False by naive_solver. by rewrite decide_True. Qed.

(** ** Values an index cannot be asked for *)
Lemma ix_find_refused it (D : value -> Prop) ix (P : nat -> value -> Prop) i v w :
  storable it D -> ix_type ix = it -> holds D ix P -> P i w -> refuses it D v -> ix_find ix v = Panic.
Proof.
  intros Hst Ht (c & (HD & Hc) & Hcp) Hw Hno. apply Hcp in Hw. subst it. destruct ix as [[t|]|vals els fresh]; simpl in *.
  - destruct Hc as ([_ Ht] & _ & H2). destruct (H2 _ _ Hw) as (k & s & Hk & _).
    destruct t as [|[k0 s0] t]; [by apply elem_of_nil in Hk|]. apply Forall_cons in Ht as [Hk0 _]. simpl in *. by rewrite (Hno _ Hk0).
  - subst c. by rewrite lookup_empty in Hw.
  - destruct Hc as (_ & _ & Hf & _ & Hdom & _).
    rewrite decide_False by (intros E; destruct (hash_no_adds _ _ _ Hf Hdom i E) as [_ E']; by rewrite E' in Hw). unfold hkey. destruct v; by rewrite Hno.
Qed.
Lemma ix_find_ends ix v : ix_find ix v <> Diverge.
Proof.
  destruct ix as [[t|]|vals els fresh]; simpl; [|done|].
  - enough (bt_get t v <> Diverge) as H. { by destruct (bt_get t v) as [[?|]| |]. }
    induction t as [|[k s] t IH]; simpl; [done|]. by destruct (compare_value v k) as [[]|].
  - case_decide; [done|]. destruct (hashable (hkey v)); [|done]. by destruct (h_get vals (hkey v)).
Qed.
Lemma prop_iters_refused ixs (p : props) (ord : list string) k v ix :
  k ∈ ord -> p !! k = Some v -> ixs !! k = Some ix -> ix_find ix v = Panic -> prop_iters ixs p ord = Panic.
Proof.
  unfold prop_iters. intros Hk Hp Hix Hf. generalize (∅ : gmap string (list nat * Z)).
  induction ord as [|k0 ord IH]; intros m; [by apply elem_of_nil in Hk|]. simpl. destruct (decide (k0 = k)) as [->|Hne].
  { by rewrite Hp, Hix, Hf. }
  apply elem_of_cons in Hk as [Hk|Hk]; [congruence|].
  destruct (p !! k0) as [v0|]; [|by apply IH]. destruct (ixs !! k0) as [ix0|]; [|by apply IH].
  pose proof (ix_find_ends ix0 v0) as He. destruct (ix_find ix0 v0) as [r| |]; simpl; [by apply IH|done|done].
Qed.
Lemma find_nodes_refused ops g L p lord pord qord ford k v it n w :
  valid_history ops -> run ops = Ok g -> L <> ∅ -> order_of L lord -> order_of (dom p) pord ->
  p !! k = Some v -> node_index ops k = Some it -> storable it (node_filed ops k) -> node_scan_safe ops k ->
  node_has (srun ops) k w n -> refuses it (node_filed ops k) v -> find_nodes g L p lord pord qord ford = Panic.
Proof.
  intros Hv Hr HL Hl Ho Hp Hi Hst Hsafe Hw Hno. unfold find_nodes.
  rewrite decide_False by naive_solver. rewrite decide_False by done.
  destruct (get_nodes_all_labels_ok _ _ _ _ Hv Hr HL Hl) as (lxs & lsz & -> & _). simpl.
  pose proof (nix_run _ k ops g Hv Hr (fun v H => H) Hsafe) as Hk. rewrite Hi in Hk.
  pose proof Hst as Hd. apply storable_domain in Hd. destruct (Hk Hd) as (ix & Hix & Ht & Hh).
  rewrite (prop_iters_refused _ p pord k v ix); [done| |done|done|].
  - apply Ho. apply elem_of_dom. by eexists.
  - eapply (ix_find_refused it _ ix _ n v w); [exact Hst|done|exact Hh|exact Hw|done].
Qed.
Lemma find_edges_refused ops g L p lord pord qord ford k v it e w :
  valid_history ops -> run ops = Ok g -> edge_list_safe ops -> L <> ∅ -> order_of L lord -> order_of (dom p) pord ->
  p !! k = Some v -> edge_index ops k = Some it -> storable it (edge_filed ops k) -> edge_scan_safe ops k ->
  edge_has (srun ops) k w e -> refuses it (edge_filed ops k) v -> find_edges g L p lord pord qord ford = Panic.
Proof.
  intros Hv Hr Hs HL Hl Ho Hp Hi Hst Hsafe Hw Hno. unfold find_edges.
  rewrite decide_False by naive_solver. rewrite decide_False by done.
  destruct (get_edges_any_label_ok _ _ _ _ Hv Hr Hs Hl) as (lxs & -> & _). simpl.
  pose proof (eix_run _ k ops g Hv Hr (fun v H => H) Hsafe) as Hk. rewrite Hi in Hk.
  pose proof Hst as Hd. apply storable_domain in Hd. destruct (Hk Hd) as (ix & Hix & Ht & Hh).
  rewrite (prop_iters_refused _ p pord k v ix); [done| |done|done|].
  - apply Ho. apply elem_of_dom. by eexists.
  - eapply (ix_find_refused it _ ix _ e v w); [exact Hst|done|exact Hh|by left|done].
Qed.
