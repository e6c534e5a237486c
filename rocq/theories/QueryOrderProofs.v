(** The order of GetNodesWithProperty and GetEdgesWithProperty. *)
From Verif Require Import Base Value ValueProofs FastSet FastSetProofs Index IndexProofs Graph GraphSpec.
From Verif Require Import CoreProofs CoreStep AdjProofs ReadProofs NodeListProofs EdgeListProofs IndexGraphProofs HashLiveProofs.
From Verif Require Import OrderSpec OrderProofs OrderGraphProofs OrderRunProofs QueryOrderSpec LabelOrderProofs IndexOrderProofs.

(** ** The index of one key *)
Definition kseq (D : value -> Prop) (ixs : gmap string index) (k : string) (it : option index_type)
    (c : gmap nat value) (xs : list nat) : Prop :=
  match it with
  | None => ixs !! k = None
  | Some t => ix_domain t D -> exists ix, ixs !! k = Some ix /\ ix_type ix = t /\ ix_seq D ix c xs
  end.
Lemma with_prop_all (c c' : gmap nat value) xs : (forall i, i ∈ xs <-> is_Some (c !! i)) -> c' = c -> with_prop c' xs = xs.
Proof.
  intros H ->. unfold with_prop. apply OrderProofs.filter_all, Forall_forall. intros x Hx. by apply H.
Qed.
Lemma with_prop_cons (c : gmap nat value) x xs :
  with_prop c (x :: xs) = match c !! x with Some _ => x :: with_prop c xs | None => with_prop c xs end.
Proof.
  unfold with_prop. destruct (c !! x) as [v|] eqn:E.
  - rewrite filter_cons_True; [done|]. rewrite E. eauto.
  - rewrite filter_cons_False; [done|]. rewrite E. by intros [? ?].
Qed.
Lemma with_prop_unfile (c c' : gmap nat value) n xs : (forall i, i ∈ xs <-> is_Some (c !! i)) ->
  (forall i, is_Some (c' !! i) <-> is_Some (c !! i) /\ i <> n) -> with_prop c' xs = unfile n xs.
Proof.
  intros H H'. unfold with_prop, unfile. apply filter_ext_at. intros x Hx. rewrite H'. apply H in Hx. tauto.
Qed.

Section key.
  Context (D : value -> Prop) (k : string).
  Lemma kseq_ext ixs it c c' xs xs' : kseq D ixs k it c xs ->
    c' = c -> ((forall i, i ∈ xs <-> is_Some (c !! i)) -> it <> None -> xs' = xs) -> kseq D ixs k it c' xs'.
  Proof.
    destruct it as [t|]; simpl; [|done]. intros H -> Hx Hd. destruct (H Hd) as (ix & ? & ? & Hs).
    exists ix. split; [done|]. split; [done|]. rewrite Hx; [done|apply Hs|done].
  Qed.
  Lemma kseq_add ixs it c xs p id ixs' :
    ixs_add ixs p id = Ok ixs' -> kseq D ixs k it c xs -> c !! id = None ->
    (forall v, is_Some it -> p !! k = Some v -> D v) ->
    kseq D ixs' k it (match p !! k with Some v => <[id := v]> c | None => c end)
      (if decide (is_Some (p !! k)) then xs ++ [id] else xs).
  Proof.
    intros Ha Hk Hid HD. pose proof (props_loop_key (fun ix v => ix_add ix v id) _ _ _ k Ha) as H.
    destruct it as [t|]; simpl in *; [|by rewrite Hk in H].
    intros Hd. destruct (Hk Hd) as (ix & Hix & Ht & Hh). rewrite Hix in H.
    destruct (p !! k) as [v|] eqn:E.
    - destruct H as (ix' & Hadd & ->). rewrite <- Ht in Hd.
      destruct (ix_seq_add D ix c xs id v Hd Hh (HD v (mk_is_Some _ _ eq_refl) eq_refl) Hid) as (ix2 & Hadd2 & Ht2 & Hh2).
      assert (ix2 = ix') as -> by congruence. exists ix'. split; [done|]. split; [congruence|].
      by rewrite decide_True by eauto.
    - exists ix. split; [done|]. split; [done|]. rewrite decide_False; [done|]. by intros [? ?].
  Qed.
  Lemma kseq_remove ixs it c xs p id ixs' :
    ixs_remove ixs p id = Ok ixs' -> kseq D ixs k it c xs -> c !! id = p !! k ->
    kseq D ixs' k it (delete id c) (unfile id xs).
  Proof.
    intros Ha Hk Hid. pose proof (props_loop_key (fun ix v => ix_remove ix v id) _ _ _ k Ha) as H.
    destruct it as [t|]; simpl in *; [|by rewrite Hk in H].
    intros Hd. destruct (Hk Hd) as (ix & Hix & Ht & Hh). rewrite Hix in H.
    destruct (p !! k) as [v|] eqn:E.
    - destruct H as (ix' & Hadd & ->). rewrite <- Ht in Hd.
      destruct (ix_seq_remove D ix c xs id v Hd Hh Hid) as (ix2 & Hadd2 & Ht2 & Hh2).
      assert (ix2 = ix') as -> by congruence. exists ix'. split; [done|]. split; [congruence|done].
    - exists ix. split; [done|]. split; [done|]. rewrite delete_notin by done. rewrite unfile_out; [done|].
      intros Hi. apply Hh in Hi as [? ?]. congruence.
  Qed.
  Lemma kseq_update ixs it c xs old new id ixs' :
    ix_update ixs k old new id = Ok ixs' -> kseq D ixs k it c xs -> c !! id = old ->
    (forall v, is_Some it -> new = Some v -> D v) ->
    kseq D ixs' k it (match new with Some v => <[id := v]> c | None => delete id c end)
      (match new with Some _ => unfile id xs ++ [id] | None => unfile id xs end).
  Proof.
    unfold ix_update. intros Hu Hk Hold HD. destruct it as [t|]; simpl in *.
    2: { rewrite Hk in Hu. by injection Hu as <-. }
    intros Hd. destruct (Hk Hd) as (ix & Hix & Ht & Hh). rewrite Hix in Hu.
    apply rbind_Ok_inv in Hu as (ix1 & H1 & Hu). apply rbind_Ok_inv in Hu as (ix2 & H2 & [= <-]).
    exists ix2. rewrite lookup_insert. split; [done|].
    assert (ix_type ix1 = t /\ ix_seq D ix1 (delete id c) (unfile id xs)) as [Ht1 Hh1].
    { destruct old as [v|].
      - rewrite <- Ht in Hd. destruct (ix_seq_remove D ix c xs id v Hd Hh) as (ix' & ? & ? & ?); [done|].
        assert (ix1 = ix') as -> by congruence. split; [congruence|done].
      - injection H1 as <-. split; [done|]. rewrite delete_notin, unfile_out; [done| |done].
        intros Hi. apply Hh in Hi as [? ?]. congruence. }
    destruct new as [v|].
    - rewrite <- Ht1 in Hd. destruct (ix_seq_add D ix1 _ _ id v Hd Hh1) as (ix' & ? & ? & Hh'); [by apply HD; [eexists|]|by rewrite lookup_delete|].
      assert (ix2 = ix') as -> by congruence. split; [congruence|]. by rewrite insert_delete_insert in Hh'.
    - by injection H2 as <-.
  Qed.
  Lemma kseq_update_ne ixs it c xs k' old new id ixs' :
    ix_update ixs k' old new id = Ok ixs' -> k' <> k -> kseq D ixs k it c xs -> kseq D ixs' k it c xs.
  Proof.
    intros Hu Hne Hk. assert (ixs' !! k = ixs !! k) as E.
    { unfold ix_update in Hu. destruct (ixs !! k') as [ix|]; [|by injection Hu as <-].
      apply rbind_Ok_inv in Hu as (ix1 & H1 & Hu). apply rbind_Ok_inv in Hu as (ix2 & H2 & [= <-]).
      by rewrite lookup_insert_ne. }
    unfold kseq in *. by rewrite E.
  Qed.
  (** an index built from a list *)
  Lemma scan_seq it c (xs : list nat) : NoDup xs -> (forall x v, x ∈ xs -> c !! x = Some v -> D v) -> ix_domain it D ->
    forall ix0 c0 ys, ix_type ix0 = it -> ix_seq D ix0 c0 ys -> (forall x, x ∈ xs -> c0 !! x = None) ->
    exists ix c1, rfold (fun ix n => match c !! n with Some v => ix_add ix v n | None => Ok ix end) xs ix0 = Ok ix /\
      ix_type ix = it /\ ix_seq D ix c1 (ys ++ with_prop c xs) /\
      forall i, c1 !! i = if decide (i ∈ xs) then match c !! i with Some v => Some v | None => c0 !! i end else c0 !! i.
  Proof.
    intros Hnd HD Hd. induction xs as [|x xs IH]; intros ix0 c0 ys Ht Hh HP; cbn [rfold].
    - exists ix0, c0. split; [done|]. split; [done|]. unfold with_prop. rewrite filter_nil, app_nil_r. split; [done|].
      intros i. rewrite decide_False; [done|]. apply not_elem_of_nil.
    - apply NoDup_cons in Hnd as [Hni Hnd]. rewrite with_prop_cons. destruct (c !! x) as [v|] eqn:Hf.
      + rewrite <- Ht in Hd. destruct (ix_seq_add D ix0 c0 ys x v Hd Hh) as (ix1 & -> & Ht1 & Hh1).
        { eapply HD; [|exact Hf]. set_solver. } { apply HP. set_solver. }
        simpl.
        destruct (IH Hnd) with (ix0 := ix1) (c0 := <[x := v]> c0) (ys := ys ++ [x]) as (ix & c1 & Hr & Ht' & Hh' & Hc1).
        { intros y w Hy. apply HD. by apply elem_of_cons; right. }
        { congruence. } { done. }
        { intros y Hy. rewrite lookup_insert_ne; [apply HP; by apply elem_of_cons; right|]. by intros ->. }
        exists ix, c1. split; [done|]. split; [done|]. rewrite <- app_assoc in Hh'. split; [exact Hh'|].
        intros i. rewrite Hc1. destruct (decide (i = x)) as [->|Hne].
        * rewrite decide_False by done. rewrite decide_True by set_solver. by rewrite lookup_insert, Hf.
        * rewrite lookup_insert_ne by done. destruct (decide (i ∈ xs)); [by rewrite decide_True by set_solver|].
          by rewrite decide_False by set_solver.
      + simpl.
        destruct (IH Hnd) with (ix0 := ix0) (c0 := c0) (ys := ys) as (ix & c1 & Hr & Ht' & Hh' & Hc1); try done.
        { intros y w Hy. apply HD. by apply elem_of_cons; right. }
        { intros y Hy. apply HP. by apply elem_of_cons; right. }
        exists ix, c1. split; [done|]. split; [done|]. split; [exact Hh'|]. intros i. rewrite Hc1.
        destruct (decide (i = x)) as [->|Hne].
        * rewrite decide_False by done. rewrite decide_True by set_solver. by rewrite Hf.
        * destruct (decide (i ∈ xs)); [by rewrite decide_True by set_solver|]. by rewrite decide_False by set_solver.
  Qed.
End key.

(** ** Nodes *)
Lemma prop_order_snoc ops o k :
  node_prop_order (ops ++ [o]) k = prop_step k (match node_index ops k with Some _ => true | None => false end) (srun ops) o (node_prop_order ops k).
Proof.
  assert (forall idx s xs, prop_from k idx s xs (ops ++ [o]) =
    prop_step k (idx || match node_index ops k with Some _ => true | None => false end) (fold_left sstep ops s) o (prop_from k idx s xs ops)) as H.
  { induction ops as [|o' ops IH]; intros idx s xs; [simpl; by rewrite orb_false_r|]. cbn [app prop_from]. rewrite IH. cbn [fold_left].
    f_equal. destruct o'; simpl; rewrite ?orb_false_r; try done. destruct (decide (k0 = k)) as [->|].
    - rewrite bool_decide_eq_true_2 by done. by rewrite orb_true_r.
    - rewrite bool_decide_eq_false_2 by done. by rewrite orb_false_r. }
  apply H.
Qed.
Lemma node_vals_lookup s k i : node_vals s k !! i = match s_nodes s !! i with Some x => sn_props x !! k | None => None end.
Proof. unfold node_vals. rewrite lookup_omap. by destruct (s_nodes s !! i). Qed.
Lemma edge_vals_lookup s k i : edge_vals s k !! i = match s_edges s !! i with Some x => e_props x !! k | None => None end.
Proof. unfold edge_vals. rewrite lookup_omap. by destruct (s_edges s !! i). Qed.
Lemma node_vals_same s s' k : s_nodes s' = s_nodes s -> node_vals s' k = node_vals s k.
Proof. unfold node_vals. by intros ->. Qed.
Lemma edge_vals_same s s' k : s_edges s' = s_edges s -> edge_vals s' k = edge_vals s k.
Proof. unfold edge_vals. by intros ->. Qed.

Lemma sorted_seq (P : nat -> Prop) `{!forall x, Decision (P x)} xs m :
  lists P xs -> StronglySorted lt xs -> (forall x, P x -> x < m) -> xs = filter P (seq 0 m).
Proof.
  intros Hl Hs Hm. eapply sorted_lists_unique; [exact Hl| |exact Hs|].
  - split; [apply NoDup_filter, NoDup_seq|]. intros x. rewrite elem_of_list_filter, elem_of_seq. split; [tauto|].
    intros Hx. split; [done|]. apply Hm in Hx. lia.
  - clear. induction m as [|m IH]; [constructor|]. rewrite seq_S, filter_app, filter_cons, filter_nil.
    destruct (decide (P (0 + m))); [|by rewrite app_nil_r]. apply sorted_snoc; [done|].
    intros y [_ Hy]%elem_of_list_filter. apply elem_of_seq in Hy. lia.
Qed.

Lemma nodes_listed ops g k xs : valid_history ops -> run ops = Ok g -> lists_nodes (srun ops) xs ->
  with_prop (node_vals (srun ops) k) xs = with_prop (node_vals (srun ops) k) (seq 0 (s_next (srun ops))).
Proof.
  intros Hv Hr [Hl Hs]. pose proof (core_run _ _ Hv Hr) as Hc.
  assert (Hdec : forall n, Decision (live_node (srun ops) n)) by (intros n; unfold live_node; apply _).
  rewrite (sorted_seq (live_node (srun ops)) xs (s_next (srun ops)) Hl Hs); [|intros n; by eapply core_live_lt].
  unfold with_prop. rewrite list_filter_filter. apply filter_ext_at. intros n _. rewrite node_vals_lookup.
  unfold live_node. destruct (s_nodes (srun ops) !! n); [|split; intros H; [tauto|by destruct H]].
  split; [tauto|]. intros H. split; [done|eauto].
Qed.

Lemma nseq_step (D : value -> Prop) k ops g o g' :
  valid_history ops -> run ops = Ok g -> valid (srun ops) o -> step g o = Ok g' ->
  (forall v, node_filed (ops ++ [o]) k v -> D v) ->
  (forall it, o = OAddNodeIndex k it -> node_list_safe ops) ->
  kseq D (g_nix g) k (node_index ops k) (node_vals (srun ops) k) (node_prop_order ops k) ->
  kseq D (g_nix g') k (node_index (ops ++ [o]) k) (node_vals (srun (ops ++ [o])) k) (node_prop_order (ops ++ [o]) k).
Proof.
  intros Hv Hr Ho Hs HD Hsafe Hk. pose proof (core_run _ _ Hv Hr) as Hc. pose proof Hc as (_ & Hnext & _).
  rewrite node_index_snoc, srun_snoc, prop_order_snoc. set (s := srun ops) in *.
  assert (node_index ops k = match node_index ops k with Some it => Some it | None => None end) as Hni
    by (by destruct (node_index ops k)).
  assert (s_nodes (sstep s o) = s_nodes s -> match o with ONewNode _ _ _ | OSetNodeProp _ _ _ => False | _ => True end ->
     g_nix g' = g_nix g ->
     kseq D (g_nix g') k (node_index ops k) (node_vals (sstep s o) k)
       (prop_step k match node_index ops k with Some _ => true | None => false end s o (node_prop_order ops k))) as Hsame.
  { intros E Ho' ->. eapply kseq_ext; [exact Hk|by apply node_vals_same|]. intros Hin Hne.
    destruct (node_index ops k) as [t|]; [|done]. destruct o; try done; unfold prop_step; by eapply with_prop_all; [|apply node_vals_same]. }
  destruct o; simpl in Hs, Ho; try rewrite <- Hni.
  - inv_ok Hs. destruct a as [g1 n]. injection Hs as <-.
    apply new_node_shape in Ha as (->&_&_&_&_&_&_&_&_&Hix&_).
    eapply kseq_ext; [eapply kseq_add; [exact Hix|exact Hk| |]| |].
    + rewrite node_vals_lookup. destruct (s_nodes s !! g_next g) as [x|] eqn:Hx; [|done].
      assert (g_next g < s_next s); [|lia]. eapply core_live_lt; [done|]. by eexists.
    + intros v Hin' Hpv. by apply HD, node_filed_write.
    + apply map_eq. intros i. rewrite node_vals_lookup. simpl. rewrite <- Hnext.
      assert (s_nodes s !! g_next g = None) as Hfr.
      { destruct (s_nodes s !! g_next g) as [x|] eqn:Hx; [|done].
        assert (g_next g < s_next s); [|lia]. eapply core_live_lt; [done|]. by eexists. }
      destruct (decide (i = g_next g)) as [->|].
      * rewrite lookup_insert. simpl. destruct (p !! k); [by rewrite lookup_insert|]. by rewrite node_vals_lookup, Hfr.
      * rewrite lookup_insert_ne by done. destruct (p !! k); [rewrite lookup_insert_ne by done|]; by rewrite node_vals_lookup.
    + intros _ Hne. destruct (node_index ops k) as [t|]; [|done]. simpl. by rewrite Hnext.
  - inv_ok Hs. destruct a as [g1 e]. injection Hs as <-.
    apply new_edge_shape in Ha as (->&_&_&_&_&_&Hix&_). by apply Hsame.
  - unfold set_labels in Hs. inv_ok Hs. injection Hs as <-. cbn [g_nix set_nodes set_lab].
    assert (node_vals (sstep s (OSetLabels n labels ordo ordn)) k = node_vals s k) as E.
    { apply map_eq. intros i. rewrite !node_vals_lookup. simpl. destruct (decide (i = n)) as [->|].
      - rewrite lookup_alter. by destruct (s_nodes s !! n).
      - by rewrite lookup_alter_ne. }
    eapply kseq_ext; [exact Hk|exact E|]. intros Hin Hne. destruct (node_index ops k) as [t|]; [|done].
    unfold prop_step. by eapply with_prop_all; [|exact E].
  - unfold set_node_prop in Hs. inv_ok Hs. injection Hs as <-. cbn [g_nix set_nodes set_nix].
    destruct Ho as [x Hx]. destruct (core_props _ _ _ _ Hc Hx) as (nd & Hnd & Hp & _).
    assert (a = nd) as -> by congruence.
    destruct (decide (k0 = k)) as [->|Hne].
    + eapply kseq_ext; [eapply kseq_update; [exact Ha0|exact Hk| |]| |].
      * rewrite node_vals_lookup, Hx. by rewrite Hp.
      * intros w Hin' [= <-]. by apply HD, node_filed_write.
      * apply map_eq. intros i. rewrite node_vals_lookup. simpl. destruct (decide (i = n)) as [->|].
        -- rewrite lookup_alter, Hx. simpl. by rewrite !lookup_insert.
        -- rewrite lookup_alter_ne, lookup_insert_ne by done. by rewrite node_vals_lookup.
      * intros _ Hne. destruct (node_index ops k) as [t|]; [|done]. simpl. by rewrite decide_True.
    + eapply kseq_ext; [eapply kseq_update_ne; [exact Ha0|done|exact Hk]| |].
      * apply map_eq. intros i. rewrite !node_vals_lookup. simpl. destruct (decide (i = n)) as [->|].
        -- rewrite lookup_alter, Hx. simpl. by rewrite !lookup_insert_ne.
        -- by rewrite lookup_alter_ne.
      * intros _ Hne'. destruct (node_index ops k) as [t|]; [|done]. simpl. by rewrite decide_False.
  - unfold rem_node_prop in Hs. inv_ok Hs.
    destruct Ho as [x Hx]. destruct (core_props _ _ _ _ Hc Hx) as (nd & Hnd & Hp & _).
    assert (a = nd) as -> by congruence.
    assert (node_vals (sstep s (ORemNodeProp n k0)) k = if decide (k0 = k) then delete n (node_vals s k) else node_vals s k) as E.
    { apply map_eq. intros i. rewrite node_vals_lookup. simpl. destruct (decide (i = n)) as [->|].
      - rewrite lookup_alter, Hx. simpl. destruct (decide (k0 = k)) as [->|].
        + by rewrite !lookup_delete.
        + rewrite lookup_delete_ne by done. by rewrite node_vals_lookup, Hx.
      - rewrite lookup_alter_ne by done. destruct (decide (k0 = k)); [rewrite lookup_delete_ne by done|]; by rewrite node_vals_lookup. }
    assert (kseq D (g_nix g') k (node_index ops k)
      (if decide (k0 = k) then delete n (node_vals s k) else node_vals s k)
      (if decide (k0 = k) then unfile n (node_prop_order ops k) else node_prop_order ops k)) as Hk'.
    { destruct (n_props nd !! k0) as [v|] eqn:Hv0.
      - inv_ok Hs. injection Hs as <-. cbn [g_nix set_nodes set_nix]. destruct (decide (k0 = k)) as [->|Hne].
        + eapply (kseq_update D k _ _ _ _ _ None) in Ha0; [exact Ha0|exact Hk| |done]. rewrite node_vals_lookup, Hx. congruence.
        + eapply kseq_update_ne; [exact Ha0|done|exact Hk].
      - injection Hs as <-. destruct (decide (k0 = k)) as [->|]; [|done].
        assert (node_vals s k !! n = None) as Hn by (rewrite node_vals_lookup, Hx; congruence).
        eapply kseq_ext; [exact Hk|by apply delete_notin|]. intros Hin _. apply unfile_out. rewrite Hin, Hn. by intros [? ?]. }
    eapply kseq_ext; [exact Hk'|exact E|]. intros Hin Hne. destruct (node_index ops k) as [t|]; [|done].
    unfold prop_step. rewrite E. destruct (decide (k0 = k)) as [->|].
    + unfold with_prop. unfold unfile. apply filter_ext_at. intros i Hi.
      rewrite lookup_delete_is_Some. split; [intros [? _]; auto|]. intros Hi'. split; [auto|].
      assert (i ∈ unfile n (node_prop_order ops k)) as Hiu by (unfold unfile; apply elem_of_list_filter; done).
      apply Hin in Hiu. by rewrite lookup_delete_ne in Hiu by auto.
    + by eapply with_prop_all.
  - apply detach_shape in Hs as (_&_&_&_&E&_). by apply Hsame.
  - apply detach_remove_shape in Hs as (g1 & nd & Hd & Hnd & _&_&_&_&_&_&_&_&_&_& Hix).
    apply detach_shape in Hd as (_&_&_&_&E&_&Hdata). rewrite E in Hix.
    destruct Ho as (x & Hx & _). destruct (core_props _ _ _ _ Hc Hx) as (nd0 & Hnd0 & Hp & _).
    assert (n_props nd = sn_props x) as Hp'.
    { specialize (Hdata n). unfold data, deref_node in *. rewrite Hnd in Hdata. destruct (g_nodes g !! n) as [y|]; [|done].
      injection Hnd0 as ->. simpl in Hdata. injection Hdata as _ ?. congruence. }
    assert (node_vals (sstep s (ODetachRemove n ord)) k = delete n (node_vals s k)) as E'.
    { apply map_eq. intros i. rewrite node_vals_lookup. simpl. destruct (decide (i = n)) as [->|].
      - by rewrite !lookup_delete.
      - rewrite !lookup_delete_ne by done. by rewrite node_vals_lookup. }
    eapply kseq_ext; [eapply kseq_remove; [exact Hix|exact Hk|]|exact E'|].
    + by rewrite node_vals_lookup, Hx, Hp'.
    + intros Hin Hne. destruct (node_index ops k) as [t|]; [|done]. unfold prop_step. rewrite E'.
      unfold with_prop. unfold unfile. apply filter_ext_at. intros i Hi.
      rewrite lookup_delete_is_Some. split; [intros [? _]; auto|]. intros Hi'. split; [auto|].
      assert (i ∈ unfile n (node_prop_order ops k)) as Hiu by (unfold unfile; apply elem_of_list_filter; done).
      apply Hin in Hiu. by rewrite lookup_delete_ne in Hiu by auto.
  - apply set_edge_label_shape in Hs as (?&_&_&_&_&_&_&_&_&E&_). by apply Hsame.
  - unfold set_edge_prop in Hs. inv_ok Hs. injection Hs as <-. by apply Hsame.
  - unfold rem_edge_prop in Hs. inv_ok Hs.
    destruct (e_props _ !! _); [inv_ok Hs|]; injection Hs as <-; by apply Hsame.
  - apply remove_edge_shape in Hs as ((_&_&_&_&E&_) & _). by apply Hsame.
  - unfold add_node_index in Hs. destruct (decide (k0 = k)) as [->|Hne].
    + destruct (g_nix g !! k) as [ix|] eqn:Hg.
      * injection Hs as <-. destruct (node_index ops k); [by apply Hsame|]. simpl in Hk. congruence.
      * inv_ok Hs. injection Hs as <-. destruct (node_index ops k) as [t|] eqn:Hit; simpl in *.
        -- intros Hd. destruct (Hk Hd) as (ix & Hix & _). congruence.
        -- intros Hd. rewrite lookup_insert. destruct (get_nodes_ok _ _ Hv Hr (Hsafe _ eq_refl)) as (xs & Hxs & Hls).
           rewrite Ha in Hxs. injection Hxs as <-. pose proof Hls as [[Hnd Hin] _].
           eapply (rfold_ext' _ (fun ix n => match node_vals s k !! n with Some v => ix_add ix v n | None => Ok ix end)) in Ha0.
           2: { intros ix n Hn. apply Hin in Hn as [x Hx]. destruct (core_props _ _ _ _ Hc Hx) as (nd & Hndd & Hp & _).
                rewrite Hndd. simpl. rewrite node_vals_lookup. fold s in Hx. by rewrite Hx, Hp. }
           destruct (scan_seq D it (node_vals s k) a) with (ix0 := ix_new it) (c0 := (∅ : gmap nat value)) (ys := @nil nat)
             as (ix & c1 & Hix & Ht & Hh & Hc1); try done.
           { intros n v Hn Hv'. eapply HD, (node_filed_scan ops it k v n); [done|]. rewrite node_vals_lookup in Hv'. unfold node_has. fold s.
             destruct (s_nodes s !! n) as [x|]; [|done]. by exists x. }
           { by destruct it. }
           { apply ix_seq_new. }
           assert (ix = a0) as -> by congruence. exists a0. split; [done|]. split; [done|].
           simpl in Hh. unfold prop_step. simpl.
           unfold s. rewrite <- (nodes_listed ops g k a Hv Hr Hls). fold s.
           assert (c1 = node_vals s k) as Ec; [|rewrite Ec in Hh; exact Hh]. apply map_eq. intros i. rewrite Hc1, lookup_empty.
           destruct (decide (i ∈ a)) as [Hi|Hi]; [by destruct (node_vals s k !! i)|].
           rewrite node_vals_lookup. destruct (s_nodes s !! i) eqn:Hx; [|done]. destruct Hi. apply Hin. by eexists.
    + assert (g_nix g' !! k = g_nix g !! k) as E.
      { destruct (g_nix g !! k0); [by injection Hs as <-|]. inv_ok Hs. injection Hs as <-. simpl. by rewrite lookup_insert_ne. }
      assert (match node_index ops k with Some it0 => Some it0 | None => None end = node_index ops k) as ->
        by (by destruct (node_index ops k)).
      eapply (kseq_ext D k _ _ (node_vals s k) _ (node_prop_order ops k)); [|by apply node_vals_same|].
      * unfold kseq in *. by rewrite E.
      * intros Hin Hne'. destruct (node_index ops k) as [t|]; [|done]. by eapply with_prop_all.
  - unfold add_edge_index in Hs.
    destruct (g_eix g !! _); [injection Hs as <-; by apply Hsame|]. inv_ok Hs. injection Hs as <-. by apply Hsame.
Qed.

Lemma nseq_run (D : value -> Prop) k ops g :
  valid_history ops -> run ops = Ok g -> (forall v, node_filed ops k v -> D v) -> node_scan_safe ops k ->
  kseq D (g_nix g) k (node_index ops k) (node_vals (srun ops) k) (node_prop_order ops k).
Proof.
  revert ops g. apply (history_ind (fun ops g => (forall v, node_filed ops k v -> D v) -> node_scan_safe ops k ->
    kseq D (g_nix g) k (node_index ops k) (node_vals (srun ops) k) (node_prop_order ops k))).
  { intros _ _. done. }
  intros ops g o g' Hv Hr IH Ho Hs HD Hsafe. eapply nseq_step; eauto.
  - intros it ->. eapply (Hsafe ops []). done.
  - apply IH.
    + intros v Hw. apply HD, node_filed_snoc. by left.
    + intros ops1 ops2 it ->. eapply (Hsafe ops1 (ops2 ++ [o])). by rewrite <- app_assoc.
Qed.

Lemma prop_order_scan ops k : node_index ops k = None ->
  node_prop_order ops k = with_prop (node_vals (srun ops) k) (seq 0 (s_next (srun ops))).
Proof.
  destruct ops as [|o ops _] using rev_ind; [done|]. rewrite node_index_snoc, prop_order_snoc, srun_snoc.
  by destruct (node_index ops k).
Qed.
Theorem nodes_with_property_order ops g k :
  valid_history ops -> run ops = Ok g -> node_query_safe ops k ->
  get_nodes_with_property g k = Ok (arranged (node_index ops k) (node_vals (srun ops) k) (node_prop_order ops k)).
Proof.
  intros Hv Hr Hq. unfold node_query_safe in Hq. destruct (node_index ops k) as [it|] eqn:Hi.
  - destruct Hq as [Hst Hsafe]. pose proof (nseq_run _ k ops g Hv Hr (fun v H => H) Hsafe) as Hk. rewrite Hi in Hk.
    apply storable_domain in Hst. destruct (Hk Hst) as (ix & Hix & Ht & (_ & _ & Hval)). unfold get_nodes_with_property.
    by rewrite Hix, Hval, Ht.
  - pose proof (nix_run (fun _ => True) k ops g Hv Hr (fun _ _ => I) (node_index_none_safe _ _ Hi)) as Hk.
    rewrite Hi in Hk. simpl in Hk. unfold get_nodes_with_property. rewrite Hk.
    destruct (get_nodes_ok _ _ Hv Hr Hq) as (xs & -> & Hl). simpl. f_equal.
    rewrite prop_order_scan, <- (nodes_listed ops g k xs Hv Hr Hl) by done. pose proof Hl as [[_ Hin] _].
    pose proof (core_run _ _ Hv Hr) as Hc. apply filter_ext_at. intros n Hn. apply Hin in Hn as [x Hx].
    destruct (read_node _ _ Hc _ _ Hx) as [_ ->]. by rewrite node_vals_lookup, Hx.
Qed.
