(** Proofs about StringSet.v, the NodeSet part of FastSet.v and NodeMap.Iterator. *)
From Verif Require Import Base Value ValueSpec ValueProofs Assoc AssocProofs StringSet FastSet FastSetProofs NodeMap NodeMapProofs GraphSpec ContainerSpec.

(** ** StringSet *)
Lemma sh_puts a xs h : is_Some (sh_maps h !! a) ->
  sh_next (fold_left (sh_put a) xs h) = sh_next h /\
  is_Some (sh_maps (fold_left (sh_put a) xs h) !! a) /\
  (forall b, b <> a -> sh_maps (fold_left (sh_put a) xs h) !! b = sh_maps h !! b) /\
  ss_at (fold_left (sh_put a) xs h) (Some a) = ss_at h (Some a) ∪ list_to_set xs.
Proof.
  revert h; induction xs as [|x xs IH]; intros h [m Hm]; simpl.
  - split; [done|]. split; [eauto|]. split; [done|]. set_solver.
  - destruct (IH (sh_put a h x)) as (H1 & H2 & H3 & H4).
    { unfold sh_put; simpl. rewrite lookup_alter, Hm. simpl. eauto. }
    split; [done|]. split; [done|]. split.
    + intros b Hb. rewrite H3 by done. unfold sh_put; simpl. by rewrite lookup_alter_ne.
    + simpl in H4. rewrite H4. rewrite lookup_alter, Hm. simpl. set_solver.
Qed.

(** what creating a new map and filling it does *)
Definition ss_fresh (h : sheap) (hv : sheap * sset) (X : gset string) : Prop :=
  exists a, hv.2 = Some a /\ a = sh_next h /\ sh_next hv.1 = S (sh_next h) /\
    (forall b, b <> a -> sh_maps hv.1 !! b = sh_maps h !! b) /\ ss_at hv.1 hv.2 = X.

Lemma ss_fill h xs : let '(h1, a) := sh_make h in ss_fresh h (fold_left (sh_put a) xs h1, Some a) (list_to_set xs).
Proof.
  simpl. set (a := sh_next h).
  destruct (sh_puts a xs (SH (<[a := ∅]> (sh_maps h)) (S a))) as (H1 & H2 & H3 & H4).
  { simpl. rewrite lookup_insert. eauto. }
  exists a. cbn [fst snd]. split; [done|]. split; [done|]. split; [by rewrite H1|]. split.
  - intros b Hb. rewrite H3 by done. simpl. by rewrite lookup_insert_ne.
  - rewrite H4. simpl. rewrite lookup_insert. set_solver.
Qed.
Lemma ss_new_ok h ss : ss_fresh h (ss_new h ss) (list_to_set ss).
Proof. apply (ss_fill h ss). Qed.
Lemma order_list X ord : order_of X ord -> list_to_set ord = X.
Proof. intros [_ H]. apply set_eq. intros x. rewrite elem_of_list_to_set. apply H. Qed.
Lemma ss_add_ok h v ord xs : ss_fresh h (ss_add h v ord xs) (list_to_set ord ∪ list_to_set xs).
Proof.
  pose proof (ss_fill h (ord ++ xs)) as H. simpl in H. unfold ss_add. simpl.
  rewrite fold_left_app in H. by rewrite list_to_set_app_L in H.
Qed.
Lemma str_in_ok x ys : str_in x ys = true <-> x ∈ ys.
Proof.
  induction ys as [|y ys IH]; simpl; [set_solver|]. rewrite elem_of_cons.
  destruct (decide (y = x)); [naive_solver|]. rewrite IH. naive_solver.
Qed.
Lemma ss_remove_ok h v ord xs : ss_fresh h (ss_remove h v ord xs) (list_to_set ord ∖ list_to_set xs).
Proof.
  pose proof (ss_fill h (filter (fun x => x ∉ xs) ord)) as H. unfold ss_remove. simpl in *.
  assert (forall a h0, fold_left (fun h x => if str_in x xs then h else sh_put a h x) ord h0 =
    fold_left (sh_put a) (filter (fun x => x ∉ xs) ord) h0) as ->.
  { intros a. clear. induction ord as [|x ord IH]; intros h0; [done|]. rewrite filter_cons. simpl.
    pose proof (str_in_ok x xs) as Hx. destruct (str_in x xs); destruct (decide (x ∉ xs)); simpl; try apply IH.
    - naive_solver.
    - destruct n. intros Hin. by apply Hx in Hin. }
  assert (list_to_set (filter (fun x => x ∉ xs) ord) = (list_to_set ord ∖ list_to_set xs : gset string)) as <-; [|done].
  apply set_eq. intros x. rewrite elem_of_difference, !elem_of_list_to_set, elem_of_list_filter. tauto.
Qed.

Lemma ss_new_at h ss : ss_at (ss_new h ss).1 (ss_new h ss).2 = list_to_set ss.
Proof. by destruct (ss_new_ok h ss) as (a & _ & _ & _ & _ & H). Qed.
Lemma ss_add_at h v ord ss : order_of (ss_at h v) ord ->
  ss_at (ss_add h v ord ss).1 (ss_add h v ord ss).2 = ss_at h v ∪ list_to_set ss.
Proof. intros Ho. destruct (ss_add_ok h v ord ss) as (a & _ & _ & _ & _ & H). by rewrite <- (order_list _ _ Ho). Qed.
Lemma ss_add_set_at h v s ord ord' : order_of (ss_at h v) ord -> order_of (ss_at h s) ord' ->
  ss_at (ss_add h v ord ord').1 (ss_add h v ord ord').2 = ss_at h v ∪ ss_at h s.
Proof.
  intros Ho Ho'. destruct (ss_add_ok h v ord ord') as (a & _ & _ & _ & _ & H).
  by rewrite <- (order_list _ _ Ho), <- (order_list _ _ Ho').
Qed.
Lemma ss_remove_at h v ord ss : order_of (ss_at h v) ord ->
  ss_at (ss_remove h v ord ss).1 (ss_remove h v ord ss).2 = ss_at h v ∖ list_to_set ss.
Proof. intros Ho. destruct (ss_remove_ok h v ord ss) as (a & _ & _ & _ & _ & H). by rewrite <- (order_list _ _ Ho). Qed.

Definition ss_inv (s : ss_state) (sp : ss_spec) : Prop :=
  (forall x a, st_var s !! x = Some (Some a) -> a < sh_next (st_heap s)) /\
  (forall x, ss_view s x = sp x).

Lemma ss_at_other h hv X v : ss_fresh h hv X -> (forall a, v = Some a -> a < sh_next h) -> ss_at hv.1 v = ss_at h v.
Proof.
  intros (a & _ & -> & _ & H & _) Hv. destruct v as [b|]; [|done]. simpl. specialize (Hv b eq_refl).
  rewrite H by lia. done.
Qed.
Lemma st_val_lt s sp x a : ss_inv s sp -> st_val s x = Some a -> a < sh_next (st_heap s).
Proof.
  intros [H _]. unfold st_val. destruct (st_var s !! x) as [[b|]|] eqn:Hx; simpl; try done.
  intros [= <-]. eauto.
Qed.
Lemma ss_put_fresh s sp x hv X : ss_inv s sp -> ss_fresh (st_heap s) hv X ->
  ss_inv (SSt hv.1 (<[x := hv.2]> (st_var s))) (fun y => if decide (y = x) then X else sp y).
Proof.
  intros Hinv Hf. pose proof Hinv as [H1 H2]. pose proof Hf as (a & Ha & Han & Hn & Ho & HX). split.
  - intros y b. simpl. rewrite Hn. destruct (decide (y = x)) as [->|].
    + rewrite lookup_insert, Ha. intros [= <-]. lia.
    + rewrite lookup_insert_ne by done. intros Hb. apply H1 in Hb. lia.
  - intros y. unfold ss_view, st_val. simpl. destruct (decide (y = x)) as [->|].
    + rewrite lookup_insert. done.
    + rewrite lookup_insert_ne by done. rewrite <- H2. eapply ss_at_other; [done|].
      intros b Hb. eapply st_val_lt; done.
Qed.
Lemma ss_put_same s sp x v : ss_inv s sp -> (forall a, v = Some a -> a < sh_next (st_heap s)) ->
  ss_inv (SSt (st_heap s) (<[x := v]> (st_var s))) (fun y => if decide (y = x) then ss_at (st_heap s) v else sp y).
Proof.
  intros [H1 H2] Hv. split.
  - intros y b. simpl. destruct (decide (y = x)) as [->|].
    + rewrite lookup_insert. intros [= ->]. by apply Hv.
    + rewrite lookup_insert_ne by done. apply H1.
  - intros y. unfold ss_view, st_val. simpl. destruct (decide (y = x)) as [->|].
    + by rewrite lookup_insert.
    + rewrite lookup_insert_ne by done. apply H2.
Qed.
Lemma ss_inv_ext s sp sp' : (forall x, sp x = sp' x) -> ss_inv s sp -> ss_inv s sp'.
Proof. intros He [H1 H2]. split; [done|]. intros x. by rewrite H2. Qed.

Lemma ss_step_ok s sp o : ss_inv s sp -> ss_valid sp o -> ss_inv (ss_step s o) (ss_spec_step sp o).
Proof.
  intros Hi Hv. pose proof Hi as [_ Hview]. destruct o as [x|x ss|x y|x y|x ord ss|x y ord ord'|x ord ss]; simpl in *.
  - apply (ss_put_same s sp x None Hi). done.
  - apply (ss_put_fresh s sp x (ss_new (st_heap s) ss)); [done|]. apply ss_new_ok.
  - eapply ss_inv_ext; [|apply (ss_put_same s sp x (st_val s y) Hi); intros a; by eapply st_val_lt].
    intros z. simpl. destruct (decide (z = x)); [|done]. apply Hview.
  - eapply ss_inv_ext; [|apply (ss_put_same s sp x (st_val s y) Hi); intros a; by eapply st_val_lt].
    intros z. simpl. destruct (decide (z = x)); [|done]. apply Hview.
  - rewrite <- (order_list _ _ Hv). apply (ss_put_fresh s sp x (ss_add (st_heap s) (st_val s x) ord ss)); [done|]. apply ss_add_ok.
  - destruct Hv as [Hv1 Hv2]. rewrite <- (order_list _ _ Hv1), <- (order_list _ _ Hv2).
    apply (ss_put_fresh s sp x (ss_add (st_heap s) (st_val s x) ord ord')); [done|]. apply ss_add_ok.
  - rewrite <- (order_list _ _ Hv). apply (ss_put_fresh s sp x (ss_remove (st_heap s) (st_val s x) ord ss)); [done|]. apply ss_remove_ok.
Qed.
Lemma ss_run_ok ops x : ss_history ops -> ss_view (ss_run ops) x = ss_spec_run ops x.
Proof.
  intros Hv. cut (ss_inv (ss_run ops) (ss_spec_run ops)); [intros [_ H]; apply H|].
  unfold ss_run, ss_spec_run. unfold ss_history in Hv.
  assert (ss_inv st_empty (fun _ => ∅)) as Hi.
  { split; [done|]. intros y. done. }
  revert Hi Hv. generalize st_empty as s. generalize (fun _ : nat => (∅ : gset string)) as sp.
  induction ops as [|o ops IH]; intros sp s Hi Hv; simpl; [done|]. simpl in Hv. destruct Hv as [Hv1 Hv2]. apply IH; [|done].
  by apply ss_step_ok.
Qed.
Lemma ss_valid_from_app sp ops ops' :
  ss_valid_from sp (ops ++ ops') <-> ss_valid_from sp ops /\ ss_valid_from (fold_left ss_spec_step ops sp) ops'.
Proof. revert sp; induction ops as [|o ops IH]; intros sp; simpl; [tauto|]. rewrite IH. tauto. Qed.
Lemma ss_spec_frame sp o x : x <> ss_target o -> ss_spec_step sp o x = sp x.
Proof. destruct o; simpl; intros H; destruct (decide _); done. Qed.
Lemma ss_frame ops o x : ss_history (ops ++ [o]) -> x <> ss_target o ->
  ss_view (ss_run (ops ++ [o])) x = ss_view (ss_run ops) x.
Proof.
  intros Hv Hx. rewrite (ss_run_ok _ _ Hv). rewrite ss_run_ok.
  - unfold ss_spec_run. rewrite fold_left_app. simpl. by apply ss_spec_frame.
  - unfold ss_history in *. by apply ss_valid_from_app in Hv as [? _].
Qed.

(** queries *)
Lemma ss_has_ok h v x : ss_has h v x = bool_decide (x ∈ ss_at h v).
Proof. done. Qed.
Lemma ss_has_any_ok h v xs : ss_has_any h v xs = true <-> exists x, x ∈ xs /\ x ∈ ss_at h v.
Proof.
  induction xs as [|x xs IH]; simpl; [set_solver|]. case_bool_decide; [set_solver|]. rewrite IH. set_solver.
Qed.
Lemma ss_has_all_ok h v xs : ss_has_all h v xs = true <-> forall x, x ∈ xs -> x ∈ ss_at h v.
Proof.
  induction xs as [|x xs IH]; simpl; [set_solver|]. case_bool_decide; [|set_solver]. rewrite IH. set_solver.
Qed.
Lemma ss_has_any_set_ok h v s ord : order_of (ss_at h s) ord ->
  ss_has_any h v ord = true <-> ~ ss_at h v ## ss_at h s.
Proof.
  intros [_ Ho]. rewrite ss_has_any_ok. split.
  - intros (x & H1 & H2) Hd. apply (Hd x); [done|]. by apply Ho.
  - intros Hd. assert (exists x, x ∈ ss_at h v ∩ ss_at h s) as [x Hx].
    { apply set_choose_L. intros He. apply Hd. by apply disjoint_intersection_L. }
    exists x. rewrite Ho. set_solver.
Qed.
Lemma ss_has_all_set_ok h v s ord : order_of (ss_at h s) ord ->
  ss_has_all h v ord = true <-> ss_at h s ⊆ ss_at h v.
Proof. intros [_ Ho]. rewrite ss_has_all_ok. split; intros H x Hx; apply H; by apply Ho. Qed.
Lemma ss_is_equal_ok h v s ord : order_of (ss_at h s) ord ->
  ss_is_equal h v s ord = true <-> ss_at h v = ss_at h s.
Proof.
  intros Ho. unfold ss_is_equal, ss_len. destruct (decide (size (ss_at h v) = size (ss_at h s))) as [He|He].
  - rewrite (ss_has_all_set_ok h v s ord Ho). split; [|intros ->; done]. intros Hs.
    destruct (decide (ss_at h v ⊆ ss_at h s)) as [Hs'|Hs']; [set_solver|].
    pose proof (subset_size (ss_at h s) (ss_at h v) (conj Hs Hs')). lia.
  - split; [done|]. intros Heq. by rewrite Heq in He.
Qed.
Lemma ss_slice_acc ord acc : fold_left (fun ret (k : string) => ret ++ [k]) ord acc = acc ++ ord.
Proof. revert acc; induction ord as [|x ord IH]; intros acc; simpl; [by rewrite app_nil_r|]. rewrite IH. by rewrite <- app_assoc. Qed.
Lemma ss_slice_ok ord : ss_slice ord = ord.
Proof. unfold ss_slice. by rewrite ss_slice_acc. Qed.
Lemma ss_len_ok h v ord : order_of (ss_at h v) ord -> ss_len h v = length (ss_slice ord).
Proof.
  intros Ho. rewrite ss_slice_ok. unfold ss_len. rewrite <- (order_list _ _ Ho). destruct Ho as [Hn _].
  by apply size_list_to_set.
Qed.

Lemma ss_slice_len h v ord :
  order_of (ss_at h v) ord -> order_of (ss_at h v) (ss_slice ord) /\ ss_len h v = length (ss_slice ord).
Proof. intros Ho. split; [by rewrite ss_slice_ok|by apply ss_len_ok]. Qed.
Lemma str_insert_perm x l : str_insert x l ≡ₚ x :: l.
Proof.
  induction l as [|y l IH]; simpl; [done|]. destruct (str_cmp x y); [done|done|].
  rewrite IH. apply perm_swap.
Qed.
Lemma str_sort_perm l : str_sort l ≡ₚ l.
Proof. induction l as [|x l IH]; simpl; [done|]. unfold str_sort in *. simpl. rewrite str_insert_perm, IH. done. Qed.
Lemma str_insert_sorted x l : x ∉ l -> StronglySorted bytes_lt l -> StronglySorted bytes_lt (str_insert x l).
Proof.
  intros Hx Hs. induction Hs as [|y l Hs IH Hall]; simpl; [repeat constructor|].
  apply not_elem_of_cons in Hx as [Hxy Hx]. destruct (str_cmp x y) eqn:Hc.
  - apply str_cmp_eq in Hc. done.
  - apply str_cmp_lt_bytes in Hc. constructor; [by constructor|]. constructor; [done|].
    eapply Forall_impl; [exact Hall|]. intros z Hz. apply str_cmp_lt_bytes. apply str_cmp_lt_bytes in Hc, Hz.
    by eapply str_cmp_trans_lt.
  - constructor; [by apply IH|]. apply Forall_forall. intros z Hz. rewrite str_insert_perm in Hz.
    apply elem_of_cons in Hz as [->|Hz].
    + apply str_cmp_lt_bytes. rewrite str_cmp_opp, Hc. done.
    + by eapply Forall_forall in Hall.
Qed.
Lemma str_sort_sorted l : NoDup l -> StronglySorted bytes_lt (str_sort l).
Proof.
  induction l as [|x l IH]; intros Hn; [constructor|]. apply NoDup_cons in Hn as [Hx Hn].
  unfold str_sort in *. simpl. apply str_insert_sorted; [|by apply IH]. by rewrite (str_sort_perm l).
Qed.
Lemma ss_sorted_ok X ord : order_of X ord -> order_of X (ss_sorted ord) /\ StronglySorted bytes_lt (ss_sorted ord).
Proof.
  intros [Hn Ho]. unfold ss_sorted. rewrite ss_slice_ok. split; [|by apply str_sort_sorted]. split.
  - by rewrite str_sort_perm.
  - intros x. by rewrite str_sort_perm.
Qed.

(** ** NodeSet, EdgeSet *)
Section idset.
  Context {N : Type} `{EqDecision N} (nid : N -> nat).
  Definition tag (x : N) : nat * N := (nid x, x).
  Lemma tag_fst xs : (map tag xs).*1 = map nid xs.
  Proof. induction xs as [|x xs IH]; csimpl; [done|]. by rewrite <- IH. Qed.
  Lemma tag_snd xs : (map tag xs).*2 = xs.
  Proof. induction xs as [|x xs IH]; csimpl; [done|]. by rewrite IH. Qed.

  Lemma is_run_ok (ops : list (@is_op N)) :
    (forall x y, x ∈ map is_arg ops -> y ∈ map is_arg ops -> nid x = nid y -> x = y) ->
    fs_rep (is_run nid ops) (map tag (is_spec_run ops)) /\ forall x, x ∈ is_spec_run ops -> x ∈ map is_arg ops.
  Proof.
    unfold is_run, is_spec_run. induction ops as [|o ops IH] using rev_ind; intros Hinj.
    { simpl. split; [apply fs_rep_new|done]. }
    rewrite !fold_left_app. simpl. destruct IH as [IH1 IH2].
    { intros x y Hx Hy. apply Hinj; rewrite map_app; set_solver. }
    set (l := fold_left is_spec_step ops []) in *. set (f := fold_left (is_step nid) ops fs_new) in *.
    assert (forall x, x ∈ l -> nid x = nid (is_arg o) -> x = is_arg o) as Hin.
    { intros x Hx. apply Hinj; rewrite map_app; [|simpl; set_solver]. apply elem_of_app. left. by apply IH2. }
    assert (is_arg o ∈ l <-> nid (is_arg o) ∈ (map tag l).*1) as Hmem.
    { rewrite tag_fst. split; [intros; apply elem_of_list_fmap; eauto|].
      intros (x & Hx & Hxl)%elem_of_list_fmap. by rewrite <- (Hin x Hxl). }
    split.
    - destruct o as [x|x]; simpl in *.
      + destruct (decide (x ∈ l)) as [Hx|Hx].
        * rewrite (fs_add_old _ _ _ _ IH1); [done|]. by apply Hmem.
        * rewrite map_app. apply fs_add_new; [done|]. by rewrite <- Hmem.
      + destruct (fs_remove_ok _ _ (nid x) IH1) as [_ Hr].
        assert (map tag (filter (fun y => y <> x) l) = fs_without (map tag l) (nid x)) as ->; [|done].
        clear - Hin. unfold fs_without. induction l as [|y l IHl]; [done|].
        rewrite filter_cons. simpl. rewrite filter_cons. simpl.
        assert (nid y = nid x <-> y = x) as Hyx. { split; [apply Hin; set_solver|congruence]. }
        destruct (decide (y <> x)), (decide (nid y <> nid x)); simpl; try (exfalso; tauto);
          rewrite IHl; try done; intros z Hz; apply Hin; set_solver.
    - intros x Hx. rewrite map_app. apply elem_of_app. destruct o as [y|y]; simpl in *.
      + destruct (decide (y ∈ l)); [left; by apply IH2|]. apply elem_of_app in Hx as [Hx|Hx]; [left; by apply IH2|].
        right. set_solver.
      + apply elem_of_list_filter in Hx as [_ Hx]. left. by apply IH2.
  Qed.

  Lemma is_exact (ops : list (@is_op N)) x :
    (forall x y, x ∈ map is_arg ops -> y ∈ map is_arg ops -> nid x = nid y -> x = y) ->
    is_slice (is_run nid ops) = is_spec_run ops /\
    is_len (is_run nid ops) = length (is_spec_run ops) /\
    (x ∈ map is_arg ops -> is_has nid (is_run nid ops) x = bool_decide (x ∈ is_spec_run ops)).
  Proof.
    intros Hinj. destruct (is_run_ok ops Hinj) as [H1 H2]. split; [|split].
    - unfold is_slice. rewrite (fs_iter_ok _ _ H1). apply tag_snd.
    - unfold is_len. rewrite (fs_size_ok _ _ H1). by rewrite map_length.
    - intros Hx. unfold is_has. rewrite (fs_has_ok _ _ _ H1). apply bool_decide_ext. rewrite tag_fst. split.
      + intros (y & Hy & Hyl)%elem_of_list_fmap. rewrite (Hinj x y); auto.
      + intros. apply elem_of_list_fmap; eauto.
  Qed.
  Lemma is_spec_NoDup (ops : list (@is_op N)) : NoDup (is_spec_run ops).
  Proof.
    unfold is_spec_run. induction ops as [|o ops IH] using rev_ind; [constructor|].
    rewrite fold_left_app. simpl. destruct o as [x|x]; simpl.
    - destruct (decide _) as [|Hx]; [done|]. apply NoDup_app. split; [done|]. split; [set_solver|apply NoDup_singleton].
    - by apply NoDup_filter.
  Qed.
End idset.

(** ** NodeMap *)
Definition nm_inv (s : nm_state) (L : gmap nat (gset string)) : Prop :=
  ns_labels s = L /\ lab_wf (nm_m (ns_map s)) /\
  (forall l n, in_lab (nm_m (ns_map s)) l n <-> exists X, L !! n = Some X /\ l ∈ X) /\
  exists xs, ns_rep (nm_nolabels (ns_map s)) xs /\ forall n, n ∈ xs <-> L !! n = Some ∅.

Lemma nm_step_ok s L o : nm_inv s L -> nm_valid L o -> nm_keeps L o -> nm_inv (nm_step s o) (nm_spec_step L o).
Proof.
  intros (HL & Hwf & Hin & xs & Hxs & Hno) Hv Hk.
  assert (forall n, ns_label_of s n = default ∅ (L !! n)) as Hof by (intros; unfold ns_label_of; by rewrite HL).
  destruct o as [n labels ord|n new ordo ordn|n ord]; simpl in *.
  - destruct Hv as [Ho Hn]. destruct (nm_add_lab _ n _ _ Hwf Ho) as [H1 H2].
    split; [simpl; by rewrite HL|]. split; [done|]. split.
    + intros l m. cbn [ns_map]. rewrite H2, Hin. destruct (decide (m = n)) as [->|Hmn].
      * rewrite lookup_insert. split.
        -- intros [(X & HX & Hl)|[Hl _]]; [|eauto]. destruct Hn as [Hn|Hn]; rewrite Hn in HX; [done|].
           injection HX as <-. eauto.
        -- intros (X & [= <-] & Hl). auto.
      * rewrite lookup_insert_ne by done. naive_solver.
    + cbn [ns_map]. unfold nm_add. destruct (decide (labels = ∅)) as [->|Hne]; cbn [nm_nolabels].
      * eexists. split; [by apply ns_add|]. intros m. destruct (decide (m = n)) as [->|Hmn].
        -- rewrite lookup_insert. destruct (decide (n ∈ xs)); set_solver.
        -- rewrite lookup_insert_ne by done. rewrite <- Hno. destruct (decide (n ∈ xs)); set_solver.
      * exists xs. split; [done|]. intros m. rewrite Hno. destruct (decide (m = n)) as [->|Hmn].
        -- rewrite lookup_insert. destruct Hn as [Hn|Hn]; rewrite Hn; naive_solver.
        -- by rewrite lookup_insert_ne.
  - destruct Hv as [Hon (old & Hold & Hoo)]. rewrite Hof, Hold. cbn [default]. simpl.
    destruct (nm_replace_lab _ n _ _ _ _ Hwf Hoo Hon) as [H1 H2].
    split; [simpl; by rewrite HL|]. split; [done|]. split.
    + intros l m. cbn [ns_map]. rewrite H2, Hin. destruct (decide (m = n)) as [->|Hmn].
      * rewrite lookup_insert, Hold. split.
        -- intros [[(X & [= <-] & Hl) Hx]|[_ Hl]].
           ++ exists new. split; [done|]. destruct (decide (l ∈ new)); [done|]. destruct Hx. split; [done|]. split; [set_solver|].
              intros He. specialize (Hk He). rewrite Hold in Hk. injection Hk as ->. set_solver.
           ++ exists new. split; [done|]. set_solver.
        -- intros (X & [= <-] & Hl). destruct (decide (l ∈ old)) as [Hlo|Hlo]; [left|right].
           ++ split; [eauto|]. set_solver.
           ++ set_solver.
      * rewrite lookup_insert_ne by done. naive_solver.
    + cbn [ns_map]. unfold nm_replace. destruct (decide (old = ∅ /\ new = ∅)) as [[-> ->]|Hne].
      { exists xs. split; [done|]. intros m. rewrite Hno. destruct (decide (m = n)) as [->|]; [by rewrite lookup_insert, Hold|by rewrite lookup_insert_ne]. }
      destruct (decide (new = ∅)) as [->|Hnew].
      { specialize (Hk eq_refl). rewrite Hold in Hk. injection Hk as ->. tauto. }
      cbn [nm_nolabels]. destruct (decide (old = ∅)) as [->|Hold'].
      * eexists. split; [by apply ns_remove|]. intros m. rewrite elem_of_list_filter, Hno.
        destruct (decide (m = n)) as [->|]; [rewrite lookup_insert|rewrite lookup_insert_ne by done]; naive_solver.
      * exists xs. split; [done|]. intros m. rewrite Hno. destruct (decide (m = n)) as [->|].
        -- rewrite lookup_insert, Hold. naive_solver.
        -- by rewrite lookup_insert_ne.
  - destruct Hv as (old & Hold & Hoo). rewrite Hof, Hold. cbn [default]. simpl.
    destruct (nm_remove_lab _ n _ _ Hwf Hoo) as [H1 H2].
    split; [simpl; by rewrite HL|]. split; [done|]. split.
    + intros l m. cbn [ns_map]. rewrite H2, Hin. destruct (decide (m = n)) as [->|Hmn].
      * rewrite lookup_delete, Hold. naive_solver.
      * rewrite lookup_delete_ne by done. naive_solver.
    + cbn [ns_map]. unfold nm_remove. destruct (decide (old = ∅)) as [->|Hne]; cbn [nm_nolabels].
      * eexists. split; [by apply ns_remove|]. intros m. rewrite elem_of_list_filter, Hno.
        destruct (decide (m = n)) as [->|]; [rewrite lookup_delete|rewrite lookup_delete_ne by done]; naive_solver.
      * exists xs. split; [done|]. intros m. rewrite Hno. destruct (decide (m = n)) as [->|].
        -- rewrite lookup_delete, Hold. naive_solver.
        -- by rewrite lookup_delete_ne.
Qed.
Lemma nm_run_inv ops : nm_history ops -> nm_keeps_from ∅ ops -> nm_inv (nm_run ops) (nm_spec_run ops).
Proof.
  unfold nm_history, nm_run, nm_spec_run. assert (nm_inv (NMS nm_new ∅) ∅) as Hi.
  { split; [done|]. split; [split; [constructor|done]|]. split.
    - intros l n. simpl. split; [intros (f & [=] & _)|]. intros (X & HX & _). by rewrite lookup_empty in HX.
    - exists []. split; [apply ns_rep_new|]. intros n. rewrite lookup_empty. set_solver. }
  revert Hi. generalize (NMS nm_new ∅) as s. generalize (∅ : gmap nat (gset string)) as L.
  induction ops as [|o ops IH]; intros L s Hi Hv Hk; simpl in *; [done|].
  destruct Hv as [Hv1 Hv2], Hk as [Hk1 Hk2]. apply IH; try done. by apply nm_step_ok.
Qed.

(** the number of seen labels a node has *)
Lemma nm_iter_lab_ok (lof : nat -> gset string) (m : list (string * fastset nat)) seen :
  NoDup (seen ++ m.*1) ->
  (forall l f, (l, f) ∈ m -> exists xs, ns_rep f xs /\ xs <> [] /\ forall n, n ∈ xs -> l ∈ lof n) ->
  (forall n l f, (l, f) ∈ m -> l ∈ lof n -> (exists l' f', (l', f') ∈ m /\ fs_has f' n = true) -> fs_has f n = true) ->
  exists ys, nm_iter_lab lof seen m = Ok ys /\ NoDup ys /\
    forall n, n ∈ ys <-> n_seen lof seen n = 0 /\ exists l f, (l, f) ∈ m /\ fs_has f n = true.
Proof.
  revert seen. induction m as [|[l f] m IH]; intros seen Hnd Hm Hall; simpl.
  { exists []. split; [done|]. split; [constructor|]. set_solver. }
  destruct (Hm l f) as (xs & Hxs & Hne & Hlof); [left|].
  assert (n_seen_snoc : forall n, n_seen lof (seen ++ [l]) n = n_seen lof seen n + if decide (l ∈ lof n) then 1 else 0).
  { intros n. unfold n_seen. rewrite filter_app, app_length. f_equal. rewrite filter_cons. by destruct (decide (l ∈ lof n)). }
  destruct (IH (seen ++ [l])) as (ys & Hys & Hnys & Hinys).
  { rewrite <- app_assoc. done. }
  { intros l' f' H. apply Hm. by right. }
  { intros n l' f' H1 H2 (l'' & f'' & H3 & H4). eapply Hall; [by right|done|]. exists l'', f''. split; [by right|done]. }
  rewrite (ns_iter _ _ Hxs). destruct xs as [|x0 xs0] eqn:Hxe; [done|]. rewrite <- Hxe in *. rewrite Hys. simpl.
  assert (match xs with [] => Panic | _ => Ok (filter (fun n => n_seen lof (seen ++ [l]) n <= 1) xs ++ ys) end
          = Ok (filter (fun n => n_seen lof (seen ++ [l]) n <= 1) xs ++ ys)) as Hmatch by (by rewrite Hxe).
  exists (filter (fun n => n_seen lof (seen ++ [l]) n <= 1) xs ++ ys). split; [by subst xs|]. clear Hmatch.
  assert (forall n, n ∈ xs <-> fs_has f n = true) as Hxf.
  { intros n. rewrite (ns_has _ _ _ Hxs). by rewrite bool_decide_eq_true. }
  split.
  - apply NoDup_app. split; [apply NoDup_filter; by eapply ns_rep_NoDup|]. split; [|done].
    intros n [_ Hn]%elem_of_list_filter. rewrite Hinys. intros [H0 _]. rewrite n_seen_snoc in H0.
    specialize (Hlof n Hn). destruct (decide (l ∈ lof n)); [lia|done].
  - intros n. rewrite elem_of_app, elem_of_list_filter, Hinys, n_seen_snoc. split.
    + intros [[Hle Hn]|[H0 (l' & f' & H1 & H2)]].
      * specialize (Hlof n Hn). destruct (decide (l ∈ lof n)); [|done]. split; [lia|]. exists l, f. split; [left|]. by apply Hxf.
      * split; [lia|]. exists l', f'. split; [by right|done].
    + intros [H0 (l' & f' & H1 & H2)]. destruct (decide (l ∈ lof n)) as [Hl|Hl].
      * left. split; [lia|]. apply Hxf. eapply Hall; [left|done|]. eauto.
      * right. split; [lia|]. apply elem_of_cons in H1 as [[= -> ->]|H1]; [|eauto].
        apply Hxf in H2. by apply Hlof in H2.
Qed.

Lemma nm_iter_ok s L : nm_inv s L -> exists xs, nm_iter (ns_label_of s) (ns_map s) = Ok xs /\ lists (fun n => is_Some (L !! n)) xs.
Proof.
  intros (HL & [Hnd Hwf] & Hin & xs & Hxs & Hno). unfold nm_iter.
  assert (forall n, ns_label_of s n = default ∅ (L !! n)) as Hof by (intros; unfold ns_label_of; by rewrite HL).
  assert (forall l f n, (l, f) ∈ nm_m (ns_map s) -> fs_has f n = true <-> exists X, L !! n = Some X /\ l ∈ X) as Hlf.
  { intros l f n Hf. rewrite <- Hin. unfold in_lab. apply bk_get_elem in Hf; [|done]. rewrite Hf. naive_solver. }
  destruct (nm_iter_lab_ok (ns_label_of s) (nm_m (ns_map s)) []) as (ys & Hys & Hnys & Hinys).
  - done.
  - intros l f Hf. destruct (Hwf l f) as (zs & Hzs & Hne); [by apply bk_get_elem|]. exists zs. split; [done|]. split; [done|].
    intros n Hn. assert (fs_has f n = true) as Hh by (rewrite (ns_has _ _ _ Hzs); by apply bool_decide_eq_true).
    apply (Hlf l f n Hf) in Hh as (X & HX & Hl). by rewrite Hof, HX.
  - intros n l f Hf Hl _. apply (Hlf l f n Hf). rewrite Hof in Hl. destruct (L !! n) as [X|]; simpl in Hl; [eauto|set_solver].
  - rewrite Hys. simpl. rewrite (ns_iter _ _ Hxs). eexists. split; [done|]. split.
    + apply NoDup_app. split; [done|]. split; [|by eapply ns_rep_NoDup]. intros n. rewrite Hinys, Hno.
      intros [_ (l & f & Hf & Hh)]. apply (Hlf l f n Hf) in Hh as (X & -> & Hl). intros [= ->]. set_solver.
    + intros n. rewrite elem_of_app, Hinys, Hno. split.
      * intros [[_ (l & f & Hf & Hh)]|Hn]; [|by eexists]. apply (Hlf l f n Hf) in Hh as (X & -> & Hl). eauto.
      * intros [X HX]. destruct (decide (X = ∅)) as [->|Hne]; [by right|left]. split; [done|].
        apply set_choose_L in Hne as [l Hl]. assert (in_lab (nm_m (ns_map s)) l n) as (f & Hf & Hh) by (apply Hin; eauto).
        exists l, f. split; [by apply bk_get_Some_elem|done].
Qed.
Lemma nm_iter_run ops : nm_history ops -> nm_keeps_from ∅ ops ->
  exists xs, nm_iter (ns_label_of (nm_run ops)) (ns_map (nm_run ops)) = Ok xs /\
    lists (fun n => is_Some (nm_spec_run ops !! n)) xs.
Proof. intros Hv Hk. by apply nm_iter_ok, nm_run_inv. Qed.
Lemma nm_is_empty_run ops : nm_history ops -> nm_keeps_from ∅ ops ->
  nm_is_empty (ns_map (nm_run ops)) = true <-> forall n X, nm_spec_run ops !! n = Some X -> X = ∅.
Proof.
  intros Hv Hk. destruct (nm_run_inv ops Hv Hk) as (HL & [Hnd Hwf] & Hin & _). unfold nm_is_empty. rewrite bool_decide_eq_true. split.
  - intros He n X HX. destruct (decide (X = ∅)) as [|Hne]; [done|]. apply set_choose_L in Hne as [l Hl].
    assert (in_lab (nm_m (ns_map (nm_run ops))) l n) as (f & Hf & _) by (apply Hin; eauto). by rewrite He in Hf.
  - intros Hall. destruct (nm_m (ns_map (nm_run ops))) as [|[l f] m] eqn:Hm; [done|].
    destruct (Hwf l f) as (xs & Hxs & Hne); [simpl; by rewrite decide_True|]. destruct xs as [|n xs]; [done|].
    assert (in_lab ((l, f) :: m) l n) as Hl.
    { exists f. split; [simpl; by rewrite decide_True|]. rewrite (ns_has _ _ _ Hxs). apply bool_decide_eq_true. left. }
    apply Hin in Hl as (X & HX & Hl). rewrite (Hall _ _ HX) in Hl. set_solver.
Qed.
