(** The order of FindNodes and FindEdges. *)
From Verif Require Import Base Value ValueProofs FastSet FastSetProofs NodeMap NodeMapProofs Index IndexProofs Graph GraphSpec Find.
From Verif Require Import CoreProofs CoreStep AdjProofs ReadProofs NodeListProofs EdgeListProofs IndexGraphProofs HashLiveProofs FindProofs.
From Verif Require Import OrderSpec OrderProofs OrderGraphProofs OrderRunProofs QueryOrderSpec LabelOrderProofs IndexOrderProofs QueryOrderProofs QueryEdgeOrderProofs FindOrderSpec.

(** ** The list elements of a hash index ascend *)
Definition below (m : nat) (xs : list nat) : Prop := StronglySorted lt xs /\ Forall (fun x => x < m) xs.
Definition h_sorted (ix : index) : Prop :=
  match ix with
  | IBtree _ => True
  | IHash vals els fresh => below fresh els.*1 /\ Forall (fun p => below fresh (fs_iter p.2)) vals
  end.
Lemma below_S m xs : below m xs -> below (S m) xs.
Proof. intros [H1 H2]. split; [done|]. eapply Forall_impl; [exact H2|]. simpl. lia. Qed.
Lemma below_snoc m xs : below m xs -> below (S m) (xs ++ [m]).
Proof.
  intros [H1 H2]. split.
  - apply sorted_snoc; [done|]. intros y Hy. rewrite Forall_forall in H2. by apply H2.
  - apply Forall_app. split; [by apply (below_S m xs)|]. repeat constructor.
Qed.
Lemma below_sub {A} m (f : A -> nat) (P : A -> Prop) `{!forall x, Decision (P x)} (l : list A) : below m (f <$> l) -> below m (f <$> filter P l).
Proof.
  intros [H1 H2]. induction l as [|x l IH]; [done|]. csimpl in *. apply StronglySorted_inv in H1 as [H1 Hx].
  apply Forall_cons in H2 as [H2 H3]. destruct (IH H1 H3) as [H4 H5]. rewrite filter_cons. destruct (decide (P x)); [|done].
  csimpl. split; [constructor; [done|]|by constructor]. rewrite Forall_forall in Hx |- *. intros y (z & -> & Hz)%elem_of_list_fmap.
  apply elem_of_list_filter in Hz as [_ Hz]. apply Hx. apply elem_of_list_fmap. eauto.
Qed.
Lemma h_put_Forall P t k s : Forall P t -> (forall k', P (k', s)) -> Forall P (h_put t k s).
Proof.
  intros Ht Hs. induction Ht as [|[k0 s0] t H Ht IH]; simpl; [by repeat constructor|].
  destruct (decide (k = k0)); by constructor.
Qed.
Lemma h_get_Forall (P : fastset nat -> Prop) t k s : Forall (fun p => P p.2) t -> h_get t k = Some s -> P s.
Proof.
  induction 1 as [|[k0 s0] t H Ht IH]; simpl; [done|]. destruct (decide (k = k0)); [|done]. by intros [= <-].
Qed.
Lemma sorted_new it : h_sorted (ix_new it).
Proof. destruct it; [done|]. repeat constructor. Qed.
Lemma sorted_add ix v id ix' : ix_add ix v id = Ok ix' -> h_sorted ix -> h_sorted ix'.
Proof.
  destruct ix as [ot|vals els fresh]; cbn [ix_add].
  { intros H _. by apply rbind_Ok_inv in H as (o & _ & [= <-]). }
  destruct (hashable (hkey v)); [|done]. intros [= <-] [H1 H2]. cbn [h_sorted]. rewrite fmap_app. split; [by apply below_snoc|].
  assert (Forall (fun p : value * fastset nat => below (S fresh) (fs_iter p.2)) vals) as H3
    by (eapply Forall_impl; [exact H2|]; intros p; apply below_S).
  apply h_put_Forall; [done|]. intros k'. cbn [snd].
  assert (below fresh (fs_iter (match h_get vals (hkey v) with Some s => s | None => fs_new end))) as Hs.
  { destruct (h_get vals (hkey v)) as [s|] eqn:E; [|repeat constructor]. exact (h_get_Forall (fun s => below fresh (fs_iter s)) _ _ _ H2 E). }
  unfold fs_add. destruct (fs_m _ !! id); cbn [fst]; [by apply below_S|]. unfold fs_iter. cbn [fs_l]. rewrite fmap_app.
  by apply below_snoc.
Qed.
Lemma sorted_remove ix v id ix' : ix_remove ix v id = Ok ix' -> h_sorted ix -> h_sorted ix'.
Proof.
  destruct ix as [[t|]|vals els fresh]; cbn [ix_remove].
  { intros H _. apply rbind_Ok_inv in H as (o & _ & H). destruct o as [s|]; [destruct (decide _)|]; by injection H as <-. }
  { by intros [= <-]. }
  destruct (decide (fresh = 0)); [by intros [= <-]|]. destruct (hashable (hkey v)); [|done].
  destruct (h_get vals (hkey v)) as [s|] eqn:E; [|by intros [= <-]]. destruct (fs_get s id) as [h|]; [|by intros [= <-]].
  intros [= <-] [H1 H2]. cbn [h_sorted]. split; [by apply below_sub|]. apply h_put_Forall; [done|]. intros k'. cbn [snd].
  pose proof (h_get_Forall (fun s => below fresh (fs_iter s)) _ _ _ H2 E) as Hs. simpl in Hs.
  unfold fs_remove. destruct (fs_m s !! id); [|done]. unfold fs_iter. cbn [fst fs_l]. by apply below_sub.
Qed.
Lemma sorted_NoDup xs : StronglySorted lt xs -> NoDup xs.
Proof.
  induction 1 as [|x xs H IH Hx]; constructor; [|done]. rewrite Forall_forall in Hx. intros Hin%Hx. lia.
Qed.
Definition all_sorted (ixs : gmap string index) : Prop := forall k ix, ixs !! k = Some ix -> h_sorted ix.
Lemma all_sorted_loop f (p : props) ixs ixs' : (forall ix v ix', f ix v = Ok ix' -> h_sorted ix -> h_sorted ix') ->
  ixs_loop f ixs (map_to_list p) = Ok ixs' -> all_sorted ixs -> all_sorted ixs'.
Proof.
  intros Hf Hl Ha k ix' Hk. pose proof (props_loop_key f _ _ _ k Hl) as H.
  destruct (ixs !! k) as [ix|] eqn:E; [|congruence]. destruct (p !! k) as [v|].
  - destruct H as (ix1 & H1 & H2). assert (ix1 = ix') as -> by congruence. eapply Hf; [exact H1|]. by eapply Ha.
  - assert (ix = ix') as -> by congruence. by eapply Ha.
Qed.
Lemma all_sorted_add ixs p id ixs' : ixs_add ixs p id = Ok ixs' -> all_sorted ixs -> all_sorted ixs'.
Proof. apply (all_sorted_loop (fun ix v => ix_add ix v id)). intros ix v ix'. apply sorted_add. Qed.
Lemma all_sorted_remove ixs p id ixs' : ixs_remove ixs p id = Ok ixs' -> all_sorted ixs -> all_sorted ixs'.
Proof. apply (all_sorted_loop (fun ix v => ix_remove ix v id)). intros ix v ix'. apply sorted_remove. Qed.
Lemma all_sorted_update ixs k old new id ixs' : ix_update ixs k old new id = Ok ixs' -> all_sorted ixs -> all_sorted ixs'.
Proof.
  unfold ix_update. intros Hu Ha. destruct (ixs !! k) as [ix|] eqn:E; [|by injection Hu as <-].
  apply rbind_Ok_inv in Hu as (ix1 & H1 & Hu). apply rbind_Ok_inv in Hu as (ix2 & H2 & [= <-]).
  assert (h_sorted ix1) as Hs1. { destruct old; [eapply sorted_remove; [exact H1|]|injection H1 as <-]; by eapply Ha. }
  assert (h_sorted ix2) as Hs2. { destruct new; [by eapply sorted_add|by injection H2 as <-]. }
  intros k' ix' [[_ <-]|[_ H]]%lookup_insert_Some; [done|by eapply Ha].
Qed.
Lemma scan_sorted {A} (f : index -> A -> res index) xs : (forall ix x ix', f ix x = Ok ix' -> h_sorted ix -> h_sorted ix') ->
  forall ix ix', rfold f xs ix = Ok ix' -> h_sorted ix -> h_sorted ix'.
Proof.
  intros Hf. induction xs as [|x xs IH]; intros ix ix' H Hs; cbn [rfold] in H; [by injection H as <-|].
  apply rbind_Ok_inv in H as (ix1 & H1 & H). eapply IH; [exact H|]. by eapply Hf.
Qed.
Lemma all_sorted_step ops g o g' : valid_history ops -> run ops = Ok g -> valid (srun ops) o -> step g o = Ok g' ->
  all_sorted (g_nix g) /\ all_sorted (g_eix g) -> all_sorted (g_nix g') /\ all_sorted (g_eix g').
Proof.
  intros Hv Hr Ho Hs [Hn He]. pose proof (core_run _ _ Hv Hr) as Hc.
  pose proof (step_nix _ _ _ Hs) as H1. pose proof (step_eix _ _ _ _ Hc Ho Hs) as H2.
  assert (forall l ixs ixs', rfold (fun ixs e => match g_edges g !! e with Some ed => ixs_remove ixs (e_props ed) e | None => Panic end) l ixs = Ok ixs' ->
    all_sorted ixs -> all_sorted ixs') as Hdrop.
  { induction l as [|e l IH]; intros ixs ixs' H Ha; cbn [rfold] in H; [by injection H as <-|].
    apply rbind_Ok_inv in H as (ixs1 & H & Hl). eapply IH; [exact Hl|]. destruct (g_edges g !! e); [|done]. by eapply all_sorted_remove. }
  split.
  - destruct o; try (rewrite H1; done).
    + by eapply all_sorted_add.
    + by eapply all_sorted_update.
    + destruct H1 as [->|[w H1]]; [done|]. by eapply all_sorted_update.
    + destruct H1 as [p H1]. by eapply all_sorted_remove.
    + cbn [step] in Hs. unfold add_node_index in Hs. destruct (g_nix g !! k); [by injection Hs as <-|].
      inv_ok Hs. injection Hs as <-. cbn [g_nix set_nix]. intros k' ix [[_ <-]|[_ H]]%lookup_insert_Some; [|by eapply Hn].
      eapply scan_sorted; [|exact Ha0|apply sorted_new]. intros ix n ix' Hf. apply rbind_Ok_inv in Hf as (nd & _ & Hf).
      destruct (n_props nd !! k); [by eapply sorted_add|by injection Hf as <-].
  - destruct o; try (rewrite H2; done).
    + by eapply all_sorted_add.
    + destruct H2 as (l & _ & _ & H2). by eapply Hdrop.
    + destruct H2 as (l & _ & _ & H2). by eapply Hdrop.
    + by eapply all_sorted_update.
    + destruct H2 as [->|[w H2]]; [done|]. by eapply all_sorted_update.
    + cbn [step] in Hs. unfold add_edge_index in Hs. destruct (g_eix g !! k); [by injection Hs as <-|].
      inv_ok Hs. injection Hs as <-. cbn [g_eix set_eix]. intros k' ix [[_ <-]|[_ H]]%lookup_insert_Some; [|by eapply He].
      eapply scan_sorted; [|exact Ha0|apply sorted_new]. intros ix n ix' Hf. apply rbind_Ok_inv in Hf as (nd & _ & Hf).
      destruct (e_props nd !! k); [by eapply sorted_add|by injection Hf as <-].
Qed.
Lemma all_sorted_run ops g : valid_history ops -> run ops = Ok g -> all_sorted (g_nix g) /\ all_sorted (g_eix g).
Proof.
  revert ops g. apply history_ind.
  - split; intros k ix H; cbn in H; by rewrite lookup_empty in H.
  - intros ops g o g' Hv Hr IH Ho Hs. by eapply all_sorted_step.
Qed.

(** ** What an index answers *)
Section stable.
  Context (c : gmap nat value) (D : value -> Prop) (HD : comparable D) (Hc : forall i v, c !! i = Some v -> D v).
  Context (Q : nat -> Prop) `{!forall i, Decision (Q i)}.
  (** [Q] does not hold of two with different values *)
  Context (HQ : forall i j, Q i -> Q j -> ~ lower c i j).
  Lemma put_in_filter x ys : Forall (fun y => is_Some (c !! y)) ys -> ascending c ys ->
    filter Q (put_in c x ys) = filter Q (ys ++ [x]).
  Proof.
    intros HF Hs. induction Hs as [|y ys Hs IH Hall]; [done|]. apply Forall_cons in HF as [Hy HF]. cbn [put_in app].
    destruct (decide (lower c x y)) as [Hl|Hl].
    - rewrite (filter_cons _ x). destruct (decide (Q x)) as [Hx|Hx].
      + assert (forall z, z ∈ y :: ys -> ~ Q z) as Hno.
        { intros z Hz Hq. apply (HQ x z Hx Hq). apply elem_of_cons in Hz as [->|Hz]; [done|]. rewrite Forall_forall in HF, Hall.
          eapply (lower_trans c D); [done|done|exact Hl|by apply HF|by apply Hall]. }
        change (y :: ys ++ [x]) with ((y :: ys) ++ [x]). rewrite filter_app, (filter_cons _ x []), filter_nil, decide_True by done.
        assert (filter Q (y :: ys) = []) as ->; [|done]. destruct (filter Q (y :: ys)) as [|z zs] eqn:E; [done|].
        assert (z ∈ filter Q (y :: ys)) as Hz by (rewrite E; left). apply elem_of_list_filter in Hz as [Hq Hz].
        by destruct (Hno z Hz).
      + change (y :: ys ++ [x]) with ((y :: ys) ++ [x]). rewrite filter_app, (filter_cons _ x), decide_False by done. by rewrite filter_nil, app_nil_r.
    - rewrite !filter_cons, IH by done. done.
  Qed.
  Lemma by_value_filter xs : Forall (fun y => is_Some (c !! y)) xs -> filter Q (by_value c xs) = filter Q xs.
  Proof.
    induction xs as [|x xs IH] using rev_ind; intros HF; [done|]. apply Forall_app in HF as [HF _].
    rewrite by_value_snoc, put_in_filter, !filter_app, IH; try done.
    - rewrite Forall_forall in HF |- *. intros y Hy%by_value_elem. by apply HF.
    - by apply (by_value_ascending c D).
  Qed.
End stable.

Lemma filter_none {A} (P : A -> Prop) `{!forall x, Decision (P x)} l : (forall x, x ∈ l -> ~ P x) -> filter P l = [].
Proof.
  induction l as [|x l IH]; intros Hn; [done|]. rewrite filter_cons, decide_False by (apply Hn; set_solver).
  apply IH. intros y Hy. apply Hn. set_solver.
Qed.
Lemma filter_snd {A B} (P : B -> Prop) `{!forall x, Decision (P x)} (l : list (A * B)) :
  filter P l.*2 = (filter (fun p : A * B => P p.2) l).*2.
Proof.
  induction l as [|[a b] l IH]; [done|]. csimpl. rewrite !filter_cons. cbn [snd].
  destruct (decide (P b)); csimpl; by rewrite IH.
Qed.
Lemma bt_find_items D t c v o (Q : nat -> Prop) `{!forall i, Decision (Q i)} :
  comparable D -> bt_ok D t -> bt_in c t -> D v -> bt_get t v = Ok o ->
  (forall i w, c !! i = Some w -> Q i <-> norm w = norm v) ->
  filter Q (bt_items t) = match o with Some s => fs_iter s | None => [] end.
Proof.
  intros HD Hok Hb Hv Hg HQ. revert Hok Hb Hg. induction t as [|[k s] t IH]; intros Hok Hb Hg; cbn [bt_get] in Hg.
  { by injection Hg as <-. }
  destruct Hok as [Hs HF]. apply bt_sorted_inv in Hs as [Hs Hlt]. apply Forall_cons in HF as [Hk HF]. simpl in Hk.
  destruct (Hb k s ltac:(set_solver)) as (ys & Hys & Hy).
  change (bt_items ((k, s) :: t)) with (fs_iter s ++ bt_items t). rewrite filter_app, (ns_iter _ _ Hys).
  rewrite (cmp_norm D) in Hg by done.
  assert (forall b, b ∈ bt_items t -> exists w, c !! b = Some w /\ tcmp (norm k) (norm w) = Lt) as Hgt.
  { intros b Hbt. destruct (bt_items_in c t b (bt_in_cons _ _ _ Hb) Hbt) as (k' & s' & w & Hks & Hw & E).
    exists w. split; [done|]. rewrite E. apply Hlt in Hks. exact Hks. }
  destruct (tcmp (norm v) (norm k)) eqn:E.
  - injection Hg as <-. apply tcmp_eq in E. rewrite (ns_iter _ _ Hys).
    rewrite OrderProofs.filter_all, filter_none, app_nil_r; [done| |].
    + intros b (w & Hw & Ew)%Hgt. rewrite (HQ b w Hw). intros E'. rewrite E', E, tcmp_refl in Ew. done.
    + apply Forall_forall. intros a (w & Hw & Ew)%Hy. rewrite (HQ a w Hw). congruence.
  - injection Hg as <-. rewrite !filter_none; [done| |].
    + intros b (w & Hw & Ew)%Hgt. rewrite (HQ b w Hw). intros E'. rewrite E', tcmp_opp, E in Ew. done.
    + intros a (w & Hw & Ew)%Hy. rewrite (HQ a w Hw). intros E'. rewrite <- E', Ew, tcmp_refl in E. done.
  - rewrite (filter_none _ ys), IH; [done|by split|by eapply bt_in_cons|done|].
    intros a (w & Hw & Ew)%Hy. rewrite (HQ a w Hw). intros E'. rewrite <- E', Ew, tcmp_refl in E. done.
Qed.

Lemma ix_find_seq D ix c xs v :
  ix_domain (ix_type ix) D -> ix_seq D ix c xs -> h_sorted ix -> D v ->
  ix_find ix v = Ok (found (ix_type ix) c v xs, Z.of_nat (length (found (ix_type ix) c v xs))).
Proof.
  intros HD (Hrep & Hin & Hval) Hso Hv. destruct (ix_find_ok D ix c v HD Hrep Hv) as (ys & m & Hf & Hnd & Hm & Hy).
  rewrite Hf. assert (ys = found (ix_type ix) c v xs) as <-; [|by rewrite Hm].
  assert (forall i w, c !! i = Some w -> asked BtreeIndex v w = true <-> compare_value v w = Some Eq) as Hcmp.
  { intros i w _. simpl. destruct (compare_value v w) as [[]|]; naive_solver. }
  destruct ix as [[t|]|vals els fresh]; cbn [ix_type ix_find] in *.
  - destruct Hrep as [Hc [Hok Hbk]]. inv_ok Hf. unfold found.
    set (Q := fun i => match c !! i with Some w => asked BtreeIndex v w | None => false end = true).
    assert (forall i w, c !! i = Some w -> Q i <-> norm w = norm v) as HQ.
    { intros i w Hw. unfold Q. rewrite Hw, (Hcmp i w Hw), (cmp_norm D) by eauto. split.
      - intros [= E]. symmetry. by apply tcmp_eq.
      - intros ->. by rewrite tcmp_refl. }
    change (filter _ xs) with (filter Q xs).
    rewrite <- (by_value_filter c D HD Hc Q); [|
      |by apply Forall_forall; intros i Hi; apply Hin].
    2: { intros i j Hi Hj Hl. unfold lower in Hl. destruct (c !! i) as [wi|] eqn:Ei; [|done]. destruct (c !! j) as [wj|] eqn:Ej; [|done].
         rewrite (cmp_norm D), (proj1 (HQ i wi Ei) Hi), (proj1 (HQ j wj Ej) Hj), tcmp_refl in Hl by eauto. done. }
    cbn in Hval. fold (bt_items t) in Hval. rewrite <- Hval.
    rewrite (bt_find_items D t c v a Q HD Hok (fun k s => bt_bucket c t k s Hbk) Hv Ha HQ).
    destruct a as [s|]; by injection Hf as <- _.
  - injection Hf as <- _. destruct xs as [|x xs]; [done|]. destruct Hrep as [_ ->].
    assert (is_Some ((∅ : gmap nat value) !! x)) as [? Hx] by (apply Hin; left). by rewrite lookup_empty in Hx.
  - destruct Hrep as (Hc & Hn1 & He1 & Hfr & He2 & Hdom & Hbk). cbn in Hval. cbn [arranged] in Hval. subst xs.
    destruct Hso as [Hs1 Hs2].
    destruct (decide (fresh = 0)) as [->|_].
    { injection Hf as <- _. destruct els as [|[h i] els]; [done|].
      destruct (hash_no_adds _ _ _ Hfr Hdom i eq_refl) as [E _]. done. }
    rewrite (HD v Hv) in Hf. pose proof (h_get_spec vals (hkey v) Hn1) as Hget.
    destruct (bk_get _ _ _ _ _ _ _ Hbk Hget) as (zs & Hzs & Hz).
    set (Q := fun i => match c !! i with Some w => asked HashIndex v w | None => false end = true).
    assert (forall i, Q i <-> exists w, c !! i = Some w /\ hkey w = hkey v) as HQ.
    { intros i. unfold Q. destruct (c !! i) as [w|]; [|split; [done|by intros (? & ? & _)]]. cbn [asked]. rewrite bool_decide_eq_true.
      change (once w = once v) with (hkey w = hkey v). naive_solver. }
    assert (zs.*2 = (filter (fun p : nat * nat => Q p.2) els).*1) as E.
    { assert (StronglySorted lt zs.*2) as Hzo.
      { rewrite <- (fs_iter_ok _ _ Hzs). destruct (h_get vals (hkey v)) as [s|] eqn:Eg; [|constructor].
        exact (proj1 (h_get_Forall (fun s => below fresh (fs_iter s)) _ _ _ Hs2 Eg)). }
      assert (StronglySorted lt (filter (fun p : nat * nat => Q p.2) els).*1) as Heo.
      { exact (proj1 (below_sub fresh fst (fun p : nat * nat => Q p.2) els Hs1)). }
      apply (sorted_lists_unique (fun h => exists i, (h, i) ∈ els /\ Q i)); [| |done|done].
      - split; [by apply sorted_NoDup|]. intros h. rewrite elem_of_list_fmap. split.
        + intros ([j y] & -> & Hj). apply Hz in Hj as [Hj Hw]. exists j. split; [done|]. by apply HQ.
        + intros (i & Hi & Hq). exists (i, h). split; [done|]. apply Hz. split; [done|]. by apply HQ.
      - split; [by apply sorted_NoDup|]. intros h. rewrite elem_of_list_fmap. split.
        + intros ([y j] & -> & [Hq Hj]%elem_of_list_filter). by exists j.
        + intros (i & Hi & Hq). exists (h, i). split; [done|]. by apply elem_of_list_filter. }
    assert (forall l, (forall p, p ∈ l -> p ∈ els) -> omap (el_value els) l.*1 = l.*2) as Hom.
    { clear - He1. intros l Hl. induction l as [|[h i] l IH]; [done|]. csimpl.
      rewrite (el_value_ok _ h i He1) by (apply Hl; set_solver). f_equal. apply IH.
      intros p Hp. apply Hl. by apply elem_of_cons; right. }
    assert (found HashIndex c v els.*2 = omap (el_value els) zs.*2) as ->.
    { rewrite E, Hom by (intros p [_ ?]%elem_of_list_filter; done). unfold found. exact (filter_snd Q els). }
    rewrite <- (fs_iter_ok _ _ Hzs). destruct (h_get vals (hkey v)) as [s|]; by injection Hf as <- _.
Qed.

(** ** The choice *)
Lemma has_all_ok p q : has_all p q = true <-> forall k v, p !! k = Some v -> exists w, q !! k = Some w /\ answers v w.
Proof.
  unfold has_all. rewrite forallb_forall. setoid_rewrite <- elem_of_list_In. split.
  - intros H k v Hk. apply elem_of_map_to_list in Hk. specialize (H _ Hk). simpl in H. destruct (q !! k) as [w|]; [|done].
    exists w. split; [done|]. unfold answers. by destruct (compare_value v w) as [[]|].
  - intros H [k v] Hk%elem_of_map_to_list. destruct (H _ _ Hk) as (w & Hw & Ha). simpl. rewrite Hw. unfold answers in Ha. by rewrite Ha.
Qed.
Lemma node_fits_ok s L p n : node_fits s L p n = true <-> node_match s L p n.
Proof.
  unfold node_fits, node_match. destruct (s_nodes s !! n) as [x|]; [|split; [done|naive_solver]].
  rewrite andb_true_iff, bool_decide_eq_true, has_all_ok. naive_solver.
Qed.
(** the shortest list, with sizes *)
Lemma min_iter_shortest (m : gmap string (list nat * Z)) lists ord :
  (forall k, k ∈ ord -> m !! k = (fun xs => (xs, Z.of_nat (length xs))) <$> lists k) ->
  min_iter m ord = (fun xs => (xs, Z.of_nat (length xs))) <$> shortest lists None ord.
Proof.
  unfold min_iter. change (@None (list nat * Z)) with ((fun xs : list nat => (xs, Z.of_nat (length xs))) <$> None) at 1.
  generalize (@None (list nat)). induction ord as [|k ord IH]; intros best Hm; [done|]. cbn [fold_left shortest].
  rewrite <- IH by (intros k' Hk'; apply Hm; by apply elem_of_cons; right). f_equal.
  rewrite (Hm k) by (by apply elem_of_cons; left). destruct (lists k) as [xs|]; [|done]. simpl. rewrite decide_False by lia.
  destruct best as [ys|]; [|done]. simpl.
  destruct (decide (length xs < length ys)) as [H|H]; [by rewrite decide_True by lia|by rewrite decide_False by lia].
Qed.
Lemma prop_iters_answers ixs (p : props) ord lists :
  (forall k, k ∈ ord -> p !! k = None \/ ixs !! k = None -> lists k = None) ->
  (forall k v ix, k ∈ ord -> p !! k = Some v -> ixs !! k = Some ix ->
    exists xs, lists k = Some xs /\ ix_find ix v = Ok (xs, Z.of_nat (length xs))) ->
  exists m, prop_iters ixs p ord = Ok m /\
    forall k, k ∈ ord -> m !! k = (fun xs => (xs, Z.of_nat (length xs))) <$> lists k.
Proof.
  intros H0 H1. destruct (prop_iters_ok ixs p ord) as (m & Hm & Hk).
  { intros k v ix Hk Hp Hix. destruct (H1 k v ix Hk Hp Hix) as (xs & _ & ?). eauto. }
  exists m. split; [done|]. intros k Hin. destruct (p !! k) as [v|] eqn:Hp; [destruct (ixs !! k) as [ix|] eqn:Hix|].
  - destruct (H1 k v ix Hin Hp Hix) as (xs & -> & Hf). simpl. apply Hk. eauto 10.
  - rewrite H0 by auto. simpl. destruct (m !! k) as [r|] eqn:E; [|done]. apply Hk in E as (_ & ? & ? & ? & ? & _). congruence.
  - rewrite H0 by auto. simpl. destruct (m !! k) as [r|] eqn:E; [|done]. apply Hk in E as (_ & ? & ? & ? & ? & _). congruence.
Qed.
Lemma node_answers ops g p k v ix : valid_history ops -> run ops = Ok g -> node_findable ops p ->
  p !! k = Some v -> g_nix g !! k = Some ix ->
  exists xs, node_answer ops p k = Some xs /\ ix_find ix v = Ok (xs, Z.of_nat (length xs)).
Proof.
  intros Hv Hr Hp Hk Hix. unfold node_answer. rewrite Hk. destruct (node_index ops k) as [it|] eqn:Hi.
  - destruct (Hp k v it Hk Hi) as [Hst Hsafe]. apply storable_domain in Hst.
    pose proof (nseq_run (fun w => node_filed ops k w \/ w = v) k ops g Hv Hr (fun w H => or_introl H) Hsafe) as Hs.
    rewrite Hi in Hs. destruct (Hs Hst) as (ix' & Hix' & Ht & Hq). assert (ix' = ix) as -> by congruence. subst it.
    eexists. split; [done|]. eapply ix_find_seq; [exact Hst|exact Hq| |by right].
    eapply (proj1 (all_sorted_run ops g Hv Hr)). exact Hix.
  - pose proof (nix_run (fun _ => True) k ops g Hv Hr (fun _ _ => I) (node_index_none_safe _ _ Hi)) as Hn.
    rewrite Hi in Hn. simpl in Hn. congruence.
Qed.
Lemma node_no_index ops g k : valid_history ops -> run ops = Ok g ->
  (forall it, node_index ops k = Some it -> exists D : value -> Prop, ix_domain it D /\ (forall w, node_filed ops k w -> D w)) ->
  node_scan_safe ops k -> g_nix g !! k = None -> node_index ops k = None.
Proof.
  intros Hv Hr HD Hs Hn. destruct (node_index ops k) as [it|] eqn:Hi; [|done]. destruct (HD it eq_refl) as (D & Hd & Hw).
  pose proof (nix_run D k ops g Hv Hr Hw Hs) as Hk. rewrite Hi in Hk. destruct (Hk Hd) as (ix & Hix & _). congruence.
Qed.

Theorem find_nodes_order ops g L p lord pord qord ford :
  valid_history ops -> run ops = Ok g -> L <> ∅ -> node_findable ops p ->
  order_of L lord -> order_of (dom p) pord -> order_of (dom p) qord -> (forall n, prop_order p (ford n)) ->
  find_nodes g L p lord pord qord ford =
    Ok (filter (fun n => node_fits (srun ops) L p n = true) (node_choice ops p lord qord),
        Z.of_nat (length (node_choice ops p lord qord))).
Proof.
  intros Hv Hr HL Hfi Hl Hp Hq Hf. pose proof (core_run _ _ Hv Hr) as Hc. unfold find_nodes.
  rewrite decide_False by naive_solver. rewrite decide_False by done.
  rewrite (nodes_all_labels_order _ _ _ _ Hv Hr HL Hl). cbn [rbind].
  destruct (prop_iters_answers (g_nix g) p pord (node_answer ops p)) as (m & -> & Hm).
  { intros k Hk Hno. unfold node_answer. destruct (p !! k) as [v|] eqn:Hpk; [|done]. destruct Hno as [?|Hno]; [done|].
    destruct (node_index ops k) as [it|] eqn:Hi; [|done]. destruct (Hfi k v it Hpk Hi) as [Hst Hs]. apply storable_domain in Hst.
    assert (node_index ops k = None); [|congruence]. eapply node_no_index; [done|done| |done|done].
    intros it' Hi'. assert (it' = it) as -> by congruence. eexists. split; [exact Hst|]. by left. }
  { intros k v ix _. by apply node_answers. }
  cbn [rbind].
  assert (forall n, n ∈ qord -> n ∈ pord) as Hqp. { intros n Hn. apply Hp. by apply Hq. }
  rewrite (min_iter_shortest m (node_answer ops p)) by (intros k Hk; apply Hm; by apply Hqp).
  assert (forall xs : list nat, (forall n, n ∈ xs -> is_Some (s_nodes (srun ops) !! n)) ->
    filter (fun n => node_filter g L (ford n) n = true) xs = filter (fun n => node_fits (srun ops) L p n = true) xs) as Hfl.
  { intros xs Hx. apply filter_ext_at. intros n Hn. destruct (Hx n Hn) as [x Hxn].
    rewrite node_fits_ok, (node_filter_ok g L p (ford n) n (Hf n)).
    destruct (read_node _ _ Hc _ _ Hxn) as [-> Hpr]. setoid_rewrite Hpr. unfold node_match. rewrite Hxn. naive_solver. }
  assert (labelled_order ops L lord = filter (fun n => s_all_labels (srun ops) L n = true)
    match lord with [] => [] | l :: r => label_order ops (rarest ops l r) end) as El by (by destruct lord).
  assert (labelled_size ops lord = length match lord with [] => [] | l :: r => label_order ops (rarest ops l r) end) as Es by (by destruct lord).
  unfold choose, node_choice. cbn [fst snd]. rewrite El, Es. clear El Es.
  set (lab := match lord with [] => [] | l :: r => label_order ops (rarest ops l r) end).
  assert (filter (fun n => node_filter g L (ford n) n = true) (filter (fun n => s_all_labels (srun ops) L n = true) lab) =
    filter (fun n => node_fits (srun ops) L p n = true) lab) as Hlab.
  { rewrite Hfl.
    - rewrite list_filter_filter. apply filter_ext_at. intros n _. unfold node_fits, s_all_labels.
      destruct (s_nodes (srun ops) !! n) as [x|]; [|tauto]. destruct (bool_decide _); simpl; naive_solver.
    - intros n [Hn _]%elem_of_list_filter. unfold s_all_labels in Hn. by destruct (s_nodes (srun ops) !! n); [eauto|]. }
  assert (forall ord best, (forall (xs : list nat) n, best = Some xs -> n ∈ xs -> is_Some (s_nodes (srun ops) !! n)) ->
    forall (xs : list nat) n, shortest (node_answer ops p) best ord = Some xs -> n ∈ xs -> is_Some (s_nodes (srun ops) !! n)) as Hsh.
  { induction ord as [|k ord IH]; intros best Hb xs n; cbn [shortest]; [apply Hb|]. apply IH. intros ys n' Hys Hn'.
    assert (forall zs, node_answer ops p k = Some zs -> n' ∈ zs -> is_Some (s_nodes (srun ops) !! n')) as Ha.
    { unfold node_answer. destruct (p !! k) as [v|]; [|done]. destruct (node_index ops k) as [it|]; [|done]. intros zs [= <-].
      unfold found. intros [Hz _]%elem_of_list_filter. rewrite node_vals_lookup in Hz. by destruct (s_nodes (srun ops) !! n'); [eauto|]. }
    destruct (node_answer ops p k) as [zs|]; [|by eapply Hb]. destruct best as [bs|].
    - destruct (decide (length zs < length bs)); injection Hys as <-; [by eapply Ha|by eapply Hb].
    - injection Hys as <-. by eapply Ha. }
  specialize (Hsh qord None ltac:(done)). destruct (shortest (node_answer ops p) None qord) as [xs|]; simpl.
  - destruct (decide (length lab < length xs)) as [Hlt|Hlt].
    + rewrite bool_decide_eq_true_2 by lia. by rewrite Hlab.
    + rewrite bool_decide_eq_false_2 by lia. rewrite Hfl; [done|]. intros n. by apply Hsh.
  - rewrite bool_decide_eq_true_2 by lia. by rewrite Hlab.
Qed.
Lemma node_askable_findable ops p : node_askable ops p -> node_findable ops p.
Proof. intros H k v it Hk Hi. destruct (H k v it Hk Hi) as [[? _] ?]. done. Qed.
