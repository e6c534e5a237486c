(** The order in which a property index enumerates its items. *)
From Verif Require Import Base Value ValueProofs FastSet FastSetProofs NodeMap NodeMapProofs Index IndexProofs Graph GraphSpec OrderSpec QueryOrderSpec LabelOrderProofs.

(** ** Sorting by value *)
Lemma by_value_snoc c xs x : by_value c (xs ++ [x]) = put_in c x (by_value c xs).
Proof. unfold by_value. by rewrite fold_left_app. Qed.
Lemma put_in_elem c x ys y : y ∈ put_in c x ys <-> y = x \/ y ∈ ys.
Proof. induction ys as [|z ys IH]; simpl; [set_solver|]. destruct (decide (lower c x z)); set_solver. Qed.
Lemma by_value_elem c xs y : y ∈ by_value c xs <-> y ∈ xs.
Proof. induction xs as [|x xs IH] using rev_ind; [done|]. rewrite by_value_snoc, put_in_elem. set_solver. Qed.
Lemma put_in_mid c x A B :
  (forall a, a ∈ A -> ~ lower c x a) -> (forall b, b ∈ B -> lower c x b) -> put_in c x (A ++ B) = A ++ x :: B.
Proof.
  induction A as [|a A IH]; intros HA HB; simpl.
  - destruct B as [|b B]; simpl; [done|]. rewrite decide_True; [done|]. apply HB. set_solver.
  - rewrite decide_False by (apply HA; set_solver). rewrite IH; [done| |done]. intros a' Ha. apply HA. set_solver.
Qed.
Lemma put_in_ext c c' x ys : (forall y, y ∈ ys -> lower c x y <-> lower c' x y) -> put_in c x ys = put_in c' x ys.
Proof.
  induction ys as [|y ys IH]; intros H; simpl; [done|]. rewrite IH by (intros z Hz; apply H; set_solver).
  destruct (H y ltac:(set_solver)). destruct (decide (lower c x y)), (decide (lower c' x y)); naive_solver.
Qed.
Lemma by_value_ext c c' xs : (forall x, x ∈ xs -> c !! x = c' !! x) -> by_value c xs = by_value c' xs.
Proof.
  induction xs as [|x xs IH] using rev_ind; intros H; [done|]. rewrite !by_value_snoc, IH by (intros y Hy; apply H; set_solver).
  apply put_in_ext. intros y Hy%by_value_elem. unfold lower. by rewrite !H by set_solver.
Qed.

(** [c] has values that compare *)
Section sorted.
  Context (c : gmap nat value) (D : value -> Prop) (HD : comparable D) (Hc : forall i v, c !! i = Some v -> D v).
  Definition key (i : nat) : option nv := norm <$> c !! i.
  Lemma lower_key i j v w : c !! i = Some v -> c !! j = Some w -> lower c i j <-> tcmp (norm v) (norm w) = Lt.
  Proof.
    intros Hv Hw. unfold lower. rewrite Hv, Hw, (cmp_norm D) by eauto. by destruct (tcmp _ _).
  Qed.
  Lemma lower_trans x y z : lower c x y -> is_Some (c !! z) -> ~ lower c z y -> lower c x z.
  Proof.
    intros H [u Hz]. unfold lower in H. destruct (c !! x) as [v|] eqn:Hx; [|done]. destruct (c !! y) as [w|] eqn:Hy; [|done].
    assert (lower c x y) as Hxy by (unfold lower; by rewrite Hx, Hy). clear H.
    rewrite (lower_key z y u w Hz Hy), (lower_key x z v u Hx Hz). apply (lower_key x y v w Hx Hy) in Hxy. intros Hzy.
    destruct (tcmp (norm u) (norm w)) eqn:E; [apply tcmp_eq in E; congruence|done|].
    eapply tcmp_trans_lt; [exact Hxy|]. rewrite tcmp_opp, E. done.
  Qed.
  Definition ascending (ys : list nat) : Prop := StronglySorted (fun i j => ~ lower c j i) ys.
  Lemma put_in_ascending x ys : is_Some (c !! x) -> Forall (fun y => is_Some (c !! y)) ys ->
    ascending ys -> ascending (put_in c x ys).
  Proof.
    intros Hx HF Hs. induction Hs as [|y ys Hs IH Hall]; simpl; [repeat constructor|].
    apply Forall_cons in HF as [Hy HF].
    assert (lower c x y -> lower c y x -> False) as Hasym.
    { destruct Hx as [v Hv], Hy as [w Hw]. rewrite (lower_key x y v w Hv Hw), (lower_key y x w v Hw Hv).
      intros H1. rewrite tcmp_opp, H1. done. }
    destruct (decide (lower c x y)) as [Hl|Hl].
    - constructor; [by constructor|]. constructor; [auto|]. rewrite Forall_forall in Hall, HF |- *. intros z Hz.
      pose proof (lower_trans x y z Hl (HF _ Hz) (Hall _ Hz)) as Hxz.
      destruct Hx as [v Hv], (HF _ Hz) as [w Hw]. apply (lower_key x z v w Hv Hw) in Hxz.
      rewrite (lower_key z x w v Hw Hv), tcmp_opp, Hxz. done.
    - constructor; [by apply IH|]. apply Forall_forall. intros z [->|Hz]%put_in_elem; [done|].
      rewrite Forall_forall in Hall. by apply Hall.
  Qed.
  Lemma by_value_ascending xs : Forall (fun y => is_Some (c !! y)) xs -> ascending (by_value c xs).
  Proof.
    induction xs as [|x xs IH] using rev_ind; intros HF; [constructor|]. apply Forall_app in HF as [HF Hx].
    rewrite by_value_snoc. apply put_in_ascending; [by inversion Hx| |by apply IH].
    rewrite Forall_forall in HF |- *. intros y Hy%by_value_elem. by apply HF.
  Qed.
  Lemma put_in_unfile x ys i : Forall (fun y => is_Some (c !! y)) ys -> ascending ys ->
    unfile i (put_in c x ys) = if decide (x = i) then unfile i ys else put_in c x (unfile i ys).
  Proof.
    intros HF Hs. unfold unfile. induction Hs as [|y ys Hs IH Hall]; simpl.
    { rewrite filter_cons, filter_nil. destruct (decide (x = i)) as [->|]; [by rewrite decide_False by auto|by rewrite decide_True]. }
    apply Forall_cons in HF as [Hy HF]. specialize (IH HF). destruct (decide (lower c x y)) as [Hl|Hl].
    - rewrite filter_cons. destruct (decide (x = i)) as [->|Hxi]; [by rewrite decide_False by auto|].
      rewrite decide_True by done. rewrite filter_cons. symmetry.
      destruct (decide (y <> i)).
      + simpl. by rewrite decide_True.
      + apply (put_in_mid c x []); [set_solver|]. intros z [_ Hz]%elem_of_list_filter.
        rewrite Forall_forall in Hall, HF. eapply lower_trans; [exact Hl|by apply HF|by apply Hall].
    - rewrite !filter_cons. destruct (decide (y <> i)); rewrite IH; destruct (decide (x = i)); simpl; try done.
      by rewrite decide_False.
  Qed.
  Lemma by_value_unfile xs i : Forall (fun y => is_Some (c !! y)) xs ->
    by_value c (unfile i xs) = unfile i (by_value c xs).
  Proof.
    induction xs as [|x xs IH] using rev_ind; intros HF; [done|]. apply Forall_app in HF as [HF Hx].
    rewrite by_value_snoc, put_in_unfile, <- IH; [|done| |by apply by_value_ascending].
    2: { rewrite Forall_forall in HF |- *. intros y Hy%by_value_elem. by apply HF. }
    unfold unfile. rewrite filter_app, filter_cons, filter_nil. destruct (decide (x = i)) as [->|].
    - rewrite decide_False by auto. by rewrite app_nil_r.
    - rewrite decide_True by done. by rewrite by_value_snoc.
  Qed.
End sorted.

(** ** Indexes *)
Definition ix_seq (D : value -> Prop) (ix : index) (c : gmap nat value) (xs : list nat) : Prop :=
  ix_rep D ix c /\ (forall i, i ∈ xs <-> is_Some (c !! i)) /\ (ix_values ix).1 = arranged (Some (ix_type ix)) c xs.

Lemma ix_seq_new D it : ix_seq D (ix_new it) ∅ [].
Proof.
  split; [apply ix_rep_new|]. split; [|by destruct it]. intros i. rewrite lookup_empty.
  split; [by intros ?%elem_of_nil|by intros [? ?]].
Qed.

(** the items of the entries of a tree *)
Definition bt_items (t : list (value * fastset nat)) : list nat := concat (map (fun p => fs_iter p.2) t).
Lemma bt_bucket c t k s : bk_inv norm norm (fun i x => x = i) c t -> (k, s) ∈ t ->
  exists ys, ns_rep s ys /\ forall i, i ∈ ys <-> exists v, c !! i = Some v /\ norm v = norm k.
Proof.
  intros [H _] Hin. destruct (H _ _ Hin) as (xs & Hxs & Hx). exists xs.*1.
  assert (xs = map dup xs.*1) as E.
  { assert (forall i x, (i, x) ∈ xs -> x = i) as Heq by (intros i x Hi; by apply Hx in Hi as [? _]).
    clear - Heq. induction xs as [|[i x] xs IH]; [done|]. csimpl. unfold dup at 1. f_equal.
    - f_equal. apply Heq. set_solver.
    - apply IH. intros j y Hj. apply Heq. by apply elem_of_cons; right. }
  split; [unfold ns_rep; by rewrite <- E|]. intros i. split.
  - intros Hi. rewrite elem_of_list_fmap in Hi. destruct Hi as ([j x] & -> & Hi). by apply Hx in Hi as [_ ?].
  - intros Hv. rewrite elem_of_list_fmap. exists (i, i). split; [done|]. by apply Hx.
Qed.
Definition bt_in (c : gmap nat value) (t : list (value * fastset nat)) : Prop :=
  forall k s, (k, s) ∈ t -> exists ys, ns_rep s ys /\ forall i, i ∈ ys <-> exists v, c !! i = Some v /\ norm v = norm k.
Lemma bt_items_in c t i : bt_in c t -> i ∈ bt_items t ->
  exists k s v, (k, s) ∈ t /\ c !! i = Some v /\ norm v = norm k.
Proof.
  intros Hb (l & Hl & Hin)%elem_of_concat. apply elem_of_list_fmap in Hin as ([k s] & -> & Hin). simpl in Hl.
  destruct (Hb _ _ Hin) as (ys & Hys & Hy). rewrite (ns_iter _ _ Hys) in Hl. apply Hy in Hl as (v & ? & ?). by exists k, s, v.
Qed.
Lemma bt_in_cons c p t : bt_in c (p :: t) -> bt_in c t.
Proof. intros H k s Hin. apply H. by apply elem_of_cons; right. Qed.
Lemma put_in_skip c x A B : (forall a, a ∈ A -> ~ lower c x a) -> put_in c x (A ++ B) = A ++ put_in c x B.
Proof.
  induction A as [|a A IH]; intros HA; simpl; [done|]. rewrite decide_False by (apply HA; set_solver).
  rewrite IH; [done|]. intros a' Ha. apply HA. set_solver.
Qed.
Lemma unfile_app i A B : unfile i (A ++ B) = unfile i A ++ unfile i B.
Proof. apply filter_app. Qed.
Lemma unfile_out i A : i ∉ A -> unfile i A = A.
Proof.
  unfold unfile. induction A as [|a A IH]; intros Hi; [done|]. rewrite filter_cons, IH by set_solver.
  rewrite decide_True; [done|]. set_solver.
Qed.

Lemma bt_add_items D t c id v o :
  comparable D -> bt_ok D t -> bt_in c t -> (forall i w, c !! i = Some w -> D w) -> D v -> c !! id = None ->
  bt_get t v = Ok o ->
  bt_items (bt_put t v (fs_add (match o with Some s => s | None => fs_new end) id id).1) =
  put_in (<[id := v]> c) id (bt_items t).
Proof.
  intros HD Hok Hb Hc Hv Hid. set (c' := <[id := v]> c).
  assert (forall i w, c !! i = Some w -> lower c' id i <-> tcmp (norm v) (norm w) = Lt) as Hlow.
  { intros i w Hi. apply (lower_key c' D).
    - done.
    - unfold c'. intros j u [[_ <-]|[_ Hj]]%lookup_insert_Some; [done|by eapply Hc].
    - unfold c'. by rewrite lookup_insert.
    - unfold c'. rewrite lookup_insert_ne; [done|]. intros ->. congruence. }
  induction t as [|[k s] t IH]; intros Hg; simpl in Hg.
  { injection Hg as <-. reflexivity. }
  destruct Hok as [Hs HF]. apply bt_sorted_inv in Hs as [Hs Hlt]. apply Forall_cons in HF as [Hk HF]. simpl in Hk.
  destruct (Hb k s ltac:(set_solver)) as (ys & Hys & Hy).
  simpl. change (bt_items ((k, s) :: t)) with (fs_iter s ++ bt_items t). rewrite (ns_iter _ _ Hys).
  rewrite (cmp_norm D) in Hg |- * by done.
  assert (forall b, b ∈ bt_items t -> exists w, c !! b = Some w /\ tcmp (norm k) (norm w) = Lt) as Hgt.
  { intros b Hbt. destruct (bt_items_in c t b (bt_in_cons _ _ _ Hb) Hbt) as (k' & s' & w & Hks & Hw & E).
    exists w. split; [done|]. rewrite E. apply Hlt in Hks. exact Hks. }
  destruct (tcmp (norm v) (norm k)) eqn:E.
  - injection Hg as <-. apply tcmp_eq in E. simpl.
    assert (id ∉ ys) as Hni. { intros (w & Hw & _)%Hy. congruence. }
    pose proof (ns_add _ _ id Hys) as Ha. rewrite decide_False in Ha by done.
    change (bt_items ((k, (fs_add s id id).1) :: t)) with (fs_iter (fs_add s id id).1 ++ bt_items t).
    rewrite (ns_iter _ _ Ha), <- app_assoc. simpl. symmetry. apply put_in_mid.
    + intros a (w & Hw & Ew)%Hy. rewrite (Hlow a w Hw), Ew, E, tcmp_refl. done.
    + intros b (w & Hw & Ew)%Hgt. rewrite (Hlow b w Hw), E. done.
  - injection Hg as <-.
    change (bt_items ((v, (fs_add fs_new id id).1) :: (k, s) :: t)) with ([id] ++ fs_iter s ++ bt_items t).
    rewrite (ns_iter _ _ Hys). symmetry. apply (put_in_mid c' id []); [set_solver|].
    intros b [Hb'|Hb']%elem_of_app.
    + apply Hy in Hb' as (w & Hw & Ew). rewrite (Hlow b w Hw), Ew. done.
    + apply Hgt in Hb' as (w & Hw & Ew). rewrite (Hlow b w Hw). by eapply tcmp_trans_lt.
  - change (bt_items ((k, s) :: bt_put t v (fs_add match o with Some s => s | None => fs_new end id id).1))
      with (fs_iter s ++ bt_items (bt_put t v (fs_add match o with Some s => s | None => fs_new end id id).1)).
    rewrite (ns_iter _ _ Hys), IH; [|by split|by eapply bt_in_cons|done]. symmetry. apply put_in_skip.
    intros a (w & Hw & Ew)%Hy. rewrite (Hlow a w Hw), Ew, E. done.
Qed.
Lemma bt_remove_items D t c id v s :
  comparable D -> bt_ok D t -> bt_in c t -> c !! id = Some v -> D v -> bt_get t v = Ok (Some s) ->
  bt_items (if decide (fs_size (fs_remove s id).1 = 0) then bt_del t v else bt_put t v (fs_remove s id).1) =
  unfile id (bt_items t).
Proof.
  intros HD Hok Hb Hid Hv. induction t as [|[k s0] t IH]; intros Hg; simpl in Hg; [done|].
  destruct Hok as [Hs HF]. apply bt_sorted_inv in Hs as [Hs Hlt]. apply Forall_cons in HF as [Hk HF]. simpl in Hk.
  destruct (Hb k s0 ltac:(set_solver)) as (ys & Hys & Hy).
  simpl. change (bt_items ((k, s0) :: t)) with (fs_iter s0 ++ bt_items t). rewrite (ns_iter _ _ Hys).
  rewrite (cmp_norm D) in Hg |- * by done.
  destruct (tcmp (norm v) (norm k)) eqn:E; [|done|].
  - injection Hg as ->. apply tcmp_eq in E.
    assert (id ∉ bt_items t) as Hni.
    { intros Hi. destruct (bt_items_in c t id (bt_in_cons _ _ _ Hb) Hi) as (k' & s' & w & Hks & Hw & Ew).
      apply Hlt in Hks. unfold bt_lt in Hks. simpl in Hks. assert (w = v) as -> by congruence.
      rewrite <- Ew, E, tcmp_refl in Hks. done. }
    pose proof (ns_remove _ _ id Hys) as Hr. rewrite unfile_app, (unfile_out _ (bt_items t)) by done.
    change (filter (fun m => m <> id) ys) with (unfile id ys) in Hr. rewrite (ns_size _ _ Hr).
    destruct (decide (length (unfile id ys) = 0)) as [Hz|Hz].
    + apply nil_length_inv in Hz. by rewrite Hz.
    + change (bt_items ((k, (fs_remove s id).1) :: t)) with (fs_iter (fs_remove s id).1 ++ bt_items t).
      by rewrite (ns_iter _ _ Hr).
  - rewrite unfile_app, (unfile_out _ ys).
    2: { intros (w & Hw & Ew)%Hy. assert (w = v) as -> by congruence. rewrite Ew, tcmp_refl in E. done. }
    rewrite <- IH; [|by split|by eapply bt_in_cons|done].
    destruct (decide (fs_size (fs_remove s id).1 = 0)).
    + change (bt_items ((k, s0) :: bt_del t v)) with (fs_iter s0 ++ bt_items (bt_del t v)). by rewrite (ns_iter _ _ Hys).
    + change (bt_items ((k, s0) :: bt_put t v (fs_remove s id).1)) with (fs_iter s0 ++ bt_items (bt_put t v (fs_remove s id).1)).
      by rewrite (ns_iter _ _ Hys).
Qed.

Lemma ix_seq_add D ix c xs id v :
  ix_domain (ix_type ix) D -> ix_seq D ix c xs -> D v -> c !! id = None ->
  exists ix', ix_add ix v id = Ok ix' /\ ix_type ix' = ix_type ix /\ ix_seq D ix' (<[id := v]> c) (xs ++ [id]).
Proof.
  intros HD (Hrep & Hin & Hval) Hv Hid. destruct (ix_add_ok D ix c id v HD Hrep Hv Hid) as (ix' & Ha & Hrep' & Ht).
  exists ix'. split; [done|]. split; [done|]. split; [done|]. split.
  { intros i. rewrite elem_of_app, elem_of_list_singleton, Hin. destruct (decide (i = id)) as [->|].
    - rewrite lookup_insert. split; [eauto|by right].
    - rewrite lookup_insert_ne by done. naive_solver. }
  rewrite Ht. destruct ix as [ot|vals els fresh]; simpl in *.
  - destruct Hrep as [Hc Hrep].
    assert (bt_ok D (default [] ot) /\ bt_in c (default [] ot) /\ bt_items (default [] ot) = by_value c xs) as (Hok & Hbk & Hit).
    { destruct ot as [t|]; simpl.
      - destruct Hrep as [Hok Hbk]. split; [done|]. split; [|done]. intros k s. by apply bt_bucket.
      - split; [split; constructor|]. split; [by intros ? ? ?%elem_of_nil|done]. }
    destruct (bt_get_spec D _ v HD Hok Hv) as (o & Hget & _). rewrite Hget in Ha. simpl in Ha. injection Ha as <-.
    simpl. fold (bt_items (bt_put (default [] ot) v (fs_add match o with Some s => s | None => fs_new end id id).1)).
    rewrite (bt_add_items D _ c), Hit by done. rewrite by_value_snoc. f_equal. apply by_value_ext.
    intros i Hi. rewrite lookup_insert_ne; [done|]. intros ->. apply Hin in Hi as [? ?]. congruence.
  - rewrite (HD v Hv) in Ha. injection Ha as <-. simpl. by rewrite fmap_app, Hval.
Qed.
Lemma ix_seq_remove D ix c xs id v :
  ix_domain (ix_type ix) D -> ix_seq D ix c xs -> c !! id = Some v ->
  exists ix', ix_remove ix v id = Ok ix' /\ ix_type ix' = ix_type ix /\ ix_seq D ix' (delete id c) (unfile id xs).
Proof.
  intros HD (Hrep & Hin & Hval) Hid. destruct (ix_remove_ok D ix c id v HD Hrep Hid) as (ix' & Ha & Hrep' & Ht).
  exists ix'. split; [done|]. split; [done|]. split; [done|]. split.
  { intros i. unfold unfile. rewrite elem_of_list_filter, Hin, lookup_delete_is_Some. naive_solver. }
  rewrite Ht. destruct ix as [[t|]|vals els fresh]; simpl in *.
  - destruct Hrep as [Hc [Hok Hbk]]. pose proof (Hc _ _ Hid) as Hv.
    destruct (bt_get_spec D _ v HD Hok Hv) as (o & Hget & Hspec). rewrite Hget in Ha. simpl in Ha.
    destruct o as [s|].
    2: { destruct (proj2 Hbk _ _ Hid) as (k & s & Hks & E). destruct (Hspec _ _ Hks). done. }
    pose proof (bt_remove_items D t c id v s HD Hok (fun k s => bt_bucket c t k s Hbk) Hid Hv Hget) as Hi.
    assert ((ix_values ix').1 = unfile id (bt_items t)) as ->.
    { rewrite <- Hi. destruct (decide (fs_size (fs_remove s id).1 = 0)); by injection Ha as <-. }
    unfold bt_items. rewrite Hval, <- (by_value_unfile c D) by
      (try done; apply Forall_forall; intros i Hi'; by apply Hin). apply by_value_ext.
    intros i Hi'. unfold unfile in Hi'. apply elem_of_list_filter in Hi' as [Hne _]. by rewrite lookup_delete_ne.
  - destruct Hrep as [_ ->]. by rewrite lookup_empty in Hid.
  - destruct Hrep as (Hc & Hnd & He1 & Hf & He2 & Hdom & Hbk). pose proof (Hc _ _ Hid) as Hv.
    destruct (decide (fresh = 0)) as [->|_].
    { destruct (hash_no_adds _ _ _ Hf Hdom id eq_refl) as [_ E]. by rewrite E in Hid. }
    rewrite (HD v Hv) in Ha. pose proof (h_get_spec vals (hkey v) Hnd) as Hget.
    destruct (h_get vals (hkey v)) as [s|] eqn:Hg.
    2: { destruct (proj2 Hbk _ _ Hid) as (k & s & Hks & E). by destruct (Hget _ _ Hks). }
    destruct (bk_get _ _ _ _ _ _ _ Hbk Hget) as (ys & Hys & Hy).
    assert (is_Some (c !! id)) as Hs by eauto. apply Hdom in Hs. apply elem_of_list_fmap in Hs as ([h i] & -> & Hh). simpl in *.
    assert (fs_get s i = Some h) as E. { apply (fs_get_ok _ _ _ _ Hys). apply Hy. eauto. }
    rewrite E in Ha. injection Ha as <-. simpl. rewrite <- Hval.
    clear - Hh He1 He2. unfold unfile.
    assert (forall p, p ∈ els -> p.1 <> h <-> p.2 <> i) as Hp.
    { intros [y j] Hj. simpl. split; intros Hne ->; apply Hne; [by eapply snd_inj|by eapply fst_inj]. }
    clear Hh He1 He2. induction els as [|p els IH]; [done|]. csimpl. rewrite !filter_cons.
    pose proof (Hp p ltac:(set_solver)) as Hpp.
    destruct (decide (p.1 <> h)), (decide (p.2 <> i)); csimpl; try tauto; [f_equal|]; apply IH; intros q Hq; apply Hp; set_solver.
Qed.
