(** A property index holds exactly the (item, value) pairs added and not removed. *)
From Verif Require Import Base Value ValueProofs FastSet FastSetProofs Index.

(** ** Association lists of sets, keyed by classes of values *)
Section buckets.
  Context {K : Type} `{EqDecision K} (κ κe : value -> K).
  Implicit Types (t : list (value * fastset nat)).

  Definition get_spec t (w : K) (o : option (fastset nat)) : Prop :=
    match o with
    | Some s => exists k, (k, s) ∈ t /\ κe k = w
    | None => forall k s, (k, s) ∈ t -> κe k <> w
    end.
  Definition put_spec t (w : K) (s : fastset nat) t' : Prop :=
    (forall k' s', (k', s') ∈ t' -> (k', s') ∈ t /\ κe k' <> w \/ s' = s /\ κe k' = w) /\
    (forall k' s', (k', s') ∈ t -> κe k' <> w -> (k', s') ∈ t') /\
    (exists k', (k', s) ∈ t' /\ κe k' = w).
  Definition del_spec t (w : K) t' : Prop :=
    forall k' s', (k', s') ∈ t' <-> (k', s') ∈ t /\ κe k' <> w.

  (** [P i x]: item [i] has payload [x] *)
  Definition bk_inv (P : nat -> nat -> Prop) (c : gmap nat value) t : Prop :=
    (forall k s, (k, s) ∈ t -> exists xs, fs_rep s xs /\
       forall i x, (i, x) ∈ xs <-> P i x /\ exists v, c !! i = Some v /\ κ v = κe k) /\
    (forall i v, c !! i = Some v -> exists k s, (k, s) ∈ t /\ κ v = κe k).

  Lemma bk_add P P' c t t' i v x o :
    bk_inv P c t -> c !! i = None -> get_spec t (κ v) o ->
    put_spec t (κ v) (fs_add (match o with Some s => s | None => fs_new end) i x).1 t' ->
    (forall j y, j <> i -> P' j y <-> P j y) -> (forall y, P' i y <-> y = x) ->
    bk_inv P' (<[i := v]> c) t'.
  Proof.
    intros [H1 H2] Hc Hget (Hp1 & Hp2 & Hp3) HP1 HP2.
    assert (exists xs, fs_rep (match o with Some s => s | None => fs_new end) xs /\
              forall j y, (j, y) ∈ xs <-> P j y /\ exists w, c !! j = Some w /\ κ w = κ v) as (xs & Hxs & Hin).
    { destruct o as [s|]; simpl in Hget.
      - destruct Hget as (k & Hk & Hkv). destruct (H1 _ _ Hk) as (xs & ? & Hx). rewrite Hkv in Hx. eauto.
      - exists []. split; [apply fs_rep_new|]. intros j y. split; [by intros ?%elem_of_nil|].
        intros (_ & w & Hw & Hk). destruct (H2 _ _ Hw) as (k & s & Hks & E). destruct (Hget _ _ Hks). congruence. }
    assert (i ∉ xs.*1) as Hni.
    { intros ([j y] & -> & Hj)%elem_of_list_fmap. apply Hin in Hj as (_ & w & Hw & _). simpl in *. congruence. }
    destruct (fs_add_new _ _ i x Hxs Hni) as [_ Hrep].
    split.
    - intros k s Hks. destruct (Hp1 _ _ Hks) as [[Hold Hne]|[-> Hk]].
      + destruct (H1 _ _ Hold) as (ys & Hys & Hy). exists ys. split; [done|]. intros j y. rewrite Hy.
        destruct (decide (j = i)) as [->|Hji].
        * rewrite lookup_insert, Hc. split; [naive_solver|]. intros (_ & w & [= <-] & ?). congruence.
        * rewrite lookup_insert_ne by done. by rewrite HP1.
      + eexists. split; [exact Hrep|]. intros j y. rewrite elem_of_app, elem_of_list_singleton, Hin.
        destruct (decide (j = i)) as [->|Hji].
        * rewrite lookup_insert, Hc, HP2. split; [naive_solver|]. intros [-> _]. by right.
        * rewrite lookup_insert_ne by done. rewrite HP1 by done. rewrite Hk. naive_solver.
    - intros j w Hj. destruct (decide (κ w = κ v)) as [E|E].
      + destruct Hp3 as (k' & Hk' & Ek'). exists k'. eexists. split; [exact Hk'|]. congruence.
      + destruct (decide (j = i)) as [->|Hji].
        * rewrite lookup_insert in Hj. congruence.
        * rewrite lookup_insert_ne in Hj by done. destruct (H2 _ _ Hj) as (k & s & Hks & E').
          exists k, s. split; [|done]. apply Hp2; [done|]. congruence.
  Qed.

  Lemma bk_get P c t v o :
    bk_inv P c t -> get_spec t (κ v) o ->
    exists xs, fs_rep (match o with Some s => s | None => fs_new end) xs /\
      forall j y, (j, y) ∈ xs <-> P j y /\ exists w, c !! j = Some w /\ κ w = κ v.
  Proof.
    intros [H1 H2] Hget. destruct o as [s|]; simpl in Hget.
    - destruct Hget as (k & Hk & Hkv). destruct (H1 _ _ Hk) as (xs & ? & Hx). rewrite Hkv in Hx. eauto.
    - exists []. split; [apply fs_rep_new|]. intros j y. split; [by intros ?%elem_of_nil|].
      intros (_ & w & Hw & Hk). destruct (H2 _ _ Hw) as (k & s & Hks & E). destruct (Hget _ _ Hks). congruence.
  Qed.

  Lemma bk_remove P P' c t t' i v s :
    bk_inv P c t -> c !! i = Some v -> get_spec t (κ v) (Some s) ->
    put_spec t (κ v) (fs_remove s i).1 t' ->
    (forall j y, j <> i -> P' j y <-> P j y) ->
    bk_inv P' (delete i c) t'.
  Proof.
    intros [H1 H2] Hc (k0 & Hk0 & Hkv0) (Hp1 & Hp2 & Hp3) HP.
    destruct (H1 _ _ Hk0) as (xs & Hxs & Hin). destruct (fs_remove_ok _ _ i Hxs) as [_ Hrep].
    split.
    - intros k s' Hks. destruct (Hp1 _ _ Hks) as [[Hold Hne]|[-> Hk]].
      + destruct (H1 _ _ Hold) as (ys & Hys & Hy). exists ys. split; [done|]. intros j y. rewrite Hy.
        destruct (decide (j = i)) as [->|Hji].
        * rewrite lookup_delete, Hc. split; [|naive_solver]. intros (_ & w & [= <-] & ?). congruence.
        * rewrite lookup_delete_ne by done. by rewrite HP.
      + eexists. split; [exact Hrep|]. intros j y. rewrite fs_without_elem, Hin. simpl.
        destruct (decide (j = i)) as [->|Hji].
        * rewrite lookup_delete. naive_solver.
        * rewrite lookup_delete_ne by done. rewrite HP by done. rewrite Hk, Hkv0. naive_solver.
    - intros j w Hj. apply lookup_delete_Some in Hj as [Hji Hj]. destruct (decide (κ w = κ v)) as [E|E].
      + destruct Hp3 as (k' & Hk' & Ek'). exists k'. eexists. split; [exact Hk'|]. congruence.
      + destruct (H2 _ _ Hj) as (k & s' & Hks & E').
        exists k, s'. split; [|done]. apply Hp2; [done|]. congruence.
  Qed.
  (** the set becomes empty and its entry is dropped *)
  Lemma bk_remove_last P P' c t t' i v s :
    (forall j v, c !! j = Some v -> exists x, P j x) ->
    bk_inv P c t -> c !! i = Some v -> get_spec t (κ v) (Some s) -> fs_size (fs_remove s i).1 = 0 ->
    del_spec t (κ v) t' ->
    (forall j y, j <> i -> P' j y <-> P j y) ->
    bk_inv P' (delete i c) t'.
  Proof.
    intros Htot [H1 H2] Hc (k0 & Hk0 & Hkv0) Hsz Hdel HP.
    destruct (H1 _ _ Hk0) as (xs & Hxs & Hin). destruct (fs_remove_ok _ _ i Hxs) as [_ Hrep].
    rewrite (fs_size_ok _ _ Hrep) in Hsz. apply nil_length_inv in Hsz.
    assert (forall j w, c !! j = Some w -> κ w = κ v -> j = i) as Honly.
    { intros j w Hj Hw. destruct (decide (j = i)); [done|]. destruct (Htot _ _ Hj) as [x Hx].
      assert ((j, x) ∈ fs_without xs i) as Hx'; [|rewrite Hsz in Hx'; by apply elem_of_nil in Hx'].
      apply fs_without_elem. split; [|done]. apply Hin. split; [done|]. exists w. split; [done|]. congruence. }
    split.
    - intros k s' Hks. apply Hdel in Hks as [Hold Hne].
      destruct (H1 _ _ Hold) as (ys & Hys & Hy). exists ys. split; [done|]. intros j y. rewrite Hy.
      destruct (decide (j = i)) as [->|Hji].
      + rewrite lookup_delete, Hc. split; [|naive_solver]. intros (_ & w & [= <-] & ?). congruence.
      + rewrite lookup_delete_ne by done. by rewrite HP.
    - intros j w Hj. apply lookup_delete_Some in Hj as [Hji Hj].
      destruct (H2 _ _ Hj) as (k & s' & Hks & E'). exists k, s'. split; [|done].
      apply Hdel. split; [done|]. intros E. apply Hji. symmetry. eapply Honly; [done|]. congruence.
  Qed.
End buckets.

(** ** B-tree *)
Global Instance nv_eq_dec : EqDecision nv.
Proof.
  intros a b. destruct (tcmp a b) eqn:E; [left; by apply tcmp_eq|right; intros ->; by rewrite tcmp_refl in E..].
Defined.

(** values of [D] compare with each other *)
Definition comparable (D : value -> Prop) : Prop := forall v w, D v -> D w -> compare_value v w <> None.

Definition bt_lt (a b : value * fastset nat) : Prop := tcmp (norm a.1) (norm b.1) = Lt.
Definition bt_ok (D : value -> Prop) (t : list (value * fastset nat)) : Prop :=
  StronglySorted bt_lt t /\ Forall (fun p => D p.1) t.

Lemma cmp_norm D v w : comparable D -> D v -> D w -> compare_value v w = Some (tcmp (norm v) (norm w)).
Proof.
  intros HD Hv Hw. specialize (HD _ _ Hv Hw). destruct (compare_value v w) as [c|] eqn:E; [|done].
  f_equal. symmetry. by apply compare_value_tcmp.
Qed.

Lemma bt_sorted_inv p t : StronglySorted bt_lt (p :: t) -> StronglySorted bt_lt t /\ forall q, q ∈ t -> bt_lt p q.
Proof. intros H. inversion H as [|? ? H1 H2]; subst. split; [done|]. by apply Forall_forall. Qed.

Lemma bt_get_spec D t v :
  comparable D -> bt_ok D t -> D v -> exists o, bt_get t v = Ok o /\ get_spec norm t (norm v) o.
Proof.
  intros HD [Hs HF] Hv. induction t as [|[k s] t IH]; simpl.
  { exists None. split; [done|]. intros ? ? ?%elem_of_nil. done. }
  apply bt_sorted_inv in Hs as [Hs Hlt]. apply Forall_cons in HF as [Hk HF].
  rewrite (cmp_norm D) by done. destruct (tcmp (norm v) (norm k)) eqn:E.
  - exists (Some s). split; [done|]. apply tcmp_eq in E. exists k. split; [set_solver|done].
  - exists None. split; [done|]. intros k' s' [[= -> ->]|Hin]%elem_of_cons.
    + intros En. rewrite En, tcmp_refl in E. done.
    + intros En. apply Hlt in Hin. unfold bt_lt in Hin. simpl in Hin. rewrite En in Hin.
      rewrite tcmp_opp, Hin in E. done.
  - destruct (IH Hs HF) as (o & Ho & Hspec). exists o. split; [done|].
    destruct o as [s'|]; simpl in *.
    + destruct Hspec as (k' & ? & ?). exists k'. split; [by apply elem_of_cons; right|done].
    + intros k' s' [[= -> ->]|Hin]%elem_of_cons; [|by eapply Hspec].
      intros En. by rewrite En, tcmp_refl in E.
Qed.

Lemma bt_put_spec D t v s :
  comparable D -> bt_ok D t -> D v -> bt_ok D (bt_put t v s) /\ put_spec norm t (norm v) s (bt_put t v s).
Proof.
  intros HD Hok Hv.
  assert (bt_ok D (bt_put t v s) /\ put_spec norm t (norm v) s (bt_put t v s) /\
          forall q, q ∈ bt_put t v s -> (exists q', q' ∈ t /\ norm q'.1 = norm q.1) \/ norm q.1 = norm v) as (?&?&_);
    [|done].
  induction t as [|[k s0] t IH]; simpl.
  { split; [split; [repeat constructor|by repeat constructor]|]. split.
    - split; [|split]; [|intros ? ? ?%elem_of_nil; done|exists v; split; [set_solver|done]].
      intros k' s' [= -> ->]%elem_of_list_singleton. by right.
    - intros q ->%elem_of_list_singleton. by right. }
  destruct Hok as [Hs HF]. apply bt_sorted_inv in Hs as [Hs Hlt]. apply Forall_cons in HF as [Hk HF]. simpl in Hk.
  rewrite (cmp_norm D) by done. destruct (tcmp (norm v) (norm k)) eqn:E.
  - apply tcmp_eq in E. split; [split|split].
    + constructor; [done|]. apply Forall_forall. intros q Hq. by apply Hlt in Hq.
    + by constructor.
    + assert (forall k' s', (k', s') ∈ t -> norm k' <> norm v) as Hne.
      { intros k' s' Hin En. apply Hlt in Hin. unfold bt_lt in Hin. simpl in Hin. rewrite En, E, tcmp_refl in Hin. done. }
      split; [|split].
      * intros k' s' [[= -> ->]|Hin]%elem_of_cons; [by right|left]. split; [by apply elem_of_cons; right|by eapply Hne].
      * intros k' s' [[= -> ->]|Hin]%elem_of_cons; [done|]. intros _. by apply elem_of_cons; right.
      * exists k. split; [set_solver|done].
    + intros q [->|Hin]%elem_of_cons; [by right|]. left. exists q. split; [by apply elem_of_cons; right|done].
  - assert (forall q, q ∈ (k, s0) :: t -> tcmp (norm v) (norm q.1) = Lt) as Hall.
    { intros q [->|Hin]%elem_of_cons; [done|]. eapply tcmp_trans_lt; [exact E|]. by apply Hlt in Hin. }
    split; [split|split].
    + constructor; [constructor; [done|by apply Forall_forall]|]. apply Forall_forall. intros q Hq. by apply Hall.
    + constructor; [done|]. by constructor.
    + split; [|split].
      * intros k' s' [[= -> ->]|Hin]%elem_of_cons; [by right|left]. split; [done|].
        intros En. apply Hall in Hin. simpl in Hin. rewrite En, tcmp_refl in Hin. done.
      * intros k' s' Hin _. by apply elem_of_cons; right.
      * exists v. split; [set_solver|done].
    + intros q [->|Hin]%elem_of_cons; [by right|]. left. eauto.
  - destruct IH as ((Hs' & HF') & (Hp1 & Hp2 & Hp3) & Hq); [by split|]. split; [split|split].
    + constructor; [done|]. apply Forall_forall. intros q Hin. unfold bt_lt. simpl.
      destruct (Hq _ Hin) as [(q' & Hq' & <-)|En]; [by apply Hlt in Hq'|]. rewrite En, tcmp_opp, E. done.
    + by constructor.
    + assert (norm k <> norm v) by (intros En; rewrite En, tcmp_refl in E; done). split; [|split].
      * intros k' s' [[= -> ->]|Hin]%elem_of_cons; [left; split; [set_solver|done]|].
        destruct (Hp1 _ _ Hin) as [[? ?]|?]; [left|by right]. split; [by apply elem_of_cons; right|done].
      * intros k' s' [[= -> ->]|Hin]%elem_of_cons; [set_solver|]. intros. apply elem_of_cons; right. by apply Hp2.
      * destruct Hp3 as (k' & ? & ?). exists k'. split; [by apply elem_of_cons; right|done].
    + intros q [->|Hin]%elem_of_cons; [left; exists (k, s0); split; [set_solver|done]|].
      destruct (Hq _ Hin) as [(q' & Hq' & ?)|En]; [|by right]. left. exists q'. split; [by apply elem_of_cons; right|done].
Qed.

Lemma bt_del_spec D t v :
  comparable D -> bt_ok D t -> D v -> bt_ok D (bt_del t v) /\ del_spec norm t (norm v) (bt_del t v).
Proof.
  intros HD Hok Hv. induction t as [|[k s0] t IH]; simpl.
  { split; [done|]. intros k s. split; [by intros ?%elem_of_nil|]. by intros [?%elem_of_nil _]. }
  destruct Hok as [Hs HF]. apply bt_sorted_inv in Hs as [Hs Hlt]. apply Forall_cons in HF as [Hk HF]. simpl in Hk.
  rewrite (cmp_norm D) by done. destruct (tcmp (norm v) (norm k)) eqn:E.
  - apply tcmp_eq in E. split; [by split|]. intros k' s'. rewrite elem_of_cons. split.
    + intros Hin. split; [by right|]. intros En. apply Hlt in Hin. unfold bt_lt in Hin. simpl in Hin.
      rewrite En, E, tcmp_refl in Hin. done.
    + intros [[[= -> ->]|?] ?]; congruence.
  - split; [split; constructor; [done|by apply Forall_forall|done|done]|].
    intros k' s'. split; [|tauto]. intros Hin. split; [done|]. intros En.
    apply elem_of_cons in Hin as [[= -> ->]|Hin].
    + rewrite En, tcmp_refl in E. done.
    + apply Hlt in Hin. unfold bt_lt in Hin. simpl in Hin. rewrite En in Hin. rewrite tcmp_opp, Hin in E. done.
  - destruct IH as ((Hs' & HF') & Hd); [by split|]. unfold del_spec in Hd. split; [split|].
    + constructor; [done|]. apply Forall_forall. intros [k' s'] Hin. apply Hd in Hin as [Hin _]. by apply Hlt in Hin.
    + by constructor.
    + intros k' s'. rewrite !elem_of_cons, (Hd k' s'). split; [|tauto].
      intros [[= -> ->]|?]; [|tauto]. split; [by left|]. intros En. rewrite En, tcmp_refl in E. done.
Qed.

(** ** Hash table *)
Lemma h_get_spec t w : NoDup t.*1 -> get_spec (fun k => k) t w (h_get t w).
Proof.
  induction t as [|[k s] t IH]; simpl; intros Hnd; [by intros ? ? ?%elem_of_nil|].
  apply NoDup_cons in Hnd as [Hni Hnd]. destruct (decide (w = k)) as [->|Hne].
  - exists k. split; [set_solver|done].
  - specialize (IH Hnd). destruct (h_get t w) as [s'|]; simpl in *.
    + destruct IH as (k' & ? & ?). exists k'. split; [by apply elem_of_cons; right|done].
    + intros k' s' [[= -> ->]|Hin]%elem_of_cons; [done|]. by eapply IH.
Qed.
Lemma h_put_spec t w s : NoDup t.*1 -> NoDup (h_put t w s).*1 /\ put_spec (fun k => k) t w s (h_put t w s).
Proof.
  intros Hnd. assert (NoDup (h_put t w s).*1 /\ put_spec (fun k => k) t w s (h_put t w s) /\
    forall k, k ∈ (h_put t w s).*1 <-> k ∈ t.*1 \/ k = w) as (?&?&_); [|done].
  induction t as [|[k s0] t IH]; simpl.
  { split; [repeat constructor; set_solver|]. split.
    - split; [|split]; [|intros ? ? ?%elem_of_nil; done|exists w; split; [set_solver|done]].
      intros k' s' [= -> ->]%elem_of_list_singleton. by right.
    - intros k. set_solver. }
  apply NoDup_cons in Hnd as [Hni Hnd]. destruct (decide (w = k)) as [->|Hne].
  - simpl. split; [by constructor|]. split.
    + assert (forall k' s', (k', s') ∈ t -> k' <> k) as Hne'.
      { intros k' s' Hin ->. apply Hni. apply elem_of_list_fmap. by exists (k, s'). }
      split; [|split].
      * intros k' s' [[= -> ->]|Hin]%elem_of_cons; [by right|left]. split; [by apply elem_of_cons; right|by eapply Hne'].
      * intros k' s' [[= -> ->]|Hin]%elem_of_cons; [done|]. intros _. by apply elem_of_cons; right.
      * exists k. split; [set_solver|done].
    + intros k'. set_solver.
  - destruct (IH Hnd) as (Hnd' & (Hp1 & Hp2 & Hp3) & Hk). simpl. split; [|split].
    + constructor; [|done]. rewrite Hk. intros [?| ->]; done.
    + split; [|split].
      * intros k' s' [[= -> ->]|Hin]%elem_of_cons; [left; split; [set_solver|done]|].
        destruct (Hp1 _ _ Hin) as [[? ?]|?]; [left|by right]. split; [by apply elem_of_cons; right|done].
      * intros k' s' [[= -> ->]|Hin]%elem_of_cons; [set_solver|]. intros. apply elem_of_cons; right. by apply Hp2.
      * destruct Hp3 as (k' & ? & ?). exists k'. split; [by apply elem_of_cons; right|done].
    + intros k'. rewrite !elem_of_cons, Hk. tauto.
Qed.

(** ** Indexes *)
Definition ix_type (ix : index) : index_type := match ix with IBtree _ => BtreeIndex | IHash _ _ _ => HashIndex end.
(** values such an index can hold together *)
Definition ix_domain (it : index_type) (D : value -> Prop) : Prop :=
  match it with
  | BtreeIndex => comparable D
  | HashIndex => forall v, D v -> hashable (hkey v) = true
  end.

Definition ix_rep (D : value -> Prop) (ix : index) (c : gmap nat value) : Prop :=
  (forall i v, c !! i = Some v -> D v) /\
  match ix with
  | IBtree None => c = ∅
  | IBtree (Some t) => bt_ok D t /\ bk_inv norm norm (fun i x => x = i) c t
  | IHash vals els fresh =>
      NoDup vals.*1 /\ NoDup els.*1 /\ Forall (fun h => h < fresh) els.*1 /\
      NoDup els.*2 /\ (forall i, i ∈ els.*2 <-> is_Some (c !! i)) /\
      bk_inv hkey (fun k => k) (fun i x => (x, i) ∈ els) c vals
  end.

Lemma ix_rep_new D it : ix_rep D (ix_new it) ∅.
Proof.
  split; [intros i v; by rewrite lookup_empty|]. destruct it; simpl; [done|].
  repeat split; try constructor; intros *; rewrite ?lookup_empty; try done; try by intros ?%elem_of_nil.
  by intros [? ?].
Qed.

Lemma hash_no_adds (els : list (nat * nat)) fresh (c : gmap nat value) : Forall (fun h => h < fresh) els.*1 ->
  (forall i, i ∈ els.*2 <-> is_Some (c !! i)) -> forall i, fresh = 0 -> els = [] /\ c !! i = None.
Proof.
  intros Hf Hdom i ->. assert (els = []) as -> by (destruct els as [|[h j] els]; [done|]; inversion Hf; lia).
  split; [done|]. destruct (c !! i) eqn:E; [|done]. assert (i ∈ ([] : list (nat * nat)).*2) as Hi by (apply Hdom; eauto). by apply elem_of_nil in Hi.
Qed.

Lemma fst_inj (els : list (nat * nat)) h i j : NoDup els.*1 -> (h, i) ∈ els -> (h, j) ∈ els -> i = j.
Proof.
  induction els as [|[a b] els IH]; intros Hnd Hi Hj; [by apply elem_of_nil in Hi|].
  simpl in Hnd. apply NoDup_cons in Hnd as [Hni Hnd].
  assert (forall z, (h, z) ∈ els -> h ∈ els.*1) as Hz by (intros z Hz; apply elem_of_list_fmap; by exists (h, z)).
  apply elem_of_cons in Hi as [Hi|Hi]; apply elem_of_cons in Hj as [Hj|Hj].
  - congruence.
  - injection Hi as -> ->. destruct Hni. eauto.
  - injection Hj as -> ->. destruct Hni. eauto.
  - by apply IH.
Qed.
Lemma snd_inj (els : list (nat * nat)) h i j : NoDup els.*2 -> (i, h) ∈ els -> (j, h) ∈ els -> i = j.
Proof.
  induction els as [|[a b] els IH]; intros Hnd Hi Hj; [by apply elem_of_nil in Hi|].
  simpl in Hnd. apply NoDup_cons in Hnd as [Hni Hnd].
  assert (forall z, (z, h) ∈ els -> h ∈ els.*2) as Hz by (intros z Hz; apply elem_of_list_fmap; by exists (z, h)).
  apply elem_of_cons in Hi as [Hi|Hi]; apply elem_of_cons in Hj as [Hj|Hj].
  - congruence.
  - injection Hi as -> ->. destruct Hni. eauto.
  - injection Hj as -> ->. destruct Hni. eauto.
  - by apply IH.
Qed.
Lemma filter_fmap_NoDup {A B} (f : A -> B) (P : A -> Prop) `{!forall x, Decision (P x)} xs :
  NoDup (f <$> xs) -> NoDup (f <$> filter P xs).
Proof.
  induction xs as [|p xs IH]; csimpl; [done|]. intros [Hni Hnd]%NoDup_cons.
  rewrite filter_cons. destruct (decide (P p)); csimpl; [|by apply IH].
  apply NoDup_cons. split; [|by apply IH]. intros Hin. apply Hni.
  apply elem_of_list_fmap in Hin as (q & Hq & Hin). apply elem_of_list_filter in Hin as [_ Hin].
  rewrite Hq. by apply elem_of_list_fmap_1.
Qed.
Lemma els_app (els : list (nat * nat)) fresh id i x : (x, i) ∈ els ++ [(fresh, id)] <-> (x, i) ∈ els \/ i = id /\ x = fresh.
Proof. rewrite elem_of_app, elem_of_list_singleton. naive_solver. Qed.

Lemma ix_add_ok D ix c id v :
  ix_domain (ix_type ix) D -> ix_rep D ix c -> D v -> c !! id = None ->
  exists ix', ix_add ix v id = Ok ix' /\ ix_rep D ix' (<[id := v]> c) /\ ix_type ix' = ix_type ix.
Proof.
  intros HD [Hc Hrep] Hv Hid.
  assert (forall i w, <[id := v]> c !! i = Some w -> D w) as Hc'.
  { intros i w [[-> <-]|[_ Hw]]%lookup_insert_Some; [done|by eapply Hc]. }
  destruct ix as [ot|vals els fresh]; simpl in HD |- *.
  - assert (bt_ok D (default [] ot) /\ bk_inv norm norm (fun i x => x = i) c (default [] ot)) as [Hok Hbk].
    { destruct ot as [t|]; simpl; [done|]. rewrite Hrep. split; [split; constructor|].
      split; [by intros ? ? ?%elem_of_nil|]. intros i w. by rewrite lookup_empty. }
    destruct (bt_get_spec D _ v HD Hok Hv) as (o & Hget & Hspec). rewrite Hget. simpl.
    eexists. split; [done|]. split; [|done]. split; [done|].
    destruct (bt_put_spec D (default [] ot) v (fs_add (match o with Some s => s | None => fs_new end) id id).1 HD Hok Hv) as [Hok' Hput].
    split; [done|]. eapply bk_add; [exact Hbk|done|exact Hspec|exact Hput|done|done].
  - destruct Hrep as (Hnd & He1 & Hf & He2 & Hdom & Hbk). rewrite (HD v Hv). eexists. split; [done|]. split; [|done].
    split; [done|]. pose proof (h_get_spec vals (hkey v) Hnd) as Hget.
    destruct (h_put_spec vals (hkey v) (fs_add (match h_get vals (hkey v) with Some s => s | None => fs_new end) id fresh).1 Hnd) as [Hnd' Hput].
    assert (id ∉ els.*2) as Hni by (rewrite Hdom, Hid; by intros [? ?]).
    split; [done|]. split; [|split; [|split; [|split]]].
    + rewrite fmap_app. apply NoDup_app. split; [done|]. split; [|apply NoDup_singleton].
      intros h Hh ->%elem_of_list_singleton. rewrite Forall_forall in Hf. apply Hf in Hh. simpl in Hh. lia.
    + rewrite fmap_app. apply Forall_app. split; [eapply Forall_impl; [exact Hf|]; simpl; lia|]. repeat constructor.
    + rewrite fmap_app. apply NoDup_app. split; [done|]. split; [|apply NoDup_singleton].
      by intros h Hh ->%elem_of_list_singleton.
    + intros i. rewrite fmap_app, elem_of_app. simpl. rewrite elem_of_list_singleton, Hdom.
      destruct (decide (i = id)) as [->|Hne].
      * rewrite lookup_insert. split; [eauto|by right].
      * rewrite lookup_insert_ne by done. naive_solver.
    + eapply bk_add; [exact Hbk|done|exact Hget|exact Hput| |].
      * intros j y Hj. rewrite els_app. naive_solver.
      * intros y. rewrite els_app. split; [|naive_solver]. intros [Hin|[_ ?]]; [|done].
        destruct Hni. apply elem_of_list_fmap. by exists (y, id).
Qed.

Lemma ix_remove_ok D ix c id v :
  ix_domain (ix_type ix) D -> ix_rep D ix c -> c !! id = Some v ->
  exists ix', ix_remove ix v id = Ok ix' /\ ix_rep D ix' (delete id c) /\ ix_type ix' = ix_type ix.
Proof.
  intros HD [Hc Hrep] Hid. pose proof (Hc _ _ Hid) as Hv.
  assert (forall i w, delete id c !! i = Some w -> D w) as Hc'.
  { intros i w [_ Hw]%lookup_delete_Some. by eapply Hc. }
  destruct ix as [[t|]|vals els fresh]; simpl in HD |- *.
  - destruct Hrep as [Hok Hbk].
    destruct (bt_get_spec D _ v HD Hok Hv) as (o & Hget & Hspec). rewrite Hget. simpl.
    destruct o as [s|].
    2: { destruct (proj2 Hbk _ _ Hid) as (k & s & Hks & E). destruct (Hspec _ _ Hks). done. }
    destruct (bt_put_spec D t v (fs_remove s id).1 HD Hok Hv) as [Hok' Hput].
    destruct (bt_del_spec D t v HD Hok Hv) as [Hokd Hdel].
    destruct (decide (fs_size (fs_remove s id).1 = 0)) as [Hz|Hz].
    + eexists. split; [done|]. split; [|done]. split; [done|]. split; [done|].
      eapply bk_remove_last; [|exact Hbk|done|exact Hspec|done|done|done]. intros j w _. by exists j.
    + eexists. split; [done|]. split; [|done]. split; [done|]. split; [done|].
      eapply bk_remove; [exact Hbk|done|exact Hspec|done|done].
  - rewrite Hrep, lookup_empty in Hid. done.
  - destruct Hrep as (Hnd & He1 & Hf & He2 & Hdom & Hbk).
    destruct (decide (fresh = 0)) as [->|_].
    { destruct (hash_no_adds _ _ _ Hf Hdom id eq_refl) as [_ E]. by rewrite E in Hid. }
    rewrite (HD v Hv). pose proof (h_get_spec vals (hkey v) Hnd) as Hget.
    destruct (h_get vals (hkey v)) as [s|] eqn:Hg.
    2: { destruct (proj2 Hbk _ _ Hid) as (k & s & Hks & E). by destruct (Hget _ _ Hks). }
    destruct (bk_get _ _ _ _ _ _ _ Hbk Hget) as (xs & Hxs & Hin).
    assert (is_Some (c !! id)) as Hs by eauto. apply Hdom in Hs. apply elem_of_list_fmap in Hs as ([h i] & -> & Hh). simpl in *.
    assert (fs_get s i = Some h) as ->. { apply (fs_get_ok _ _ _ _ Hxs). apply Hin. eauto. }
    destruct (h_put_spec vals (hkey v) (fs_remove s i).1 Hnd) as [Hnd' Hput].
    eexists. split; [done|]. split; [|done]. split; [done|].
    assert (forall y j, (y, j) ∈ filter (fun p : nat * nat => p.1 <> h) els <-> (y, j) ∈ els /\ j <> i) as Hels.
    { intros y j. rewrite elem_of_list_filter. simpl. split; [intros [Hy Hj]|intros [Hj Hy]]; split; try done.
      - intros ->. apply Hy. by eapply snd_inj.
      - intros ->. apply Hy. by eapply fst_inj. }
    split; [done|]. split; [|split; [|split; [|split]]].
    + by apply filter_fmap_NoDup.
    + rewrite Forall_forall in Hf |- *. intros x Hx. apply Hf. apply elem_of_list_fmap in Hx as (q & -> & Hx).
      apply elem_of_list_filter in Hx as [_ Hx]. by apply elem_of_list_fmap_1.
    + by apply filter_fmap_NoDup.
    + intros j. rewrite lookup_delete_is_Some, <- Hdom. rewrite !elem_of_list_fmap. split.
      * intros ([y j'] & -> & Hj). apply Hels in Hj as [? ?]. simpl. split; [done|]. by exists (y, j').
      * intros [Hne ([y j'] & -> & Hj)]. exists (y, j'). split; [done|]. by apply Hels.
    + eapply bk_remove; [exact Hbk|done|exact Hget|exact Hput|]. intros j y Hj. rewrite Hels. tauto.
Qed.

Lemma elem_of_concat {A} (x : A) ls : x ∈ concat ls <-> exists l, x ∈ l /\ l ∈ ls.
Proof.
  induction ls as [|l ls IH]; simpl.
  - split; [by intros ?%elem_of_nil|]. by intros (? & _ & ?%elem_of_nil).
  - rewrite elem_of_app, IH. split.
    + intros [?|(l' & ? & ?)]; [exists l|exists l']; (split; [done|]); set_solver.
    + intros (l' & ? & [->|?]%elem_of_cons); eauto.
Qed.
Lemma bt_values_ok D t c :
  bt_ok D t -> bk_inv norm norm (fun i x => x = i) c t ->
  NoDup (concat (map (fun p => fs_iter p.2) t)) /\
  forall i, i ∈ concat (map (fun p => fs_iter p.2) t) <-> is_Some (c !! i).
Proof.
  intros [Hs _] [H1 H2].
  assert (forall k s i, (k, s) ∈ t -> i ∈ fs_iter s <-> exists v, c !! i = Some v /\ norm v = norm k) as Hit.
  { intros k s i Hks. destruct (H1 _ _ Hks) as (xs & Hxs & Hin). rewrite (fs_iter_ok _ _ Hxs), elem_of_list_fmap. split.
    - intros ([j y] & -> & Hj). apply Hin in Hj as [Hj ?]. simpl in Hj |- *. by subst y.
    - intros Hv. exists (i, i). split; [done|]. by apply Hin. }
  split.
  - clear H2. induction t as [|[k s] t IH]; simpl; [constructor|].
    apply bt_sorted_inv in Hs as [Hs Hlt]. apply NoDup_app. split; [|split].
    + destruct (H1 k s ltac:(set_solver)) as (xs & Hxs & Hin). rewrite (fs_iter_ok _ _ Hxs).
      assert (xs.*2 = xs.*1) as ->.
      { clear - Hin. assert (forall i x, (i, x) ∈ xs -> x = i) as Hx by (intros i x Hi; by apply Hin in Hi as [? _]).
        clear Hin. induction xs as [|[i x] xs IH]; [done|]. csimpl. f_equal; [apply Hx; set_solver|].
        apply IH. intros j y Hj. apply Hx. by apply elem_of_cons; right. }
      by destruct Hxs as (? & _ & _ & ? & _).
    + intros i Hi Hi2. apply (Hit k s i ltac:(set_solver)) in Hi as (v & Hv & Hvk).
      apply elem_of_concat in Hi2 as (l & Hl & Hin). apply elem_of_list_fmap in Hin as ([k' s'] & -> & Hin).
      simpl in Hl. pose proof Hin as Hin'. apply (Hit k' s' i ltac:(by apply elem_of_cons; right)) in Hl as (v' & Hv' & Hvk').
      apply Hlt in Hin'. unfold bt_lt in Hin'. simpl in Hin'. rewrite <- Hvk, <- Hvk' in Hin'. rewrite Hv in Hv'. injection Hv' as ->.
      rewrite tcmp_refl in Hin'. done.
    + apply IH; [done| |].
      * intros k' s' Hin. apply H1. by apply elem_of_cons; right.
      * intros k' s' i Hin. apply Hit. by apply elem_of_cons; right.
  - intros i. rewrite elem_of_concat. split.
    + intros (l & Hl & Hin). apply elem_of_list_fmap in Hin as ([k s] & -> & Hin). apply (Hit _ _ _ Hin) in Hl as (v & ? & _). eauto.
    + intros [v Hv]. destruct (H2 _ _ Hv) as (k & s & Hks & E). exists (fs_iter s). split; [apply (Hit _ _ _ Hks); eauto|].
      apply elem_of_list_fmap. by exists (k, s).
Qed.

Lemma ix_values_ok D ix c : ix_rep D ix c ->
  NoDup (ix_values ix).1 /\ (forall i, i ∈ (ix_values ix).1 <-> is_Some (c !! i)) /\
  ((ix_values ix).2 = -1 \/ Z.of_nat (length (ix_values ix).1) <= (ix_values ix).2)%Z.
Proof.
  intros [_ Hrep]. destruct ix as [[t|]|vals els fresh]; simpl.
  - destruct Hrep as [Hok Hbk]. destruct (bt_values_ok _ _ _ Hok Hbk) as [H1 H2]. split; [done|]. split; [done|]. by left.
  - split; [constructor|]. split; [|right; lia]. intros i. rewrite Hrep, lookup_empty.
    split; [by intros ?%elem_of_nil|by intros [? ?]].
  - destruct Hrep as (Hnd & He1 & Hf & He2 & Hdom & Hbk). split; [done|]. split; [done|]. right.
    rewrite fmap_length. lia.
Qed.

(** When two values are the same for an index. *)
Definition same_key (it : index_type) (v w : value) : Prop :=
  match it with BtreeIndex => compare_value w v = Some Eq | HashIndex => hkey w = hkey v end.

Lemma el_value_ok (els : list (nat * nat)) h i : NoDup els.*1 -> (h, i) ∈ els -> el_value els h = Some i.
Proof.
  intros Hnd Hin. unfold el_value. destruct (list_find (fun p : nat * nat => p.1 = h) els) as [[j [h' i']]|] eqn:E.
  - apply list_find_Some in E as (Hj & Hh & _). simpl in Hh. subst h'. apply elem_of_list_lookup_2 in Hj.
    f_equal. by eapply fst_inj.
  - apply list_find_None in E. rewrite Forall_forall in E. by apply E in Hin.
Qed.

Lemma fs_rep_ids {A} (s : fastset A) xs : fs_rep s xs -> NoDup xs.*1.
Proof. by intros (ts & _ & _ & ? & _). Qed.

Lemma ix_find_ok D ix c v :
  ix_domain (ix_type ix) D -> ix_rep D ix c -> D v ->
  exists xs m, ix_find ix v = Ok (xs, m) /\ NoDup xs /\ Z.of_nat (length xs) = m /\
    forall i, i ∈ xs <-> exists w, c !! i = Some w /\ same_key (ix_type ix) v w.
Proof.
  intros HD [Hc Hrep] Hv. destruct ix as [[t|]|vals els fresh]; simpl in HD |- *.
  - destruct Hrep as [Hok Hbk].
    destruct (bt_get_spec D _ v HD Hok Hv) as (o & Hget & Hspec). rewrite Hget. simpl.
    destruct (bk_get _ _ _ _ _ _ _ Hbk Hspec) as (xs & Hxs & Hin).
    assert (forall i, (i, i) ∈ xs <-> exists w, c !! i = Some w /\ compare_value w v = Some Eq) as Hin'.
    { intros i. rewrite Hin. split.
      - intros (_ & w & Hw & E). exists w. split; [done|]. rewrite (cmp_norm D) by eauto. rewrite E. by rewrite tcmp_refl.
      - intros (w & Hw & E). split; [done|]. exists w. split; [done|]. by apply compare_value_eq_norm. }
    assert (xs.*2 = xs.*1) as Hx21.
    { clear - Hin. assert (forall i x, (i, x) ∈ xs -> x = i) as Hx by (intros i x Hi; by apply Hin in Hi as [? _]).
        clear Hin. induction xs as [|[i x] xs IH]; [done|]. csimpl. f_equal; [apply Hx; set_solver|].
        apply IH. intros j y Hj. apply Hx. by apply elem_of_cons; right. }
    assert (forall i, i ∈ xs.*2 <-> exists w, c !! i = Some w /\ compare_value w v = Some Eq) as Hin2.
    { intros i. rewrite <- Hin', elem_of_list_fmap. split.
      - intros ([j y] & -> & Hj). pose proof Hj as Hj'. apply Hin in Hj' as [-> _]. done.
      - intros Hi. by exists (i, i). }
    pose proof (fs_rep_ids _ _ Hxs) as Hndx. destruct o as [s|].
    + exists (fs_iter s), (Z.of_nat (fs_size s)). rewrite (fs_iter_ok _ _ Hxs), (fs_size_ok _ _ Hxs).
      split; [done|]. rewrite Hx21 in *. split; [done|]. split; [by rewrite fmap_length|done].
    + assert (xs = []) as ->.
      { pose proof (fs_size_ok _ _ Hxs) as Hsz. symmetry in Hsz. by apply nil_length_inv in Hsz. }
      exists [], 0%Z. split; [done|]. split; [constructor|]. split; [done|]. done.
  - exists [], 0%Z. split; [done|]. split; [constructor|]. split; [done|].
    intros i. rewrite Hrep, lookup_empty. split; [by intros ?%elem_of_nil|by intros (? & ? & _)].
  - destruct Hrep as (Hnd & He1 & Hf & He2 & Hdom & Hbk).
    destruct (decide (fresh = 0)) as [->|_].
    { exists [], 0%Z. split; [done|]. split; [constructor|]. split; [done|]. intros i. split; [by intros ?%elem_of_nil|].
      intros (w & Hw & _). destruct (hash_no_adds _ _ _ Hf Hdom i eq_refl) as [_ E]. by rewrite E in Hw. }
    rewrite (HD v Hv). pose proof (h_get_spec vals (hkey v) Hnd) as Hget.
    destruct (bk_get _ _ _ _ _ _ _ Hbk Hget) as (xs & Hxs & Hin).
    assert (forall l, (forall i x, (i, x) ∈ l -> (x, i) ∈ els) -> omap (el_value els) l.*2 = l.*1) as Hom.
    { clear - He1. intros l Hl. induction l as [|[i x] l IH]; [done|]. csimpl.
      rewrite (el_value_ok _ x i He1) by (apply Hl; set_solver). f_equal. apply IH.
      intros j y Hj. apply Hl. by apply elem_of_cons; right. }
    specialize (Hom xs ltac:(intros i x Hi; by apply Hin in Hi as [? _])).
    assert (forall i, i ∈ xs.*1 <-> exists w, c !! i = Some w /\ hkey w = hkey v) as Hin1.
    { intros i. rewrite elem_of_list_fmap. split.
      - intros ([j y] & -> & Hj). by apply Hin in Hj as [_ ?].
      - intros (w & Hw & E). assert (is_Some (c !! i)) as Hs by eauto. apply Hdom in Hs.
        apply elem_of_list_fmap in Hs as ([y j] & -> & Hj). exists (j, y). split; [done|]. apply Hin. eauto. }
    pose proof (fs_rep_ids _ _ Hxs) as Hndx. destruct (h_get vals (hkey v)) as [s|].
    + exists (xs.*1), (Z.of_nat (length xs)). rewrite (fs_iter_ok _ _ Hxs), (fs_size_ok _ _ Hxs), Hom.
      split; [done|]. split; [done|]. split; [by rewrite fmap_length|done].
    + assert (xs = []) as ->.
      { pose proof (fs_size_ok _ _ Hxs) as Hsz. symmetry in Hsz. by apply nil_length_inv in Hsz. }
      exists [], 0%Z. split; [done|]. split; [constructor|]. split; [done|]. done.
Qed.
