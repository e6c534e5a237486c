(** Proofs about which calls panic (JamSpec.v): one index, and the indexes of one key. *)
From Verif Require Import Base Value ValueProofs FastSet FastSetProofs Index IndexProofs Graph GraphSpec.
From Verif Require Import CoreProofs CoreStep AdjProofs ReadProofs NodeListProofs EdgeListProofs IndexGraphProofs ProgressProofs HashLiveProofs.
From Verif Require Import OrderSpec QueryOrderSpec RecoverProofs HashOnlySpec HashOnlyProofs JamSpec.

(** ** Values *)
Lemma kind_strip v : kind (strip v) = kind v.
Proof. induction v; simpl; auto. Qed.
Lemma plain_strip v : plain (strip v) <-> plain v.
Proof. induction v; simpl; tauto. Qed.
Lemma strip_not_native v w : strip v <> VNative w.
Proof. induction v; simpl; done. Qed.
Lemma lex_total {A B} (f : A -> B -> option comparison) l1 : forall l2, (forall x y, f x y <> None) -> lex f l1 l2 <> None.
Proof.
  induction l1 as [|x l1 IH]; intros [|y l2] H; simpl; try done. specialize (H x y) as Hxy. destruct (f x y) as [[]|]; try done. by apply IH.
Qed.
Lemma fit_compare v w : fit v w -> compare_value v w <> None.
Proof.
  intros [H Hn]. rewrite <- compare_value_strip_l, <- compare_value_strip_r. rewrite <- (kind_strip v), <- (kind_strip w) in H. rewrite <- (kind_strip v) in Hn.
  pose proof (strip_not_native v) as Nv. pose proof (strip_not_native w) as Nw.
  destruct (strip v); simpl in *; try done; try (by destruct (Nv _ eq_refl)); destruct (strip w); simpl in *; try done; try (by destruct (Nw _ eq_refl)).
  - apply lex_total; done.
  - apply lex_total; done.
Qed.
Lemma unfit_compare v w : plain v -> plain w -> ~ fit v w -> compare_value v w = None.
Proof.
  intros Pv Pw H. rewrite <- compare_value_strip_l, <- compare_value_strip_r. apply plain_strip in Pv, Pw. unfold fit in H.
  rewrite <- (kind_strip v), <- (kind_strip w) in H.
  pose proof (strip_not_native v) as Nv. pose proof (strip_not_native w) as Nw.
  destruct (strip v); simpl in *; try done; try (by destruct (Nv _ eq_refl)); destruct (strip w); simpl in *; try done; try (by destruct (Nw _ eq_refl));
    destruct H; done.
Qed.
Definition of_kind (K : kind_name) (v : value) : Prop := kind v = Some K.
Lemma of_kind_plain K v : of_kind K v -> plain v.
Proof. unfold of_kind. induction v; simpl; try done; auto. Qed.
Lemma of_kind_fit K v w : of_kind K w -> fit v w <-> of_kind K v.
Proof. unfold of_kind, fit. intros ->. split; [by intros [? _]|]. intros ->. done. Qed.
Lemma of_kind_comparable K : comparable (of_kind K).
Proof. intros v w Hv Hw. apply fit_compare. by eapply of_kind_fit. Qed.

(** ** One index *)
Definition filled (c : gmap nat value) (t : list (value * fastset nat)) : Prop :=
  forall k s, (k, s) ∈ t -> exists i w, c !! i = Some w /\ norm w = norm k.
Definition lone (i : nat) (v : value) : list (value * fastset nat) := [(v, (fs_add fs_new i i).1)].
Definition held (ix : index) (c : gmap nat value) : Prop :=
  match ix with
  | IHash _ _ _ => exists D, ix_domain HashIndex D /\ ix_rep D ix c
  | IBtree ot =>
      (default [] ot = [] /\ c = ∅) \/
      (exists K t, ot = Some t /\ c <> ∅ /\ filled c t /\ ix_rep (of_kind K) ix c) \/
      (exists i v, ot = Some (lone i v) /\ c = {[i := v]} /\ kind v = None /\ plain v)
  end.
Lemma held_new it : held (ix_new it) ∅.
Proof. destruct it; [by left|]. exists (fun _ => False). split; [by intros v []|]. apply (ix_rep_new _ HashIndex). Qed.
Lemma empty_rep D (ot : option (list (value * fastset nat))) : default [] ot = [] -> ix_rep D (IBtree ot) ∅.
Proof.
  intros H. split; [intros i v; by rewrite lookup_empty|]. destruct ot as [t|]; simpl in *; [|done]. subst t.
  split; [split; constructor|]. split; [by intros ? ? ?%elem_of_nil|]. intros i w. by rewrite lookup_empty.
Qed.
Lemma map_some (c : gmap nat value) : c <> ∅ -> exists i w, c !! i = Some w.
Proof. intros H. apply map_choose in H as (i & x & ?). eauto. Qed.

Definition outcome (r : res index) (t : index_type) (c' : gmap nat value) (bad : Prop) : Prop :=
  (exists ix', r = Ok ix' /\ ix_type ix' = t /\ held ix' c' /\ ~ bad) \/ r = Panic /\ bad.

Lemma bt_put_one t v s : t = [] -> bt_put t v s = [(v, s)].
Proof. by intros ->. Qed.
Lemma held_in_kind K ot c v id : (default [] ot = [] /\ c = ∅ \/ exists t, ot = Some t /\ filled c t /\ ix_rep (of_kind K) (IBtree ot) c) ->
  of_kind K v -> c !! id = None ->
  exists ix', ix_add (IBtree ot) v id = Ok ix' /\ ix_type ix' = BtreeIndex /\ held ix' (<[id := v]> c).
Proof.
  intros H Hv Hid.
  assert (ix_rep (of_kind K) (IBtree ot) c /\ filled c (default [] ot)) as [Hrep Hfl].
  { destruct H as [[E ->]|(t & -> & ? & ?)]; [|done]. split; [by apply empty_rep|]. rewrite E. by intros ? ? ?%elem_of_nil. }
  destruct (ix_add_ok (of_kind K) (IBtree ot) c id v (of_kind_comparable K) Hrep Hv Hid) as (ix' & Ha & Hr' & Ht).
  exists ix'. split; [done|]. split; [done|]. cbn [ix_add] in Ha. apply rbind_Ok_inv in Ha as (o & Hg & [= <-]).
  simpl. right. left. eexists K, _. split; [done|]. split; [apply insert_non_empty|]. split; [|done].
  assert (bt_ok (of_kind K) (default [] ot)) as Hok.
  { destruct ot as [t|]; [apply Hrep|]. split; constructor. }
  destruct (bt_put_spec (of_kind K) (default [] ot) v (fs_add (match o with Some s => s | None => fs_new end) id id).1 (of_kind_comparable K) Hok Hv) as [_ (Hp & _)].
  intros k s Hin. destruct (Hp _ _ Hin) as [[Hin' Hne]|[_ E]].
  - destruct (Hfl _ _ Hin') as (i & w & Hi & E). exists i, w. split; [|done]. rewrite lookup_insert_ne; [done|]. intros ->. congruence.
  - exists id, v. by rewrite lookup_insert.
Qed.
Lemma held_in ix c v id : held ix c -> c !! id = None -> (ix_type ix = BtreeIndex -> plain v) ->
  outcome (ix_add ix v id) (ix_type ix) (<[id := v]> c) (jams_in (ix_type ix) c v).
Proof.
  destruct ix as [ot|vals els fresh]; intros Hh Hid Hpl; cbn [ix_type jams_in].
  - specialize (Hpl eq_refl). destruct Hh as [[E ->]|[(K & t & E & Hne & Hfl & Hrep)|(i & w & E & -> & Hk & Hw)]].
    + left. destruct (kind v) as [K|] eqn:Hk.
      * destruct (held_in_kind K ot ∅ v id (or_introl (conj E eq_refl)) Hk Hid) as (ix' & Ha & Ht & Hh'). exists ix'. split; [done|]. split; [done|]. split; [done|].
        intros (j & x & Hx & _). by rewrite lookup_empty in Hx.
      * exists (IBtree (Some (lone id v))). split; [simpl; by rewrite E|]. split; [done|]. split.
        -- right. right. exists id, v. rewrite insert_empty. done.
        -- intros (j & x & Hx & _). by rewrite lookup_empty in Hx.
    + destruct (map_some _ Hne) as (j & w & Hj). pose proof (proj1 Hrep _ _ Hj) as Hw. destruct (decide (kind v = Some K)) as [Hk|Hk].
      * left. destruct (held_in_kind K ot c v id) as (ix' & Ha & Ht & Hh'); [right; by exists t|done|done|]. exists ix'. split; [done|]. split; [done|]. split; [done|].
        intros (j' & x & Hx & Hn). apply Hn. eapply of_kind_fit; [|exact Hk]. by eapply Hrep.
      * right. split; [|exists j, w; split; [done|]; intros Hf; apply Hk; exact (proj1 (of_kind_fit K v w Hw) Hf)]. rewrite E in Hrep |- *. simpl. destruct Hrep as (_ & [_ HF] & [_ Hb]).
        destruct (Hb _ _ Hj) as (k & s & Hin & _). destruct t as [|[k0 s0] t]; [by apply elem_of_nil in Hin|]. simpl.
        apply Forall_cons in HF as [Hk0 _]. simpl in Hk0. rewrite unfit_compare; [done|done|by eapply of_kind_plain|].
        intros Hf. apply Hk. exact (proj1 (of_kind_fit K v _ Hk0) Hf).
    + right. assert (~ fit v w) as Hf by (unfold fit; rewrite Hk; intros [? ?]; done). split.
      * rewrite E. simpl. by rewrite unfit_compare.
      * exists i, w. by rewrite lookup_singleton.
  - destruct Hh as (D & HD & Hrep). destruct (hashable (hkey v)) eqn:Hv.
    + left. destruct (ix_add_ok (fun x => hashable (hkey x) = true) (IHash vals els fresh) c id v) as (ix' & Ha & Hr & Ht); [by intros x|split; [|apply Hrep]|done|done|].
      { intros i x Hx. apply HD. by eapply Hrep. }
      exists ix'. split; [done|]. split; [done|]. split.
      * destruct ix' as [|vals' els' fresh']; [done|]. eexists. split; [|exact Hr]. by intros x.
      * intros Hu%unhashable_key. congruence.
    + right. split; [|by apply key_unhashable]. simpl. by rewrite Hv.
Qed.
Lemma held_out ix c v id : held ix c -> c !! id = Some v ->
  outcome (ix_remove ix v id) (ix_type ix) (delete id c) (jams_out (ix_type ix) c id).
Proof.
  destruct ix as [ot|vals els fresh]; intros Hh Hid; cbn [ix_type jams_out].
  - destruct Hh as [[E ->]|[(K & t & -> & Hne & Hfl & Hrep)|(i & w & -> & -> & Hk & Hw)]]; [by rewrite lookup_empty in Hid| |].
    + left. pose proof (proj1 Hrep _ _ Hid) as Hv. destruct (ix_remove_ok (of_kind K) (IBtree (Some t)) c id v (of_kind_comparable K) Hrep Hid) as (ix' & Ha & Hr & Ht).
      exists ix'. split; [done|]. split; [done|]. split; [|intros (x & Hx & Hn); unfold of_kind in Hv; congruence].
      destruct Hrep as (_ & Hok & Hbk). destruct ix' as [ot'|]; [|done]. cbn [ix_remove] in Ha. apply rbind_Ok_inv in Ha as (o & Hg & Ha).
      assert (exists t', ot' = Some t' /\ filled (delete id c) t') as (t' & -> & Hfl').
      { destruct (bt_get_spec _ _ v (of_kind_comparable K) Hok Hv) as (o' & Hg' & Hsp). rewrite Hg in Hg'. injection Hg' as <-.
        destruct o as [s|]; [|destruct (proj2 Hbk _ _ Hid) as (k & s & Hks & E); by destruct (Hsp _ _ Hks)].
        destruct (decide (fs_size (fs_remove s id).1 = 0)) as [Hz|Hz]; injection Ha as <-; (eexists; split; [done|]).
        - destruct (bt_del_spec _ t v (of_kind_comparable K) Hok Hv) as [_ Hdel]. intros k s' [Hin Hne']%Hdel.
          destruct (Hfl _ _ Hin) as (i & w & Hi & E). exists i, w. split; [|done]. rewrite lookup_delete_ne; [done|]. intros ->. congruence.
        - destruct Hr as (_ & _ & [Hbk' _]). intros k s' Hin. destruct (bt_put_spec _ t v (fs_remove s id).1 (of_kind_comparable K) Hok Hv) as [_ (Hp & _)].
          destruct (Hp _ _ Hin) as [[Hin' Hne']|[-> E]].
          + destruct (Hfl _ _ Hin') as (i & w & Hi & E). exists i, w. split; [|done]. rewrite lookup_delete_ne; [done|]. intros ->. congruence.
          + destruct (Hbk' _ _ Hin) as (xs & Hxs & Hx). destruct xs as [|[i x] xs].
            * exfalso. apply Hz. by rewrite (fs_size_ok _ _ Hxs).
            * destruct (proj1 (Hx i x)) as (_ & w & Hw & Ew); [left|]. by exists i, w. }
      destruct (decide (delete id c = ∅)) as [He|He].
      * left. split; [|done]. simpl. destruct t' as [|[k s] t']; [done|]. destruct (Hfl' k s) as (i & w & Hi & _); [left|]. by rewrite He, lookup_empty in Hi.
      * right. left. by exists K, t'.
    + right. apply lookup_singleton_Some in Hid as [<- <-]. split; [|exists w; by rewrite lookup_singleton].
      simpl. rewrite unfit_compare; [done|done|done|]. unfold fit. rewrite Hk. by intros [_ ?].
  - left. destruct Hh as (D & HD & Hrep). destruct (ix_remove_ok D (IHash vals els fresh) c id v HD Hrep Hid) as (ix' & Ha & Hr & Ht). exists ix'. split; [done|]. split; [done|]. split; [|tauto].
    destruct ix'; [done|]. by exists D.
Qed.

(** ** The indexes of one key *)
Definition kheld (ixs : gmap string index) (k : string) (it : option index_type) (c : gmap nat value) : Prop :=
  match it with
  | None => ixs !! k = None
  | Some t => exists ix, ixs !! k = Some ix /\ ix_type ix = t /\ held ix c
  end.
Lemma kheld_at ixs k it c ix : kheld ixs k it c -> ixs !! k = Some ix -> it = Some (ix_type ix) /\ held ix c.
Proof. unfold kheld. destruct it as [t|]; [|congruence]. intros (ix' & H & <- & Hh) E. rewrite H in E. by injection E as ->. Qed.
Lemma kheld_ext ixs ixs' k it c c' : kheld ixs k it c -> ixs' !! k = ixs !! k -> c' = c -> kheld ixs' k it c'.
Proof. unfold kheld. intros H -> ->. done. Qed.
Section key.
  Context (k : string).
  Lemma kheld_add ixs it c p id ixs' :
    ixs_add ixs p id = Ok ixs' -> kheld ixs k it c -> c !! id = None ->
    (forall v, it = Some BtreeIndex -> p !! k = Some v -> plain v) ->
    kheld ixs' k it (match p !! k with Some v => <[id := v]> c | None => c end) /\
    forall t v, it = Some t -> p !! k = Some v -> ~ jams_in t c v.
  Proof.
    intros Ha Hk Hid HD. pose proof (props_loop_key (fun ix v => ix_add ix v id) _ _ _ k Ha) as H.
    destruct it as [t|]; simpl in *; [|by rewrite Hk in H]. destruct Hk as (ix & Hix & Ht & Hh). rewrite Hix in H.
    destruct (p !! k) as [v|] eqn:E; [|split; [by exists ix|done]]. destruct H as (ix' & Hadd & Hix').
    destruct (held_in ix c v id Hh Hid) as [(ix2 & Ha2 & Ht2 & Hh2 & Hn)|[Hp _]]; [intros Hb; apply HD; congruence| |congruence].
    assert (ix2 = ix') as -> by congruence. split; [exists ix'; split; [done|]; split; [congruence|done]|].
    intros t' v' [= <-] [= <-]. by rewrite <- Ht.
  Qed.
  Lemma kheld_remove ixs it c p id ixs' :
    ixs_remove ixs p id = Ok ixs' -> kheld ixs k it c -> c !! id = p !! k ->
    kheld ixs' k it (delete id c) /\ forall t, it = Some t -> ~ jams_out t c id.
  Proof.
    intros Ha Hk Hid. pose proof (props_loop_key (fun ix v => ix_remove ix v id) _ _ _ k Ha) as H.
    destruct it as [t|]; simpl in *; [|by rewrite Hk in H]. destruct Hk as (ix & Hix & Ht & Hh). rewrite Hix in H.
    destruct (p !! k) as [v|] eqn:E.
    - destruct H as (ix' & Hadd & Hix').
      destruct (held_out ix c v id Hh Hid) as [(ix2 & Ha2 & Ht2 & Hh2 & Hn)|[Hp _]]; [|congruence].
      assert (ix2 = ix') as -> by congruence. split; [exists ix'; split; [done|]; split; [congruence|done]|]. intros t' [= <-]. by rewrite <- Ht.
    - split; [exists ix; rewrite delete_notin by done; done|]. intros t' [= <-]. destruct t; simpl; [|tauto]. intros (v & Hv & _). congruence.
  Qed.
  Lemma kheld_update ixs it c old new id ixs' :
    ix_update ixs k old new id = Ok ixs' -> kheld ixs k it c -> c !! id = old ->
    (forall v, it = Some BtreeIndex -> new = Some v -> plain v) ->
    kheld ixs' k it (match new with Some v => <[id := v]> c | None => delete id c end) /\
    forall t, it = Some t -> ~ (jams_out t c id \/ exists v, new = Some v /\ jams_in t (delete id c) v).
  Proof.
    unfold ix_update. intros Hu Hk Hold HD. destruct it as [t|]; simpl in *.
    2: { rewrite Hk in Hu. by injection Hu as <-. }
    destruct Hk as (ix & Hix & Ht & Hh). rewrite Hix in Hu.
    apply rbind_Ok_inv in Hu as (ix1 & H1 & Hu). apply rbind_Ok_inv in Hu as (ix2 & H2 & [= <-]). rewrite lookup_insert.
    assert (ix_type ix1 = t /\ held ix1 (delete id c) /\ ~ jams_out t c id) as (Ht1 & Hh1 & Hn1).
    { destruct old as [v|].
      - destruct (held_out ix c v id Hh Hold) as [(ix' & Ha & Ht' & Hh' & Hn)|[Hp _]]; [|congruence].
        assert (ix1 = ix') as -> by congruence. split; [congruence|]. split; [done|]. by rewrite <- Ht.
      - injection H1 as <-. split; [done|]. split; [by rewrite delete_notin|]. destruct t; simpl; [|tauto]. intros (v & Hv & _). congruence. }
    destruct new as [v|].
    - destruct (held_in ix1 (delete id c) v id Hh1 (lookup_delete _ _)) as [(ix' & Ha & Ht' & Hh' & Hn)|[Hp _]]; [intros Hb; apply HD; congruence| |congruence].
      assert (ix2 = ix') as -> by congruence. rewrite insert_delete_insert in Hh'. split; [exists ix'; split; [done|]; split; [congruence|done]|].
      intros t' [= <-] [?|(w & [= <-] & Hj)]; [done|]. apply Hn. by rewrite Ht1.
    - injection H2 as <-. split; [by exists ix1|]. intros t' [= <-] [?|(w & ? & _)]; done.
  Qed.
  Lemma kheld_update_ne ixs it c k' old new id ixs' :
    ix_update ixs k' old new id = Ok ixs' -> k' <> k -> kheld ixs k it c -> kheld ixs' k it c.
  Proof. intros Hu Hne Hk. eapply kheld_ext; [exact Hk| |done]. by eapply update_other. Qed.
  Lemma kheld_removes (E : gmap nat edge) (es : list nat) : forall ixs ixs' it c,
    rfold (fun ixs e => match E !! e with Some ed => ixs_remove ixs (e_props ed) e | None => Panic end) es ixs = Ok ixs' ->
    NoDup es -> kheld ixs k it c -> (forall e ed, e ∈ es -> E !! e = Some ed -> c !! e = e_props ed !! k) ->
    kheld ixs' k it (filter (fun p => p.1 ∉ es) c) /\ forall t e, it = Some t -> e ∈ es -> ~ jams_out t c e.
  Proof.
    induction es as [|e es IH]; intros ixs ixs' it c Hr Hnd Hk HP; cbn [rfold] in Hr.
    { injection Hr as <-. split; [|by intros t e _ ?%elem_of_nil]. rewrite map_filter_id; [done|]. intros i x _. simpl. apply not_elem_of_nil. }
    apply NoDup_cons in Hnd as [Hni Hnd]. apply rbind_Ok_inv in Hr as (ixs1 & H1 & Hr). destruct (E !! e) as [ed|] eqn:Hed; [|done].
    destruct (kheld_remove _ _ _ _ _ _ H1 Hk) as [Hk1 Hn1]; [apply HP; [left|done]|].
    destruct (IH _ _ _ _ Hr Hnd Hk1) as [Hk2 Hn2].
    { intros e' ed' He' Hed'. rewrite lookup_delete_ne by (intros ->; done). apply HP; [by right|done]. }
    split.
    - eapply kheld_ext; [exact Hk2|done|]. apply map_eq. intros i. apply option_eq. intros v.
      rewrite !map_filter_lookup_Some, lookup_delete_Some. simpl. rewrite not_elem_of_cons. split; [intros (? & ? & ?)|intros ((? & ?) & ?)]; auto.
    - intros t e' Ht [->|He']%elem_of_cons; [by apply Hn1|]. intros Hj. apply (Hn2 t e' Ht He'). destruct t; simpl in *; [|done].
      destruct Hj as (v & Hv & Hkv). exists v. split; [|done]. rewrite lookup_delete_ne; [done|]. intros ->. done.
  Qed.
End key.

(** building an index *)
Lemma held_no_jam ix c : held ix c -> ~ jams_all (ix_type ix) c.
Proof.
  destruct ix as [ot|vals els fresh]; cbn [ix_type jams_all].
  - intros [[_ ->]|[(K & t & _ & _ & _ & Hc & _)|(i & v & _ & -> & _)]] (x & y & v1 & v2 & Hne & H1 & H2 & Hf).
    + by rewrite lookup_empty in H1.
    + apply Hf. eapply of_kind_fit; by eapply Hc.
    + apply lookup_singleton_Some in H1 as [<- _]. apply lookup_singleton_Some in H2 as [<- _]. done.
  - intros (D & HD & Hc & _) (i & v & Hv & Hu%unhashable_key). rewrite HD in Hu; [done|]. by eapply Hc.
Qed.
Lemma held_scan it (c : gmap nat value) (xs : list nat) : NoDup xs -> (forall x v, c !! x = Some v -> it = BtreeIndex -> plain v) ->
  forall ix0 c0, ix_type ix0 = it -> held ix0 c0 -> c0 ⊆ c -> (forall x, x ∈ xs -> c0 !! x = None) ->
  let r := rfold (fun ix n => match c !! n with Some v => ix_add ix v n | None => Ok ix end) xs ix0 in
  (exists ix c1, r = Ok ix /\ ix_type ix = it /\ held ix c1 /\
    forall i, c1 !! i = if decide (i ∈ xs) then match c !! i with Some v => Some v | None => c0 !! i end else c0 !! i) \/
  r = Panic /\ jams_all it c.
Proof.
  intros Hnd Hpl. induction xs as [|x xs IH]; intros ix0 c0 Ht Hh Hsub H0; cbn [rfold].
  - left. exists ix0, c0. split; [done|]. split; [done|]. split; [done|]. intros i. rewrite decide_False; [done|]. apply not_elem_of_nil.
  - apply NoDup_cons in Hnd as [Hni Hnd]. destruct (c !! x) as [v|] eqn:Hv.
    + destruct (held_in ix0 c0 v x Hh) as [(ix1 & Ha & Ht1 & Hh1 & Hn)|[Hp Hj]]; [apply H0; left|intros Hb; apply (Hpl x); congruence| |].
      * rewrite Ha. cbn [rbind]. edestruct (IH Hnd ix1 (<[x := v]> c0)) as [(ix & c1 & Hr & Ht' & Hh' & Hc1)|[Hp Hj]]; [congruence|done| | | |].
        { by apply insert_subseteq_l. }
        { intros y Hy. rewrite lookup_insert_ne by (intros ->; done). apply H0. by right. }
        { left. exists ix, c1. split; [done|]. split; [done|]. split; [done|]. intros i. rewrite Hc1. destruct (decide (i = x)) as [->|Hne].
          - rewrite decide_False by done. rewrite decide_True by left. by rewrite lookup_insert, Hv.
          - rewrite lookup_insert_ne by done. destruct (decide (i ∈ xs)); [by rewrite decide_True by (by right)|].
            rewrite decide_False; [done|]. by intros [->|?]%elem_of_cons. }
        { right. done. }
      * right. rewrite Hp. split; [done|]. rewrite Ht in Hj. destruct it; simpl in *.
        -- destruct Hj as (i & w & Hi & Hf). exists x, i, v, w. split; [|split; [done|]; split; [|done]].
           ++ intros <-. rewrite H0 in Hi; [done|left].
           ++ by eapply lookup_weaken.
        -- by exists x, v.
    + cbn [rbind]. edestruct (IH Hnd ix0 c0) as [(ix & c1 & Hr & Ht' & Hh' & Hc1)|[Hp Hj]]; [done|done|done| | |].
      { intros y Hy. apply H0. by right. }
      { left. exists ix, c1. split; [done|]. split; [done|]. split; [done|]. intros i. rewrite Hc1. destruct (decide (i = x)) as [->|Hne].
        - rewrite decide_False by done. rewrite decide_True by left. by rewrite Hv.
        - destruct (decide (i ∈ xs)); [by rewrite decide_True by (by right)|].
          rewrite decide_False; [done|]. by intros [->|?]%elem_of_cons. }
      { right. done. }
Qed.
Lemma held_scan_all it (c : gmap nat value) (xs : list nat) : NoDup xs -> (forall i, is_Some (c !! i) -> i ∈ xs) ->
  (forall x v, c !! x = Some v -> it = BtreeIndex -> plain v) ->
  outcome (rfold (fun ix n => match c !! n with Some v => ix_add ix v n | None => Ok ix end) xs (ix_new it)) it c (jams_all it c).
Proof.
  intros Hnd Hin Hpl. destruct (held_scan it c xs Hnd Hpl (ix_new it) ∅) as [(ix & c1 & Hr & Ht & Hh & Hc1)|[Hp Hj]].
  - by destruct it.
  - apply held_new.
  - apply map_empty_subseteq.
  - intros. apply lookup_empty.
  - left. assert (c1 = c) as ->.
    { apply map_eq. intros i. rewrite Hc1, lookup_empty. destruct (decide (i ∈ xs)) as [Hi|Hi]; [by destruct (c !! i)|].
      destruct (c !! i) eqn:E; [|done]. destruct Hi. apply Hin. rewrite E. eauto. }
    exists ix. split; [done|]. split; [done|]. split; [done|]. rewrite <- Ht. by apply held_no_jam.
  - by right.
Qed.

(** ** All indexes of a map *)
Definition all_held (ixs : gmap string index) (it : string -> option index_type) (C : string -> gmap nat value) : Prop :=
  forall k, kheld ixs k (it k) (C k).
Lemma res_panic {A} (r : res A) : (forall a, r <> Ok a) -> r <> Diverge -> r = Panic.
Proof. destruct r as [a| |]; [intros H; by destruct (H a)|done|done]. Qed.
Lemma panics_dec {A} (r : res A) : Decision (r = Panic).
Proof. destruct r; [by right|by left|by right]. Defined.
Lemma loop_exact f ixs (p : props) : (forall ix v, f ix v <> Diverge) ->
  (exists ixs', ixs_loop f ixs (map_to_list p) = Ok ixs') \/
  ixs_loop f ixs (map_to_list p) = Panic /\ exists k v ix, p !! k = Some v /\ ixs !! k = Some ix /\ f ix v = Panic.
Proof.
  intros Hf.
  assert (forall k v, Decision (exists ix, ixs !! k = Some ix /\ f ix v = Panic)) as Hd.
  { intros k v. destruct (ixs !! k) as [ix|]; [|right; by intros (? & ? & _)]. destruct (panics_dec (f ix v)); [left; eauto|right; naive_solver]. }
  destruct (props_search p (fun k v => exists ix, ixs !! k = Some ix /\ f ix v = Panic)) as [(k & v & Hp & ix & Hix & HP)|Hno].
  - right. split; [|by exists k, v, ix]. apply res_panic; [|by apply ixs_loop_ends]. intros ixs' Hr.
    pose proof (props_loop_key f _ _ _ k Hr) as H. rewrite Hix, Hp in H. destruct H as (ix' & H & _). congruence.
  - left. apply props_loop_progress. intros k v ix Hp Hix. specialize (Hf ix v). destruct (f ix v) as [ix'| |] eqn:E; [eauto| |done].
    destruct Hno. by exists k, v; split; [|exists ix].
Qed.
Lemma ixs_add_exact ixs it C p id : all_held ixs it C -> (forall k, C k !! id = None) ->
  (forall k v, it k = Some BtreeIndex -> p !! k = Some v -> plain v) ->
  let bad := exists k t v, it k = Some t /\ p !! k = Some v /\ jams_in t (C k) v in
  (exists ixs', ixs_add ixs p id = Ok ixs' /\ ~ bad) \/ ixs_add ixs p id = Panic /\ bad.
Proof.
  intros H Hid Hpl bad. destruct (loop_exact (fun ix v => ix_add ix v id) ixs p) as [[ixs' Hr]|[Hr (k & v & ix & Hp & Hix & HP)]]; [intros; apply ix_add_ends| |].
  - left. exists ixs'. split; [exact Hr|]. intros (k & t & v & Hi & Hp & Hj).
    destruct (kheld_add k _ _ _ _ _ _ Hr (H k) (Hid k)) as [_ Hn]; [intros w ?; by apply Hpl|]. by eapply Hn.
  - right. split; [exact Hr|]. destruct (kheld_at _ _ _ _ _ (H k) Hix) as [Hi Hh]. exists k, (ix_type ix), v. split; [done|]. split; [done|].
    destruct (held_in ix (C k) v id Hh (Hid k)) as [(ix' & Ha & _)|[_ Hj]]; [intros Hb; apply (Hpl k); congruence| |done]. congruence.
Qed.
Lemma ixs_remove_exact ixs it C p id : all_held ixs it C -> (forall k, C k !! id = p !! k) ->
  let bad := exists k t, it k = Some t /\ jams_out t (C k) id in
  (exists ixs', ixs_remove ixs p id = Ok ixs' /\ ~ bad) \/ ixs_remove ixs p id = Panic /\ bad.
Proof.
  intros H Hid bad. destruct (loop_exact (fun ix v => ix_remove ix v id) ixs p) as [[ixs' Hr]|[Hr (k & v & ix & Hp & Hix & HP)]]; [intros; apply ix_remove_ends| |].
  - left. exists ixs'. split; [exact Hr|]. intros (k & t & Hi & Hj).
    destruct (kheld_remove k _ _ _ _ _ _ Hr (H k) (Hid k)) as [_ Hn]. by eapply Hn.
  - right. split; [exact Hr|]. destruct (kheld_at _ _ _ _ _ (H k) Hix) as [Hi Hh]. exists k, (ix_type ix). split; [done|].
    destruct (held_out ix (C k) v id Hh) as [(ix' & Ha & _)|[_ Hj]]; [by rewrite Hid| |done]. congruence.
Qed.
Lemma ix_update_exact ixs it c k old new id : kheld ixs k it c -> c !! id = old ->
  (forall v, it = Some BtreeIndex -> new = Some v -> plain v) ->
  let bad := exists t, it = Some t /\ (jams_out t c id \/ exists v, new = Some v /\ jams_in t (delete id c) v) in
  (exists ixs', ix_update ixs k old new id = Ok ixs' /\ ~ bad) \/ ix_update ixs k old new id = Panic /\ bad.
Proof.
  intros Hk Hold Hpl bad. pose proof (ix_update_ends ixs k old new id) as He. destruct (ix_update ixs k old new id) as [ixs'| |] eqn:Hu; [left|right|done].
  - exists ixs'. split; [done|]. destruct (kheld_update k _ _ _ _ _ _ _ Hu Hk Hold Hpl) as [_ Hn]. intros (t & Ht & Hj). by eapply Hn.
  - split; [done|]. unfold ix_update in Hu. destruct it as [t|]; simpl in Hk; [|by rewrite Hk in Hu]. destruct Hk as (ix & Hix & Ht & Hh). rewrite Hix in Hu.
    exists t. split; [done|]. destruct old as [v|].
    + destruct (held_out ix c v id Hh Hold) as [(ix1 & Ha & Ht1 & Hh1 & _)|[_ Hj]]; [|left; by rewrite <- Ht]. rewrite Ha in Hu. cbn [rbind] in Hu.
      destruct new as [w|]; [|done]. destruct (held_in ix1 (delete id c) w id Hh1 (lookup_delete _ _)) as [(ix2 & Ha2 & _)|[_ Hj]]; [intros Hb; apply Hpl; congruence| |].
      * by rewrite Ha2 in Hu.
      * right. exists w. split; [done|]. by rewrite <- Ht, <- Ht1.
    + cbn [rbind] in Hu. destruct new as [w|]; [|done]. rewrite <- (delete_notin c id) in Hh by done.
      destruct (held_in ix (delete id c) w id Hh (lookup_delete _ _)) as [(ix2 & Ha2 & _)|[_ Hj]]; [intros Hb; apply Hpl; congruence| |].
      * by rewrite Ha2 in Hu.
      * right. exists w. split; [done|]. by rewrite <- Ht.
Qed.
Lemma ixs_removes_exact (E : gmap nat edge) (es : list nat) : forall ixs it C, all_held ixs it C -> NoDup es ->
  (forall e, e ∈ es -> exists ed, E !! e = Some ed /\ forall k, C k !! e = e_props ed !! k) ->
  (forall e k t, e ∈ es -> it k = Some t -> ~ jams_out t (C k) e) ->
  exists ixs', rfold (fun ixs e => match E !! e with Some ed => ixs_remove ixs (e_props ed) e | None => Panic end) es ixs = Ok ixs'.
Proof.
  induction es as [|e es IH]; intros ixs it C H Hnd HC Hn; cbn [rfold]; [eauto|]. apply NoDup_cons in Hnd as [Hni Hnd].
  destruct (HC e) as (ed & Hed & He); [left|]. rewrite Hed.
  destruct (ixs_remove_exact ixs it C (e_props ed) e H He) as [(ixs1 & Hr & _)|[_ (k & t & Ht & Hj)]]; [|exfalso; eapply Hn; [left|exact Ht|done]].
  rewrite Hr. cbn [rbind]. apply (IH ixs1 it (fun k => delete e (C k))); [|done| |].
  - intros k. by destruct (kheld_remove k _ _ _ _ _ _ Hr (H k) (He k)) as [? _].
  - intros e' He'. destruct (HC e') as (ed' & Hed' & Hk); [by right|]. exists ed'. split; [done|]. intros k.
    rewrite lookup_delete_ne by (intros ->; done). apply Hk.
  - intros e' k t He' Ht Hj. apply (Hn e' k t); [by right|done|]. destruct t; simpl in *; [|done]. destruct Hj as (v & Hv & ?). exists v.
    apply lookup_delete_Some in Hv as [_ ?]. done.
Qed.
