(** Proofs about stringtable.go. *)
From Verif Require Import Base StringTable.

Fixpoint uses (i : nat) (held : list (string * nat)) : nat :=
  match held with [] => 0 | p :: r => (if decide (p.2 = i) then 1 else 0) + uses i r end.
Fixpoint chain (strs : list rcstring) (i : Z) (fl : list nat) : Prop :=
  match fl with
  | [] => i = (-1)%Z
  | j :: r => i = Z.of_nat j /\ exists x, strs !! j = Some x /\ chain strs (rc_c x) r
  end.
Record st_inv (t : strtab) (held : list (string * nat)) : Prop := StInv {
  si_held : forall s i, (s, i) ∈ held -> st_strs t !! i = Some (RC s (Z.of_nat (uses i held))) /\ st_map t !! s = Some i;
  si_map : forall s i, st_map t !! s = Some i -> (s, i) ∈ held;
  si_free : exists fl, NoDup fl /\ chain (st_strs t) (st_free t) fl /\
    forall i, i ∈ fl <-> i < length (st_strs t) /\ i ∉ held.*2
}.

Lemma uses_pos i held : i ∈ held.*2 <-> 0 < uses i held.
Proof.
  induction held as [|p r IH]; simpl; [rewrite elem_of_nil; lia|]. rewrite elem_of_cons, IH. case_decide; [|naive_solver lia].
  split; [lia|]. intros _. by left.
Qed.
Lemma elem_held i (held : list (string * nat)) : i ∈ held.*2 <-> exists s, (s, i) ∈ held.
Proof.
  rewrite elem_of_list_fmap. split.
  - intros ([s j] & -> & H). eauto.
  - intros [s H]. by exists (s, i).
Qed.
Lemma slot_ok t i x : st_strs t !! i = Some x -> slot t (Z.of_nat i) = Ok (i, x).
Proof. intros H. unfold slot. rewrite decide_True by lia. by rewrite Nat2Z.id, H. Qed.
Lemma chain_insert strs i fl j x : chain strs i fl -> j ∉ fl -> chain (<[j := x]> strs) i fl.
Proof.
  revert i. induction fl as [|k fl IH]; intros i; simpl; [done|]. intros (-> & y & Hy & Hc) Hj. split; [done|].
  exists y. split; [rewrite list_lookup_insert_ne; [done|]|].
  - intros ->. apply Hj. left.
  - apply IH; [done|]. intros H. apply Hj. by right.
Qed.
Lemma chain_app strs i fl x : chain strs i fl -> chain (strs ++ x) i fl.
Proof.
  revert i. induction fl as [|k fl IH]; intros i; simpl; [done|]. intros (-> & y & Hy & Hc). split; [done|].
  exists y. split; [by apply lookup_app_l_Some|by apply IH].
Qed.
Lemma drop_ref_in p i held : p ∈ drop_ref i held -> p ∈ held.
Proof.
  induction held as [|q r IH]; simpl; [done|]. case_decide; [by right|]. intros [->|Hin]%elem_of_cons; [left|right; by apply IH].
Qed.
Lemma drop_ref_other p i held : p.2 <> i -> p ∈ held -> p ∈ drop_ref i held.
Proof.
  intros Hp. induction held as [|q r IH]; simpl; [done|]. intros [->|Hin]%elem_of_cons; case_decide; subst; try done.
  - left.
  - right. by apply IH.
Qed.
Lemma uses_drop i j held : uses j (drop_ref i held) = if decide (i = j) then pred (uses j held) else uses j held.
Proof.
  induction held as [|q r IH]; simpl; [by case_decide|]. destruct (decide (q.2 = i)) as [E|E]; simpl.
  - rewrite E. repeat case_decide; subst; try done.
  - rewrite IH. repeat case_decide; subst; try done; congruence.
Qed.

Lemma st_inv_init : st_inv st_init [].
Proof.
  split.
  - intros s i H. by apply elem_of_nil in H.
  - done.
  - exists []. split; [constructor|]. split; [done|]. intros i. simpl. rewrite elem_of_nil. split; [done|]. lia.
Qed.
Lemma held_inj t held s s' i i' : st_inv t held -> (s, i) ∈ held -> (s', i') ∈ held -> (s = s' <-> i = i').
Proof.
  intros H H1 H2. apply (si_held _ _ H) in H1 as [A1 B1], H2 as [A2 B2]. split; intros ->; congruence.
Qed.

Lemma allocate_ok t held s : st_inv t held -> exists t' i, st_allocate t s = Ok (t', i) /\ st_inv t' ((s, i) :: held) /\
  length (st_strs t') = max (length (st_strs t)) (size (st_map t')).
Proof.
  intros Hi. pose proof Hi as [H1 H2 (fl & Hnd & Hch & Hfl)].
  assert (Hsize : length (st_strs t) = size (st_map t) + length fl).
  { assert (E : seq 0 (length (st_strs t)) ≡ₚ (map_to_list (st_map t)).*2 ++ fl).
    { apply NoDup_Permutation; [apply NoDup_seq| |].
      - apply NoDup_app. split; [|split; [|done]].
        + apply NoDup_fmap_2_strong; [|apply NoDup_map_to_list]. intros [a i] [b j] Ha%elem_of_map_to_list Hb%elem_of_map_to_list E.
          simpl in E. subst. assert (a = b) as -> by (by apply (held_inj t held a b j j Hi (H2 _ _ Ha) (H2 _ _ Hb))). done.
        + intros i Hin. apply elem_of_list_fmap in Hin as ([a j] & -> & Hj%elem_of_map_to_list). simpl. rewrite Hfl. intros [_ Hno].
          apply Hno, elem_held. exists a. by apply H2.
      - intros i. rewrite elem_of_seq, elem_of_app, Hfl, elem_of_list_fmap. split.
        + intros [_ Hlt]. destruct (decide (i ∈ held.*2)) as [Hin|Hin]; [left|right; split; [lia|done]].
          apply elem_held in Hin as [a Ha]. exists (a, i). split; [done|]. apply elem_of_map_to_list. by apply H1.
        + intros [([a j] & -> & Hj%elem_of_map_to_list)|[? _]]; simpl; split; try lia.
          apply H2, H1 in Hj as [Hj _]. by apply lookup_lt_Some in Hj. }
    apply Permutation_length in E. rewrite seq_length, app_length, fmap_length in E. exact E. }
  unfold st_allocate. destruct (st_map t !! s) as [i|] eqn:Es.
  - pose proof (H2 _ _ Es) as Hin. destruct (H1 _ _ Hin) as [Hs _]. rewrite (slot_ok _ _ _ Hs). cbn [rbind fst snd rc_str rc_c].
    eexists. exists i. split; [done|]. split; [|cbn [st_strs st_map]; rewrite insert_length; lia]. split; cbn [st_strs st_map st_free uses snd].
    + intros s' j Hj. apply elem_of_cons in Hj as [[= -> ->]|Hj].
      * split; [|done]. rewrite list_lookup_insert by (by eapply lookup_lt_Some). do 2 f_equal. rewrite decide_True by done. lia.
      * destruct (H1 _ _ Hj) as [Hsj Hmj]. split; [|done]. case_decide as E.
        -- subst j. assert (s' = s) as -> by (by apply (held_inj t held s' s i i Hi Hj Hin)).
           rewrite list_lookup_insert by (by eapply lookup_lt_Some). do 2 f_equal. lia.
        -- rewrite list_lookup_insert_ne by done. done.
    + intros s' j Hj. right. by apply H2.
    + exists fl. split; [done|]. split.
      * apply chain_insert; [done|]. rewrite Hfl. intros [_ Hno]. apply Hno, elem_held. eauto.
      * intros j. rewrite insert_length, Hfl. cbn [fmap list_fmap snd]. rewrite not_elem_of_cons. split; [|tauto].
        intros [? Hno]. split; [done|]. split; [|done]. intros ->. apply Hno, elem_held. eauto.
  - assert (Hsno : forall i, (s, i) ∉ held). { intros i Hin. apply H1 in Hin as [_ Hm]. congruence. }
    destruct fl as [|j fl]; simpl in Hch.
    + rewrite decide_False by (rewrite Hch; lia). eexists. eexists. split; [done|].
      assert (Hlen : length (st_strs t) ∉ held.*2).
      { intros [a Ha]%elem_held. apply H1 in Ha as [Ha _]. apply lookup_lt_Some in Ha. lia. }
      split; [|cbn [st_strs st_map]; rewrite app_length, map_size_insert_None by done; simpl in *; lia].
      split; cbn [st_strs st_map st_free uses snd].
      * intros s' i Hi'. apply elem_of_cons in Hi' as [[= -> ->]|Hi'].
        -- split; [|by rewrite lookup_insert]. rewrite lookup_app_r, Nat.sub_diag by lia. simpl. do 2 f_equal.
           rewrite decide_True by done. destruct (decide (length (st_strs t) ∈ held.*2)) as [?|Hno]; [done|].
           rewrite uses_pos in Hno. lia.
        -- destruct (H1 _ _ Hi') as [Ha Hb]. assert (i <> length (st_strs t)) by (apply lookup_lt_Some in Ha; lia). split.
           ++ rewrite decide_False by done. by apply lookup_app_l_Some.
           ++ rewrite lookup_insert_ne; [done|]. intros <-. by apply Hsno in Hi'.
      * intros s' i Hm. destruct (decide (s' = s)) as [->|Hne].
        -- rewrite lookup_insert in Hm. injection Hm as <-. left.
        -- rewrite lookup_insert_ne in Hm by done. right. by apply H2.
      * exists []. split; [constructor|]. split; [done|]. intros i. rewrite elem_of_nil. split; [done|].
        cbn [fmap list_fmap snd]. rewrite app_length, not_elem_of_cons. simpl. intros (Hlt & Hne & Hno).
        apply (elem_of_nil i), Hfl. split; [lia|done].
    + destruct Hch as (Ej & x & Hx & Hch). rewrite decide_True by lia. rewrite Ej, (slot_ok _ _ _ Hx). cbn [rbind fst snd].
      eexists. exists j. split; [done|]. apply NoDup_cons in Hnd as [Hjn Hnd].
      assert (Hjh : j ∉ held.*2) by (apply Hfl; left). assert (Hjl : j < length (st_strs t)) by (by eapply lookup_lt_Some).
      split; [|cbn [st_strs st_map]; rewrite insert_length, map_size_insert_None by done; simpl in *; lia].
      split; cbn [st_strs st_map st_free uses snd].
      * intros s' i Hi'. apply elem_of_cons in Hi' as [[= -> ->]|Hi'].
        -- split; [|by rewrite lookup_insert]. rewrite list_lookup_insert by done. do 2 f_equal. rewrite decide_True by done.
           rewrite uses_pos in Hjh. lia.
        -- destruct (H1 _ _ Hi') as [Ha Hb]. assert (i <> j) by (intros ->; apply Hjh, elem_held; eauto). split.
           ++ rewrite decide_False by done. by rewrite list_lookup_insert_ne.
           ++ rewrite lookup_insert_ne; [done|]. intros <-. by apply Hsno in Hi'.
      * intros s' i Hm. destruct (decide (s' = s)) as [->|Hne].
        -- rewrite lookup_insert in Hm. injection Hm as <-. left.
        -- rewrite lookup_insert_ne in Hm by done. right. by apply H2.
      * exists fl. split; [done|]. split; [by apply chain_insert|]. intros i. rewrite insert_length. cbn [fmap list_fmap snd].
        rewrite not_elem_of_cons. specialize (Hfl i). rewrite elem_of_cons in Hfl. split.
        -- intros Hin. destruct (proj1 Hfl) as [? ?]; [by right|]. split; [done|]. split; [|done]. by intros ->.
        -- intros (? & Hne & ?). destruct (proj2 Hfl) as [?|?]; [done|done|done].
Qed.
Lemma release_ok t held i : st_inv t held -> i ∈ held.*2 -> exists t', st_release t i = Ok t' /\ st_inv t' (drop_ref i held).
Proof.
  intros Hi Hin. pose proof Hi as [H1 H2 (fl & Hnd & Hch & Hfl)]. pose proof Hin as [s Hs]%elem_held.
  destruct (H1 _ _ Hs) as [Hsl Hms]. unfold st_release. rewrite (slot_ok _ _ _ Hsl). cbn [rbind fst snd rc_str rc_c].
  assert (Hil : i < length (st_strs t)) by (by eapply lookup_lt_Some).
  assert (Hifl : i ∉ fl) by (rewrite Hfl; tauto).
  case_decide as Hc; eexists; (split; [done|]); split; cbn [st_strs st_map st_free].
  - intros s' j Hj. pose proof (drop_ref_in _ _ _ Hj) as Hj0. destruct (H1 _ _ Hj0) as [Ha Hb]. split; [|done].
    rewrite uses_drop. case_decide as E.
    + subst j. assert (s' = s) as -> by (by apply (held_inj t held s' s i i Hi Hj0 Hs)).
      rewrite list_lookup_insert by done. do 2 f_equal. lia.
    + by rewrite list_lookup_insert_ne.
  - intros s' j Hj. pose proof (H2 _ _ Hj) as Hj0. destruct (decide (j = i)) as [->|Hne]; [|by apply drop_ref_other].
    assert (i ∈ (drop_ref i held).*2) as [s2 Hs2]%elem_held. { rewrite uses_pos, uses_drop, decide_True by done. lia. }
    assert (s2 = s') as ->; [|done]. apply (held_inj t held s2 s' i i Hi (drop_ref_in _ _ _ Hs2) Hj0). done.
  - exists fl. split; [done|]. split; [by apply chain_insert|]. intros j. rewrite insert_length, Hfl. f_equiv. f_equiv.
    rewrite !uses_pos, uses_drop. case_decide; [|done]. subst j. lia.
  - intros s' j Hj. pose proof (drop_ref_in _ _ _ Hj) as Hj0. destruct (H1 _ _ Hj0) as [Ha Hb].
    assert (j <> i) as Hne.
    { intros ->. assert (i ∈ (drop_ref i held).*2) as Hd by (apply elem_held; eauto). rewrite uses_pos, uses_drop, decide_True in Hd by done. lia. }
    split.
    + rewrite list_lookup_insert_ne, uses_drop, decide_False by congruence. done.
    + rewrite lookup_delete_ne; [done|]. intros <-. congruence.
  - intros s' j Hj. apply lookup_delete_Some in Hj as [Hne Hj]. apply drop_ref_other; [|by apply H2].
    simpl. intros ->. apply Hne. apply (held_inj t held s s' i i Hi Hs (H2 _ _ Hj)). done.
  - exists (i :: fl). split; [by constructor|]. split.
    + split; [done|]. exists (RC s (st_free t)). split; [by apply list_lookup_insert|]. by apply chain_insert.
    + intros j. rewrite insert_length, elem_of_cons, Hfl. rewrite !uses_pos, uses_drop. split.
      * intros [->|[? ?]]; [split; [done|]|split; [done|]]; case_decide; try done; lia.
      * intros [Hl Hu]. case_decide as E; [by left|]. right. done.
Qed.

Lemma st_run_ok t held ops : st_inv t held -> st_valid (t, held) ops -> exists t' held', st_run (t, held) ops = Ok (t', held') /\ st_inv t' held'.
Proof.
  revert t held. induction ops as [|o ops IH]; intros t held Hi; simpl; [eauto|]. intros [Ho Hv].
  assert (exists t' held', st_step (t, held) o = Ok (t', held') /\ st_inv t' held') as (t' & held' & Hs & Hi').
  { destruct o as [s|i]; unfold st_step; cbn [fst snd].
    - destruct (allocate_ok t held s Hi) as (t' & i & -> & Hi' & _). simpl. eauto.
    - destruct (release_ok t held i Hi Ho) as (t' & -> & Hi'). simpl. eauto. }
  rewrite Hs. simpl. apply IH; [done|]. by apply Hv.
Qed.
Lemma held_facts t held s i : st_inv t held -> (s, i) ∈ held -> st_str t i = Ok s /\ st_lookup t s = Some i.
Proof. intros H Hin. apply (si_held _ _ H) in Hin as [Ha Hb]. split; [|done]. unfold st_str. by rewrite (slot_ok _ _ _ Ha). Qed.
Lemma lookup_facts t held s : st_inv t held -> (forall i, (s, i) ∉ held) -> st_lookup t s = None.
Proof. intros H Hn. unfold st_lookup. destruct (st_map t !! s) eqn:E; [|done]. apply (si_map _ _ H) in E. by apply Hn in E. Qed.
Lemma map_size t held : st_inv t held -> size (st_map t) = size (list_to_set held.*1 : gset string).
Proof.
  intros H. rewrite <-(size_dom (D := gset string)). f_equal. apply set_eq. intros s. rewrite elem_of_dom, elem_of_list_to_set, elem_of_list_fmap. split.
  - intros [i Hi]. exists (s, i). split; [done|]. by apply (si_map _ _ H).
  - intros ([a i] & -> & Hin). exists i. by apply (si_held _ _ H).
Qed.

(** ** Properties *)
Lemma strtab_ok ops : st_valid (st_init, []) ops -> exists t held, st_run (st_init, []) ops = Ok (t, held) /\
  (forall s i, (s, i) ∈ held -> st_str t i = Ok s /\ st_lookup t s = Some i) /\
  (forall s i s' i', (s, i) ∈ held -> (s', i') ∈ held -> (s = s' <-> i = i')) /\
  (forall s, (forall i, (s, i) ∉ held) -> st_lookup t s = None).
Proof.
  intros Hv. destruct (st_run_ok _ _ ops st_inv_init Hv) as (t & held & Hr & Hi). exists t, held. split; [done|]. split_and!.
  - intros s i. by apply held_facts.
  - intros s i s' i' H1 H2. by eapply held_inj.
  - intros s. by apply lookup_facts.
Qed.
Lemma strtab_slots ops t held s t' i : st_valid (st_init, []) ops -> st_run (st_init, []) ops = Ok (t, held) -> st_allocate t s = Ok (t', i) ->
  length (st_strs t') = max (length (st_strs t)) (size (list_to_set (s :: held.*1) : gset string)).
Proof.
  intros Hv Hr Ha. destruct (st_run_ok _ _ ops st_inv_init Hv) as (t0 & held0 & Hr0 & Hi).
  assert ((t0, held0) = (t, held)) as [= -> ->] by congruence.
  destruct (allocate_ok t held s Hi) as (t1 & j & Ha1 & Hi1 & Hl). assert ((t1, j) = (t', i)) as [= -> ->] by congruence.
  rewrite Hl, (map_size _ _ Hi1). done.
Qed.
