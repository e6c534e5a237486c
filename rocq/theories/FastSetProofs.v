(** fastSet behaves like an insertion ordered finite map from ids to items:
    [fs_rep f xs], [xs] listing the (id, item) pairs in insertion order. *)
From Verif Require Import Base FastSet.

Definition fs_rep {A} (f : fastset A) (xs : list (nat * A)) : Prop :=
  exists ts : list (nat * (nat * A)),
    ts.*2 = xs /\ NoDup ts.*1 /\ NoDup xs.*1 /\
    Forall (fun h => h < fs_fresh f) ts.*1 /\
    fs_l f = map (fun t => (t.1, t.2.2)) ts /\
    fs_m f = list_to_map (map (fun t => (t.2.1, t.1)) ts).

Section rep.
  Context {A : Type}.
  Implicit Types (f : fastset A) (xs : list (nat * A)).

  Lemma fs_rep_new : fs_rep (@fs_new A) [].
  Proof. exists []. repeat split; try constructor. Qed.

  Lemma map_ids (ts : list (nat * (nat * A))) :
    (map (fun t => (t.2.1, t.1)) ts).*1 = ts.*2.*1.
  Proof. induction ts as [|t ts IH]; csimpl; [done|]. by rewrite IH. Qed.

  Lemma fs_lookup f xs id :
    fs_rep f xs -> (is_Some (fs_m f !! id) <-> id ∈ xs.*1).
  Proof.
    intros (ts & <- & _ & Hnd & _ & _ & ->).
    rewrite <- map_ids in *. split.
    - intros [h Hh]. apply elem_of_list_to_map_2 in Hh. by apply (elem_of_list_fmap_1 fst _ (id, h)).
    - intros Hin. apply elem_of_list_fmap in Hin as ([id' h] & -> & Hin).
      exists h. by apply elem_of_list_to_map_1.
  Qed.
  Lemma fs_lookup_None f xs id :
    fs_rep f xs -> (fs_m f !! id = None <-> id ∉ xs.*1).
  Proof.
    intros H. rewrite <- (fs_lookup f xs id H). rewrite eq_None_not_Some. done.
  Qed.

  Lemma fs_has_ok f xs id : fs_rep f xs -> fs_has f id = bool_decide (id ∈ xs.*1).
  Proof.
    intros H. unfold fs_has. apply bool_decide_ext. by apply fs_lookup.
  Qed.

  Lemma fs_size_ok f xs : fs_rep f xs -> fs_size f = length xs.
  Proof.
    intros (ts & <- & _ & Hnd & _ & _ & Hm). unfold fs_size. rewrite Hm.
    rewrite <- map_ids in Hnd. unfold size, map_size.
    rewrite map_to_list_to_map by done. rewrite map_length. by rewrite fmap_length.
  Qed.

  Lemma fs_iter_ok f xs : fs_rep f xs -> fs_iter f = xs.*2.
  Proof.
    intros (ts & <- & _ & _ & _ & Hl & _). unfold fs_iter. rewrite Hl.
    clear Hl. induction ts as [|t ts IH]; csimpl; [done|]. by f_equal.
  Qed.

  Lemma fs_add_new f xs id x :
    fs_rep f xs -> id ∉ xs.*1 ->
    (fs_add f id x).2 = true /\ fs_rep (fs_add f id x).1 (xs ++ [(id, x)]).
  Proof.
    intros H Hni. pose proof (proj2 (fs_lookup_None _ _ id H) Hni) as Hl.
    unfold fs_add. rewrite Hl. split; [done|]. simpl.
    destruct H as (ts & <- & Hndh & Hnd & Hfr & Hll & Hm).
    exists (ts ++ [(fs_fresh f, (id, x))]). rewrite fmap_app. split; [done|].
    split; [|split; [|split; [|split]]]; simpl.
    - rewrite fmap_app. apply NoDup_app. split; [done|]. split; [|apply NoDup_singleton].
      intros h Hh Hh'. apply elem_of_list_singleton in Hh'. subst h.
      rewrite Forall_forall in Hfr. apply Hfr in Hh. simpl in Hh. lia.
    - rewrite fmap_app. apply NoDup_app. split; [done|]. split; [|apply NoDup_singleton].
      intros h Hh Hh'. apply elem_of_list_singleton in Hh'. subst h. done.
    - rewrite fmap_app. apply Forall_app. split; [|constructor; [simpl; lia|constructor]].
      eapply Forall_impl; [done|]. simpl. lia.
    - rewrite Hll, map_app. done.
    - rewrite Hm, map_app. simpl. symmetry. apply list_to_map_snoc.
      change (id ∉ (map (fun t : nat * (nat * A) => (t.2.1, t.1)) ts).*1). by rewrite map_ids.
  Qed.
  Lemma fs_add_old f xs id x :
    fs_rep f xs -> id ∈ xs.*1 -> fs_add f id x = (f, false).
  Proof.
    intros H Hin. apply (fs_lookup _ _ id H) in Hin as [h Hh]. unfold fs_add. by rewrite Hh.
  Qed.

  Definition fs_without (xs : list (nat * A)) (id : nat) : list (nat * A) :=
    filter (fun p => p.1 <> id) xs.

  Lemma fs_without_notin xs id : id ∉ xs.*1 -> fs_without xs id = xs.
  Proof.
    unfold fs_without. induction xs as [|[i x] xs IH]; csimpl; intros Hni; [done|].
    rewrite filter_cons_True by (simpl; set_solver). f_equal. apply IH. set_solver.
  Qed.
  Lemma fs_without_ids xs id i : i ∈ (fs_without xs id).*1 <-> i ∈ xs.*1 /\ i <> id.
  Proof.
    unfold fs_without. rewrite !elem_of_list_fmap. split.
    - intros ([j x] & -> & Hin). apply elem_of_list_filter in Hin as [Hne Hin]. eauto.
    - intros [([j x] & -> & Hin) Hne]. exists (j, x). split; [done|].
      apply elem_of_list_filter. done.
  Qed.
  Lemma fs_without_elem xs id p : p ∈ fs_without xs id <-> p ∈ xs /\ p.1 <> id.
  Proof. unfold fs_without. rewrite elem_of_list_filter. tauto. Qed.

  Lemma filter_fst_NoDup (P : nat * A -> Prop) `{!forall x, Decision (P x)} xs :
    NoDup xs.*1 -> NoDup (filter P xs).*1.
  Proof.
    induction xs as [|p xs IH]; csimpl; [done|]. intros [Hni Hnd]%NoDup_cons.
    rewrite filter_cons. case_decide; csimpl; [|by apply IH].
    apply NoDup_cons. split; [|by apply IH]. intros Hin. apply Hni.
    apply elem_of_list_fmap in Hin as (q & Hq & Hin). apply elem_of_list_filter in Hin as [_ Hin].
    rewrite Hq. by apply elem_of_list_fmap_1.
  Qed.

  Lemma fs_remove_ok f xs id :
    fs_rep f xs ->
    (fs_remove f id).2 = bool_decide (id ∈ xs.*1) /\
    fs_rep (fs_remove f id).1 (fs_without xs id).
  Proof.
    intros H. unfold fs_remove. destruct (fs_m f !! id) as [h|] eqn:Hh.
    - split.
      { simpl. symmetry. apply bool_decide_eq_true. apply (fs_lookup f xs id H). eauto. }
      simpl. destruct H as (ts & <- & Hndh & Hnd & Hfr & Hll & Hm).
      rewrite Hm in Hh. apply elem_of_list_to_map_2 in Hh.
      apply elem_of_list_In, in_map_iff in Hh as ([h0 [id0 x0]] & [= -> ->] & Hin).
      apply elem_of_list_In in Hin.
      (* the element with handle h is the element with this id *)
      assert (forall t, t ∈ ts -> (t.1 <> h <-> t.2.1 <> id)) as Hiff.
      { intros [h1 [id1 x1]] Ht. simpl. split; intros Hne Heq; apply Hne; subst.
        - assert ((h1, (id, x1)) = (h, (id, x0))) as [= ? ?]; [|done].
          apply elem_of_list_lookup in Ht as [i Hi]. apply elem_of_list_lookup in Hin as [j Hj].
          assert (i = j).
          { eapply NoDup_lookup; [exact Hnd| |].
            - rewrite !list_lookup_fmap, Hi. done.
            - rewrite !list_lookup_fmap, Hj. done. }
          congruence.
        - assert ((h, (id1, x1)) = (h, (id, x0))) as [= ? ?]; [|done].
          apply elem_of_list_lookup in Ht as [i Hi]. apply elem_of_list_lookup in Hin as [j Hj].
          assert (i = j).
          { eapply NoDup_lookup; [exact Hndh| |].
            - rewrite !list_lookup_fmap, Hi. done.
            - rewrite !list_lookup_fmap, Hj. done. }
          congruence. }
      exists (filter (fun t : nat * (nat * A) => t.2.1 <> id) ts). simpl.
      split; [|split; [|split; [|split; [|split]]]].
      + clear. unfold fs_without. induction ts as [|t ts IH]; csimpl; [done|].
        rewrite !filter_cons. repeat case_decide; csimpl; try done. by f_equal.
      + clear - Hndh. induction ts as [|t ts IH]; csimpl; [constructor|].
        apply NoDup_cons in Hndh as [Hni Hnd].
        rewrite filter_cons. case_decide; csimpl; [|by apply IH].
        apply NoDup_cons. split; [|by apply IH]. intros Hin. apply Hni.
        apply elem_of_list_fmap in Hin as (q & Hq & Hin). apply elem_of_list_filter in Hin as [_ Hin].
        rewrite Hq. by apply elem_of_list_fmap_1.
      + by apply filter_fst_NoDup.
      + rewrite Forall_forall in *. intros i Hi. apply Hfr.
        apply elem_of_list_fmap in Hi as (q & -> & Hi). apply elem_of_list_filter in Hi as [_ Hi].
        by apply elem_of_list_fmap_1.
      + rewrite Hll. clear - Hiff. induction ts as [|t ts IH]; csimpl; [done|].
        rewrite !filter_cons. simpl. destruct (Hiff t ltac:(set_solver)) as [H1 H2].
        repeat case_decide; csimpl; try (exfalso; tauto).
        * f_equal. apply IH. set_solver.
        * apply IH. set_solver.
      + rewrite Hm. apply map_eq. intros i. destruct (decide (i = id)) as [->|Hne].
        * rewrite lookup_delete. symmetry. apply not_elem_of_list_to_map.
          change (id ∉ (map (fun t : nat * (nat * A) => (t.2.1, t.1)) (filter (fun t : nat * (nat * A) => t.2.1 <> id) ts)).*1).
          rewrite map_ids. intros Hi. apply elem_of_list_fmap in Hi as (q & Hq & Hi).
          apply elem_of_list_fmap in Hi as (t & -> & Hi). apply elem_of_list_filter in Hi as [Hi _]. done.
        * rewrite lookup_delete_ne by done. clear - Hne.
          induction ts as [|t ts IH]; [done|]. simpl. rewrite filter_cons. case_decide as Ht; simpl.
          -- destruct (decide (i = t.2.1)) as [->|].
             ++ by rewrite !lookup_insert.
             ++ by rewrite !lookup_insert_ne by done.
          -- rewrite lookup_insert_ne by congruence. done.
    - pose proof (proj1 (fs_lookup_None _ _ id H) Hh) as Hni. split.
      + simpl. symmetry. by apply bool_decide_eq_false.
      + simpl. by rewrite fs_without_notin.
  Qed.

  Lemma fs_get_ok f xs id x :
    fs_rep f xs -> (fs_get f id = Some x <-> (id, x) ∈ xs).
  Proof.
    intros (ts & <- & Hndh & Hnd & Hfr & Hll & Hm). unfold fs_get.
    assert (forall h x', fs_m f !! id = Some h -> (h, (id, x')) ∈ ts ->
       list_find (fun hx : nat * A => hx.1 = h) (fs_l f) =
       list_find (fun hx : nat * A => hx.1 = h) (fs_l f) ->
       exists i, list_find (fun hx : nat * A => hx.1 = h) (fs_l f) = Some (i, (h, x'))) as Hfind.
    { intros h x' _ Hin _. rewrite Hll. clear - Hin Hndh.
      induction ts as [|t ts IH]; [by apply elem_of_nil in Hin|].
      csimpl in Hndh. apply NoDup_cons in Hndh as [Hni Hndh].
      simpl. apply elem_of_cons in Hin as [<-|Hin].
      - simpl. rewrite decide_True by done. eauto.
      - rewrite decide_False.
        + destruct (IH Hndh Hin) as [i Hi]. rewrite Hi. simpl. eauto.
        + simpl. intros Heq. apply Hni. rewrite Heq. apply (elem_of_list_fmap_1 fst _ (h, (id, x'))). done. }
    split.
    - destruct (fs_m f !! id) as [h|] eqn:Hh; [|done].
      pose proof Hh as Hh2. rewrite Hm in Hh2. apply elem_of_list_to_map_2 in Hh2.
      apply elem_of_list_In, in_map_iff in Hh2 as ([h0 [id0 x0]] & [= -> ->] & Hin).
      apply elem_of_list_In in Hin. destruct (Hfind h x0 eq_refl Hin eq_refl) as [i Hi]. rewrite Hi.
      intros [= <-]. by apply (elem_of_list_fmap_1 snd _ (h, (id, x0))).
    - intros Hin. apply elem_of_list_fmap in Hin as ([h [id0 x0]] & [= -> ->] & Hin).
      assert (fs_m f !! id0 = Some h) as Hh.
      { rewrite Hm. apply elem_of_list_to_map_1; [by rewrite map_ids|].
        apply elem_of_list_In, in_map_iff. exists (h, (id0, x0)). split; [done|]. by apply elem_of_list_In. }
      rewrite Hh. destruct (Hfind h x0 Hh Hin eq_refl) as [i Hi]. rewrite Hi. done.
  Qed.
  Lemma fs_rep_NoDup f xs : fs_rep f xs -> NoDup xs.*1.
  Proof. by intros (?&?&?&?&?). Qed.
End rep.
