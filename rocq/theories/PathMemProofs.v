(** Paths as slices of arrays behave as values. *)
From Verif Require Import Base Graph Sizes Path PathMem PathMemSpec.

Definition hinv (h : pheap) : Prop := forall a, ph_next h <= a -> array h a = [].
Definition swf (h : pheap) (s : slice) : Prop := sl_len s <= sl_cap s /\ sl_off s + sl_cap s <= length (array h (sl_arr s)).
Definition apart (t s : slice) : Prop := sl_cap t = 0 \/ sl_cap s = 0 \/ sl_arr t <> sl_arr s.
(** [h'], [s']: heap and slice of a variable whose slice was [s] in [h] *)
Definition upd (h : pheap) (s : slice) (h' : pheap) (s' : slice) : Prop :=
  hinv h' /\ swf h' s' /\
  forall t, swf h t -> swf h' t /\ (apart t s -> sl_read h' t = sl_read h t /\ apart t s').

Lemma apart_sym s t : apart s t -> apart t s.
Proof. unfold apart. intuition. Qed.
Lemma array_insert h a l n b : array (PHeap (<[a := l]> (ph_arr h)) n) b = if decide (b = a) then l else array h b.
Proof. unfold array. simpl. case_decide; [subst; by rewrite lookup_insert|by rewrite lookup_insert_ne]. Qed.
Lemma swf_arr h s : hinv h -> swf h s -> 0 < sl_cap s -> sl_arr s < ph_next h.
Proof.
  intros Hh [_ Hs] Hc. destruct (decide (sl_arr s < ph_next h)); [done|].
  rewrite Hh in Hs by lia. simpl in Hs. lia.
Qed.
Lemma swf_nil h : swf h nil_slice.
Proof. split; simpl; lia. Qed.
Lemma read_nil h : sl_read h nil_slice = [].
Proof. done. Qed.
Lemma read_length h s : swf h s -> length (sl_read h s) = sl_len s.
Proof. intros [H1 H2]. unfold sl_read. rewrite take_length, drop_length. lia. Qed.
Lemma read_cap_0 h s : swf h s -> sl_cap s = 0 -> sl_read h s = [].
Proof. intros Hs Hc. apply length_zero_iff_nil. rewrite read_length by done. destruct Hs. lia. Qed.

Lemma upd_refl h s : hinv h -> swf h s -> upd h s h s.
Proof. intros Hh Hs. split_and!; [done..|]. intros t Ht. split; [done|]. done. Qed.
Lemma upd_nil h s : hinv h -> upd h s h nil_slice.
Proof. intros Hh. split_and!; [done|apply swf_nil|]. intros t Ht. split; [done|]. intros _. split; [done|]. right. by left. Qed.
Lemma upd_sub h s s' :
  hinv h -> swf h s' -> sl_arr s' = sl_arr s -> sl_cap s' <= sl_cap s -> upd h s h s'.
Proof.
  intros Hh Hs Ha Hc. split_and!; [done..|]. intros t Ht. split; [done|]. intros Hap. split; [done|].
  unfold apart in *. rewrite Ha. destruct Hap as [?|[?|?]]; [by left|right; left; lia|by right; right].
Qed.
Lemma upd_make h s xs n : hinv h -> upd h s (sl_make h xs n).1 (sl_make h xs n).2.
Proof.
  intros Hh. unfold sl_make. simpl. split_and!.
  - intros a Ha. simpl in Ha. rewrite array_insert. rewrite decide_False by lia. apply Hh. lia.
  - split; simpl; [lia|]. rewrite array_insert, decide_True by done. rewrite app_length, replicate_length. lia.
  - intros t Ht. assert (swf (PHeap (<[ph_next h:=xs ++ replicate n (PE 0 false)]> (ph_arr h)) (S (ph_next h))) t) as Ht'.
    { destruct Ht as [H1 H2]. split; [done|]. rewrite array_insert. case_decide as E; [|done].
      rewrite E, Hh in H2 by done. simpl in H2. lia. }
    split; [done|]. intros _. split.
    + destruct (decide (0 < sl_cap t)) as [Hc|Hc].
      * unfold sl_read. rewrite array_insert, decide_False; [done|]. pose proof (swf_arr _ _ Hh Ht Hc). lia.
      * rewrite !read_cap_0 by (done || lia). done.
    + destruct (decide (0 < sl_cap t)) as [Hc|Hc]; [|left; lia].
      right. right. simpl. pose proof (swf_arr _ _ Hh Ht Hc). lia.
Qed.
Lemma read_make h xs n : sl_read (sl_make h xs n).1 (sl_make h xs n).2 = xs.
Proof.
  unfold sl_read, sl_make. simpl. rewrite array_insert, decide_True by done. rewrite drop_0. apply take_app.
Qed.

Lemma overwrite_length l i xs : i + length xs <= length l -> length (overwrite l i xs) = length l.
Proof. intros H. unfold overwrite. rewrite !app_length, take_length, drop_length. lia. Qed.
Lemma write_keeps h s i xs t :
  hinv h -> swf h s -> i + length xs <= sl_cap s -> swf h t ->
  swf (sl_write h s i xs) t /\ (apart t s -> sl_read (sl_write h s i xs) t = sl_read h t).
Proof.
  intros Hh Hs Hi Ht.
  assert (swf (sl_write h s i xs) t) as Ht'.
  { destruct Ht as [H1 H2], Hs as [H3 H4]. split; [done|]. unfold sl_write. rewrite array_insert. case_decide as E; [|done].
    rewrite overwrite_length by lia. rewrite <- E. lia. }
  split; [done|]. intros [Hc|[Hc|Ha]].
  - rewrite !read_cap_0 by done. done.
  - assert (xs = []) as -> by (destruct xs; simpl in Hi; [done|lia]).
    unfold sl_read, sl_write. rewrite array_insert. case_decide as E; [|done].
    unfold overwrite. simpl. rewrite Nat.add_0_r, take_drop. by rewrite E.
  - unfold sl_read, sl_write. rewrite array_insert, decide_False by done. done.
Qed.
Lemma write_hinv h s i xs : hinv h -> swf h s -> i + length xs <= sl_cap s -> hinv (sl_write h s i xs).
Proof.
  intros Hh Hs Hi a Ha. unfold sl_write in *. simpl in Ha. rewrite array_insert. case_decide as E; [|by apply Hh].
  subst a. apply length_zero_iff_nil. destruct Hs as [H1 H2]. rewrite overwrite_length by lia. by rewrite Hh.
Qed.
Lemma upd_append h s xs n : hinv h -> swf h s -> upd h s (sl_append h s xs n).1 (sl_append h s xs n).2.
Proof.
  intros Hh Hs. unfold sl_append. case_decide as Hc; [|by apply upd_make]. simpl.
  split_and!; [by apply write_hinv| |].
  - destruct (write_keeps h s (sl_len s) xs s) as [[H1 H2] _]; [done..|]. split; simpl; [lia|done].
  - intros t Ht. destruct (write_keeps h s (sl_len s) xs t) as [H1 H2]; [done..|]. split; [done|].
    intros Hap. split; [by apply H2|]. done.
Qed.
Lemma read_append h s xs n : hinv h -> swf h s -> sl_read (sl_append h s xs n).1 (sl_append h s xs n).2 = sl_read h s ++ xs.
Proof.
  intros Hh [H1 H2]. unfold sl_append. case_decide as Hc; [|apply read_make].
  unfold sl_read, sl_write. simpl. rewrite array_insert, decide_True by done. unfold overwrite.
  set (l := array h (sl_arr s)) in *.
  rewrite drop_app_le by (rewrite take_length; lia).
  rewrite <- (take_length_le (drop (sl_off s) l) (sl_len s)) at 1 by (rewrite drop_length; lia).
  rewrite (take_drop_commute l (sl_len s) (sl_off s)).
  rewrite <- app_length, app_assoc. apply take_app.
Qed.

Section ends.
  Variables from to : nat -> nat.
  Lemma mp_append_ok h p els n :
    hinv h -> swf h (mp_path p) ->
    match mp_append from to h p els n with
    | Ok r => path_append from to (mp_view h p) els = Ok (mp_view r.1 r.2) /\ upd h (mp_path p) r.1 (mp_path r.2)
    | Panic => path_append from to (mp_view h p) els = Panic
    | Diverge => False
    end.
  Proof.
    intros Hh Hp. unfold mp_append, path_append. case_decide; [split; [done|by apply upd_refl]|].
    case_decide.
    { cbn [fst snd mp_path]. split; [|by apply upd_make]. unfold mp_view. cbn [mp_only mp_path p_only p_path fst snd]. by rewrite read_make. }
    destruct (path_last _ _ _) as [l|]; [|done]. destruct (links_up _ _ _ _); [|done].
    cbn [fst snd mp_path]. split; [|by apply upd_append]. unfold mp_view. cbn [mp_only mp_path p_path]. by rewrite read_append.
  Qed.
  Lemma mp_append_path_ok h p q n :
    hinv h -> swf h (mp_path p) -> swf h (mp_path q) ->
    match mp_append_path from to h p q n with
    | Ok r => path_append_path from to (mp_view h p) (mp_view h q) = Ok (mp_view r.1.1 r.1.2, mp_view h r.2) /\
        upd h (mp_path p) r.1.1 (mp_path r.1.2) /\ mp_path r.2 = mp_path q
    | Panic => path_append_path from to (mp_view h p) (mp_view h q) = Panic
    | Diverge => False
    end.
  Proof.
    intros Hh Hp Hq. unfold mp_append_path, path_append_path. cbv zeta. case_decide.
    { cbn [fst snd mp_path]. split_and!; [|by apply upd_make|done].
      unfold mp_view. cbn [mp_only mp_path p_only p_path fst snd]. rewrite read_make. done. }
    case_decide.
    { pose proof (mp_append_ok h (MPath None (mp_path p)) (sl_read h (mp_path q)) n Hh Hp) as H'.
      change (mp_view h (MPath None (mp_path p))) with (Path None (sl_read h (mp_path p))) in H'. cbn [p_path mp_view].
      destruct (mp_append _ _ _ _ _ _) as [r| |]; [|by rewrite H'|done].
      cbn [rbind fst snd]. destruct H' as [Ha Hb]. split_and!; [|done..].
      rewrite Ha. done. }
    case_decide; [split_and!; [done|by apply upd_refl|done]|].
    pose proof (mp_append_ok h p (sl_read h (mp_path q)) n Hh Hp) as H'.
    cbn [p_path mp_view]. destruct (mp_append _ _ _ _ _ _) as [r| |]; [|by rewrite H'|done].
    cbn [rbind fst snd]. destruct H' as [Ha Hb]. rewrite Ha. cbn [rbind].
    split_and!; [|done|by case_decide]. by case_decide.
  Qed.
  Lemma mp_slice_ok h p i j :
    hinv h -> swf h (mp_path p) ->
    match mp_slice from to h p i j with
    | Ok r => path_slice from to (mp_view h p) i j = Ok (mp_view r.1 r.2) /\ forall s, upd h s r.1 (mp_path r.2)
    | Panic => path_slice from to (mp_view h p) i j = Panic
    | Diverge => False
    end.
  Proof.
    intros Hh Hp. unfold mp_slice, path_slice. cbv zeta.
    case_decide; [done|]. case_decide; [split; [done|intros s; by apply upd_nil]|].
    case_decide; [done|]. set (j' := if decide _ then _ else j). case_decide; [done|]. case_decide.
    { destruct (pe_at (mp_view h p) i) as [x| |] eqn:E; cbn [rbind].
      - split; [done|intros s; by apply upd_nil].
      - done.
      - unfold pe_at in E. case_decide; [|done]. by destruct (_ !! _). }
    case_decide; [split; [done|intros s; by apply upd_nil]|]. case_decide; [done|].
    cbn [fst snd mp_path]. split; [|intros s; by apply upd_make].
    unfold mp_view. cbn [mp_only mp_path p_only p_path fst snd]. rewrite read_make. done.
  Qed.
End ends.

Lemma mp_remove_last_ok g h p :
  hinv h -> swf h (mp_path p) ->
  match mp_remove_last g h p with
  | Ok r => path_remove_last g (mp_view h p) = Ok (r.1, mp_view h r.2) /\ upd h (mp_path p) h (mp_path r.2)
  | Panic => path_remove_last g (mp_view h p) = Panic
  | Diverge => path_remove_last g (mp_view h p) = Diverge
  end.
Proof.
  intros Hh Hp. unfold mp_remove_last, path_remove_last. cbn [p_only p_path mp_view].
  destruct (mp_only p) as [k|] eqn:Ep; [split; [done|by apply upd_refl]|].
  destruct (last _) as [x|] eqn:E.
  2:{ cbn [fst snd]. split; [done|by apply upd_refl]. }
  destruct (remove_edge g (pe_edge x)) as [g'| |]; [|done..]. cbn [rbind].
  destruct Hp as [H1 H2]. unfold sl_slice. rewrite decide_True by lia. cbn [rbind fst snd mp_path].
  split.
  - f_equal. f_equal. unfold mp_view. cbn [mp_only mp_path]. f_equal.
    rewrite (read_length h) by done. unfold sl_read. cbn [sl_len sl_off sl_arr].
    rewrite Nat.add_0_r, take_take. f_equal. lia.
  - apply upd_sub; [done| |done|simpl; lia]. split; simpl; [lia|]. lia.
Qed.
Lemma mp_remove_first_ok g h p :
  hinv h -> swf h (mp_path p) ->
  match mp_remove_first g h p with
  | Ok r => path_remove_first g (mp_view h p) = Ok (r.1, mp_view h r.2) /\ upd h (mp_path p) h (mp_path r.2)
  | Panic => path_remove_first g (mp_view h p) = Panic
  | Diverge => path_remove_first g (mp_view h p) = Diverge
  end.
Proof.
  intros Hh Hp. unfold mp_remove_first, path_remove_first. cbn [p_only p_path mp_view].
  destruct (mp_only p) as [k|] eqn:Ep; [split; [done|by apply upd_refl]|].
  destruct (sl_read h (mp_path p)) as [|x r] eqn:E; cbn [head].
  { cbn [fst snd]. split; [|by apply upd_refl]. unfold mp_view. rewrite E. done. }
  destruct (remove_edge g (pe_edge x)) as [g'| |]; [|done..]. cbn [rbind].
  assert (sl_len (mp_path p) = S (length r)) as Hl by (rewrite <- (read_length h) by done; by rewrite E).
  destruct Hp as [H1 H2]. unfold sl_slice. rewrite decide_True by lia. cbn [rbind fst snd mp_path].
  split.
  - f_equal. f_equal. unfold mp_view. cbn [mp_only mp_path]. f_equal.
    assert (r = drop 1 (sl_read h (mp_path p))) as -> by by rewrite E.
    unfold sl_read. cbn [sl_len sl_off sl_arr]. rewrite skipn_firstn_comm, drop_drop. f_equal.
  - apply upd_sub; [done| |done|simpl; lia]. split; simpl; [lia|]. lia.
Qed.

(** ** Programs *)
Record minv (s : pm_state) (D : gset nat) : Prop := MInv {
  mi_heap : hinv (pm_heap s);
  mi_path : forall x, swf (pm_heap s) (mp_path (pm_var s x));
  mi_slice : forall v, swf (pm_heap s) (pm_sl s v);
  mi_paths : forall x y, x <> y -> apart (mp_path (pm_var s x)) (mp_path (pm_var s y));
  mi_apart : forall x v, v ∉ D -> apart (mp_path (pm_var s x)) (pm_sl s v) }.

Lemma minv_init g : minv (pm_init g) ∅.
Proof.
  split; intros; unfold pm_var, pm_sl, pm_init; cbn [pm_heap pm_path pm_slice]; rewrite ?lookup_empty; cbn [default mp_path].
  - intros a _. done.
  - apply swf_nil.
  - apply swf_nil.
  - by left.
  - by left.
Qed.
Lemma pm_var_put s x hp y : pm_var (put_path s x hp) y = if decide (y = x) then hp.2 else pm_var s y.
Proof. unfold pm_var, put_path. cbn [pm_path]. case_decide; [subst; by rewrite lookup_insert|by rewrite lookup_insert_ne]. Qed.
Lemma pm_sl_put s v hs w : pm_sl (put_slice s v hs) w = if decide (w = v) then hs.2 else pm_sl s w.
Proof. unfold pm_sl, put_slice. cbn [pm_slice]. case_decide; [subst; by rewrite lookup_insert|by rewrite lookup_insert_ne]. Qed.

(** a call that gives [x] a new value *)
Lemma put_path_ok s D x h' p' g' :
  minv s D -> upd (pm_heap s) (mp_path (pm_var s x)) h' (mp_path p') ->
  let s' := PM g' h' (<[x := p']> (pm_path s)) (pm_slice s) in
  minv s' D /\ (forall y, pm_view s' y = if decide (y = x) then mp_view h' p' else pm_view s y) /\
  (forall v, v ∉ D -> pm_elems s' v = pm_elems s v).
Proof.
  intros [I1 I2 I3 I4 I5] (U1&U2&U3) s'.
  assert (forall y, pm_var s' y = if decide (y = x) then p' else pm_var s y) as Hv.
  { intros y. unfold pm_var, s'. cbn [pm_path]. case_decide; [subst; by rewrite lookup_insert|by rewrite lookup_insert_ne]. }
  assert (forall v, pm_sl s' v = pm_sl s v) as Hsl by done.
  split_and!.
  - split.
    + done.
    + intros y. rewrite Hv. case_decide; [done|]. apply U3. apply I2.
    + intros v. rewrite Hsl. apply U3. apply I3.
    + intros y z Hyz. rewrite !Hv. repeat case_decide; subst; try done.
      * apply apart_sym. apply (U3 (mp_path (pm_var s z))); [apply I2|]. by apply I4.
      * apply (U3 (mp_path (pm_var s y))); [apply I2|]. by apply I4.
      * by apply I4.
    + intros y v Hv'. rewrite Hv, Hsl. case_decide; [|by apply I5]. apply apart_sym.
      apply (U3 (pm_sl s v)); [apply I3|]. apply apart_sym. by apply I5.
  - intros y. unfold pm_view, s' at 1. cbn [pm_heap]. fold s'. rewrite Hv. case_decide; [done|].
    unfold mp_view. f_equal. apply (U3 (mp_path (pm_var s y))); [apply I2|]. by apply I4.
  - intros v Hv'. unfold pm_elems. rewrite Hsl. apply (U3 (pm_sl s v)); [apply I3|]. apply apart_sym. by apply I5.
Qed.

(** a call that gives [v] a new slice, sharing at most the array of a slice variable *)
Lemma put_slice_ok s D D' v h' t' w :
  minv s D -> w ∉ D -> upd (pm_heap s) (pm_sl s w) h' t' ->
  (forall u, u ∉ D' -> u <> v -> u ∉ D) ->
  let s' := put_slice s v (h', t') in
  minv s' D' /\ forall y, pm_view s' y = pm_view s y.
Proof.
  intros [I1 I2 I3 I4 I5] Hw (U1&U2&U3) HD s'.
  assert (forall y, pm_var s' y = pm_var s y) as Hv by done.
  split.
  - split.
    + done.
    + intros y. rewrite Hv. apply U3. apply I2.
    + intros u. unfold s'. rewrite pm_sl_put. case_decide; [done|]. apply U3, I3.
    + done.
    + intros y u Hu. rewrite Hv. unfold s'. rewrite pm_sl_put. case_decide.
      * apply U3; [apply I2|]. by apply I5.
      * apply I5. by apply HD.
  - intros y. unfold pm_view. rewrite Hv. unfold mp_view. f_equal. apply U3; [apply I2|]. by apply I5.
Qed.

Definition agrees (s : pm_state) (D : gset nat) (o : pm_op) : Prop :=
  match pm_step s o with
  | Ok s' => exists ch, value_step (pm_graph s) (pm_view s) (pm_elems s) o = Ok (pm_graph s', ch) /\
      (forall y, pm_view s' y = changed (pm_view s) ch y) /\ forall v, v ∉ D -> pm_elems s' v = pm_elems s v
  | Panic => value_step (pm_graph s) (pm_view s) (pm_elems s) o = Panic
  | Diverge => value_step (pm_graph s) (pm_view s) (pm_elems s) o = Diverge
  end.
Lemma changed_one P x p y : changed P [(x, p)] y = if decide (y = x) then p else P y.
Proof. unfold changed. simpl. case_decide; [subst; by rewrite lookup_insert|]. by rewrite lookup_insert_ne, lookup_empty. Qed.
Lemma one_change s D o x h' p' g' :
  minv s D -> gone_after D o = D -> upd (pm_heap s) (mp_path (pm_var s x)) h' (mp_path p') ->
  pm_step s o = Ok (PM g' h' (<[x := p']> (pm_path s)) (pm_slice s)) ->
  value_step (pm_graph s) (pm_view s) (pm_elems s) o = Ok (g', [(x, mp_view h' p')]) ->
  agrees s D o /\ forall s', pm_step s o = Ok s' -> minv s' (gone_after D o).
Proof.
  intros Hi HD Hu Hs Hv. destruct (put_path_ok s D x h' p' g' Hi Hu) as (H1&H2&H3). unfold agrees. rewrite Hs, HD. split.
  - exists [(x, mp_view h' p')]. split; [done|]. split; [|done]. intros y. rewrite H2, changed_one. done.
  - intros s' [= <-]. done.
Qed.

Lemma path_step_ok s D o :
  minv s D -> used o ## D -> (match o with PNew _ v => owns s D v | _ => True end) -> slice_op o = false ->
  agrees s D o /\ forall s', pm_step s o = Ok s' -> minv s' (gone_after D o).
Proof.
  intros Hi Hu Ho Hsl. pose proof Hi as [I1 I2 I3 I4 I5].
  destruct o as [x v|x els|x n|x|x y|x els k|x v k|x y k|x y i j|x|x| | | |]; try done; clear Hsl.
  - (* PNew *)
    unfold agrees. cbn [pm_step value_step]. assert (v ∉ D) as Hv by (cbn [used] in Hu; set_solver).
    assert (forall y, pm_var (put_path s x (pm_heap s, MPath None (pm_sl s v))) y = if decide (y = x) then MPath None (pm_sl s v) else pm_var s y) as Hpv.
    { intros y. by rewrite pm_var_put. }
    split.
    + eexists. split; [done|]. split; [|done]. intros y. rewrite changed_one. unfold pm_view. rewrite Hpv. case_decide; [|done]. done.
    + intros s' [= <-]. cbn [gone_after]. split.
      * done.
      * intros y. rewrite Hpv. case_decide; [apply I3|apply I2].
      * apply I3.
      * intros y z Hyz. rewrite !Hpv. repeat case_decide; subst; try done; cbn [mp_path].
        -- apply apart_sym. by apply I5.
        -- by apply I5.
        -- by apply I4.
      * intros y w Hw. rewrite Hpv. change (pm_sl (put_path s x (pm_heap s, MPath None (pm_sl s v))) w) with (pm_sl s w).
        case_decide; [|apply I5; set_solver]. cbn [mp_path].
        destruct (pm_slice s !! w) as [t|] eqn:E.
        2:{ right. left. unfold pm_sl. by rewrite E. }
        assert (pm_sl s w = t) as -> by (unfold pm_sl; by rewrite E).
        destruct (decide (0 < sl_cap t)); [|right; left; lia]. right. right. intros Heq.
        eapply (Ho w t); [| |done|done|by rewrite Heq]; set_solver.
  - (* PNewLit *)
    eapply (one_change s D _ x (sl_make (pm_heap s) els 0).1 (MPath None (sl_make (pm_heap s) els 0).2) (pm_graph s)); [done|done|by apply upd_make|done|].
    cbn [value_step]. unfold mp_view. cbn [mp_only mp_path]. rewrite read_make. done.
  - (* PFromNode *)
    eapply (one_change s D _ x (pm_heap s) (MPath (Some n) nil_slice) (pm_graph s)); [done|done|by apply upd_nil|done|done].
  - (* PClear *)
    eapply (one_change s D _ x (pm_heap s) (MPath None nil_slice) (pm_graph s)); [done|done|by apply upd_nil|done|done].
  - (* PClone *)
    set (xs := sl_read (pm_heap s) (mp_path (pm_var s y))).
    eapply (one_change s D _ x (sl_make (pm_heap s) xs 0).1 (MPath (mp_only (pm_var s y)) (sl_make (pm_heap s) xs 0).2) (pm_graph s)); [done|done|by apply upd_make|done|].
    cbn [value_step]. unfold mp_view. cbn [mp_only mp_path]. rewrite read_make. done.
  - (* PAppend *)
    pose proof (mp_append_ok (edge_from (pm_graph s)) (edge_to (pm_graph s)) (pm_heap s) (pm_var s x) els k I1 (I2 x)) as H.
    destruct (mp_append _ _ _ _ _ _) as [r| |] eqn:E; [|unfold agrees; cbn [pm_step value_step]; rewrite E; unfold pm_view; rewrite H; done|done].
    destruct H as [Ha Hb].
    eapply (one_change s D _ x r.1 r.2 (pm_graph s)); [done|done|done| |].
    + cbn [pm_step]. rewrite E. done.
    + cbn [value_step]. unfold pm_view. rewrite Ha. done.
  - (* PAppendSlice *)
    pose proof (mp_append_ok (edge_from (pm_graph s)) (edge_to (pm_graph s)) (pm_heap s) (pm_var s x) (sl_read (pm_heap s) (pm_sl s v)) k I1 (I2 x)) as H.
    destruct (mp_append _ _ _ _ _ _) as [r| |] eqn:E; [|unfold agrees; cbn [pm_step value_step]; rewrite E; unfold pm_view, pm_elems; rewrite H; done|done].
    destruct H as [Ha Hb].
    eapply (one_change s D _ x r.1 r.2 (pm_graph s)); [done|done|done| |].
    + cbn [pm_step]. rewrite E. done.
    + cbn [value_step]. unfold pm_view, pm_elems. rewrite Ha. done.
  - (* PAppendPath *)
    pose proof (mp_append_path_ok (edge_from (pm_graph s)) (edge_to (pm_graph s)) (pm_heap s) (pm_var s x) (pm_var s y) k I1 (I2 x) (I2 y)) as H.
    unfold agrees. cbn [pm_step value_step]. unfold pm_view at 1 2 4 5 6 7.
    destruct (mp_append_path _ _ _ _ _ _) as [r| |] eqn:E; [|by rewrite H|done].
    destruct H as (Ha&Hb&Hc). cbn [rbind]. rewrite Ha. cbn [rbind fst snd].
    destruct (put_path_ok s D y (pm_heap s) r.2 (pm_graph s)) as (J1&J2&J3); [done|rewrite Hc; by apply upd_refl|].
    destruct (put_path_ok _ D x r.1.1 r.1.2 (pm_graph s) J1) as (K1&K2&K3).
    { replace (mp_path (pm_var _ x)) with (mp_path (pm_var s x)); [done|].
      unfold pm_var. cbn [pm_path]. destruct (decide (x = y)) as [->|Hne]; [|by rewrite lookup_insert_ne].
      rewrite lookup_insert. change (mp_path (pm_var s y) = mp_path r.2). by rewrite Hc. }
    split.
    + eexists. split; [done|]. split.
      * intros z. etransitivity; [apply K2|]. rewrite J2. unfold changed. cbn [list_to_map foldr fst snd uncurry].
        case_decide; [subst; by rewrite lookup_insert|]. rewrite lookup_insert_ne by done.
        case_decide; [subst; by rewrite lookup_insert|]. by rewrite lookup_insert_ne, lookup_empty.
      * intros v Hv. etransitivity; [by apply K3|]. by apply J3.
    + intros s' [= <-]. apply K1.
  - (* PSlice *)
    pose proof (mp_slice_ok (edge_from (pm_graph s)) (edge_to (pm_graph s)) (pm_heap s) (pm_var s y) i j I1 (I2 y)) as H.
    destruct (mp_slice _ _ _ _ _ _) as [r| |] eqn:E; [|unfold agrees; cbn [pm_step value_step]; rewrite E; unfold pm_view; rewrite H; done|done].
    destruct H as [Ha Hb].
    eapply (one_change s D _ x r.1 r.2 (pm_graph s)); [done|done|done| |].
    + cbn [pm_step]. rewrite E. done.
    + cbn [value_step]. unfold pm_view. rewrite Ha. done.
  - (* PRemoveLast *)
    pose proof (mp_remove_last_ok (pm_graph s) (pm_heap s) (pm_var s x) I1 (I2 x)) as H.
    destruct (mp_remove_last _ _ _) as [r| |] eqn:E.
    2,3: unfold agrees; cbn [pm_step value_step]; rewrite E; unfold pm_view; rewrite H; done.
    destruct H as [Ha Hb].
    eapply (one_change s D _ x (pm_heap s) r.2 r.1); [done|done|done| |].
    + cbn [pm_step]. rewrite E. done.
    + cbn [value_step]. unfold pm_view. rewrite Ha. done.
  - (* PRemoveFirst *)
    pose proof (mp_remove_first_ok (pm_graph s) (pm_heap s) (pm_var s x) I1 (I2 x)) as H.
    destruct (mp_remove_first _ _ _) as [r| |] eqn:E.
    2,3: unfold agrees; cbn [pm_step value_step]; rewrite E; unfold pm_view; rewrite H; done.
    destruct H as [Ha Hb].
    eapply (one_change s D _ x (pm_heap s) r.2 r.1); [done|done|done| |].
    + cbn [pm_step]. rewrite E. done.
    + cbn [value_step]. unfold pm_view. rewrite Ha. done.
Qed.

Lemma slice_step_ok s D o s' :
  minv s D -> used o ## D -> slice_op o = true -> pm_step s o = Ok s' ->
  minv s' (gone_after D o) /\ pm_graph s' = pm_graph s /\ forall y, pm_view s' y = pm_view s y.
Proof.
  intros Hi Hu Hsl Hs. pose proof Hi as [I1 I2 I3 I4 I5].
  destruct o as [| | | | | | | | | | |v els k|v w i j|v i el|v w els k]; try done; clear Hsl; cbn [pm_step gone_after used] in *.
  - injection Hs as <-. rewrite (surjective_pairing (sl_make _ _ _)).
    assert (exists w, w ∉ D /\ True) as (w & Hw & _).
    { exists (fresh D). split; [apply is_fresh|done]. }
    destruct (put_slice_ok s D (D ∖ {[v]}) v (sl_make (pm_heap s) els k).1 (sl_make (pm_heap s) els k).2 w) as [H1 H2]; [done|done|by apply upd_make|set_solver|].
    split_and!; done.
  - destruct (sl_slice _ _ _) as [r| |] eqn:E; [|done..]. cbn [rbind] in Hs. injection Hs as <-.
    assert (w ∉ D) by set_solver.
    destruct (put_slice_ok s D (D ∖ {[v]}) v (pm_heap s) r w) as [H1 H2]; [done|done| |set_solver|split_and!; done].
    unfold sl_slice in E. case_decide as Hc; [|done]. injection E as <-. destruct (I3 w) as [J1 J2].
    apply upd_sub; simpl; [done| |done|lia]. split; simpl; lia.
  - case_decide as Hc; [|done]. injection Hs as <-. assert (v ∉ D) by set_solver.
    assert (forall t, swf (pm_heap s) t -> swf (sl_write (pm_heap s) (pm_sl s v) i [el]) t /\ (apart t (pm_sl s v) -> sl_read (sl_write (pm_heap s) (pm_sl s v) i [el]) t = sl_read (pm_heap s) t)) as Hk.
    { intros t Ht. apply write_keeps; [done|apply I3| |done]. destruct (I3 v). simpl. lia. }
    split_and!; [|done|].
    + split.
      * apply write_hinv; [done|apply I3|]. destruct (I3 v). simpl. lia.
      * intros x. apply Hk. apply I2.
      * intros u. apply Hk. apply I3.
      * done.
      * done.
    + intros y. unfold pm_view, mp_view. f_equal. apply Hk; [apply I2|]. by apply I5.
  - injection Hs as <-. assert (w ∉ D) by set_solver. rewrite (surjective_pairing (sl_append _ _ _ _)).
    destruct (put_slice_ok s D (D ∖ {[v]}) v (sl_append (pm_heap s) (pm_sl s w) els k).1 (sl_append (pm_heap s) (pm_sl s w) els k).2 w) as [H1 H2]; [done|done|apply upd_append; [done|apply I3]|set_solver|].
    split_and!; done.
Qed.
Lemma step_inv s D o s' :
  minv s D -> used o ## D -> (match o with PNew _ v => owns s D v | _ => True end) -> pm_step s o = Ok s' ->
  minv s' (gone_after D o).
Proof.
  intros Hi Hu Ho Hs. destruct (slice_op o) eqn:E.
  - by eapply slice_step_ok.
  - by eapply path_step_ok.
Qed.
Lemma run_inv ops s D s' r :
  minv s D -> private s D (ops ++ r) -> rfold pm_step ops s = Ok s' ->
  minv s' (fold_left gone_after ops D) /\ private s' (fold_left gone_after ops D) r.
Proof.
  revert s D. induction ops as [|o ops IH]; intros s D Hi Hp Hr.
  { cbn in Hr. injection Hr as <-. done. }
  cbn [app private] in Hp. destruct Hp as (Hu&Ho&Hn). cbn [rfold] in Hr.
  destruct (pm_step s o) as [s1| |] eqn:E; [|done..]. cbn [rbind] in Hr. cbn [fold_left].
  apply (IH s1); [by eapply step_inv|by apply Hn|done].
Qed.
Lemma paths_are_values g ops o s :
  private (pm_init g) ∅ (ops ++ [o]) -> pm_run g ops = Ok s ->
  (slice_op o = false ->
   match pm_step s o with
   | Ok s' => exists ch, value_step (pm_graph s) (pm_view s) (pm_elems s) o = Ok (pm_graph s', ch) /\
       (forall y, pm_view s' y = changed (pm_view s) ch y) /\ forall v, v ∉ gone ops -> pm_elems s' v = pm_elems s v
   | Panic => value_step (pm_graph s) (pm_view s) (pm_elems s) o = Panic
   | Diverge => value_step (pm_graph s) (pm_view s) (pm_elems s) o = Diverge
   end) /\
  (slice_op o = true -> forall s', pm_step s o = Ok s' -> pm_graph s' = pm_graph s /\ forall y, pm_view s' y = pm_view s y).
Proof.
  intros Hp Hr. destruct (run_inv ops _ _ _ _ (minv_init g) Hp Hr) as [Hi (Hu&Ho&_)]. split.
  - intros Hs. destruct (path_step_ok s (gone ops) o Hi Hu Ho Hs) as [H _]. exact H.
  - intros Hs s' Hst. destruct (slice_step_ok s (gone ops) o s' Hi Hu Hs Hst) as (_&H1&H2). done.
Qed.
Lemma no_shared_private s ops : no_shared_slices ops -> private s ∅ ops.
Proof.
  intros H. assert (forall s D, D = ∅ -> private s D ops) as Hg; [|by apply Hg].
  clear s. induction H as [|o ops Ho _ IH]; intros s D HD; [done|]. cbn [private]. split_and!.
  - set_solver.
  - by destruct o.
  - intros s' _. apply IH. subst D. destruct o; simpl in *; set_solver.
Qed.
