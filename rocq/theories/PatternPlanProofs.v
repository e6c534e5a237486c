(** Pattern matching: the plan. *)
From Verif Require Import Base Value Graph GraphSpec CoreProofs CoreStep Path PathSpec PathProofs VPath VPathSpec VPathProofs.
From Verif Require Import Pattern PatternSpec PatternStartProofs PatternRunProofs.

Lemma rmap_ok {A B} (f : A -> res B) (h : A -> B) l : (forall x, x ∈ l -> f x = Ok (h x)) -> rmap f l = Ok (map h l).
Proof.
  induction l as [|x l IH]; intros H; [done|]. cbn [rmap map]. rewrite H by (by apply elem_of_cons; left). cbn [rbind].
  rewrite IH; [done|]. intros y Hy. apply H. by apply elem_of_cons; right.
Qed.

Section plan.
  Variables (ops : list op) (syms : symbols) (pat : list pitem) (K start : nat) (xs : list nat).
  Notation s := (srun ops).
  Notation N := (length pat).
  Hypotheses (HN : N = 2 * K + 1) (Hlt : start < N) (Hxs : start_ok ops syms pat start xs) (Hdir : ~ undirected_start pat start).

  Definition back_step (i : nat) : pstep := match backward_step pat i with Ok st => st | _ => IterNodes 0 [] end.
  Definition start_step : pstep := if Nat.even start then IterNodes start xs else IterEdges start xs.
  Definition nforward : nat := N - S start.
  Definition steps : list pstep :=
    start_step :: map (forward_step pat start) (seq (S start) nforward) ++ map back_step (rev (seq 0 start)).

  Lemma backward_ok i : i < start -> backward_step pat i = Ok (back_step i).
  Proof.
    intros Hi. unfold back_step. assert (exists st, backward_step pat i = Ok st) as [st ->]; [|done].
    unfold backward_step. destruct (Nat.odd i) eqn:E; [by eexists|]. destruct (pi_left _); [by eexists|]. destruct (pi_undirected _); [|by eexists].
    rewrite decide_True; [by eexists|].
    assert (Nat.even i = true) as Ev by (by rewrite <- Nat.negb_odd, E). apply Nat.even_spec in Ev as [k ->]. lia.
  Qed.
  Lemma get_plan_ok g lord pord sz : fastest g syms pat lord pord = Ok (Some xs, start, sz) ->
    get_plan g syms pat lord pord = Ok (Plan steps nforward).
  Proof.
    intros Hf. unfold get_plan. rewrite Hf. cbn [rbind fst snd].
    rewrite (rmap_ok _ back_step). 2:{ intros i Hi%elem_of_list_In%in_rev%elem_of_list_In%elem_of_seq. apply backward_ok. lia. }
    cbn [rbind]. rewrite map_length, seq_length. done.
  Qed.
  Definition pos (k : nat) : nat := if decide (k <= nforward) then start + k else start - (k - nforward).
  Definition step_at (k : nat) : pstep :=
    if decide (k = 0) then start_step else if decide (k <= nforward) then forward_step pat start (start + k) else back_step (start - (k - nforward)).
  Lemma steps_length : length steps = N.
  Proof. unfold steps, nforward. cbn [length]. rewrite app_length, !map_length, rev_length, !seq_length. lia. Qed.
  Lemma steps_lookup k : k < N -> steps !! k = Some (step_at k).
  Proof.
    intros Hk. unfold steps, step_at. destruct k as [|k]; [done|]. rewrite (decide_False (P := S k = 0)) by done.
    change ((map (forward_step pat start) (seq (S start) nforward) ++ map back_step (rev (seq 0 start))) !! k =
      Some (if decide (S k <= nforward) then forward_step pat start (start + S k) else back_step (start - (S k - nforward)))).
    unfold nforward in *. destruct (decide _) as [Hf|Hf].
    - rewrite lookup_app_l by (rewrite map_length, seq_length; lia). rewrite map_lookup, lookup_seq_lt by lia. simpl. by f_equal; f_equal; lia.
    - rewrite lookup_app_r by (rewrite map_length, seq_length; lia). rewrite map_length, seq_length, map_lookup.
      rewrite rev_alt. change (rev_append (seq 0 start) []) with (reverse (seq 0 start)).
      rewrite reverse_lookup by (rewrite seq_length; lia). rewrite seq_length, lookup_seq_lt by lia. simpl. f_equal. f_equal. lia.
  Qed.
  Lemma forward_item i : step_item (forward_step pat start i) = i.
  Proof. unfold forward_step. by repeat case_match. Qed.
  Lemma back_item i : i < start -> step_item (back_step i) = i.
  Proof.
    intros Hi. pose proof (backward_ok i Hi) as Hb. revert Hb. generalize (back_step i). intros st. unfold backward_step.
    repeat case_match; try done; by intros [= <-].
  Qed.
  Lemma step_at_item k : k < N -> step_item (step_at k) = pos k.
  Proof.
    intros Hk. unfold step_at, pos, nforward in *. destruct (decide (k = 0)) as [->|].
    - rewrite decide_True by lia. unfold start_step. destruct (Nat.even start); simpl; lia.
    - destruct (decide _); [apply forward_item|]. apply back_item. lia.
  Qed.
  Lemma steps_split pre st post : steps = pre ++ st :: post -> exists k, k < N /\ st = step_at k /\ pre = take k steps.
  Proof.
    intros E. exists (length pre).
    assert (length pre < N) as Hl by (rewrite <- steps_length, E, app_length; simpl; lia). split; [done|]. split.
    - pose proof (steps_lookup _ Hl) as H. rewrite E, list_lookup_middle in H by done. congruence.
    - by rewrite E, take_app.
  Qed.
  Lemma in_steps k st : k <= N -> st ∈ take k steps <-> exists k', k' < k /\ st = step_at k'.
  Proof.
    intros Hk. rewrite elem_of_list_lookup. split.
    - intros (k' & [H Hk']%lookup_take_Some). exists k'. split; [done|]. rewrite steps_lookup in H by lia. congruence.
    - intros (k' & Hk' & ->). exists k'. apply lookup_take_Some. split; [|done]. apply steps_lookup. lia.
  Qed.
  Lemma in_items k j : k <= N -> j ∈ items (take k steps) <-> exists k', k' < k /\ pos k' = j.
  Proof.
    intros Hk. rewrite elem_of_list_fmap. split.
    - intros (st & -> & (k' & Hk' & ->)%in_steps); [|done]. exists k'. split; [done|]. rewrite step_at_item by lia. done.
    - intros (k' & Hk' & <-). exists (step_at k'). split; [rewrite step_at_item by lia; done|]. apply in_steps; [done|]. by exists k'.
  Qed.
  Lemma last_taken k : 0 < k -> k <= N -> last (take k steps) = Some (step_at (k - 1)).
  Proof.
    intros H0 Hk. rewrite last_lookup, take_length, steps_length. rewrite lookup_take by lia.
    replace (pred (min k N)) with (k - 1) by lia. apply steps_lookup. lia.
  Qed.
  Lemma items_all i : i < N -> i ∈ items steps.
  Proof.
    intros Hi. rewrite <- (take_ge steps N) by (rewrite steps_length; lia). apply in_items; [lia|].
    unfold pos, nforward. destruct (decide (i < start)) as [|Hs].
    - exists (N - S start + (start - i)). split; [lia|]. rewrite decide_False by lia. lia.
    - exists (i - start). split; [lia|]. rewrite decide_True by lia. lia.
  Qed.

  (** the steps by item *)
  Definition fwd_dir (it : pitem) : dir := if pi_left it then Incoming else if pi_undirected it then AnyDir else Outgoing.
  Definition back_dir (it : pitem) : dir := if pi_left it then Outgoing else if pi_undirected it then AnyDir else Incoming.
  Lemma even_2 k : Nat.even (2 * k) = true.
  Proof. apply Nat.even_spec. by exists k. Qed.
  Lemma odd_2 k : Nat.odd (2 * k) = false.
  Proof. by rewrite <- Nat.negb_even, even_2. Qed.
  Lemma odd_1 k : Nat.odd (2 * k + 1) = true.
  Proof. apply Nat.odd_spec. by exists k. Qed.
  Lemma even_1 k : Nat.even (2 * k + 1) = false.
  Proof. by rewrite <- Nat.negb_odd, odd_1. Qed.
  Lemma start_edge_item k : start = 2 * k + 1 -> pi_left (item pat start) = true \/ pi_left (item pat start) = false /\ pi_undirected (item pat start) = false.
  Proof.
    intros E. destruct (pi_left (item pat start)) eqn:El; [by left|]. destruct (pi_undirected (item pat start)) eqn:Eu; [|by right].
    destruct Hdir. split; [by rewrite E, odd_1|]. exists (item pat start). split; [by apply item_in|done].
  Qed.
  Lemma step_forward_edge k : forward_step pat start (2 * k + 1) = ConnEdges (2 * k + 1) (2 * k) (fwd_dir (item pat (2 * k + 1))).
  Proof. unfold forward_step. rewrite odd_1. by replace (2 * k + 1 - 1) with (2 * k) by lia. Qed.
  Lemma step_forward_node k : exists u prev, forward_step pat start (2 * k + 2) = ConnNodes (2 * k + 2) (2 * k + 1) u prev /\
    match fwd_dir (item pat (2 * k + 1)) with Outgoing => u = UseTo | Incoming => u = UseFrom | AnyDir => u = UseAny /\ (start <= 2 * k -> prev = Some (2 * k)) end.
  Proof.
    unfold forward_step, fwd_dir. replace (2 * k + 2) with (2 * (k + 1)) by lia. rewrite odd_2. replace (2 * (k + 1) - 1) with (2 * k + 1) by lia.
    replace (2 * (k + 1) - 2) with (2 * k) by lia.
    destruct (pi_left _); [by eexists _, _|]. destruct (pi_undirected _); [|by eexists _, _]. eexists _, _. split; [done|].
    split; [done|]. intros H. by rewrite decide_True.
  Qed.
  Lemma step_back_edge k : back_step (2 * k + 1) = ConnEdges (2 * k + 1) (2 * k + 2) (back_dir (item pat (2 * k + 1))).
  Proof. unfold back_step, backward_step. rewrite odd_1. by replace (2 * k + 1 + 1) with (2 * k + 2) by lia. Qed.
  Lemma step_back_node k : 2 * k < start -> exists u prev, back_step (2 * k) = ConnNodes (2 * k) (2 * k + 1) u prev /\
    match back_dir (item pat (2 * k + 1)) with Outgoing => u = UseTo | Incoming => u = UseFrom | AnyDir => u = UseAny /\ prev = Some (2 * k + 2) end.
  Proof.
    intros Hk. unfold back_step, backward_step, back_dir. rewrite odd_2.
    destruct (pi_left _); [by eexists _, _|]. destruct (pi_undirected _); [|by eexists _, _].
    rewrite decide_True by lia. by eexists _, _.
  Qed.
  Lemma fwd_dir_any it : fwd_dir it = AnyDir <-> pi_left it = false /\ pi_undirected it = true.
  Proof. unfold fwd_dir. destruct (pi_left it), (pi_undirected it); naive_solver. Qed.
  Lemma back_dir_any it : back_dir it = AnyDir <-> pi_left it = false /\ pi_undirected it = true.
  Proof. unfold back_dir. destruct (pi_left it), (pi_undirected it); naive_solver. Qed.
  Lemma half n : exists k, n = 2 * k \/ n = 2 * k + 1.
  Proof. destruct (Nat.Even_or_Odd n) as [[k ->]|[k ->]]; exists k; lia. Qed.

  Lemma node_step_not_var k : k < N -> Nat.even (pos k) = true -> ~ var_step pat (step_at k).
  Proof.
    intros Hk Hev. unfold step_at, pos, nforward in *. destruct (decide (k = 0)) as [->|Hk0].
    { rewrite decide_True in Hev by lia. rewrite Nat.add_0_r in Hev. unfold start_step. rewrite Hev. by intros []. }
    destruct (decide _) as [Hf|Hf].
    - apply Nat.even_spec in Hev as [[|c] Hc]; [lia|]. rewrite Hc. replace (2 * S c) with (2 * c + 2) by lia.
      destruct (step_forward_node c) as (u & prev & -> & _). by intros [].
    - apply Nat.even_spec in Hev as [c Hc]. rewrite Hc. destruct (step_back_node c) as (u & prev & -> & _); [lia|]. by intros [].
  Qed.
  Lemma steps_scheduled pre st post : steps = pre ++ st :: post -> scheduled ops syms pat start pre st.
  Proof.
    intros (k & Hk & -> & ->)%steps_split. unfold scheduled. rewrite step_at_item by done.
    split. { rewrite in_items by lia. unfold pos, nforward. intros (k' & Hk' & E). repeat case_decide; lia. }
    split. { unfold pos, nforward. case_decide; lia. }
    destruct (decide (k = 0)) as [->|Hk0].
    { unfold step_at. rewrite decide_True by done. unfold start_step, start_ok in *. destruct (Nat.even start) eqn:Hev.
      - split; [by intros ? ?%elem_of_nil|]. done.
      - split; [by intros ? ?%elem_of_nil|]. done. }
    assert (Hlast := last_taken k ltac:(lia) ltac:(lia)).
    assert (forall st', last (take k steps) = Some st' -> Nat.even (pos (k - 1)) = true -> ~ var_step pat st') as Hnv.
    { intros st'. rewrite Hlast. intros [= <-] Hev. apply node_step_not_var; [lia|done]. }
    unfold step_at. rewrite decide_False by done. destruct (decide (k <= nforward)) as [Hf|Hf].
    - destruct (half (start + k)) as [c [E|E]]; rewrite E.
      + destruct c as [|c]; [lia|]. replace (2 * S c) with (2 * c + 2) by lia.
        destruct (step_forward_node c) as (u & prev & -> & Hu). cbn [reads]. split.
        { intros j ->%elem_of_list_singleton. apply in_items; [lia|]. exists (k - 1). unfold pos. rewrite decide_True by lia. lia. }
        split. { replace (2 * c + 2) with (2 * (c + 1)) by lia. apply even_2. }
        destruct (decide (k = 1)) as [->|Hk1].
        * right. assert (start = 2 * c + 1) as Es by lia. pose proof (start_edge_item c Es) as Hside.
          exists xs. split. { apply in_steps; [lia|]. exists 0. split; [lia|]. unfold step_at, start_step. rewrite decide_True by done. by rewrite Es, even_1. }
          split. { intros st'. rewrite Hlast. intros [= <-]. unfold step_at, start_step. simpl. rewrite Es, even_1. by intros []. }
          split; [done|]. split; [lia|]. unfold fwd_dir in Hu. rewrite <- Es in Hu |- *.
          destruct Hside as [Hl|[Hl Hd]]; rewrite Hl, ?Hd in *; [rewrite decide_True by (split; [lia|done])|rewrite decide_False by (intros [_ H]; specialize (H eq_refl); lia)]; done.
        * left. exists (2 * c), (fwd_dir (item pat (2 * c + 1))). split.
          { rewrite Hlast. unfold step_at. rewrite decide_False by lia. rewrite decide_True by lia.
            replace (start + (k - 1)) with (2 * c + 1) by lia. by rewrite step_forward_edge. }
          split; [lia|]. destruct (fwd_dir _); try done. destruct Hu as [? Hp]. split; [done|]. apply Hp. lia.
      + rewrite step_forward_edge. cbn [reads]. split.
        { intros j ->%elem_of_list_singleton. apply in_items; [lia|]. exists (k - 1). unfold pos. rewrite decide_True by lia. lia. }
        split; [apply even_1|]. split; [apply even_2|]. split; [|apply fwd_dir_any].
        intros st' Hst. eapply Hnv; [done|]. unfold pos. rewrite decide_True by lia. replace (start + (k - 1)) with (2 * c) by lia. apply even_2.
    - assert (exists j, k = nforward + j /\ 1 <= j <= start) as (j & -> & Hj) by (exists (k - nforward); unfold nforward in *; lia).
      replace (nforward + j - nforward) with j by lia.
      assert (forall i, start - j < i -> i < N -> i ∈ items (take (nforward + j) steps)) as Hin.
      { intros i H1 H2. apply in_items; [lia|]. unfold pos, nforward in *. destruct (decide (i < start)).
        - exists (N - S start + (start - i)). split; [lia|]. rewrite decide_False by lia. lia.
        - exists (i - start). split; [lia|]. rewrite decide_True by lia. lia. }
      destruct (half (start - j)) as [c [E|E]]; rewrite E.
      + destruct (step_back_node c) as (u & prev & -> & Hu); [lia|]. cbn [reads]. split.
        { intros i ->%elem_of_list_singleton. apply Hin; [lia|]. lia. }
        split; [apply even_2|].
        destruct (decide (j = 1)) as [->|Hj1].
        * right. assert (start = 2 * c + 1) as Es by lia. pose proof (start_edge_item c Es) as Hside.
          exists xs. split. { apply in_steps; [lia|]. exists 0. split; [lia|]. unfold step_at, start_step. rewrite decide_True by done. by rewrite Es, even_1. }
          split. { intros st' Hst. eapply Hnv; [done|]. unfold pos, nforward. rewrite decide_True by lia.
                   replace (start + (N - S start + 1 - 1)) with (2 * K) by lia. apply even_2. }
          split; [done|]. split; [lia|]. unfold back_dir in Hu. rewrite <- Es in Hu |- *.
          destruct Hside as [Hl|[Hl Hd]]; rewrite Hl, ?Hd in *; [rewrite decide_False by (intros [H _]; by specialize (H ltac:(lia)))|rewrite decide_True by (split; [done|lia])]; done.
        * left. exists (2 * c + 2), (back_dir (item pat (2 * c + 1))). split.
          { rewrite Hlast. unfold step_at, nforward in *. rewrite decide_False by lia. rewrite decide_False by lia.
            replace (start - (N - S start + j - 1 - (N - S start))) with (2 * c + 1) by lia. by rewrite step_back_edge. }
          split; [lia|]. done.
      + rewrite step_back_edge. cbn [reads]. split.
        { intros i ->%elem_of_list_singleton. apply Hin; lia. }
        split; [apply even_1|]. split; [replace (2 * c + 2) with (2 * (c + 1)) by lia; apply even_2|]. split; [|apply back_dir_any].
        intros st' Hst. eapply Hnv; [done|]. unfold pos, nforward. destruct (decide (j = 1)) as [->|].
        * rewrite decide_True by lia. replace (start + (N - S start + 1 - 1)) with (2 * K) by lia. apply even_2.
        * rewrite decide_False by lia. replace (start - _) with (2 * (c + 1)) by lia. apply even_2.
  Qed.
  Lemma step_in k : k < N -> step_at k ∈ steps.
  Proof. intros Hk. eapply elem_of_list_lookup_2. by apply steps_lookup. Qed.
  Lemma in_steps_all st : st ∈ steps <-> st = start_step \/ (exists i, start < i < N /\ st = forward_step pat start i) \/ (exists i, i < start /\ st = back_step i).
  Proof.
    rewrite <- (take_ge steps N) by (rewrite steps_length; lia). rewrite in_steps by lia. unfold step_at, nforward. split.
    - intros (k & Hk & ->). repeat case_decide; [by left|right; left; eexists; split; [|done]; lia|right; right; eexists; split; [|done]; lia].
    - intros [->|[(i & Hi & ->)|(i & Hi & ->)]].
      + exists 0. split; [lia|]. by rewrite decide_True.
      + exists (i - start). split; [lia|]. rewrite decide_False by lia. rewrite decide_True by lia. by replace (start + (i - start)) with i by lia.
      + exists (N - S start + (start - i)). split; [lia|]. rewrite decide_False by lia. rewrite decide_False by lia. f_equal. lia.
  Qed.
End plan.
