(** Proofs about paths. *)
From Verif Require Import Base Graph Path PathSpec.

Lemma map_lookup {A B} (f : A -> B) l i : map f l !! i = f <$> l !! i.
Proof. exact (list_lookup_fmap f l i). Qed.
Section ends.
  Variables from to : nat -> nat.
  Notation src := (pe_src from to).
  Notation tgt := (pe_tgt from to).
  Notation takes := (takes from to).
  Notation denotes := (denotes from to).

  Lemma joins_iff e rev a b : joins from to e rev a b <-> src (PE e rev) = a /\ tgt (PE e rev) = b.
  Proof. unfold joins, pe_src, pe_tgt. by destruct rev. Qed.
  Lemma takes_cons_inv a x l ss : takes a (x :: l) ss ->
    exists ts, ss = (pe_edge x, tgt x) :: ts /\ src x = a /\ takes (tgt x) l ts.
  Proof.
    inversion 1 as [|? b e rev ? ts Hj Ht]; subst. apply joins_iff in Hj as [<- <-]. eauto.
  Qed.
  Lemma takes_cons' x l ss : takes (tgt x) l ss -> takes (src x) (x :: l) ((pe_edge x, tgt x) :: ss).
  Proof. destruct x as [e rev]. intros H. econstructor; [|exact H]. by apply joins_iff. Qed.
  Lemma takes_det a l ss ts : takes a l ss -> takes a l ts -> ss = ts.
  Proof.
    revert a ss ts. induction l as [|x l IH]; intros a ss ts H1 H2.
    - inversion H1; inversion H2; congruence.
    - apply takes_cons_inv in H1 as (? & -> & _ & H1). apply takes_cons_inv in H2 as (? & -> & _ & H2).
      f_equal. by eapply IH.
  Qed.
  Lemma takes_length a l ss : takes a l ss -> length ss = length l.
  Proof. induction 1; simpl; congruence. Qed.
  Lemma takes_edges a l ss : takes a l ss -> map fst ss = map pe_edge l.
  Proof. induction 1; simpl; congruence. Qed.
  Lemma takes_targets a l ss : takes a l ss -> map snd ss = map tgt l.
  Proof.
    revert a ss. induction l as [|x l IH]; intros a ss H; [by inversion H|].
    apply takes_cons_inv in H as (ts & -> & _ & H). simpl. f_equal. by eapply IH.
  Qed.
  Definition end_of (a : nat) (l : list pelem) : nat := default a (tgt <$> last l).
  Lemma end_of_cons a x l : end_of a (x :: l) = end_of (tgt x) l.
  Proof. unfold end_of. destruct l as [|y l]; [done|]. change (last (x :: y :: l)) with (last (y :: l)).
    destruct (last (y :: l)) eqn:E; [done|]. apply last_None in E. done. Qed.
  Lemma takes_app a l ss k : takes a l ss -> forall us,
    takes a (l ++ k) us <-> exists ts, us = ss ++ ts /\ takes (end_of a l) k ts.
  Proof.
    revert a ss. induction l as [|x l IH]; intros a ss H us.
    - inversion H; subst. simpl. unfold end_of. simpl. naive_solver.
    - apply takes_cons_inv in H as (ts & -> & <- & H). simpl. rewrite end_of_cons. split.
      + intros (us' & -> & _ & Hu)%takes_cons_inv. apply (IH _ _ H) in Hu as (ts' & -> & Ht). eauto.
      + intros (ts' & -> & Ht). apply takes_cons'. apply (IH _ _ H). eauto.
  Qed.
  Lemma takes_end a l ss : takes a l ss -> last (a :: map snd ss) = Some (end_of a l).
  Proof.
    revert a ss. induction l as [|x l IH]; intros a ss H; [by inversion H|].
    apply takes_cons_inv in H as (ts & -> & _ & H). rewrite end_of_cons, <-(IH _ _ H). done.
  Qed.
  Lemma takes_head a x l ss : takes a (x :: l) ss -> a = src x.
  Proof. intros (_ & _ & <- & _)%takes_cons_inv. done. Qed.
  Lemma links_takes a l : links_up from to a l = true <-> exists ss, takes a l ss.
  Proof.
    revert a. induction l as [|x l IH]; intros a; simpl.
    - split; [|done]. intros _. eexists. constructor.
    - destruct (decide (src x = a)) as [<-|Hne].
      + rewrite IH. split.
        * intros [ss H]. eexists. by apply takes_cons'.
        * intros [ss (ts & _ & _ & H)%takes_cons_inv]. eauto.
      + split; [done|]. intros [ss (ts & _ & ? & H)%takes_cons_inv]. done.
  Qed.

  Lemma denotes_det p v w : denotes p v -> denotes p w -> v = w.
  Proof.
    destruct 1 as [| |a x l ss H]; inversion 1 as [| |b ? ? ts H']; subst; try done.
    pose proof (takes_head _ _ _ _ H). pose proof (takes_head _ _ _ _ H'). subst. f_equal. by eapply takes_det.
  Qed.
  Lemma den_num_edges p w : denotes p w -> num_path_edges p = Z.of_nat (length (walk_edges w)).
  Proof.
    destruct 1 as [| |a x l ss H]; try done. unfold num_path_edges. cbn [p_path walk_edges].
    by rewrite map_length, (takes_length _ _ _ H).
  Qed.
  Lemma den_num_nodes p w : denotes p w -> num_path_nodes p = Z.of_nat (length (walk_nodes w)).
  Proof.
    destruct 1 as [| |a x l ss H]; try done. unfold num_path_nodes, num_path_edges. cbn [p_only p_path walk_nodes].
    cbn [length]. rewrite map_length, (takes_length _ _ _ H). rewrite decide_False by (simpl; lia). simpl. lia.
  Qed.
  Lemma den_first p w : denotes p w -> path_first from to p = head (walk_nodes w).
  Proof. destruct 1 as [| |a x l ss H]; try done. unfold path_first. simpl. by rewrite (takes_head _ _ _ _ H). Qed.
  Lemma den_last p w : denotes p w -> path_last from to p = last (walk_nodes w).
  Proof.
    destruct 1 as [| |a x l ss H]; try done. unfold path_last. cbn [p_only p_path walk_nodes].
    rewrite (takes_end _ _ _ H). unfold end_of. destruct (last (x :: l)) eqn:E; [done|]. by apply last_None in E.
  Qed.
  Lemma pe_at_nat p i : pe_at p (Z.of_nat i) = match p_path p !! i with Some x => Ok x | None => Panic end.
  Proof. unfold pe_at. rewrite decide_True by lia. by rewrite Nat2Z.id. Qed.
  Lemma pe_at_neg p i : (i < 0)%Z -> pe_at p i = Panic.
  Proof. intros H. unfold pe_at. by rewrite decide_False by lia. Qed.
  Lemma den_get_node p w i : denotes p w ->
    path_get_node from to p (Z.of_nat i) = match walk_nodes w !! i with Some n => Ok n | None => Panic end.
  Proof.
    intros H. unfold path_get_node. destruct i as [|i].
    - rewrite decide_True by done. rewrite (den_first _ _ H). by destruct (walk_nodes w).
    - rewrite decide_False by lia. replace (Z.of_nat (S i) - 1)%Z with (Z.of_nat i) by lia.
      rewrite pe_at_nat. destruct H as [|n|a x l ss H]; cbn [p_path walk_nodes]; try done.
      change ((a :: map snd ss) !! S i) with (map snd ss !! i). rewrite (takes_targets _ _ _ H), map_lookup.
      by destruct ((x :: l) !! i).
  Qed.
  Lemma get_node_neg p i : (i < 0)%Z -> path_get_node from to p i = Panic.
  Proof. intros H. unfold path_get_node. rewrite decide_False by lia. by rewrite pe_at_neg by lia. Qed.
  Lemma den_get_edge p w i : denotes p w -> path_get_edge p (Z.of_nat i) = Ok (walk_edges w !! i).
  Proof.
    intros H. unfold path_get_edge. destruct H as [|n|a x l ss H]; cbn [p_only]; try done.
    - unfold num_path_edges. simpl. by rewrite decide_False by lia.
    - unfold num_path_edges. cbn [p_path walk_edges]. rewrite pe_at_nat. cbn [p_path].
      rewrite (takes_edges _ _ _ H), map_lookup. case_decide as Hd.
      + destruct (lookup_lt_is_Some_2 (x :: l) i) as [y Hy]; [lia|]. by rewrite Hy.
      + rewrite (lookup_ge_None_2 (x :: l) i) by lia. done.
  Qed.
  (** consecutive nodes are joined by the edge between *)
  Lemma takes_joined a l ss i e : takes a l ss -> map fst ss !! i = Some e ->
    exists x b c, l !! i = Some x /\ pe_edge x = e /\ (a :: map snd ss) !! i = Some b /\
      (a :: map snd ss) !! S i = Some c /\ joins from to e (pe_rev x) b c.
  Proof.
    intros H. revert i. induction H as [|a b e' rev l ss Hj Ht IH]; intros i Hi; [done|].
    destruct i as [|i].
    - simpl in Hi. injection Hi as <-. do 3 eexists. by split_and!.
    - destruct (IH _ Hi) as (x & b' & c & ? & ? & ? & ? & ?). exists x, b', c. by split_and!.
  Qed.
  Lemma den_joined p w i e : denotes p w -> walk_edges w !! i = Some e ->
    exists rev a b, walk_nodes w !! i = Some a /\ walk_nodes w !! S i = Some b /\ joins from to e rev a b.
  Proof.
    destruct 1 as [| |a x l ss H]; intros Hi; try done.
    destruct (takes_joined _ _ _ _ _ H Hi) as (y & b & c & ? & ? & ? & ? & ?). eauto 8.
  Qed.

  (** ** Append *)
  Lemma append_ok p n ss els ts : denotes p (WalkFrom n ss) ->
    takes (default 0 (last (n :: map snd ss))) els ts ->
    exists p', path_append from to p els = Ok p' /\ denotes p' (WalkFrom n (ss ++ ts)).
  Proof.
    intros Hp Ht. unfold path_append. case_decide as He.
    { subst. inversion Ht; subst. exists p. by rewrite app_nil_r. }
    rewrite decide_False by (rewrite (den_num_nodes _ _ Hp); simpl; lia).
    rewrite (den_last _ _ Hp). cbn [walk_nodes]. destruct (last (n :: map snd ss)) as [m|] eqn:El.
    2:{ by apply last_None in El. }
    simpl in Ht. assert (Hk : links_up from to m els = true) by (apply links_takes; eauto).
    rewrite Hk. eexists. split; [done|].
    inversion Hp as [|?|? x l ? H]; subst.
    - simpl in El. injection El as ->. simpl. destruct els as [|y els]; [done|]. by constructor.
    - cbn [p_path app]. constructor. apply (takes_app _ _ _ els H). exists ts. split; [done|].
      rewrite (takes_end _ _ _ H) in El. by injection El as ->.
  Qed.
  Lemma append_panics p n ss els : denotes p (WalkFrom n ss) ->
    (forall ts, ~ takes (default 0 (last (n :: map snd ss))) els ts) -> path_append from to p els = Panic.
  Proof.
    intros Hp Ht. unfold path_append. case_decide as He.
    { subst. exfalso. eapply Ht. constructor. }
    rewrite decide_False by (rewrite (den_num_nodes _ _ Hp); simpl; lia).
    rewrite (den_last _ _ Hp). cbn [walk_nodes]. destruct (last (n :: map snd ss)) as [m|] eqn:El; [|done].
    destruct (links_up from to m els) eqn:Hk; [|done]. apply links_takes in Hk as [ts Hk]. by apply Ht in Hk.
  Qed.
  Lemma append_iff p n ss els p' : denotes p (WalkFrom n ss) ->
    path_append from to p els = Ok p' ->
    exists ts, takes (default 0 (last (n :: map snd ss))) els ts /\ denotes p' (WalkFrom n (ss ++ ts)).
  Proof.
    intros Hp Ha. destruct (links_up from to (default 0 (last (n :: map snd ss))) els) eqn:Hk.
    - apply links_takes in Hk as [ts Ht]. destruct (append_ok _ _ _ _ _ Hp Ht) as (q & Hq & Hd).
      rewrite Ha in Hq. injection Hq as <-. eauto.
    - rewrite (append_panics _ _ _ _ Hp) in Ha; [done|]. intros ts Ht.
      assert (links_up from to (default 0 (last (n :: map snd ss))) els = true) by (apply links_takes; eauto). congruence.
  Qed.
  Lemma append_empty els : path_append from to path_empty els = Ok (Path None els).
  Proof. unfold path_append, path_empty. case_decide as H; [by rewrite H|]. by rewrite decide_True. Qed.

  (** ** AppendPath *)
  Lemma append_path_edges p n ss q m ts : denotes p (WalkFrom n ss) -> denotes q (WalkFrom m ts) ->
    ss <> [] ->
    path_append_path from to p q =
      (let! r := path_append from to p (p_path q) in Ok (r, if decide (ts = []) then Path None [] else q)).
  Proof.
    intros Hp Hq Hs. unfold path_append_path.
    rewrite decide_False by (rewrite (den_num_nodes _ _ Hp); simpl; lia).
    rewrite decide_False.
    2:{ rewrite (den_num_nodes _ _ Hp). simpl. rewrite map_length. destruct ss; [done|]. simpl. lia. }
    rewrite decide_False by (rewrite (den_num_nodes _ _ Hq); simpl; lia).
    assert (Hn : (if decide (num_path_nodes q = 1)%Z then Path None (p_path q) else q) = if decide (ts = []) then Path None [] else q).
    { rewrite (den_num_nodes _ _ Hq). cbn [walk_nodes length]. rewrite map_length. destruct ts as [|t ts]; cbn [length].
      - rewrite !decide_True by done. inversion Hq as [| |? ? ? ? H]; subst; [done|]. apply takes_length in H. done.
      - by rewrite !decide_False by (lia || done). }
    by rewrite Hn.
  Qed.
  Lemma append_path_ok p n ss q m ts : denotes p (WalkFrom n ss) -> denotes q (WalkFrom m ts) ->
    ss <> [] -> ts <> [] -> 
    match walk_app (WalkFrom n ss) (WalkFrom m ts) with
    | Some w => exists p', path_append_path from to p q = Ok (p', q) /\ denotes p' w
    | None => path_append_path from to p q = Panic
    end.
  Proof.
    intros Hp Hq Hs Ht. rewrite (append_path_edges _ _ _ _ _ _ Hp Hq Hs). rewrite (decide_False (P := ts = [])) by done.
    cbn [walk_app]. inversion Hq as [|?|? x l ? H]; subst; [done|]. cbn [p_path].
    destruct (decide (last (n :: map snd ss) = Some m)) as [E|E].
    - destruct (append_ok p n ss (x :: l) ts Hp) as (p' & Ha & Hd).
      { by rewrite E. }
      exists p'. split; [|done]. by rewrite Ha.
    - rewrite (append_panics p n ss (x :: l) Hp); [done|].
      intros us Hu. apply takes_head in Hu. pose proof (takes_head _ _ _ _ H) as ->.
      destruct (last (n :: map snd ss)) eqn:El; [|by apply last_None in El]. simpl in Hu. congruence.
  Qed.
  (** appending nothing, or a single node, to a path with edges *)
  Lemma append_path_short p n ss q w : denotes p (WalkFrom n ss) -> ss <> [] -> denotes q w -> walk_edges w = [] ->
    path_append_path from to p q = Ok (p, Path None []).
  Proof.
    intros Hp Hs Hq Hw. destruct w as [|m ts].
    - inversion Hq; subst. unfold path_append_path.
      rewrite decide_False by (rewrite (den_num_nodes _ _ Hp); simpl; lia).
      rewrite decide_False; [done|].
      rewrite (den_num_nodes _ _ Hp). simpl. rewrite map_length. destruct ss; [done|]. simpl. lia.
    - simpl in Hw. destruct ts; [|done]. rewrite (append_path_edges _ _ _ _ _ _ Hp Hq Hs). rewrite decide_True by done.
      inversion Hq as [|?|? x l ? H]; subst; [done|]. apply takes_length in H. done.
  Qed.
  (** the receiver has no edges: the result is a copy of the elements of the argument *)
  Lemma append_path_to_short p q w : denotes p w -> walk_edges w = [] ->
    path_append_path from to p q = Ok (Path None (p_path q), q).
  Proof.
    intros Hp Hw. destruct Hp as [|n|a x l ss H]; simpl in Hw.
    - done.
    - unfold path_append_path. rewrite decide_False by done. rewrite decide_True by done. cbn [p_path].
      change (Path None []) with path_empty. by rewrite append_empty.
    - apply takes_length in H. by destruct ss.
  Qed.

  (** ** HasPrefixPath *)
  (** loops are not traversed backwards *)
  Definition plain (p : path) : Prop := Forall (fun x => from (pe_edge x) = to (pe_edge x) -> pe_rev x = false) (p_path p).
  Lemma prefix_loop_spec l k : prefix_loop l k = true <-> exists r, k = l ++ r.
  Proof.
    revert k. induction l as [|x l IH]; intros k; simpl; [naive_solver|].
    destruct k as [|y k]; [naive_solver|]. case_decide as Hd.
    - subst. rewrite IH. split; [intros [r ->]; by exists r|]. intros [r [= ->]]. by exists r.
    - split; [done|]. intros [r [= -> ->]]. done.
  Qed.
  Lemma plain_eq x y : (from (pe_edge x) = to (pe_edge x) -> pe_rev x = false) ->
    (from (pe_edge y) = to (pe_edge y) -> pe_rev y = false) ->
    pe_edge x = pe_edge y -> src x = src y -> x = y.
  Proof.
    destruct x as [e r], y as [e' r']. simpl. intros H1 H2 -> H. f_equal. unfold pe_src in H. simpl in H.
    destruct r, r'; try done; [symmetry in H|]; naive_solver.
  Qed.
  Lemma takes_prefix a l ss k ts :
    Forall (fun x => from (pe_edge x) = to (pe_edge x) -> pe_rev x = false) l ->
    Forall (fun x => from (pe_edge x) = to (pe_edge x) -> pe_rev x = false) k ->
    takes a l ss -> takes a k ts -> (exists r, k = l ++ r) <-> (exists r, ts = ss ++ r).
  Proof.
    revert a ss k ts. induction l as [|x l IH]; intros a ss k ts Hl Hk H1 H2.
    { inversion H1; subst. split; eauto. }
    apply takes_cons_inv in H1 as (ss' & -> & Ha & H1). destruct k as [|y k].
    { inversion H2; subst. split; intros [r ?]; done. }
    apply takes_cons_inv in H2 as (ts' & -> & Hb & H2).
    apply Forall_cons in Hl as [Hx Hl]. apply Forall_cons in Hk as [Hy Hk]. split.
    - intros [r [= -> ->]]. edestruct (IH (tgt x) ss' (l ++ r) ts') as [Hi _]; try done.
      destruct Hi as [r' ->]; [by eauto|]. by exists r'.
    - intros [r [= He Ht ->]]. assert (y = x) as -> by (apply plain_eq; [exact Hy|exact Hx|congruence|congruence]).
      edestruct (IH (tgt x) ss' k (ss' ++ r)) as [_ Hi]; try done.
      destruct Hi as [r' ->]; [by eauto|]. by exists r'.
  Qed.
  Lemma has_prefix_ok p els : path_has_prefix p els = true <-> p_only p = None /\ p_path p <> [] /\ exists r, p_path p = els ++ r.
  Proof.
    unfold path_has_prefix, num_path_nodes, num_path_edges. destruct p as [[n|] l]; cbn [p_only p_path].
    { split; [by rewrite decide_True by lia|by intros [? _]]. }
    destruct l as [|x l].
    { split; [intros H; vm_compute in H; done|by intros (_ & ? & _)]. }
    rewrite !(decide_False (P := (_ = 0)%Z)), decide_False by (cbn; lia).
    destruct (decide (els = [])) as [->|He]; [split; eauto|]. destruct (decide _) as [Hl|Hl].
    - split; [done|]. intros (_ & _ & r & Hr). apply (f_equal length) in Hr. rewrite app_length in Hr. lia.
    - rewrite prefix_loop_spec. split; [by intros [r Hr]; eauto|]. by intros (_ & _ & H).
  Qed.
  Lemma has_prefix_path_ok p q v w : denotes p v -> denotes q w -> plain p -> plain q ->
    path_has_prefix_path from to p q = true <-> walk_prefix w v.
  Proof.
    intros Hp Hq Pp Pq. unfold path_has_prefix_path.
    rewrite !(den_num_nodes _ _ Hp), !(den_num_nodes _ _ Hq).
    destruct Hp as [|n|a x l ss H]; cbn [walk_nodes length map].
    - rewrite decide_True by done. rewrite bool_decide_eq_true. destruct w; simpl; [done|]. split; [lia|done].
    - rewrite decide_False by lia. rewrite decide_True by lia.
      destruct Hq as [|m|b y k ts Hk]; cbn [walk_nodes length map].
      + by rewrite decide_True.
      + rewrite decide_False by lia. rewrite decide_True by lia. rewrite bool_decide_eq_true. simpl. split.
        * intros [= ->]. split; [done|]. by exists [].
        * by intros [-> _].
      + rewrite map_length. pose proof (takes_length _ _ _ Hk). destruct ts as [|t ts]; [done|]. simpl.
        rewrite decide_False by lia. split; [done|]. intros [_ [r ?]]. done.
    - rewrite map_length. pose proof (takes_length _ _ _ H). destruct ss as [|s0 ss]; [done|]. cbn [length].
      rewrite decide_False by lia. rewrite decide_False by lia.
      destruct Hq as [|m|b y k ts Hk]; cbn [walk_nodes length map].
      + by rewrite decide_True.
      + rewrite decide_False by lia. rewrite decide_True by lia. rewrite bool_decide_eq_true.
        unfold path_first. simpl. rewrite <-(takes_head _ _ _ _ H). split; [intros [= ->]|intros [-> _]]; [|done].
        split; [done|]. by eexists.
      + rewrite map_length. pose proof (takes_length _ _ _ Hk). destruct ts as [|t ts]; [done|]. cbn [length].
        rewrite decide_False by lia. rewrite decide_False by lia.
        unfold path_has_prefix. rewrite decide_False.
        2:{ unfold num_path_nodes, num_path_edges. simpl. lia. }
        cbn [p_path]. rewrite decide_False by done. unfold num_path_edges. cbn [p_path].
        assert (Hpre : walk_prefix (WalkFrom b (t :: ts)) (WalkFrom a (s0 :: ss)) <-> exists r, x :: l = (y :: k) ++ r).
        { simpl walk_prefix. split.
          - intros [-> Hr]. by eapply (takes_prefix a (y :: k) (t :: ts) (x :: l) (s0 :: ss)).
          - intros [r Hr]. assert (b = a) as ->.
            { rewrite (takes_head _ _ _ _ H), (takes_head _ _ _ _ Hk). by injection Hr as ->. }
            split; [done|]. eapply (takes_prefix a (y :: k) (t :: ts) (x :: l) (s0 :: ss)); eauto. }
        rewrite Hpre. case_decide as Hd.
        * split; [done|]. intros [r Hr]. apply (f_equal length) in Hr. rewrite app_length in Hr. lia.
        * apply prefix_loop_spec.
  Qed.

  (** ** Slice *)
  Lemma takes_drop a l ss i : takes a l ss -> forall b, (a :: map snd ss) !! i = Some b -> takes b (drop i l) (drop i ss).
  Proof.
    intros H. revert i. induction H as [|a b e rev l ss Hj Ht IH]; intros i c Hc.
    - destruct i; simpl in Hc; [|done]. injection Hc as <-. constructor.
    - destruct i as [|i]; simpl in Hc.
      + injection Hc as <-. simpl. by econstructor.
      + simpl. by apply IH.
  Qed.
  Lemma takes_take a l ss i : takes a l ss -> takes a (take i l) (take i ss).
  Proof.
    intros H. revert i. induction H as [|a b e rev l ss Hj Ht IH]; intros i; destruct i as [|i]; simpl.
    - constructor.
    - constructor.
    - constructor.
    - econstructor; [exact Hj|]. apply IH.
  Qed.
  Lemma slice_den_gen p w i j : denotes p w -> i < length (walk_nodes w) -> i + 2 <= j <= length (walk_nodes w) ->
    denotes (Path None (take (j - i - 1) (drop i (p_path p)))) (walk_slice w i j).
  Proof.
    intros Hp Hi Hj. unfold walk_slice. destruct (lookup_lt_is_Some_2 (walk_nodes w) i) as [m Hm]; [done|].
    rewrite Hm. destruct Hp as [|n|a x l ss H]; cbn [walk_nodes length map] in *; [lia|lia|].
    rewrite decide_True by lia. cbn [p_path]. pose proof (takes_drop _ _ _ _ H _ Hm) as Ht.
    apply (takes_take _ _ _ (j - i - 1)) in Ht. replace (j - 1 - i) with (j - i - 1) by lia.
    rewrite map_length in *. pose proof (takes_length _ _ _ H) as Hlen.
    destruct (take (j - i - 1) (drop i (x :: l))) as [|y r] eqn:E.
    - apply (f_equal length) in E. rewrite take_length, drop_length in E. simpl in *. lia.
    - by constructor.
  Qed.
  Lemma slice_ok p w (i j : nat) (jz : Z) : denotes p w ->
    i < j <= length (walk_nodes w) ->
    (jz = Z.of_nat j \/ j = length (walk_nodes w) /\ (jz = -1 \/ jz > Z.of_nat j))%Z ->
    i + 2 <= j \/ i + 1 = length (walk_nodes w) ->
    exists p', path_slice from to p (Z.of_nat i) jz = Ok p' /\ denotes p' (walk_slice w i j).
  Proof.
    intros Hp Hi Hjz Hor. unfold path_slice. rewrite !(den_num_nodes _ _ Hp).
    rewrite decide_False by lia. rewrite decide_False by lia. rewrite decide_False by lia.
    assert ((if decide (jz > Z.of_nat (length (walk_nodes w)) \/ jz = (-1))%Z then Z.of_nat (length (walk_nodes w)) else jz) = Z.of_nat j) as ->.
    { case_decide; lia. }
    rewrite decide_False by lia. rewrite decide_False by lia.
    case_decide as Hlast.
    - eexists. split; [done|]. rewrite (den_last _ _ Hp), last_lookup.
      replace (pred (length (walk_nodes w))) with i by lia.
      unfold walk_slice. destruct (lookup_lt_is_Some_2 (walk_nodes w) i) as [m Hm]; [lia|]. rewrite Hm.
      destruct w as [|n ss]; [done|]. rewrite decide_True by lia.
      replace (j - 1 - i) with 0 by lia. simpl. constructor.
    - rewrite decide_False by lia. eexists. split; [done|].
      replace (Z.to_nat (Z.of_nat j - Z.of_nat i - 1)) with (j - i - 1) by lia. rewrite Nat2Z.id.
      apply slice_den_gen; [done|lia|lia].
  Qed.
  (** what it gives instead for a single node before the last one *)
  Lemma slice_one p w (i : nat) : denotes p w -> i + 1 < length (walk_nodes w) ->
    path_slice from to p (Z.of_nat i) (Z.of_nat (S i)) = Ok path_empty.
  Proof.
    intros Hp Hi. unfold path_slice. rewrite !(den_num_nodes _ _ Hp).
    rewrite decide_False by lia. rewrite decide_False by lia. rewrite decide_False by lia.
    rewrite (decide_False (P := (Z.of_nat (S i) > _ \/ _)%Z)) by lia. rewrite decide_False by lia. rewrite decide_False by lia.
    rewrite decide_False by lia. rewrite decide_False by lia.
    replace (Z.to_nat (Z.of_nat (S i) - Z.of_nat i - 1)) with 0 by lia. done.
  Qed.
  Lemma slice_den p w i j p' : denotes p w -> path_slice from to p i j = Ok p' -> exists w', denotes p' w'.
  Proof.
    intros Hp Hs. unfold path_slice in Hs. rewrite !(den_num_nodes _ _ Hp) in Hs.
    destruct (decide (Z.of_nat (length (walk_nodes w)) = 0)%Z); [done|].
    assert (Hone : forall o, exists w', denotes (Path o []) w').
    { intros [x|]; eexists; constructor. }
    destruct (decide (i = 0 /\ j = 0)%Z); [injection Hs as <-; apply Hone|].
    destruct (decide (i > Z.of_nat (length (walk_nodes w)))%Z); [done|].
    destruct (decide (j > Z.of_nat (length (walk_nodes w)) \/ j = -1)%Z) as [Hj|Hj].
    - destruct (decide (Z.of_nat (length (walk_nodes w)) < i)%Z); [done|].
      destruct (decide (i = Z.of_nat (length (walk_nodes w)))%Z).
      { destruct (pe_at p i); try done. injection Hs as <-. apply Hone. }
      destruct (decide (i = Z.of_nat (length (walk_nodes w)) - 1)%Z); [injection Hs as <-; apply Hone|].
      destruct (decide (i < 0)%Z); [done|]. injection Hs as <-. 
      replace (Z.to_nat (Z.of_nat (length (walk_nodes w)) - i - 1)) with (length (walk_nodes w) - Z.to_nat i - 1) by lia.
      eexists. apply slice_den_gen; [done|lia|lia].
    - destruct (decide (j < i)%Z); [done|].
      destruct (decide (i = j)%Z).
      { destruct (pe_at p i); try done. injection Hs as <-. apply Hone. }
      destruct (decide (i = Z.of_nat (length (walk_nodes w)) - 1)%Z); [injection Hs as <-; apply Hone|].
      destruct (decide (i < 0)%Z); [done|]. injection Hs as <-.
      destruct (decide (j = i + 1)%Z).
      { replace (Z.to_nat (j - i - 1)) with 0 by lia. apply Hone. }
      replace (Z.to_nat (j - i - 1)) with (Z.to_nat j - Z.to_nat i - 1) by lia.
      eexists. apply slice_den_gen; [done|lia|lia].
  Qed.

  (** ** Paths made with checks are connected *)
  Lemma made_denotes p : made from to p -> exists w, denotes p w.
  Proof.
    induction 1 as [|n|p els p' Hm [w Hw] He Ha|p x p' Hm [w Hw] Ha|p q p' q' Hm1 [v Hv] Hm2 [w Hw] Ha
      |p q p' q' Hm1 [v Hv] Hm2 [w Hw] Ha|p Hm [w Hw]|p i j p' Hm [w Hw] Hs].
    - eexists. constructor.
    - eexists. constructor.
    - destruct w as [|n ss]; [by inversion Hw; subst|]. destruct (append_iff _ _ _ _ _ Hw Ha) as (ts & _ & ?). eauto.
    - destruct w as [|n ss].
      + inversion Hw; subst. change (Path None []) with path_empty in Ha. rewrite append_empty in Ha. injection Ha as <-.
        eexists. constructor. apply takes_cons'. constructor.
      + destruct (append_iff _ _ _ _ _ Hw Ha) as (ts & _ & ?). eauto.
    - destruct (decide (walk_edges v = [])) as [E|E].
      + rewrite (append_path_to_short _ _ _ Hv E) in Ha. injection Ha as <- <-.
        destruct Hw; simpl; eexists; constructor; eauto.
      + destruct v as [|n ss]; [done|]. simpl in E. assert (ss <> []) as Hs by (by intros ->).
        destruct (decide (walk_edges w = [])) as [E'|E'].
        * rewrite (append_path_short _ _ _ _ _ Hv Hs Hw E') in Ha. injection Ha as <- <-. eauto.
        * destruct w as [|m ts]; [done|]. assert (ts <> []) as Ht by (intros ->; done).
          pose proof (append_path_ok _ _ _ _ _ _ Hv Hw Hs Ht) as Hx. destruct (walk_app _ _) as [u|].
          -- destruct Hx as (p'' & Hx & Hd). rewrite Hx in Ha. injection Ha as <- <-. eauto.
          -- congruence.
    - destruct (decide (walk_edges v = [])) as [E|E].
      + rewrite (append_path_to_short _ _ _ Hv E) in Ha. injection Ha as <- <-. eauto.
      + destruct v as [|n ss]; [done|]. simpl in E. assert (ss <> []) as Hs by (by intros ->).
        destruct (decide (walk_edges w = [])) as [E'|E'].
        * rewrite (append_path_short _ _ _ _ _ Hv Hs Hw E') in Ha. injection Ha as <- <-. eexists. constructor.
        * destruct w as [|m ts]; [done|]. assert (ts <> []) as Ht by (intros ->; done).
          pose proof (append_path_ok _ _ _ _ _ _ Hv Hw Hs Ht) as Hx. destruct (walk_app _ _) as [u|].
          -- destruct Hx as (p'' & Hx & Hd). rewrite Hx in Ha. injection Ha as <- <-. eauto.
          -- congruence.
    - destruct p. eauto.
    - by eapply slice_den.
  Qed.
End ends.

(** ** Paths of edges *)
Lemma takes_forward from to es n : (forall e, head es = Some e -> from e = n) ->
  takes from to n (elements_from_edges es) (map (fun e => (e, to e)) es) <->
  forall i a b, es !! i = Some a -> es !! S i = Some b -> to a = from b.
Proof.
  revert n. induction es as [|e es IH]; intros n Hn.
  { split; [by intros _ i a b ?|intros _; constructor]. }
  pose proof (Hn e eq_refl) as <-. split.
  - intros (ts & Hts & _ & Ht)%takes_cons_inv i a c Hi Hc. cbn [map] in Hts. injection Hts as <-. cbn [pe_tgt] in Ht.
    assert (forall e2, head es = Some e2 -> from e2 = to e) as Hnext.
    { intros e2 He2. destruct es as [|e3 es]; [done|]. simpl in He2. injection He2 as ->.
      cbn [elements_from_edges map] in Ht. apply takes_cons_inv in Ht as (? & _ & Hs & _). done. }
    destruct i as [|i]; simpl in Hi, Hc.
    + injection Hi as <-. symmetry. apply Hnext. by destruct es.
    + exact (proj1 (IH (to e) Hnext) Ht i a c Hi Hc).
  - intros H. cbn [elements_from_edges map]. econstructor; [by split|]. apply IH.
    + intros e2 He2. destruct es as [|e3 es]; [done|]. simpl in He2. injection He2 as ->. symmetry. by apply (H 0).
    + intros i a b Hi Hb. by apply (H (S i)).
Qed.
Lemma from_edges_denotes from to e es :
  denotes from to (path_from_elements (elements_from_edges (e :: es))) (WalkFrom (from e) (map (fun e => (e, to e)) (e :: es))) <->
  forall i a b, (e :: es) !! i = Some a -> (e :: es) !! S i = Some b -> to a = from b.
Proof.
  rewrite <- (takes_forward from to (e :: es) (from e)) by (by intros ? [= ->]). split.
  - intros H. inversion H; subst. done.
  - intros H. by constructor.
Qed.
