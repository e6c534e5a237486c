(** The item at which matching starts. *)
From Verif Require Import Base Value Assoc FastSet EdgeMap NodeMap Index Graph GraphSpec Sizes Pattern PlanSpec.
Local Open Scope string_scope.
Local Open Scope list_scope.

(** [cur] is the smallest of [S], and one of [T] *)
Definition best (S T : list nat -> Z -> Prop) (cur : option (list nat) * Z) : Prop :=
  match cur.1 with
  | None => cur.2 = (-1)%Z /\ forall ys m, S ys m -> m = (-1)%Z
  | Some xs => (0 <= cur.2)%Z /\ T xs cur.2 /\ (exists ys m, S ys m /\ m <> (-1)%Z) /\ forall ys m, S ys m -> m <> (-1)%Z -> (cur.2 <= m)%Z
  end.
Lemma best_ext (S S' T T' : list nat -> Z -> Prop) cur : (forall ys m, S' ys m <-> S ys m) -> (forall ys m, T ys m -> T' ys m) -> best S T cur -> best S' T' cur.
Proof.
  intros HS HT. unfold best. destruct cur.1.
  - intros (H1 & H2 & (zs & k & H3 & H4) & H5). split_and!; [done|auto|exists zs, k; split; [by apply HS|done]|]. intros ys m Hm. apply (H5 ys). by apply HS.
  - intros [H1 H2]. split; [done|]. intros ys m Hm. apply (H2 ys). by apply HS.
Qed.
Lemma best_none S T cur : best S T cur -> cur.2 = (-1)%Z -> forall ys m, S ys m -> m = (-1)%Z.
Proof. unfold best. destruct cur.1; [intros [? _] ?; lia|by intros [_ ?]]. Qed.

Lemma ix_find_nonneg ix v xs m : ix_find ix v = Ok (xs, m) -> (0 <= m)%Z.
Proof.
  destruct ix as [[t|]|vals els fresh]; cbn [ix_find].
  - intros H. apply rbind_Ok_inv in H as ([s|] & _ & H); injection H as <- <-; lia.
  - intros [= <- <-]. lia.
  - destruct (decide _); [intros [= <- <-]; lia|]. cbv zeta. destruct (hashable _); [|done]. destruct (h_get _ _); intros [= <- <-]; lia.
Qed.
Lemma all_labels_nonneg g L ord xs m : get_nodes_all_labels g L ord = Ok (xs, m) -> (0 <= m)%Z.
Proof. unfold get_nodes_all_labels, nm_iter_all. destruct (nm_min _ _ _) as [[s|]|]; [|done|]; intros [= <- <-]; lia. Qed.
Lemma any_label_nonneg g ord : (-1 <= get_edges_any_label_size g ord)%Z.
Proof. unfold get_edges_any_label_size, em_iter_any_size. repeat (case_decide; try lia). destruct (em_only _); [|lia]. case_decide; lia. Qed.

(** one more source *)
Lemma best_add (S T : list nat -> Z -> Prop) cur xs m : best S T cur -> (0 <= m)%Z ->
  best (fun ys k => S ys k \/ (ys = xs /\ k = m)) (fun ys k => T ys k \/ (ys = xs /\ k = m))
    (if decide (cur.2 = -1 \/ m < cur.2)%Z then (Some xs, m) else cur).
Proof.
  intros Hb Hm. destruct (decide _) as [Hlt|Hge]; unfold best in *; cbn [fst snd].
  - split_and!; [done|by right|exists xs, m; split; [by right|lia]|]. intros ys k [Hy|[_ ->]] Hk; [|done].
    destruct cur.1 as [zs|]; [destruct Hb as (? & _ & _ & Hb); apply Hb in Hy; [lia|done]|destruct Hb as [? Hb]; by apply Hb in Hy].
  - destruct cur.1 as [zs|]; [destruct Hb as (? & ? & (zs' & k & ? & ?) & Hb)|destruct Hb as [? Hb]; tauto].
    split_and!; [done|by left|exists zs', k; split; [by left|done]|]. intros ys k' [Hy|[_ ->]] Hk; [by apply (Hb ys)|lia].
Qed.
Lemma node_indexes_best (S : list nat -> Z -> Prop) ixs p ord : forall cur r, best S S cur ->
  index_sizes ixs p (fun sz cur => bool_decide (cur = -1 \/ sz < cur)%Z) ord cur = Ok r ->
  best (fun xs m => S xs m \/ exists k v ix, k ∈ ord /\ p !! k = Some v /\ ixs !! k = Some ix /\ ix_find ix v = Ok (xs, m))
    (fun xs m => S xs m \/ exists k v ix, k ∈ ord /\ p !! k = Some v /\ ixs !! k = Some ix /\ ix_find ix v = Ok (xs, m)) r.
Proof.
  revert S. induction ord as [|k ord IH]; intros S cur r Hb; unfold index_sizes; cbn [rfold].
  - intros [= <-]. eapply best_ext; [| |exact Hb]; [|by left]. intros ys m. split; [|by left]. intros [?|(k & _ & _ & Hk & _)]; [done|by apply elem_of_nil in Hk].
  - intros H. apply rbind_Ok_inv in H as (c & Hc & H). change (index_sizes ixs p (fun sz cur => bool_decide (cur = -1 \/ sz < cur)%Z) ord c = Ok r) in H.
    set (S' := fun xs m => S xs m \/ exists v ix, p !! k = Some v /\ ixs !! k = Some ix /\ ix_find ix v = Ok (xs, m)).
    assert (best S' S' c) as Hc'.
    { assert ((p !! k = None \/ ixs !! k = None) -> best S' S' cur) as Hno.
      { intros Hor. eapply best_ext; [| |exact Hb]; [|by left]. intros ys m. split; [|by left]. intros [?|(v & ix & ? & ? & _)]; [done|]. destruct Hor; congruence. }
      destruct (p !! k) as [v|] eqn:Hk; [|injection Hc as <-; apply Hno; by left].
      destruct (ixs !! k) as [ix|] eqn:Hix; [|injection Hc as <-; apply Hno; by right].
      apply rbind_Ok_inv in Hc as ([xs m] & Hf & Hc). cbn [fst snd] in Hc. pose proof (ix_find_nonneg _ _ _ _ Hf) as Hm.
      rewrite decide_False in Hc by lia.
      assert (c = if decide (cur.2 = -1 \/ m < cur.2)%Z then (Some xs, m) else cur) as ->.
      { injection Hc as <-. destruct (decide _) as [Hd|Hd]; [by rewrite bool_decide_true|by rewrite bool_decide_false]. }
      eapply best_ext; [| |by apply (best_add S S)].
      - intros ys k'. split; [|intros [?|[-> ->]]; [by left|right; by exists v, ix]]. intros [?|(v' & ix' & ? & ? & ?)]; [by left|]. right.
        assert (v' = v) as -> by congruence. assert (ix' = ix) as -> by congruence. split; congruence.
      - intros ys k' [?|[-> ->]]; [by left|right; by exists v, ix]. }
    apply (IH S' c r Hc') in H. assert (forall ys m, (S ys m \/ exists k0 v ix, k0 ∈ k :: ord /\ p !! k0 = Some v /\ ixs !! k0 = Some ix /\ ix_find ix v = Ok (ys, m)) <->
      (S' ys m \/ exists k0 v ix, k0 ∈ ord /\ p !! k0 = Some v /\ ixs !! k0 = Some ix /\ ix_find ix v = Ok (ys, m))) as Heq.
    { intros ys m. split.
      - intros [?|(k' & v & ix & [->|Hin]%elem_of_cons & ?)]; [by left; left|left; right; by exists v, ix|right; by exists k', v, ix].
      - intros [[?|(v & ix & ?)]|(k' & v & ix & Hin & ?)]; [by left|right; exists k, v, ix; split; [left|done]|right; exists k', v, ix; split; [by right|done]]. }
    eapply best_ext; [exact Heq| |exact H]. intros ys m. apply Heq.
Qed.
Lemma edge_indexes_best (S T : list nat -> Z -> Prop) ixs p ord : (forall k v ix xs m, p !! k = Some v -> ixs !! k = Some ix -> ix_find ix v = Ok (xs, m) -> T xs m) ->
  forall cur r, best S T cur -> index_sizes ixs p (fun sz cur => bool_decide (sz < cur)%Z) ord cur = Ok r -> best S T r.
Proof.
  intros HT. induction ord as [|k ord IH]; intros cur r Hb; unfold index_sizes; cbn [rfold]; [by intros [= <-]|].
  intros H. apply rbind_Ok_inv in H as (c & Hc & H). eapply IH; [|exact H].
  destruct (p !! k) as [v|] eqn:Hk; [|by injection Hc as <-]. destruct (ixs !! k) as [ix|] eqn:Hix; [|by injection Hc as <-].
  apply rbind_Ok_inv in Hc as ([xs m] & Hf & Hc). cbn [fst snd] in Hc. pose proof (ix_find_nonneg _ _ _ _ Hf) as Hm.
  rewrite decide_False in Hc by lia. destruct (bool_decide (m < cur.2)%Z) eqn:Eb; injection Hc as <-; [|done].
  apply bool_decide_eq_true in Eb. unfold best in *. cbn [fst snd]. destruct cur.1 as [zs|]; [destruct Hb as (? & _ & ? & Hb)|destruct Hb as [? _]; lia].
  split_and!; [done|by eapply HT|done|]. intros ys k' Hy Hk'. apply Hb in Hy; [|done]. lia.
Qed.
Lemma symbol_best (S T : list nat -> Z -> Prop) syms it sel cur : best S T cur -> (forall ys m, S ys m -> (-1 <= m)%Z) ->
  best (fun xs m => S xs m \/ exists x, pi_name it <> "" /\ syms !! pi_name it = Some x /\ xs = default [] (sel x) /\ m = Z.of_nat (length xs))
    (fun xs m => T xs m \/ exists x, pi_name it <> "" /\ syms !! pi_name it = Some x /\ xs = default [] (sel x) /\ m = Z.of_nat (length xs)) (symbol_size syms it sel cur).
Proof.
  intros Hb HS. set (given := fun xs m => exists x, pi_name it <> "" /\ syms !! pi_name it = Some x /\ xs = default [] (sel x) /\ m = Z.of_nat (length xs)).
  assert ((pi_name it = "" \/ syms !! pi_name it = None) -> best (fun xs m => S xs m \/ given xs m) (fun xs m => T xs m \/ given xs m) cur) as Hno.
  { intros Hn. eapply best_ext; [| |exact Hb]; [|by left]. intros ys m. split; [|by left]. intros [?|(x & ? & ? & _)]; [done|]. destruct Hn; congruence. }
  unfold symbol_size. destruct (decide (pi_name it = "")) as [|Hne]; [apply Hno; by left|].
  destruct (syms !! pi_name it) as [x|] eqn:Hx; [|apply Hno; by right].
  assert (forall ys m, given ys m <-> ys = default [] (sel x) /\ m = Z.of_nat (length (default [] (sel x)))) as Hgiven.
  { intros ys m. split; [intros (x' & _ & Hx' & -> & ->)|intros [-> ->]; by exists x]. by assert (x' = x) as -> by congruence. }
  destruct (sel x) as [xs|] eqn:Es; simpl in Hgiven.
  - eapply best_ext; [| |apply (best_add S T cur xs (Z.of_nat (length xs)) Hb); lia].
    + intros ys m. pose proof (Hgiven ys m) as Hg. unfold given in Hg. tauto.
    + intros ys m [?|?]; [by left|right; by apply Hgiven].
  - unfold best. cbn [fst snd]. split_and!; [done|right; by apply Hgiven|exists [], 0%Z; split; [right; by apply Hgiven|done]|].
    intros ys m [Hy|Hy] Hm; [apply HS in Hy; lia|apply Hgiven in Hy as [-> ->]; done].
Qed.

(** ** Items *)
Lemma node_size_best g syms it lord pord xs sz : order_of (dom (pi_props it)) pord -> node_size g syms it lord pord = Ok (xs, sz) ->
  node_source g syms it lord xs sz /\ forall ys m, node_source g syms it lord ys m -> m <> (-1)%Z -> sz <> (-1)%Z /\ (sz <= m)%Z.
Proof.
  intros [_ Hord]. unfold node_size. intros H. apply rbind_Ok_inv in H as (a & Ha & H). apply rbind_Ok_inv in H as (b & Hb & H). cbv zeta in H.
  set (L := fun xs m => pi_labels it <> ∅ /\ get_nodes_all_labels g (pi_labels it) lord = Ok (xs, m)).
  assert (best L L a) as HL.
  { destruct (decide (pi_labels it = ∅)) as [|Hne]; [injection Ha as <-; split; [done|]; by intros ys m [? _]|].
    apply rbind_Ok_inv in Ha as ([ys m] & Hq & [= <-]). pose proof (all_labels_nonneg _ _ _ _ _ Hq) as Hm. unfold known. cbn [fst snd].
    rewrite decide_False by lia. split_and!; cbn [fst snd]; [done|done|exists ys, m; split; [done|lia]|]. intros zs k [_ Hz] _. rewrite Hq in Hz. injection Hz as -> ->. done. }
  apply (node_indexes_best _ _ _ _ _ _ HL) in Hb.
  apply (symbol_best _ _ syms it ps_nodes) in Hb.
  2:{ intros ys m [[_ Hq]|(k & v & ix & _ & _ & _ & Hf)]; [apply all_labels_nonneg in Hq; lia|apply ix_find_nonneg in Hf; lia]. }
  assert (forall ys m, node_special g syms it lord ys m <->
    ((L ys m \/ exists k v ix, k ∈ pord /\ pi_props it !! k = Some v /\ g_nix g !! k = Some ix /\ ix_find ix v = Ok (ys, m)) \/
     exists x, pi_name it <> "" /\ syms !! pi_name it = Some x /\ ys = default [] (ps_nodes x) /\ m = Z.of_nat (length ys))) as Heq.
  { intros ys m. split.
    - intros [zs k Hne Hq|k v ix zs k' Hk Hix Hf|x Hne Hx]; [left; left; done|left; right; exists k, v, ix|right; by exists x].
      split_and!; try done. apply Hord, elem_of_dom. by exists v.
    - intros [[[Hne Hq]|(k & v & ix & _ & Hk & Hix & Hf)]|(x & Hne & Hx & -> & ->)]; [by constructor|by econstructor|by constructor]. }
  apply (best_ext _ (node_special g syms it lord) _ (node_special g syms it lord)) in Hb; [|exact Heq|intros ys m; apply Heq].
  destruct (symbol_size syms it ps_nodes b) as [[ys|] c]; unfold best in Hb; cbn [fst snd] in Hb, H.
  - injection H as -> ->. destruct Hb as (H0 & HT & _ & HS). split; [by constructor|]. intros zs m [zs' m' Hs|zs' Hno Hg] Hm.
    + split; [lia|]. by eapply HS.
    + exfalso. apply Hno in HT. lia.
  - destruct Hb as [-> Hno]. apply rbind_Ok_inv in H as (all & Hall & [= -> H]). assert (sz = get_nodes_size g) as ->.
    { rewrite <-H. destruct (decide (get_nodes_size g = (-1)%Z)) as [E|]; [by rewrite E|done]. }
    split; [by constructor|]. intros zs m [zs' m' Hs|zs' _ Hg] Hm; [by apply Hno in Hs|done].
Qed.
Lemma edge_size_best g syms it lord pord xs sz : edge_size g syms it lord pord = Ok (xs, sz) ->
  (sz <> (-1)%Z -> edge_source g syms it lord xs sz \/ one_edge it /\ edge_indexed g it xs sz) /\
  forall ys m, edge_source g syms it lord ys m -> m <> (-1)%Z -> sz <> (-1)%Z /\ (sz <= m)%Z.
Proof.
  intros H. unfold edge_size in H. destruct (decide _) as [H1|H1].
  { apply rbind_Ok_inv in H as (? & _ & [= _ <-]). split; [done|]. intros ys m Hs. exfalso. destruct Hs as [? ? (? & ? & ? & ?) _|? (? & ? & ? & ?) _ _]; lia. }
  assert (one_edge it) as Hone by (unfold one_edge; lia).
  apply rbind_Ok_inv in H as (a & Ha & H). apply rbind_Ok_inv in H as (b & Hb & H). cbv zeta in H.
  set (L := fun xs m => pi_labels it <> ∅ /\ get_edges_any_label g lord = Ok xs /\ m = get_edges_any_label_size g lord).
  assert (best L L a) as HL.
  { destruct (decide (pi_labels it = ∅)) as [|Hne]; [injection Ha as <-; split; [done|]; by intros ys m [? _]|].
    apply rbind_Ok_inv in Ha as (ys & Hq & [= <-]). pose proof (any_label_nonneg g lord) as Hm. unfold known. cbn [fst snd].
    destruct (decide _) as [E|E].
    - split; [done|]. intros zs m (_ & _ & ->). done.
    - split_and!; cbn [fst snd]; [lia|done|exists ys, (get_edges_any_label_size g lord); done|]. intros zs m (_ & _ & ->) _. done. }
  apply (best_ext _ L _ (fun xs m => L xs m \/ edge_indexed g it xs m)) in HL; [|done|by left].
  apply (edge_indexes_best L (fun xs m => L xs m \/ edge_indexed g it xs m)) in Hb; [|intros k v ix ys m Hk Hix Hf; right; by exists k, v, ix|exact HL].
  apply (symbol_best _ _ syms it ps_edges) in Hb.
  2:{ intros ys m (_ & _ & ->). apply any_label_nonneg. }
  apply (best_ext _ (edge_special g syms it lord) _ (fun xs m => edge_special g syms it lord xs m \/ edge_indexed g it xs m)) in Hb.
  2:{ intros ys m. split; [intros [zs Hne Hq|x Hne Hx]; [by left|right; by exists x]|].
      intros [(Hne & Hq & ->)|(x & Hne & Hx & -> & ->)]; by constructor. }
  2:{ intros ys m [[(Hne & Hq & ->)|Hf]|(x & Hne & Hx & -> & ->)]; [left; by constructor|by right|left; by constructor]. }
  destruct (symbol_size syms it ps_edges b) as [[ys|] c]; unfold best in Hb; cbn [fst snd] in Hb, H.
  - injection H as -> ->. destruct Hb as (H0 & HT & (zs' & k' & Hs' & Hk') & HS). split.
    + intros _. destruct HT; [left; by constructor|by right].
    + intros zs m [zs0 m' _ Hs|zs0 _ Hno Hg] Hm; [split; [lia|]; by eapply HS|]. by apply Hno in Hs'.
  - destruct Hb as [-> Hno]. apply rbind_Ok_inv in H as (all & Hall & [= -> <-]). split; [intros _; left; by constructor|].
    intros zs m [zs' m' _ Hs|zs' _ _ Hg] Hm; [by apply Hno in Hs|done].
Qed.

Lemma fastest_best g syms pat lord pord o start sz : (forall i it, pat !! i = Some it -> order_of (dom (pi_props it)) (pord i)) ->
  fastest g syms pat lord pord = Ok (o, start, sz) ->
  (forall xs, o = Some xs -> sz <> (-1)%Z /\ (item_source g syms pat lord start xs sz \/ item_indexed g pat start xs sz)) /\
  forall i ys m, item_source g syms pat lord i ys m -> m <> (-1)%Z -> is_Some o /\ (sz <= m)%Z /\ (i < start -> (sz < m)%Z).
Proof.
  intros Hord. unfold fastest. set (f := fun (cur : option (list nat) * nat * Z) i => _).
  set (Inv := fun (j : nat) (cur : option (list nat) * nat * Z) =>
    (cur.1.1 = None -> cur.2 = (-1)%Z) /\
    (forall xs, cur.1.1 = Some xs -> cur.1.2 < j /\ cur.2 <> (-1)%Z /\ (item_source g syms pat lord cur.1.2 xs cur.2 \/ item_indexed g pat cur.1.2 xs cur.2)) /\
    forall i ys m, i < j -> item_source g syms pat lord i ys m -> m <> (-1)%Z -> is_Some cur.1.1 /\ (cur.2 <= m)%Z /\ (i < cur.1.2 -> (cur.2 < m)%Z)).
  assert (forall k j cur r, j + k = length pat -> Inv j cur -> rfold f (seq j k) cur = Ok r -> Inv (length pat) r) as H.
  { induction k as [|k IH]; intros j cur r Hj HI; cbn [rfold seq].
    - intros [= <-]. by assert (j = length pat) as <- by lia.
    - intros H. apply rbind_Ok_inv in H as (c & Hc & H). eapply (IH (S j) c r); [lia| |exact H]. unfold f in Hc.
      apply rbind_Ok_inv in Hc as ([xs m0] & Hq & Hc). cbn [fst snd] in Hc.
      destruct (lookup_lt_is_Some_2 pat j) as [it Hit]; [lia|]. assert (item pat j = it) as Ei by (unfold item; by apply nth_lookup_Some).
      assert ((m0 <> (-1)%Z -> item_source g syms pat lord j xs m0 \/ item_indexed g pat j xs m0) /\
        forall ys m, item_source g syms pat lord j ys m -> m <> (-1)%Z -> m0 <> (-1)%Z /\ (m0 <= m)%Z) as [Hsrc Hmin].
      { rewrite Ei in Hq. unfold item_source, item_indexed. destruct (Nat.even j) eqn:Ev.
        - apply node_size_best in Hq as [H1 H2]; [|by apply Hord]. split; [intros _; left; by exists it|]. intros ys m (it' & Hit' & Hs). apply (H2 ys). congruence.
        - apply edge_size_best in Hq as [H1 H2]. split; [intros Hm; destruct (H1 Hm) as [?|[? ?]]; [left; by exists it|right; by exists it]|].
          intros ys m (it' & Hit' & Hs). apply (H2 ys). congruence. }
      destruct HI as (I0 & I1 & I2). destruct (decide _) as [[Hm0 Hlt]|Hge]; injection Hc as <-; unfold Inv; cbn [fst snd].
      + split_and!; [done|intros zs [= <-]; split_and!; [lia|done|by apply Hsrc]|].
        intros i ys m Hi Hs Hm. split; [by eexists|]. destruct (decide (i = j)) as [->|Hne].
        * apply Hmin in Hs; [|done]. split; [by apply Hs|lia].
        * assert (i < j) as Hij by lia. destruct (I2 i ys m Hij Hs Hm) as ([zs Hz] & Hle & _).
          destruct (I1 zs Hz) as (_ & Hc1 & _). destruct Hlt as [?|Hlt]; [done|]. split; [|intros _]; lia.
      + split_and!; [done|intros zs Hz; destruct (I1 zs Hz) as (? & ? & ?); split_and!; [lia|done|done]|].
        intros i ys m Hi Hs Hm. destruct (decide (i = j)) as [->|Hne]; [|apply (I2 i ys m); [lia|done|done]].
        apply Hmin in Hs as [Hm0 Hle]; [|done]. destruct cur.1.1 as [zs|] eqn:Ez.
        * destruct (I1 zs eq_refl) as (? & ? & _). split; [by eexists|]. split; [|intros ?]; lia.
        * exfalso. apply Hge. split; [done|]. left. by apply I0. }
  intros Hf. apply (H (length pat) 0 (None, 0, (-1)%Z)) in Hf as (I0 & I1 & I2); [|done|].
  - cbn [fst snd] in *. split; [intros xs Hx; by apply I1|]. intros i ys m Hs Hm. apply (I2 i ys m); [|done|done].
    destruct Hs as (it & Hit & _). by eapply lookup_lt_Some.
  - split; [done|]. split; [done|]. intros i ys m Hi. lia.
Qed.

Lemma rarest_label g L ord l xs m ys k : order_of L ord -> l ∈ L -> get_nodes_all_labels g L ord = Ok (xs, m) ->
  get_nodes_all_labels g {[l]} [l] = Ok (ys, k) -> (m <= k)%Z.
Proof.
  intros [_ Ho] Hl%Ho. unfold get_nodes_all_labels, nm_iter_all. cbn [nm_min].
  assert (forall ord cur, (forall c, cur = Some c -> match nm_min (nm_m (g_lab g)) ord cur with Some (Some s) => fs_size s <= fs_size c | Some None => False | None => True end) /\
    (l ∈ ord -> match nm_min (nm_m (g_lab g)) ord cur with Some (Some s) => exists c, bk_get (nm_m (g_lab g)) l = Some c /\ fs_size s <= fs_size c | Some None => False | None => True end)) as H.
  { clear. induction ord as [|x ord IH]; intros cur; cbn [nm_min].
    - split; [by intros c ->|by intros ?%elem_of_nil].
    - destruct (bk_get (nm_m (g_lab g)) x) as [s|] eqn:Ex; [|done].
      set (cur' := match cur with None => Some s | Some c => if decide (fs_size s < fs_size c) then Some s else Some c end).
      assert (exists c', cur' = Some c' /\ fs_size c' <= fs_size s /\ forall c, cur = Some c -> fs_size c' <= fs_size c) as (c' & Ec & H1 & H2).
      { unfold cur'. destruct cur as [c|]; [|by exists s]. destruct (decide _); [exists s|exists c]; (split; [done|]); (split; [lia|]); intros ? [= <-]; lia. }
      destruct (IH cur') as [I1 I2]. specialize (I1 c' Ec). split.
      + intros c Hc. destruct (nm_min (nm_m (g_lab g)) ord cur') as [[s'|]|]; try done. specialize (H2 c Hc). lia.
      + intros [->|Hin]%elem_of_cons; [|by apply I2]. destruct (nm_min (nm_m (g_lab g)) ord cur') as [[s'|]|]; try done. exists s. split; [done|lia]. }
  destruct (H ord None) as [_ H2]. specialize (H2 Hl). destruct (nm_min (nm_m (g_lab g)) ord None) as [[s|]|]; [|done|].
  - destruct H2 as (c & -> & Hle). intros [= _ <-] [= _ <-]. lia.
  - intros [= _ <-]. destruct (bk_get _ l); intros [= _ <-]; lia.
Qed.
