(** Proofs about graphs that are the same but for the ids. *)
From Verif Require Import Base Value Index Graph GraphSpec CoreProofs CoreStep ProgressProofs Sizes AlgSpec Path PathSpec Pattern PatternSpec PatternProofs IsoSpec.
Local Open Scope string_scope.
Local Open Scope list_scope.

Section iso.
  Context (f h : nat -> nat) (s1 s2 : sgraph) (HS : same_graph f h s1 s2) (syms : symbols).
  Notation syms2 := (move_sym f h <$> syms).
  Lemma iso_node_inj a b : live_node s1 a -> live_node s1 b -> f a = f b -> a = b.
  Proof. apply (sg_nodes _ _ _ _ HS). Qed.
  Lemma iso_edge_inj a b : live_edge s1 a -> live_edge s1 b -> h a = h b -> a = b.
  Proof. apply (sg_edges _ _ _ _ HS). Qed.
  Lemma iso_node n : live_node s1 n -> s_nodes s2 !! f n = s_nodes s1 !! n.
  Proof. intros [x Hx]. by rewrite Hx, (sg_node _ _ _ _ HS n x Hx). Qed.
  Lemma iso_node_match L p n : live_node s1 n -> node_match s2 L p (f n) <-> node_match s1 L p n.
  Proof. intros Hn. unfold node_match. by rewrite (iso_node n Hn). Qed.
  Lemma iso_edge_match L p e : live_edge s1 e -> edge_match s2 L p (h e) <-> edge_match s1 L p e.
  Proof.
    intros [x Hx]. unfold edge_match. rewrite Hx, (sg_edge _ _ _ _ HS e x Hx). split; intros (y & [= <-] & H1 & H2); eexists; (split; [done|]); done.
  Qed.
  Lemma iso_node_sym x n : node_symbol s1 x -> live_node s1 n ->
    (exists ns, ps_nodes (move_sym f h x) = Some ns /\ f n ∈ ns) <-> exists ns, ps_nodes x = Some ns /\ n ∈ ns.
  Proof.
    intros (_ & ns & Hx & _ & Hl) Hn. cbn [move_sym ps_nodes]. rewrite Hx. cbn. split.
    - intros (ms & [= <-] & Hin). exists ns. split; [done|]. apply elem_of_list_fmap in Hin as (k & E & Hk). by rewrite (iso_node_inj n k Hn (Hl k Hk) E).
    - intros (ms & [= <-] & Hin). eexists. split; [done|]. apply elem_of_list_fmap. by exists n.
  Qed.
  Lemma iso_node_ok it n : (pi_name it <> "" -> forall x, syms !! pi_name it = Some x -> node_symbol s1 x) -> live_node s1 n ->
    node_ok s2 syms2 it (f n) <-> node_ok s1 syms it n.
  Proof.
    intros Hs Hn. unfold node_ok. rewrite (iso_node_match _ _ _ Hn). split; intros [H1 H2]; (split; [done|]); intros Hne x Hx.
    - apply (iso_node_sym x n (Hs Hne x Hx) Hn). apply (H2 Hne). rewrite lookup_fmap, Hx. done.
    - rewrite lookup_fmap in Hx. destruct (syms !! pi_name it) as [y|] eqn:Ey; [|done]. injection Hx as <-.
      apply (iso_node_sym y n (Hs Hne y eq_refl) Hn). by apply (H2 Hne).
  Qed.
  Lemma iso_may_take it x a b : live_node s1 a -> live_node s1 b -> live_node s1 (e_from x) -> live_node s1 (e_to x) ->
    may_take it (Edge (f (e_from x)) (f (e_to x)) (e_label x) (e_props x)) (f a) (f b) <-> may_take it x a b.
  Proof.
    intros Ha Hb Hf Ht. unfold may_take. cbn [e_from e_to].
    assert (forall c d, live_node s1 c -> live_node s1 d -> f c = f d <-> c = d) as E by (intros c d Hc Hd; split; [by apply iso_node_inj|by intros ->]).
    destruct (pi_left it); [by rewrite !E by done|]. destruct (pi_undirected it); by rewrite !E by done.
  Qed.
  Context (Hends : forall e x, s_edges s1 !! e = Some x -> live_node s1 (e_from x) /\ live_node s1 (e_to x)).
  Lemma walks_live it a w : live_node s1 a -> walks s1 it a w -> live_node s1 (hop_end a w) /\ Forall (fun x => live_edge s1 x.1 /\ live_node s1 x.2) w.
  Proof.
    intros Ha H. induction H as [a|a e b ed w Hed Hmt Hem Hw IH]; [by split; [|constructor]|].
    destruct (Hends e ed Hed) as [Hf Ht]. assert (live_node s1 b) as Hb.
    { unfold may_take in Hmt. destruct (pi_left it); [by destruct Hmt as [_ <-]|]. destruct (pi_undirected it); [|by destruct Hmt as [_ <-]].
      by destruct Hmt as [[_ <-]|[_ <-]]. }
    destruct (IH Hb) as [Hl HF]. split; [|constructor; [split; [by exists ed|done]|done]].
    replace (hop_end a ((e, b) :: w)) with (hop_end b w); [done|]. unfold hop_end. cbn [map snd]. destruct w as [|y w]; [done|]. cbn [map snd].
    rewrite (last_cons b). by destruct (last (snd y :: map snd w)) eqn:E; [|apply last_None in E].
  Qed.
  Lemma hop_end_move a w : hop_end (f a) (move_steps f h w) = f (hop_end a w).
  Proof.
    unfold hop_end, move_steps. rewrite map_map. cbn [snd]. rewrite <-(map_map snd f). change (map f) with (fmap (M := list) f).
    rewrite fmap_last. by destruct (last (map snd w)).
  Qed.
  Lemma walks_move it a w : live_node s1 a -> walks s1 it a w -> walks s2 it (f a) (move_steps f h w).
  Proof.
    intros Ha H. induction H as [a|a e b ed w Hed Hmt Hem Hw IH]; [constructor|]. destruct (Hends e ed Hed) as [Hf Ht]. assert (live_node s1 b) as Hb.
    { unfold may_take in Hmt. destruct (pi_left it); [by destruct Hmt as [_ <-]|]. destruct (pi_undirected it); [|by destruct Hmt as [_ <-]].
      by destruct Hmt as [[_ <-]|[_ <-]]. }
    cbn [move_steps map fst snd]. econstructor; [by apply (sg_edge _ _ _ _ HS)|by apply iso_may_take| |by apply IH].
    apply iso_edge_match; [by exists ed|done].
  Qed.
  Lemma walks_back it a w2 : live_node s1 a -> walks s2 it (f a) w2 -> exists w, w2 = move_steps f h w /\ walks s1 it a w.
  Proof.
    intros Ha H. remember (f a) as a2 eqn:Ea. revert a Ha Ea. induction H as [a2|a2 e2 b2 ed2 w2 Hed Hmt Hem Hw IH]; intros a Ha ->.
    { exists []. split; [done|constructor]. }
    destruct (sg_edges _ _ _ _ HS) as (_ & _ & Hsur). destruct (Hsur e2) as (e & [ed Hed1] & <-); [by exists ed2|].
    destruct (Hends e ed Hed1) as [Hf Ht]. pose proof (sg_edge _ _ _ _ HS e ed Hed1) as E. rewrite E in Hed. injection Hed as <-.
    assert (exists b, live_node s1 b /\ f b = b2) as (b & Hb & <-).
    { unfold may_take in Hmt. cbn [e_from e_to] in Hmt. destruct (pi_left it); [exists (e_from ed); tauto|]. destruct (pi_undirected it); [|exists (e_to ed); tauto].
      destruct Hmt as [[_ <-]|[_ <-]]; [by exists (e_to ed)|by exists (e_from ed)]. }
    destruct (IH b Hb eq_refl) as (w & -> & Hw1). exists ((e, b) :: w). split; [done|]. econstructor; [done|by apply iso_may_take| |done].
    apply iso_edge_match; [by exists ed|done].
  Qed.
  Lemma move_fst w : map fst (move_steps f h w) = map h (map fst w).
  Proof. unfold move_steps. by rewrite !map_map. Qed.
  Lemma NoDup_map_inj {A B} (g : A -> B) l : (forall a b, a ∈ l -> b ∈ l -> g a = g b -> a = b) -> NoDup l -> NoDup (map g l).
  Proof.
    intros Hg Hl. induction Hl as [|x l Hx Hl IH]; [constructor|]. cbn [map]. constructor.
    - intros (y & E & Hy)%elem_of_list_fmap. assert (x = y) as -> by (apply Hg; [left|by right|done]). done.
    - apply IH. intros a b Ha Hb. apply Hg; by right.
  Qed.
  Lemma NoDup_map_back {A B} (g : A -> B) l : NoDup (map g l) -> NoDup l.
  Proof. intros H. by apply NoDup_fmap_1 in H. Qed.
  Lemma iso_hop_ok it a w : (pi_name it <> "" -> syms !! pi_name it = None) -> live_node s1 a -> hop_ok s1 syms it a w -> hop_ok s2 syms2 it (f a) (move_steps f h w).
  Proof.
    intros Hs Ha (H1 & H2 & H3 & H4 & H5 & _). split; [by apply walks_move|]. split; [by destruct w|].
    destruct (walks_live _ _ _ Ha H1) as [_ HF]. split.
    - rewrite move_fst. apply NoDup_map_inj; [|done]. intros e1 e2 E1 E2. rewrite Forall_forall in HF. apply iso_edge_inj.
      + apply elem_of_list_fmap in E1 as (x & -> & Hx). by apply HF.
      + apply elem_of_list_fmap in E2 as (x & -> & Hx). by apply HF.
    - unfold move_steps. rewrite map_length. split; [done|]. split; [done|]. intros Hne x. rewrite lookup_fmap, (Hs Hne). done.
  Qed.
  Lemma iso_hop_back it a w2 : (pi_name it <> "" -> syms !! pi_name it = None) -> live_node s1 a -> hop_ok s2 syms2 it (f a) w2 ->
    exists w, w2 = move_steps f h w /\ hop_ok s1 syms it a w.
  Proof.
    intros Hs Ha (H1 & H2 & H3 & H4 & H5 & _). destruct (walks_back _ _ _ Ha H1) as (w & -> & Hw). exists w. split; [done|].
    split; [done|]. split; [by destruct w|]. rewrite move_fst in H3. split; [by apply NoDup_map_back in H3|].
    unfold move_steps in H4, H5. rewrite map_length in H4, H5. split; [done|]. split; [done|]. intros Hne x. by rewrite (Hs Hne).
  Qed.
  (** all items of [pat], which starts with a relationship *)
  Definition names_tail (pat : list pitem) : Prop :=
    (forall i it x, pat !! (2 * i + 1) = Some it -> pi_name it <> "" -> syms !! pi_name it = Some x -> node_symbol s1 x) /\
    (forall i it, pat !! (2 * i) = Some it -> pi_name it <> "" -> syms !! pi_name it = None).
  Lemma names_tail_next a b pat : names_tail (a :: b :: pat) -> names_tail pat.
  Proof.
    intros [H1 H2]. split.
    - intros i it x Hi. apply (H1 (S i) it x). by replace (2 * S i + 1) with (S (S (2 * i + 1))) by lia.
    - intros i it Hi. apply (H2 (S i) it). by replace (2 * S i) with (S (S (2 * i))) by lia.
  Qed.
  Lemma iso_hops pat : forall a hs, names_tail pat -> live_node s1 a -> hops_ok s1 syms pat a hs -> hops_ok s2 syms2 pat (f a) (map (move_steps f h) hs).
  Proof.
    intros a hs Hn Ha H. induction H as [a|ie it pat a w hs Hw Hnd Hhs IH]; [constructor|].
    destruct (walks_live _ _ _ Ha (proj1 Hw)) as [Hb _]. cbn [map]. constructor.
    - apply iso_hop_ok; [|done|done]. by apply (proj2 Hn 0).
    - rewrite hop_end_move. apply iso_node_ok; [|done|done]. intros Hne x. by apply (proj1 Hn 0).
    - rewrite hop_end_move. apply IH; [by eapply names_tail_next|done].
  Qed.
  Lemma iso_hops_back pat : forall a hs2, names_tail pat -> live_node s1 a -> hops_ok s2 syms2 pat (f a) hs2 ->
    exists hs, hs2 = map (move_steps f h) hs /\ hops_ok s1 syms pat a hs.
  Proof.
    intros a hs2 Hn Ha H. remember (f a) as a2 eqn:Ea. revert a Ha Ea. induction H as [a2|ie it pat a2 w2 hs2 Hw Hnd Hhs IH]; intros a Ha ->.
    { exists []. split; [done|constructor]. }
    destruct (iso_hop_back ie a w2) as (w & -> & Hw1); [by apply (proj2 Hn 0)|done|done|].
    destruct (walks_live _ _ _ Ha (proj1 Hw1)) as [Hb _]. rewrite hop_end_move in *.
    destruct (IH (names_tail_next _ _ _ Hn) _ Hb eq_refl) as (hs & -> & Hhs1). exists (w :: hs). split; [done|]. constructor; [done| |done].
    apply iso_node_ok in Hnd; [done| |done]. intros Hne x. by apply (proj1 Hn 0).
  Qed.
  Lemma iso_fits pat m : names_ok s1 syms pat -> fits_items s1 syms pat m -> fits_items s2 syms2 pat (move_match f h m).
  Proof.
    intros (_ & N2 & N3). destruct pat as [|it pat]; [done|]. intros [H1 H2]. assert (live_node s1 (pm_first m)) as Ha by (destruct H1 as [(x & Hx & _) _]; by exists x).
    cbn [fits_items move_match pm_first pm_hops]. split.
    - apply iso_node_ok; [|done|done]. intros Hne x. by apply (N2 0).
    - apply iso_hops; [|done|done]. split.
      + intros i jt x Hi. apply (N2 (S i) jt x). by replace (2 * S i) with (S (2 * i + 1)) by lia.
      + intros i jt Hi. apply (N3 i jt). by replace (2 * i + 1) with (S (2 * i)) by lia.
  Qed.
  Lemma iso_fits_back pat m2 : names_ok s1 syms pat -> fits_items s2 syms2 pat m2 -> exists m, m2 = move_match f h m /\ fits_items s1 syms pat m.
  Proof.
    intros (_ & N2 & N3). destruct pat as [|it pat]; [done|]. destruct m2 as [a2 hs2]. intros [H1 H2]. cbn [pm_first pm_hops] in *.
    destruct (sg_nodes _ _ _ _ HS) as (_ & _ & Hsur). destruct (Hsur a2) as (a & Ha & <-); [destruct H1 as [(x & Hx & _) _]; by exists x|].
    destruct (iso_hops_back pat a hs2) as (hs & -> & Hhs); [|done|done|].
    - split.
      + intros i jt x Hi. apply (N2 (S i) jt x). by replace (2 * S i) with (S (2 * i + 1)) by lia.
      + intros i jt Hi. apply (N3 i jt). by replace (2 * i + 1) with (S (2 * i)) by lia.
    - exists (PM a hs). split; [done|]. split; [|done]. apply iso_node_ok in H1; [done| |done]. intros Hne x. by apply (N2 0).
  Qed.
  Lemma hop_nodes_move hs : forall a, hop_nodes (f a) (map (move_steps f h) hs) = map f (hop_nodes a hs).
  Proof. induction hs as [|w hs IH]; intros a; [done|]. cbn [map hop_nodes]. f_equal. by rewrite hop_end_move. Qed.
  Lemma pm_nodes_move m : pm_nodes (move_match f h m) = map f (pm_nodes m).
  Proof. apply hop_nodes_move. Qed.
  Lemma hops_live pat : forall a hs, live_node s1 a -> hops_ok s1 syms pat a hs ->
    Forall (live_node s1) (hop_nodes a hs) /\ Forall (Forall (fun x => live_edge s1 x.1 /\ live_node s1 x.2)) hs.
  Proof.
    intros a hs Ha H. induction H as [a|ie it pat a w hs Hw Hnd Hhs IH]; [by repeat constructor|].
    destruct (walks_live _ _ _ Ha (proj1 Hw)) as [Hb HF]. destruct (IH Hb) as [I1 I2]. split; [|by constructor]. cbn [hop_nodes]. by constructor.
  Qed.
  Lemma fits_live pat m : fits_items s1 syms pat m -> Forall (live_node s1) (pm_nodes m) /\ live_node s1 (pm_first m) /\
    Forall (Forall (fun x => live_edge s1 x.1 /\ live_node s1 x.2)) (pm_hops m).
  Proof.
    destruct pat as [|it pat]; [done|]. intros [H1 H2]. assert (live_node s1 (pm_first m)) as Ha by (destruct H1 as [(x & Hx & _) _]; by exists x).
    destruct (hops_live _ _ _ Ha H2). done.
  Qed.
  Lemma iso_same_names pat m : fits_items s1 syms pat m -> same_names pat (move_match f h m) <-> same_names pat m.
  Proof.
    intros Hfit. apply fits_live in Hfit as [HF _]. unfold same_names. rewrite pm_nodes_move. change (map f) with (fmap (M := list) f).
    setoid_rewrite list_lookup_fmap. rewrite Forall_forall in HF. split; intros H i j it jt n k Hi Hj Hne Hnm Hn Hk.
    - apply iso_node_inj; [eapply HF, elem_of_list_lookup_2; exact Hn|eapply HF, elem_of_list_lookup_2; exact Hk|].
      apply (H i j it jt); [done|done|done|done| |]; [by rewrite Hn|by rewrite Hk].
    - apply fmap_Some in Hn as (n0 & Hn & ->), Hk as (k0 & Hk & ->). f_equal. by apply (H i j it jt).
  Qed.
  Lemma iso_match pat m2 : names_ok s1 syms pat ->
    is_match s2 syms2 pat m2 <-> exists m, m2 = move_match f h m /\ is_match s1 syms pat m.
  Proof.
    intros HN. split.
    - intros [H1 H2]. destruct (iso_fits_back pat m2 HN H1) as (m & -> & Hm). exists m. split; [done|]. split; [done|]. by apply (iso_same_names pat m Hm).
    - intros (m & -> & H1 & H2). split; [by apply iso_fits|]. by apply (iso_same_names pat m H1).
  Qed.
  Lemma move_steps_inj w w' : Forall (fun x => live_edge s1 x.1 /\ live_node s1 x.2) w -> Forall (fun x => live_edge s1 x.1 /\ live_node s1 x.2) w' ->
    move_steps f h w = move_steps f h w' -> w = w'.
  Proof.
    intros H. revert w'. induction H as [|[e n] w [He Hn] _ IH]; intros w' H'; destruct H' as [|[e' n'] w' [He' Hn'] H']; intros E; try done.
    cbn [move_steps map fst snd] in *. injection E as E1 E2 E3. f_equal; [|by apply IH]. f_equal; [by apply (iso_edge_inj e e')|by apply (iso_node_inj n n')].
  Qed.
  Lemma move_match_inj pat m m' : fits_items s1 syms pat m -> fits_items s1 syms pat m' -> move_match f h m = move_match f h m' -> m = m'.
  Proof.
    intros (_ & Ha & HF)%fits_live (_ & Ha' & HF')%fits_live. destruct m as [a hs], m' as [a' hs']. cbn [move_match pm_first pm_hops] in *. intros [= E1 E2].
    f_equal; [by apply iso_node_inj|]. clear - HS HF HF' E2. revert hs' HF' E2.
    induction HF as [|w hs Hw _ IH]; intros hs' HF' E; destruct HF' as [|w' hs' Hw' HF']; try done. cbn [map] in E. injection E as E1 E2.
    f_equal; [by apply move_steps_inj|by apply IH].
  Qed.
  Lemma iso_names_ok pat : names_ok s1 syms pat -> names_ok s2 syms2 pat.
  Proof.
    intros (N1 & N2 & N3). split; [done|]. split.
    - intros i it x Hi Hne Hx. rewrite lookup_fmap in Hx. destruct (syms !! pi_name it) as [y|] eqn:Ey; [|done]. injection Hx as <-.
      destruct (N2 i it y Hi Hne Ey) as (He & ns & Hns & Hnd & Hl). split; [cbn; by rewrite He|]. exists (map f ns). split; [cbn; by rewrite Hns|]. split.
      + apply NoDup_map_inj; [|done]. intros a b Ha Hb. apply iso_node_inj; by apply Hl.
      + intros n (k & -> & Hk)%elem_of_list_fmap. apply (sg_nodes _ _ _ _ HS). by apply Hl.
    - intros i it Hi Hne. rewrite lookup_fmap, (N3 i it Hi Hne). done.
  Qed.
  Lemma iso_repeated pat : repeated_fixed syms pat -> repeated_fixed syms2 pat.
  Proof.
    intros H i j it jt Hij Hi Hj Hne Hnm. destruct (H i j it jt Hij Hi Hj Hne Hnm) as (x & n & Hx & Hn).
    exists (move_sym f h x), (f n). rewrite lookup_fmap, Hx. split; [done|]. cbn. by rewrite Hn.
  Qed.
  Lemma iso_no_loops pat : no_undirected_loops s1 pat -> no_undirected_loops s2 pat.
  Proof.
    intros H i it e2 ed2 Hi Hl Hu Hmin Hmax He2 E. destruct (sg_edges _ _ _ _ HS) as (_ & _ & Hsur). destruct (Hsur e2) as (e & [ed Hed] & <-); [by exists ed2|].
    rewrite (sg_edge _ _ _ _ HS e ed Hed) in He2. injection He2 as <-. cbn [e_from e_to] in E. destruct (Hends e ed Hed) as [Hf Ht].
    apply (H i it e ed Hi Hl Hu Hmin Hmax Hed). by apply iso_node_inj.
  Qed.
End iso.

(** ** FindPaths *)
Lemma find_paths_same f h ops1 ops2 g1 g2 syms pat lord1 pord1 eord1 lord2 pord2 eord2 :
  valid_history ops1 -> run ops1 = Ok g1 -> node_list_safe ops1 -> edge_list_safe ops1 ->
  valid_history ops2 -> run ops2 = Ok g2 -> node_list_safe ops2 -> edge_list_safe ops2 ->
  same_graph f h (srun ops1) (srun ops2) ->
  well_formed pat -> item_orders pat lord1 pord1 eord1 -> item_orders pat lord2 pord2 eord2 ->
  pattern_askable ops1 pat -> pattern_askable ops2 pat -> names_ok (srun ops1) syms pat ->
  (forall xs start sz, fastest g1 syms pat lord1 pord1 = Ok (xs, start, sz) -> starts_well pat start) ->
  (forall xs start sz, fastest g2 (move_sym f h <$> syms) pat lord2 pord2 = Ok (xs, start, sz) -> starts_well pat start) ->
  repeated_fixed syms pat -> no_undirected_loops (srun ops1) pat ->
  exists rs1 rs2 ms1 ms2, find_paths g1 syms pat lord1 pord1 eord1 = Ok (None, rs1) /\
    find_paths g2 (move_sym f h <$> syms) pat lord2 pord2 eord2 = Ok (None, rs2) /\
    Forall2 (reported (edge_from g1) (edge_to g1) pat) ms1 rs1 /\ Forall2 (reported (edge_from g2) (edge_to g2) pat) ms2 rs2 /\
    ms2 ≡ₚ map (move_match f h) ms1.
Proof.
  intros V1 R1 N1 E1 V2 R2 N2 E2 HS Hwf O1 O2 A1 A2 Hn S1 S2 Hrep Hloop.
  assert (Hends : forall e x, s_edges (srun ops1) !! e = Some x -> live_node (srun ops1) (e_from x) /\ live_node (srun ops1) (e_to x)).
  { intros e x Hx. destruct (core_edge _ _ _ _ (core_run _ _ V1 R1) Hx) as (_ & ? & ? & _). done. }
  destruct (find_paths_exact ops1 g1 syms pat lord1 pord1 eord1) as (rs1 & ms1 & F1 & P1 & M1 & D1); try done.
  destruct (find_paths_exact ops2 g2 (move_sym f h <$> syms) pat lord2 pord2 eord2) as (rs2 & ms2 & F2 & P2 & M2 & D2); try done.
  { by apply (iso_names_ok f h _ _ HS). }
  { by apply iso_repeated. }
  exists rs1, rs2, ms1, ms2. split; [done|]. split; [done|]. split; [done|]. split; [done|]. apply NoDup_Permutation.
  - apply D2. by apply (iso_no_loops f h _ _ HS Hends).
  - apply NoDup_map_inj; [|by apply D1]. intros a b [Ha _]%M1 [Hb _]%M1. by apply (move_match_inj f h _ _ HS syms Hends pat).
  - intros m2. rewrite M2, (iso_match f h _ _ HS syms Hends pat m2 Hn). split.
    + intros (m & -> & Hm%M1). apply elem_of_list_fmap. by exists m.
    + intros (m & -> & Hm)%elem_of_list_fmap. exists m. split; [done|]. by apply M1.
Qed.
(** with single edges to the right, wherever matching starts *)
Lemma find_paths_same_right f h ops1 ops2 g1 g2 syms pat lord1 pord1 eord1 lord2 pord2 eord2 :
  valid_history ops1 -> run ops1 = Ok g1 -> node_list_safe ops1 -> edge_list_safe ops1 ->
  valid_history ops2 -> run ops2 = Ok g2 -> node_list_safe ops2 -> edge_list_safe ops2 ->
  same_graph f h (srun ops1) (srun ops2) ->
  well_formed pat -> item_orders pat lord1 pord1 eord1 -> item_orders pat lord2 pord2 eord2 ->
  pattern_askable ops1 pat -> pattern_askable ops2 pat -> names_ok (srun ops1) syms pat ->
  one_edge_right pat -> repeated_fixed syms pat ->
  exists rs1 rs2 ms1 ms2, find_paths g1 syms pat lord1 pord1 eord1 = Ok (None, rs1) /\
    find_paths g2 (move_sym f h <$> syms) pat lord2 pord2 eord2 = Ok (None, rs2) /\
    Forall2 (reported (edge_from g1) (edge_to g1) pat) ms1 rs1 /\ Forall2 (reported (edge_from g2) (edge_to g2) pat) ms2 rs2 /\
    ms2 ≡ₚ map (move_match f h) ms1.
Proof.
  intros V1 R1 N1 E1 V2 R2 N2 E2 HS Hwf O1 O2 A1 A2 Hn Hone Hrep.
  apply (find_paths_same f h ops1 ops2); try done.
  - intros xs start sz _. by apply directed_starts.
  - intros xs start sz _. by apply directed_starts.
  - intros i it e ed Hi _ Hu. destruct (Hone i it Hi) as (_ & _ & _ & Hu'). congruence.
Qed.
