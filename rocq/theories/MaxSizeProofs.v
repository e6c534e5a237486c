(** Proofs about MaxSize (MaxSizeSpec.v). *)
From Verif Require Import Base AssocProofs Value FastSet FastSetProofs Links EdgeMap NodeMap Index Graph GraphSpec Itr ItrSpec Sizes.
From Verif Require Import EdgeMapProofs IndexProofs CoreProofs CoreStep AdjProofs ReadProofs NodeListProofs EdgeListProofs LabelProofs IndexGraphProofs ProgressProofs.
From Verif Require Import HashLiveProofs FindProofs SizeProofs RecoverProofs HashOnlySpec HashOnlyProofs OrderSpec QueryOrderSpec QueryOrderProofs QueryEdgeOrderProofs MaxSizeSpec.

(** ** Whether an index was ever given a value *)
Definition used (ix : index) : bool :=
  match ix with IBtree None => false | IBtree (Some _) => true | IHash _ _ fresh => negb (fresh =? 0) end.
Lemma used_new it : used (ix_new it) = false.
Proof. by destruct it. Qed.
Lemma type_add ix v id ix' : ix_add ix v id = Ok ix' -> ix_type ix' = ix_type ix.
Proof.
  destruct ix as [ot|vals els fresh]; simpl; [by intros (o & _ & [= <-])%rbind_Ok_inv|]. destruct (hashable _); [|done]. by intros [= <-].
Qed.
Lemma type_remove ix v id ix' : ix_remove ix v id = Ok ix' -> ix_type ix' = ix_type ix.
Proof.
  destruct ix as [[t|]|vals els fresh].
  - simpl. intros (o & _ & H)%rbind_Ok_inv. destruct o as [s|]; [|by injection H as <-]. destruct (decide _); by injection H as <-.
  - simpl. by intros [= <-].
  - intros H. apply hash_removed in H as (? & ? & ->). done.
Qed.
Lemma used_add ix v id ix' : ix_add ix v id = Ok ix' -> used ix' = true.
Proof.
  destruct ix as [ot|vals els fresh]; simpl.
  - intros (o & _ & [= <-])%rbind_Ok_inv. done.
  - destruct (hashable _); [|done]. by intros [= <-].
Qed.
Lemma used_remove ix v id ix' : ix_remove ix v id = Ok ix' -> used ix' = used ix.
Proof.
  destruct ix as [[t|]|vals els fresh].
  - simpl. intros (o & _ & H)%rbind_Ok_inv. destruct o as [s|]; [|by injection H as <-]. destruct (decide _); by injection H as <-.
  - simpl. by intros [= <-].
  - intros H. apply hash_removed in H as (? & ? & ->). done.
Qed.
Definition ugiven (t : index_type) (ixs : gmap string index) (k : string) (F : value -> Prop) : Prop :=
  exists ix, ixs !! k = Some ix /\ ix_type ix = t /\ (used ix = false <-> forall v, ~ F v).
Lemma ugiven_ext t ixs ixs' k (F G : value -> Prop) : ugiven t ixs k F -> ixs' !! k = ixs !! k -> (forall v, F v <-> G v) -> ugiven t ixs' k G.
Proof. intros (ix & H1 & Ht & H2) E HF. exists ix. rewrite E. split; [done|]. split; [done|]. rewrite H2. by setoid_rewrite HF. Qed.
Lemma ugiven_add t ixs p id ixs' k F : ixs_add ixs p id = Ok ixs' -> ugiven t ixs k F ->
  ugiven t ixs' k (fun v => F v \/ p !! k = Some v).
Proof.
  intros Ha (ix & H1 & Ht & H2). pose proof (props_loop_key (fun ix v => ix_add ix v id) _ _ _ k Ha) as H.
  rewrite H1 in H. destruct (p !! k) as [v|].
  - destruct H as (ix' & Hadd & Hix). exists ix'. split; [done|]. split; [by rewrite (type_add _ _ _ _ Hadd)|]. rewrite (used_add _ _ _ _ Hadd). split; [done|]. intros Hn. destruct (Hn v). by right.
  - exists ix. split; [done|]. split; [done|]. rewrite H2. naive_solver.
Qed.
Lemma ugiven_remove t ixs p id ixs' k F : ixs_remove ixs p id = Ok ixs' -> ugiven t ixs k F -> ugiven t ixs' k F.
Proof.
  intros Ha (ix & H1 & Ht & H2). pose proof (props_loop_key (fun ix v => ix_remove ix v id) _ _ _ k Ha) as H.
  rewrite H1 in H. destruct (p !! k) as [v|]; [|by exists ix].
  destruct H as (ix' & Hadd & Hix). exists ix'. by rewrite (used_remove _ _ _ _ Hadd), (type_remove _ _ _ _ Hadd).
Qed.
Lemma ugiven_update t ixs k' old new id ixs' k F : ix_update ixs k' old new id = Ok ixs' -> ugiven t ixs k F ->
  ugiven t ixs' k (fun v => F v \/ k' = k /\ new = Some v).
Proof.
  intros Hu (ix & H1 & Ht & H2). unfold ix_update in Hu. destruct (decide (k' = k)) as [->|Hne].
  - rewrite H1 in Hu. apply rbind_Ok_inv in Hu as (ix1 & Hr & Hu). apply rbind_Ok_inv in Hu as (ix2 & Ha & [= <-]).
    assert (used ix1 = used ix) as E by (destruct old as [v|]; [by apply used_remove in Hr|by injection Hr as <-]).
    assert (ix_type ix1 = ix_type ix) as E' by (destruct old as [v|]; [by apply type_remove in Hr|by injection Hr as <-]).
    exists ix2. rewrite lookup_insert. split; [done|]. split; [destruct new as [v|]; [by rewrite (type_add _ _ _ _ Ha), E'|injection Ha as <-; by rewrite E']|]. destruct new as [v|].
    + rewrite (used_add _ _ _ _ Ha). split; [done|]. intros Hn. destruct (Hn v). by right.
    + injection Ha as <-. rewrite E, H2. naive_solver.
  - exists ix. split; [|split; [done|rewrite H2; naive_solver]]. destruct (ixs !! k') as [ix0|]; [|by injection Hu as <-].
    apply rbind_Ok_inv in Hu as (ix1 & Hr & Hu). apply rbind_Ok_inv in Hu as (ix2 & Ha & [= <-]). by rewrite lookup_insert_ne.
Qed.
Lemma type_scanned (f : nat -> option value) (xs : list nat) : forall ix ix',
  rfold (fun ix n => match f n with Some v => ix_add ix v n | None => Ok ix end) xs ix = Ok ix' -> ix_type ix' = ix_type ix.
Proof.
  induction xs as [|x xs IH]; intros ix ix'; cbn [rfold]; [by intros [= <-]|].
  intros H. apply rbind_Ok_inv in H as (ix1 & H1 & H). rewrite (IH _ _ H). destruct (f x); [by eapply type_add|by injection H1 as <-].
Qed.
Lemma used_scanned (f : nat -> option value) (xs : list nat) : forall ix ix',
  rfold (fun ix n => match f n with Some v => ix_add ix v n | None => Ok ix end) xs ix = Ok ix' ->
  (used ix' = false <-> used ix = false /\ forall x v, x ∈ xs -> f x <> Some v).
Proof.
  induction xs as [|x xs IH]; intros ix ix'; cbn [rfold].
  { intros [= <-]. split; [|by intros [? _]]. intros ->. split; [done|]. by intros x v ?%elem_of_nil. }
  intros H. apply rbind_Ok_inv in H as (ix1 & H1 & H). rewrite (IH _ _ H). destruct (f x) as [v|] eqn:Hf.
  - rewrite (used_add _ _ _ _ H1). split; [by intros [? _]|]. intros [_ Hn]. exfalso. apply (Hn x v); [left|done].
  - injection H1 as <-. split; (intros [? Hn]; split; [done|]).
    + intros y w [->|Hy]%elem_of_cons; [congruence|by apply Hn].
    + intros y w Hy. apply Hn. by right.
Qed.

Lemma nused_run t k ops g : valid_history ops -> run ops = Ok g -> node_index ops k = Some t -> node_scan_safe ops k ->
  ugiven t (g_nix g) k (node_filed ops k).
Proof.
  revert ops g. apply (history_ind (fun ops g => node_index ops k = Some t -> node_scan_safe ops k -> ugiven t (g_nix g) k (node_filed ops k))).
  { done. }
  intros ops g o g' Hv Hr IH Ho Hs Hi Hsafe. pose proof (core_run _ _ Hv Hr) as Hc.
  assert (node_scan_safe ops k) as Hsc by (by eapply node_scan_safe_app).
  rewrite node_index_snoc in Hi. destruct (node_index ops k) as [t'|] eqn:Hit.
  - injection Hi as ->. specialize (IH eq_refl Hsc).
    assert (forall v, node_filed (ops ++ [o]) k v <-> node_filed ops k v \/ writes_node o k v) as Hf by (intros v; apply node_filed_iff; eauto).
    pose proof (step_nix _ _ _ Hs) as Hx.
    assert (g_nix g' = g_nix g -> (forall v, ~ writes_node o k v) -> ugiven t (g_nix g') k (node_filed (ops ++ [o]) k)) as Hsame.
    { intros E Hn. eapply ugiven_ext; [exact IH|by rewrite E|]. intros v. rewrite Hf. specialize (Hn v). naive_solver. }
    destruct o; cbn [writes_node] in Hf; try (apply Hsame; [exact Hx|by intros ? []]).
    + eapply ugiven_ext; [eapply ugiven_add; [exact Hx|exact IH]|done|]. intros v. by rewrite Hf.
    + eapply ugiven_ext; [eapply ugiven_update; [exact Hx|exact IH]|done|]. intros w. rewrite Hf. naive_solver.
    + destruct Hx as [Hx|[v0 Hx]]; [apply Hsame; [exact Hx|by intros ? []]|].
      eapply ugiven_ext; [eapply ugiven_update; [exact Hx|exact IH]|done|]. intros w. rewrite Hf. naive_solver.
    + destruct Hx as [p Hx]. eapply ugiven_ext; [eapply ugiven_remove; [exact Hx|exact IH]|done|]. intros w. rewrite Hf. naive_solver.
    + eapply ugiven_ext; [exact IH| |intros v; rewrite Hf; naive_solver]. apply Hx. destruct IH as (?&->&_). by eexists.
  - destruct o as [| | | | | | | | | | |k0 it|k0 it]; try done. destruct (decide (k0 = k)) as [->|]; [|done]. injection Hi as ->. 
    assert (forall v, node_filed (ops ++ [OAddNodeIndex k t]) k v <-> exists n, node_has (srun ops) k v n) as Hf.
    { intros v. rewrite node_filed_snoc. unfold files_node. rewrite node_index_snoc, Hit, decide_True by done. split.
      - intros [H%node_filed_indexed|[_ [[]|[_ ?]]]]; [|done]. rewrite Hit in H. by destruct H.
      - intros ?. right. split; [by eexists|by right]. }
    cbn [step] in Hs. unfold add_node_index in Hs.
    assert (g_nix g !! k = None) as Hg.
    { pose proof (nix_run (fun _ => True) k ops g Hv Hr (fun _ _ => I) Hsc) as Hk. by rewrite Hit in Hk. }
    rewrite Hg in Hs. apply rbind_Ok_inv in Hs as (xs & Hxs & Hs). apply rbind_Ok_inv in Hs as (ix & Hix & [= <-]).
    destruct (get_nodes_ok _ _ Hv Hr (Hsafe ops [] _ eq_refl)) as (ys & Hys & [[Hnd Hin] _]). rewrite Hxs in Hys. injection Hys as <-.
    eapply (rfold_ext' _ (fun ix n => match node_prop g n k with Some v => ix_add ix v n | None => Ok ix end)) in Hix.
    2: { intros ix0 n Hn. apply Hin in Hn as [x Hx]. unfold node_prop, deref_node. destruct (core_node _ _ _ _ Hc Hx) as (nd & -> & _). done. }
    apply used_scanned in Hix as Hfr. apply type_scanned in Hix as Hty.
    assert (forall v, (exists x, x ∈ xs /\ node_prop g x k = Some v) <-> exists n, node_has (srun ops) k v n) as Hp.
    { intros v. split.
      - intros (n & Hn & Hv'). exists n. apply Hin in Hn as [x Hx]. destruct (read_node _ _ Hc _ _ Hx) as [_ E]. exists x. split; [done|]. by rewrite <-E.
      - intros (n & x & Hx & Hv'). exists n. split; [apply Hin; by exists x|]. destruct (read_node _ _ Hc _ _ Hx) as [_ E]. by rewrite E. }
    exists ix. simpl. rewrite lookup_insert. split; [done|]. split; [rewrite Hty; by destruct t|]. rewrite Hfr, used_new. setoid_rewrite Hf. setoid_rewrite <-Hp. naive_solver.
Qed.


Lemma ugiven_removes t k F (E : gmap nat edge) (es : list nat) : forall ixs ixs',
  rfold (fun ixs e => match E !! e with Some ed => ixs_remove ixs (e_props ed) e | None => Panic end) es ixs = Ok ixs' ->
  ugiven t ixs k F -> ugiven t ixs' k F.
Proof.
  induction es as [|e es IH]; intros ixs ixs'; cbn [rfold]; [by intros [= <-]|]. intros H Hk.
  apply rbind_Ok_inv in H as (ixs1 & H1 & H). destruct (E !! e) as [ed|]; [|done]. eapply IH; [exact H|]. by eapply ugiven_remove.
Qed.
Lemma eused_run t k ops g : valid_history ops -> run ops = Ok g -> edge_index ops k = Some t -> edge_scan_safe ops k ->
  ugiven t (g_eix g) k (edge_filed ops k).
Proof.
  revert ops g. apply (history_ind (fun ops g => edge_index ops k = Some t -> edge_scan_safe ops k -> ugiven t (g_eix g) k (edge_filed ops k))).
  { done. }
  intros ops g o g' Hv Hr IH Ho Hs Hi Hsafe. pose proof (core_run _ _ Hv Hr) as Hc.
  assert (edge_scan_safe ops k) as Hsc by (by eapply edge_scan_safe_app).
  rewrite edge_index_snoc in Hi. destruct (edge_index ops k) as [t'|] eqn:Hit.
  - injection Hi as ->. specialize (IH eq_refl Hsc).
    assert (forall v, edge_filed (ops ++ [o]) k v <-> edge_filed ops k v \/ writes_edge o k v) as Hf by (intros v; apply edge_filed_iff; eauto).
    pose proof (step_eix _ _ _ _ Hc Ho Hs) as Hx.
    assert (g_eix g' = g_eix g -> (forall v, ~ writes_edge o k v) -> ugiven t (g_eix g') k (edge_filed (ops ++ [o]) k)) as Hsame.
    { intros E Hn. eapply ugiven_ext; [exact IH|by rewrite E|]. intros v. rewrite Hf. specialize (Hn v). naive_solver. }
    destruct o; cbn [writes_edge] in Hf; try (apply Hsame; [exact Hx|by intros ? []]);
      try (destruct Hx as (dropped & _ & _ & Hx); eapply ugiven_ext; [eapply ugiven_removes; [exact Hx|exact IH]|done|]; intros ?; rewrite Hf; naive_solver).
    + eapply ugiven_ext; [eapply ugiven_add; [exact Hx|exact IH]|done|]. intros v. by rewrite Hf.
    + eapply ugiven_ext; [eapply ugiven_update; [exact Hx|exact IH]|done|]. intros w. rewrite Hf. naive_solver.
    + destruct Hx as [Hx|[v0 Hx]]; [apply Hsame; [exact Hx|by intros ? []]|].
      eapply ugiven_ext; [eapply ugiven_update; [exact Hx|exact IH]|done|]. intros w. rewrite Hf. naive_solver.
    + eapply ugiven_ext; [exact IH| |intros v; rewrite Hf; naive_solver]. apply Hx. destruct IH as (?&->&_). by eexists.
  - destruct o as [| | | | | | | | | | |k0 it|k0 it]; try done. destruct (decide (k0 = k)) as [->|]; [|done]. injection Hi as ->. 
    assert (forall v, edge_filed (ops ++ [OAddEdgeIndex k t]) k v <-> exists n, edge_has (srun ops) k v n) as Hf.
    { intros v. rewrite edge_filed_snoc. unfold files_edge. rewrite edge_index_snoc, Hit, decide_True by done. split.
      - intros [H%edge_filed_indexed|[_ [[]|[_ ?]]]]; [|done]. rewrite Hit in H. by destruct H.
      - intros ?. right. split; [by eexists|by right]. }
    cbn [step] in Hs. unfold add_edge_index in Hs.
    assert (g_eix g !! k = None) as Hg.
    { pose proof (eix_run (fun _ => True) k ops g Hv Hr (fun _ _ => I) Hsc) as Hk. by rewrite Hit in Hk. }
    rewrite Hg in Hs. apply rbind_Ok_inv in Hs as (xs & Hxs & Hs). apply rbind_Ok_inv in Hs as (ix & Hix & [= <-]).
    destruct (get_edges_ok _ _ Hv Hr (Hsafe ops [] _ eq_refl)) as [(ys & Hys & [Hnd Hin]) _]. rewrite Hxs in Hys. injection Hys as <-.
    eapply (rfold_ext' _ (fun ix n => match edge_prop g n k with Some v => ix_add ix v n | None => Ok ix end)) in Hix.
    2: { intros ix0 n Hn. apply Hin in Hn as [x Hx]. unfold edge_prop, deref_edge. destruct (core_edge _ _ _ _ Hc Hx) as (-> & _). done. }
    apply used_scanned in Hix as Hfr. apply type_scanned in Hix as Hty.
    assert (forall v, (exists x, x ∈ xs /\ edge_prop g x k = Some v) <-> exists n, edge_has (srun ops) k v n) as Hp.
    { intros v. unfold edge_prop. split.
      - intros (n & Hn & Hv'). exists n. apply Hin in Hn as [x Hx]. destruct (core_edge _ _ _ _ Hc Hx) as (E & _). rewrite E in Hv'. by exists x.
      - intros (n & x & Hx & Hv'). exists n. split; [apply Hin; by exists x|]. by destruct (core_edge _ _ _ _ Hc Hx) as (-> & _). }
    exists ix. simpl. rewrite lookup_insert. split; [done|]. split; [rewrite Hty; by destruct t|]. rewrite Hfr, used_new. setoid_rewrite Hf. setoid_rewrite <-Hp. naive_solver.
Qed.


(** ** Properties *)
Lemma index_used_size ix : match ix with
  | IHash _ els _ => (ix_values ix).2 = Z.of_nat (length (ix_values ix).1)
  | IBtree _ => (ix_values ix).2 = if used ix then (-1)%Z else 0%Z end.
Proof. destruct ix as [[t|]|vals els fresh]; simpl; [done|done|]. by rewrite fmap_length. Qed.
Lemma lists_size {A} (c : gmap nat A) xs : lists (fun i => is_Some (c !! i)) xs -> length xs = size c.
Proof.
  intros [Hnd Hin]. rewrite <- (size_list_to_set (C := gset nat)) by done. rewrite <- size_dom. f_equal. apply set_eq. intros n.
  by rewrite elem_of_list_to_set, Hin, elem_of_dom.
Qed.
Lemma prop_size_ix (ixs : gmap string index) k it (F : value -> Prop) (c : gmap nat value) all ix :
  ixs !! k = Some ix -> ix_type ix = it -> (used ix = false <-> forall v, ~ F v) ->
  (it = HashIndex -> lists (fun i => is_Some (c !! i)) (ix_values ix).1) ->
  prop_size (Some it) all (size c) F (ix_values ix).2.
Proof.
  intros Hix <- Hu Hl. pose proof (index_used_size ix) as H. destruct ix as [ot|vals els fresh]; cbn [ix_type prop_size] in *.
  - rewrite H. split.
    + intros [v Hv]. destruct (used _); [done|]. exfalso. by apply (proj1 Hu eq_refl v).
    + intros Hn. by rewrite (proj2 Hu Hn).
  - rewrite H. f_equal. by apply lists_size, Hl.
Qed.
Lemma nodes_with_property_max ops g k : valid_history ops -> run ops = Ok g -> node_scan_safe ops k ->
  prop_size (node_index ops k) (size (s_nodes (srun ops))) (size (node_vals (srun ops) k)) (node_filed ops k) (get_nodes_with_property_size g k).
Proof.
  intros Hv Hr Hs. unfold get_nodes_with_property_size. destruct (node_index ops k) as [it|] eqn:Hi.
  - destruct (nused_run it k ops g Hv Hr Hi Hs) as (ix & Hix & Ht & Hu). rewrite Hix.
    eapply prop_size_ix; [done|done|done|]. intros ->.
    pose proof (nix_run (node_filed ops k) k ops g Hv Hr (fun _ H => H) Hs) as Hk. rewrite Hi in Hk.
    destruct (Hk (proj1 (storable_domain _ _) (node_hash_storable ops g k Hv Hr Hi Hs))) as (ix' & Hix' & _ & Hh).
    assert (ix' = ix) as -> by congruence. apply holds_values in Hh as [H1 H2]. split; [done|]. intros i. rewrite H2, node_vals_lookup.
    unfold node_has. clear. destruct (s_nodes (srun ops) !! i) as [x|].
    + split; [intros (v & y & [= <-] & Hy); by exists v|intros [v Hy]; by exists v, x].
    + split; [by intros (v & y & [=] & _)|by intros [? [=]]].
  - pose proof (nix_run (fun _ => True) k ops g Hv Hr (fun _ _ => I) Hs) as Hk. rewrite Hi in Hk. cbn [kix] in Hk. rewrite Hk.
    unfold get_nodes_size. by apply num_nodes_ok.
Qed.
Lemma edges_with_property_max ops g k : valid_history ops -> run ops = Ok g -> edge_scan_safe ops k -> edge_list_safe ops \/ is_Some (edge_index ops k) ->
  prop_size (edge_index ops k) (size (s_edges (srun ops))) (size (edge_entries ops k)) (edge_filed ops k) (get_edges_with_property_size g k).
Proof.
  intros Hv Hr Hs Hl. unfold get_edges_with_property_size. destruct (edge_index ops k) as [it|] eqn:Hi.
  - destruct (eused_run it k ops g Hv Hr Hi Hs) as (ix & Hix & Ht & Hu). rewrite Hix.
    eapply prop_size_ix; [done|done|done|]. intros ->.
    pose proof (eix_run (edge_filed ops k) k ops g Hv Hr (fun _ H => H) Hs) as Hk. rewrite Hi in Hk.
    destruct (Hk (proj1 (storable_domain _ _) (edge_hash_storable ops g k Hv Hr Hi Hs))) as (ix' & Hix' & _ & Hh).
    assert (ix' = ix) as -> by congruence. apply holds_values in Hh as [H1 H2]. split; [done|]. intros i. rewrite H2. unfold is_Some, edge_entry.
    by setoid_rewrite edge_entry_lookup.
  - destruct Hl as [Hl|[? ?]]; [|done]. pose proof (eix_run (fun _ => True) k ops g Hv Hr (fun _ _ => I) Hs) as Hk. rewrite Hi in Hk. cbn [kix] in Hk. rewrite Hk.
    destruct (get_edges_ok _ _ Hv Hr Hl) as [(xs & Hxs & Hin) _]. rewrite (get_edges_size_ok _ _ _ Hv Hr Hl Hxs). cbn [prop_size]. f_equal. by apply lists_size.
Qed.

(** ** Labels *)
Lemma any_exact key lb L em (E : gmap nat edge) ord : em_rep key L em (dom E) -> (forall e x, E !! e = Some x -> lb e = e_label x) ->
  em_iter_any_size lb em ord = any_size ord E.
Proof.
  intros (Hn & _ & H1 & _) Hlb. unfold em_iter_any_size, any_size. rewrite Hn. rewrite size_dom in *. destruct (decide (Z.of_nat (size E) = 0)%Z) as [H0|H0].
  { rewrite decide_True by lia. assert (E = ∅) as -> by (apply map_size_empty_inv; lia). unfold labelled_edges. by rewrite map_filter_empty, map_size_empty. }
  destruct (decide (Z.of_nat (size E) = 1)%Z) as [Hx|Hx]; [|by rewrite decide_False by lia].
  rewrite decide_True by lia. destruct (H1 ltac:(lia)) as (e & -> & HX).
  assert (e ∈ dom E) as [x He]%elem_of_dom by (rewrite HX; set_solver).
  assert (E = {[e := x]}) as EE.
  { apply map_eq. intros i. destruct (decide (i = e)) as [->|Hi]; [by rewrite lookup_singleton|]. rewrite lookup_singleton_ne by done.
    apply not_elem_of_dom. rewrite HX. set_solver. }
  rewrite (Hlb _ _ He). unfold labelled_edges. rewrite EE. destruct (decide (e_label x ∈ ord)).
  - rewrite map_filter_singleton_True by done. by rewrite map_size_singleton.
  - rewrite map_filter_singleton_False by done. by rewrite map_size_empty.
Qed.
Lemma side_exact key L em (E : gmap nat edge) g ord : em_rep key L em (dom E) -> (forall e x, E !! e = Some x -> lbl g e = e_label x) ->
  em_any_or_all_size g em ord = side_size ord E.
Proof.
  intros Hr Hlb. unfold em_any_or_all_size, side_size. destruct (decide (ord = [])).
  - destruct Hr as (Hn & _). unfold em_iter_size. rewrite Hn, size_dom. repeat case_decide; lia.
  - by eapply any_exact.
Qed.
Lemma node_any_max ops g n d ord1 ord2 : valid_history ops -> run ops = Ok g -> live_node (srun ops) n ->
  node_edges_any_size g n d ord1 ord2 = Ok (node_any_size (srun ops) n d ord1 ord2).
Proof.
  intros Hv Hr Hn. pose proof (core_run _ _ Hv Hr) as Hc. destruct (core_node_adj _ _ Hc n Hn) as (nd & Hnd & Hi & Ho).
  unfold node_edges_any_size, deref_node. rewrite Hnd. cbn [rbind]. f_equal. unfold node_any_size.
  assert (forall side e x, edges_at (srun ops) side n !! e = Some x -> lbl g e = e_label x) as Hl.
  { intros side e x [Hx _]%map_filter_lookup_Some. by apply (core_lbl _ _ Hc). }
  assert (em_any_or_all_size g (n_in nd) ord1 = side_size ord1 (edges_at (srun ops) e_to n)) as -> by (by eapply side_exact; [exact Hi|apply Hl]).
  assert (em_any_or_all_size g (n_out nd) ord2 = side_size ord2 (edges_at (srun ops) e_from n)) as -> by (by eapply side_exact; [exact Ho|apply Hl]).
  by destruct d.
Qed.
Lemma edges_any_max ops g ord : valid_history ops -> run ops = Ok g -> edge_list_safe ops ->
  get_edges_any_label_size g ord = any_size ord (s_edges (srun ops)).
Proof.
  intros Hv Hr Hs. pose proof (core_run _ _ Hv Hr) as Hc. destruct (all_inv_run _ _ Hv Hr Hs) as [H1 _].
  unfold get_edges_any_label_size. eapply any_exact; [exact H1|]. apply (core_lbl _ _ Hc).
Qed.
Lemma nodes_max ops g : valid_history ops -> run ops = Ok g -> get_nodes_size g = Z.of_nat (size (s_nodes (srun ops))).
Proof. apply num_nodes_ok. Qed.

(** When MaxSize of the edges of a node in both directions is wrong *)
Lemma any_len key lb L em (E : gmap nat edge) ord f xs : em_rep key L em (dom E) -> (forall e x, E !! e = Some x -> lb e = e_label x) ->
  em_iter_any lb f L em ord = Ok xs -> size E <= 1 -> length xs = size (labelled_edges ord E).
Proof.
  intros Hr Hlb Hi Hs. pose proof (any_exact _ _ _ _ _ ord Hr Hlb) as Hx. unfold any_size in Hx. rewrite decide_True in Hx by done.
  destruct Hr as (Hn & _ & H1 & _). rewrite size_dom in *. unfold em_iter_any in Hi. unfold em_iter_any_size in Hx. rewrite Hn in *.
  destruct (decide (size E = 0)) as [E0|E0].
  { rewrite decide_True in Hi by lia. rewrite decide_True in Hx by lia. injection Hi as <-. simpl. lia. }
  rewrite decide_False in Hi by lia. rewrite decide_True in Hi by lia. rewrite decide_False in Hx by lia. rewrite decide_True in Hx by lia.
  destruct (H1 ltac:(lia)) as (e & He & _). rewrite He in Hi, Hx. destruct (decide (lb e ∈ ord)); injection Hi as <-; simpl; lia.
Qed.
Lemma any_both_wrong ops g n ord1 ord2 xs m : valid_history ops -> run ops = Ok g -> live_node (srun ops) n -> ord1 <> [] -> ord2 <> [] ->
  node_edges_any g n AnyDir ord1 ord2 = Ok xs -> node_edges_any_size g n AnyDir ord1 ord2 = Ok m ->
  (~ bounds m xs <-> both_wrong ord1 ord2 (edges_at (srun ops) e_to n) (edges_at (srun ops) e_from n)).
Proof.
  intros Hv Hr Hn Ho1 Ho2 Hx Hm. rewrite (node_any_max _ _ _ _ _ _ Hv Hr Hn) in Hm. injection Hm as <-.
  pose proof (core_run _ _ Hv Hr) as Hc. destruct (core_node_adj _ _ Hc n Hn) as (nd & Hnd & Hi & Ho).
  unfold node_edges_any, deref_node, em_any_or_all in Hx. rewrite Hnd in Hx. cbn [rbind] in Hx.
  rewrite !decide_False in Hx by done. apply rbind_Ok_inv in Hx as (is & H1 & Hx). apply rbind_Ok_inv in Hx as (os & H2 & [= <-]).
  assert (forall side e x, edges_at (srun ops) side n !! e = Some x -> lbl g e = e_label x) as Hl.
  { intros side e x [Hx _]%map_filter_lookup_Some. by apply (core_lbl _ _ Hc). }
  pose proof (any_len _ _ _ _ (edges_at (srun ops) e_to n) _ _ _ Hi (Hl _) H1) as L1.
  pose proof (any_len _ _ _ _ (edges_at (srun ops) e_from n) _ _ _ Ho (Hl _) H2) as L2.
  unfold bounds, node_any_size, side_size, any_size, both_wrong. rewrite !(decide_False (P := _ = [])) by done. rewrite app_length.
  assert (forall ord (E : gmap nat edge), size (labelled_edges ord E) <= size E) as Hle.
  { intros ord E. rewrite <-!size_dom. apply subseteq_size, dom_filter_subseteq. }
  pose proof (Hle ord1 (edges_at (srun ops) e_to n)). pose proof (Hle ord2 (edges_at (srun ops) e_from n)).
  set (il := size (labelled_edges ord1 (edges_at (srun ops) e_to n))) in *. set (ol := size (labelled_edges ord2 (edges_at (srun ops) e_from n))) in *.
  set (i := size (edges_at (srun ops) e_to n)) in *. set (o := size (edges_at (srun ops) e_from n)) in *.
  clearbody il ol i o. clear -L1 L2 H H0. destruct (decide (i <= 1)), (decide (o <= 1)); lia.
Qed.
