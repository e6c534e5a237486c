(** Proofs about hash indexes: which calls panic (HashOnlySpec.v). *)
From Verif Require Import Base AssocProofs Value FastSet FastSetProofs Links EdgeMap NodeMap Index Graph GraphSpec Find ItrLive ItrLiveSpec.
From Verif Require Import EdgeMapProofs IndexProofs CoreProofs CoreStep AdjProofs ReadProofs NodeListProofs EdgeListProofs LabelProofs IndexGraphProofs ProgressProofs.
From Verif Require Import SetLive SetLiveSpec SetLiveProofs HashLiveProofs FindProofs RecoverProofs HashOnlySpec.

Lemma unhashable_key v : unhashable v -> hashable (hkey v) = false.
Proof. done. Qed.
Lemma key_unhashable v : hashable (hkey v) = false -> unhashable v.
Proof. done. Qed.
Lemma storable_hash (D : value -> Prop) : storable HashIndex D <-> forall v, D v -> hashable (hkey v) = true.
Proof. apply storable_domain. Qed.

(** an index map whose index on [k] is a hash index that was given the values [F] *)
Definition hgiven (ixs : gmap string index) (k : string) (F : value -> Prop) : Prop :=
  exists vals els fresh, ixs !! k = Some (IHash vals els fresh) /\
    (forall v, F v -> hashable (hkey v) = true) /\ (fresh = 0 <-> forall v, ~ F v).
Lemma hgiven_ext ixs ixs' k (F G : value -> Prop) : hgiven ixs k F -> ixs' !! k = ixs !! k -> (forall v, F v <-> G v) -> hgiven ixs' k G.
Proof.
  intros (vals & els & fresh & H1 & H2 & H3) E HF. exists vals, els, fresh. rewrite E. split; [done|].
  split; [intros v Hv; by apply H2, HF|]. rewrite H3. by setoid_rewrite HF.
Qed.
Lemma hash_added vals els fresh v id ix : ix_add (IHash vals els fresh) v id = Ok ix ->
  hashable (hkey v) = true /\ exists vals' els', ix = IHash vals' els' (S fresh).
Proof. simpl. destruct (hashable (hkey v)); [|done]. intros [= <-]. eauto. Qed.
Lemma hash_removed vals els fresh v id ix : ix_remove (IHash vals els fresh) v id = Ok ix ->
  exists vals' els', ix = IHash vals' els' fresh.
Proof.
  simpl. destruct (decide (fresh = 0)); [intros [= <-]; eauto|]. destruct (hashable (hkey v)); [|done].
  destruct (h_get vals (hkey v)); [|intros [= <-]; eauto]. destruct (fs_get _ id); intros [= <-]; eauto.
Qed.
Lemma hgiven_add ixs p id ixs' k F : ixs_add ixs p id = Ok ixs' -> hgiven ixs k F ->
  hgiven ixs' k (fun v => F v \/ p !! k = Some v).
Proof.
  intros Ha (vals & els & fresh & H1 & H2 & H3). pose proof (props_loop_key (fun ix v => ix_add ix v id) _ _ _ k Ha) as H.
  rewrite H1 in H. destruct (p !! k) as [v|].
  - destruct H as (ix' & Hadd & Hix). apply hash_added in Hadd as [Hh (vals' & els' & ->)]. exists vals', els', (S fresh).
    split; [done|]. split; [|split; [done|intros Hn; destruct (Hn v); by right]]. intros w [Hw|[= <-]]; auto.
  - exists vals, els, fresh. split; [done|]. split; [intros w [?|?]; [auto|done]|]. rewrite H3. naive_solver.
Qed.
Lemma hgiven_remove ixs p id ixs' k F : ixs_remove ixs p id = Ok ixs' -> hgiven ixs k F -> hgiven ixs' k F.
Proof.
  intros Ha (vals & els & fresh & H1 & H2 & H3). pose proof (props_loop_key (fun ix v => ix_remove ix v id) _ _ _ k Ha) as H.
  rewrite H1 in H. destruct (p !! k) as [v|]; [|by exists vals, els, fresh].
  destruct H as (ix' & Hadd & Hix). apply hash_removed in Hadd as (vals' & els' & ->). by exists vals', els', fresh.
Qed.
Lemma hgiven_update ixs k' old new id ixs' k F : ix_update ixs k' old new id = Ok ixs' -> hgiven ixs k F ->
  hgiven ixs' k (fun v => F v \/ k' = k /\ new = Some v).
Proof.
  intros Hu (vals & els & fresh & H1 & H2 & H3). destruct (decide (k' = k)) as [->|Hne].
  - unfold ix_update in Hu. rewrite H1 in Hu. apply rbind_Ok_inv in Hu as (ix1 & Hr & Hu). apply rbind_Ok_inv in Hu as (ix2 & Ha & [= <-]).
    assert (exists vals' els', ix1 = IHash vals' els' fresh) as (vals' & els' & ->).
    { destruct old as [v|]; [by apply hash_removed in Hr|injection Hr as <-; eauto]. }
    destruct new as [v|].
    + apply hash_added in Ha as [Hh (vals2 & els2 & ->)]. exists vals2, els2, (S fresh). rewrite lookup_insert. split; [done|].
      split; [|split; [done|intros Hn; destruct (Hn v); by right]]. intros w [Hw|[_ [= <-]]]; auto.
    + injection Ha as <-. exists vals', els', fresh. rewrite lookup_insert. split; [done|].
      split; [intros w [?|[_ ?]]; [auto|done]|]. rewrite H3. naive_solver.
  - exists vals, els, fresh. split.
    { unfold ix_update in Hu. destruct (ixs !! k') as [ix|]; [|by injection Hu as <-].
      apply rbind_Ok_inv in Hu as (ix1 & Hr & Hu). apply rbind_Ok_inv in Hu as (ix2 & Ha & [= <-]). by rewrite lookup_insert_ne. }
    split; [intros w [?|[? _]]; [auto|done]|]. rewrite H3. naive_solver.
Qed.
(** building it *)
Lemma hash_scanned (f : nat -> option value) (xs : list nat) : forall vals els fresh ix,
  rfold (fun ix n => match f n with Some v => ix_add ix v n | None => Ok ix end) xs (IHash vals els fresh) = Ok ix ->
  (forall x v, x ∈ xs -> f x = Some v -> hashable (hkey v) = true) /\
  exists vals' els' fresh', ix = IHash vals' els' fresh' /\ (fresh' = 0 <-> fresh = 0 /\ forall x v, x ∈ xs -> f x <> Some v).
Proof.
  induction xs as [|x xs IH]; intros vals els fresh ix; cbn [rfold].
  { intros [= <-]. split; [by intros x v ?%elem_of_nil|]. exists vals, els, fresh. split; [done|]. split; [|by intros [? _]].
    intros ->. split; [done|]. by intros x v ?%elem_of_nil. }
  intros H. apply rbind_Ok_inv in H as (ix1 & H1 & H). destruct (f x) as [v|] eqn:Hf.
  - apply hash_added in H1 as [Hh (vals' & els' & ->)]. destruct (IH _ _ _ _ H) as [I1 (vals2 & els2 & fresh2 & -> & I2)]. split.
    + intros y w [->|Hy]%elem_of_cons Hw; [congruence|by eapply I1].
    + exists vals2, els2, fresh2. split; [done|]. rewrite I2. split; [by intros [? _]|]. intros [_ Hn]. exfalso. apply (Hn x v); [left|done].
  - injection H1 as <-. destruct (IH _ _ _ _ H) as [I1 (vals2 & els2 & fresh2 & -> & I2)]. split.
    + intros y w [->|Hy]%elem_of_cons Hw; [congruence|by eapply I1].
    + exists vals2, els2, fresh2. split; [done|]. rewrite I2. split; (intros [? Hn]; split; [done|]).
      * intros y w [->|Hy]%elem_of_cons; [congruence|by apply Hn].
      * intros y w Hy. apply Hn. by right.
Qed.

(** ** Nodes *)
Lemma node_filed_iff ops o k v : is_Some (node_index ops k) -> node_filed (ops ++ [o]) k v <-> node_filed ops k v \/ writes_node o k v.
Proof.
  intros [t Ht]. rewrite node_filed_snoc. unfold files_node. rewrite node_index_snoc, Ht. naive_solver.
Qed.
Lemma node_filed_indexed ops k v : node_filed ops k v -> is_Some (node_index ops k).
Proof.
  intros (a & o & b & -> & [it Hi] & _). exists it. change (o :: b) with ([o] ++ b). rewrite app_assoc. by apply node_index_prefix.
Qed.
Lemma nhash_run k ops g : valid_history ops -> run ops = Ok g -> node_index ops k = Some HashIndex -> node_scan_safe ops k ->
  hgiven (g_nix g) k (node_filed ops k).
Proof.
  revert ops g. apply (history_ind (fun ops g => node_index ops k = Some HashIndex -> node_scan_safe ops k -> hgiven (g_nix g) k (node_filed ops k))).
  { done. }
  intros ops g o g' Hv Hr IH Ho Hs Hi Hsafe. pose proof (core_run _ _ Hv Hr) as Hc.
  assert (node_scan_safe ops k) as Hsc by (by eapply node_scan_safe_app).
  rewrite node_index_snoc in Hi. destruct (node_index ops k) as [t|] eqn:Hit.
  - injection Hi as ->. specialize (IH eq_refl Hsc).
    assert (forall v, node_filed (ops ++ [o]) k v <-> node_filed ops k v \/ writes_node o k v) as Hf by (intros v; apply node_filed_iff; eauto).
    pose proof (step_nix _ _ _ Hs) as Hx.
    assert (g_nix g' = g_nix g -> (forall v, ~ writes_node o k v) -> hgiven (g_nix g') k (node_filed (ops ++ [o]) k)) as Hsame.
    { intros E Hn. eapply hgiven_ext; [exact IH|by rewrite E|]. intros v. rewrite Hf. specialize (Hn v). naive_solver. }
    destruct o; cbn [writes_node] in Hf; try (apply Hsame; [exact Hx|by intros ? []]).
    + eapply hgiven_ext; [eapply hgiven_add; [exact Hx|exact IH]|done|]. intros v. by rewrite Hf.
    + eapply hgiven_ext; [eapply hgiven_update; [exact Hx|exact IH]|done|]. intros w. rewrite Hf. naive_solver.
    + destruct Hx as [Hx|[v0 Hx]]; [apply Hsame; [exact Hx|by intros ? []]|].
      eapply hgiven_ext; [eapply hgiven_update; [exact Hx|exact IH]|done|]. intros w. rewrite Hf. naive_solver.
    + destruct Hx as [p Hx]. eapply hgiven_ext; [eapply hgiven_remove; [exact Hx|exact IH]|done|]. intros w. rewrite Hf. naive_solver.
    + eapply hgiven_ext; [exact IH| |intros v; rewrite Hf; naive_solver]. apply Hx. destruct IH as (?&?&?&->&_). by eexists.
  - destruct o; try done. destruct (decide (k0 = k)) as [->|]; [|done]. injection Hi as ->.
    assert (forall v, node_filed (ops ++ [OAddNodeIndex k HashIndex]) k v <-> exists n, node_has (srun ops) k v n) as Hf.
    { intros v. rewrite node_filed_snoc. unfold files_node. rewrite node_index_snoc, Hit, decide_True by done. split.
      - intros [H%node_filed_indexed|[_ [[]|[_ ?]]]]; [|done]. rewrite Hit in H. by destruct H.
      - intros ?. right. split; [by eexists|by right]. }
    cbn [step] in Hs. unfold add_node_index in Hs.
    assert (g_nix g !! k = None) as Hg.
    { pose proof (nix_run (fun _ => True) k ops g Hv Hr (fun _ _ => I) Hsc) as Hk. by rewrite Hit in Hk. }
    rewrite Hg in Hs. apply rbind_Ok_inv in Hs as (xs & Hxs & Hs). apply rbind_Ok_inv in Hs as (ix & Hix & [= <-]).
    destruct (get_nodes_ok _ _ Hv Hr (Hsafe ops [] _ eq_refl)) as (ys & Hys & [[Hnd Hin] _]). rewrite Hxs in Hys. injection Hys as <-.
    eapply (rfold_ext' _ (fun ix n => match node_prop g n k with Some v => ix_add ix v n | None => Ok ix end)) in Hix.
    2: { intros ix0 n Hn. apply Hin in Hn as [x Hx]. unfold node_prop, deref_node. destruct (core_node _ _ _ _ Hc Hx) as (nd & -> & _). done. }
    apply hash_scanned in Hix as [Ha (vals & els & fresh & -> & Hfr)].
    assert (forall v, (exists x, x ∈ xs /\ node_prop g x k = Some v) <-> exists n, node_has (srun ops) k v n) as Hp.
    { intros v. split.
      - intros (n & Hn & Hv'). exists n. apply Hin in Hn as [x Hx]. destruct (read_node _ _ Hc _ _ Hx) as [_ E]. exists x. split; [done|]. by rewrite <-E.
      - intros (n & x & Hx & Hv'). exists n. split; [apply Hin; by exists x|]. destruct (read_node _ _ Hc _ _ Hx) as [_ E]. by rewrite E. }
    exists vals, els, fresh. simpl. rewrite lookup_insert. split; [done|]. split.
    + intros v Hv'. apply Hf, Hp in Hv' as (n & Hn & Hv'). by eapply Ha.
    + rewrite Hfr. setoid_rewrite Hf. setoid_rewrite <-Hp. naive_solver.
Qed.

(** ** Edges *)
Lemma edge_filed_iff ops o k v : is_Some (edge_index ops k) -> edge_filed (ops ++ [o]) k v <-> edge_filed ops k v \/ writes_edge o k v.
Proof.
  intros [t Ht]. rewrite edge_filed_snoc. unfold files_edge. rewrite edge_index_snoc, Ht. naive_solver.
Qed.
Lemma edge_filed_indexed ops k v : edge_filed ops k v -> is_Some (edge_index ops k).
Proof.
  intros (a & o & b & -> & [it Hi] & _). exists it. change (o :: b) with ([o] ++ b). rewrite app_assoc. by apply edge_index_prefix.
Qed.
Lemma hgiven_removes k F (E : gmap nat edge) (es : list nat) : forall ixs ixs',
  rfold (fun ixs e => match E !! e with Some ed => ixs_remove ixs (e_props ed) e | None => Panic end) es ixs = Ok ixs' ->
  hgiven ixs k F -> hgiven ixs' k F.
Proof.
  induction es as [|e es IH]; intros ixs ixs'; cbn [rfold]; [by intros [= <-]|]. intros H Hk.
  apply rbind_Ok_inv in H as (ixs1 & H1 & H). destruct (E !! e) as [ed|]; [|done]. eapply IH; [exact H|]. by eapply hgiven_remove.
Qed.
Lemma ehash_run k ops g : valid_history ops -> run ops = Ok g -> edge_index ops k = Some HashIndex -> edge_scan_safe ops k ->
  hgiven (g_eix g) k (edge_filed ops k).
Proof.
  revert ops g. apply (history_ind (fun ops g => edge_index ops k = Some HashIndex -> edge_scan_safe ops k -> hgiven (g_eix g) k (edge_filed ops k))).
  { done. }
  intros ops g o g' Hv Hr IH Ho Hs Hi Hsafe. pose proof (core_run _ _ Hv Hr) as Hc.
  assert (edge_scan_safe ops k) as Hsc by (by eapply edge_scan_safe_app).
  rewrite edge_index_snoc in Hi. destruct (edge_index ops k) as [t|] eqn:Hit.
  - injection Hi as ->. specialize (IH eq_refl Hsc).
    assert (forall v, edge_filed (ops ++ [o]) k v <-> edge_filed ops k v \/ writes_edge o k v) as Hf by (intros v; apply edge_filed_iff; eauto).
    pose proof (step_eix _ _ _ _ Hc Ho Hs) as Hx.
    assert (g_eix g' = g_eix g -> (forall v, ~ writes_edge o k v) -> hgiven (g_eix g') k (edge_filed (ops ++ [o]) k)) as Hsame.
    { intros E Hn. eapply hgiven_ext; [exact IH|by rewrite E|]. intros v. rewrite Hf. specialize (Hn v). naive_solver. }
    destruct o; cbn [writes_edge] in Hf; try (apply Hsame; [exact Hx|by intros ? []]);
      try (destruct Hx as (dropped & _ & _ & Hx); eapply hgiven_ext; [eapply hgiven_removes; [exact Hx|exact IH]|done|]; intros ?; rewrite Hf; naive_solver).
    + eapply hgiven_ext; [eapply hgiven_add; [exact Hx|exact IH]|done|]. intros v. by rewrite Hf.
    + eapply hgiven_ext; [eapply hgiven_update; [exact Hx|exact IH]|done|]. intros w. rewrite Hf. naive_solver.
    + destruct Hx as [Hx|[v0 Hx]]; [apply Hsame; [exact Hx|by intros ? []]|].
      eapply hgiven_ext; [eapply hgiven_update; [exact Hx|exact IH]|done|]. intros w. rewrite Hf. naive_solver.
    + eapply hgiven_ext; [exact IH| |intros v; rewrite Hf; naive_solver]. apply Hx. destruct IH as (?&?&?&->&_). by eexists.
  - destruct o; try done. destruct (decide (k0 = k)) as [->|]; [|done]. injection Hi as ->.
    assert (forall v, edge_filed (ops ++ [OAddEdgeIndex k HashIndex]) k v <-> exists n, edge_has (srun ops) k v n) as Hf.
    { intros v. rewrite edge_filed_snoc. unfold files_edge. rewrite edge_index_snoc, Hit, decide_True by done. split.
      - intros [H%edge_filed_indexed|[_ [[]|[_ ?]]]]; [|done]. rewrite Hit in H. by destruct H.
      - intros ?. right. split; [by eexists|by right]. }
    cbn [step] in Hs. unfold add_edge_index in Hs.
    assert (g_eix g !! k = None) as Hg.
    { pose proof (eix_run (fun _ => True) k ops g Hv Hr (fun _ _ => I) Hsc) as Hk. by rewrite Hit in Hk. }
    rewrite Hg in Hs. apply rbind_Ok_inv in Hs as (xs & Hxs & Hs). apply rbind_Ok_inv in Hs as (ix & Hix & [= <-]).
    destruct (get_edges_ok _ _ Hv Hr (Hsafe ops [] _ eq_refl)) as [(ys & Hys & [Hnd Hin]) _]. rewrite Hxs in Hys. injection Hys as <-.
    eapply (rfold_ext' _ (fun ix n => match edge_prop g n k with Some v => ix_add ix v n | None => Ok ix end)) in Hix.
    2: { intros ix0 n Hn. apply Hin in Hn as [x Hx]. unfold edge_prop, deref_edge. destruct (core_edge _ _ _ _ Hc Hx) as (-> & _). done. }
    apply hash_scanned in Hix as [Ha (vals & els & fresh & -> & Hfr)].
    assert (forall v, (exists x, x ∈ xs /\ edge_prop g x k = Some v) <-> exists n, edge_has (srun ops) k v n) as Hp.
    { intros v. unfold edge_prop. split.
      - intros (n & Hn & Hv'). exists n. apply Hin in Hn as [x Hx]. destruct (core_edge _ _ _ _ Hc Hx) as (E & _). rewrite E in Hv'. by exists x.
      - intros (n & x & Hx & Hv'). exists n. split; [apply Hin; by exists x|]. by destruct (core_edge _ _ _ _ Hc Hx) as (-> & _). }
    exists vals, els, fresh. simpl. rewrite lookup_insert. split; [done|]. split.
    + intros v Hv'. apply Hf, Hp in Hv' as (n & Hn & Hv'). by eapply Ha.
    + rewrite Hfr. setoid_rewrite Hf. setoid_rewrite <-Hp. naive_solver.
Qed.

(** What succeeded was storable. *)
Lemma node_hash_storable ops g k : valid_history ops -> run ops = Ok g -> node_index ops k = Some HashIndex -> node_scan_safe ops k ->
  storable HashIndex (node_filed ops k).
Proof. intros Hv Hr Hi Hs. destruct (nhash_run k ops g Hv Hr Hi Hs) as (?&?&?&_&H&_). by apply storable_hash. Qed.
Lemma edge_hash_storable ops g k : valid_history ops -> run ops = Ok g -> edge_index ops k = Some HashIndex -> edge_scan_safe ops k ->
  storable HashIndex (edge_filed ops k).
Proof. intros Hv Hr Hi Hs. destruct (ehash_run k ops g Hv Hr Hi Hs) as (?&?&?&_&H&_). by apply storable_hash. Qed.

(** ** Which calls panic *)
Lemma hash_only_nix ops k it : hash_only ops -> node_index ops k = Some it -> it = HashIndex.
Proof. induction 1 as [|o ops Ho H IH]; simpl; [done|]. destruct o; try done. destruct (decide _); [by intros [= <-]|done]. Qed.
Lemma hash_only_eix ops k it : hash_only ops -> edge_index ops k = Some it -> it = HashIndex.
Proof. induction 1 as [|o ops Ho H IH]; simpl; [done|]. destruct o; try done. destruct (decide _); [by intros [= <-]|done]. Qed.
Lemma lists_safe_edges ops k : lists_safe ops -> edge_scan_safe ops k.
Proof. intros [H _] a b it ->. by eapply edge_list_safe_prefix. Qed.
Lemma lists_safe_prefix ops1 ops2 : lists_safe (ops1 ++ ops2) -> lists_safe ops1.
Proof. intros [H1 H2]. split; [by eapply edge_list_safe_prefix|]. intros k. eapply node_scan_safe_app, H2. Qed.
Definition all_hashable (ops : list op) : Prop := forall k v, node_filed ops k v \/ edge_filed ops k v -> ~ unhashable v.
Lemma ok_hashable ops g : valid_history ops -> run ops = Ok g -> hash_only ops -> lists_safe ops -> all_hashable ops.
Proof.
  intros Hv Hr Hh Hl k v Hf Hu%unhashable_key. enough (hashable (hkey v) = true) as Htrue by (rewrite Hu in Htrue; done). destruct Hf as [Hf|Hf].
  - destruct (node_filed_indexed _ _ _ Hf) as [it Hi]. pose proof (hash_only_nix _ _ _ Hh Hi) as ->.
    destruct (nhash_run k ops g Hv Hr Hi (proj2 Hl k)) as (?&?&?&_&H&_). by apply H.
  - destruct (edge_filed_indexed _ _ _ Hf) as [it Hi]. pose proof (hash_only_eix _ _ _ Hh Hi) as ->.
    destruct (ehash_run k ops g Hv Hr Hi (lists_safe_edges _ _ Hl)) as (?&?&?&_&H&_). by apply H.
Qed.
Lemma hashable_safe ops : hash_only ops -> lists_safe ops -> all_hashable ops -> calls_safe ops.
Proof.
  intros Hh Hl Ha. split; [apply Hl|]. split.
  - intros k it Hi. pose proof (hash_only_nix _ _ _ Hh Hi) as ->. split; [|apply Hl]. apply storable_hash. intros v Hf.
    apply not_false_is_true. intros Hu%key_unhashable. eapply Ha; [by left|done].
  - intros k it Hi. pose proof (hash_only_eix _ _ _ Hh Hi) as ->. apply storable_hash. intros v Hf.
    apply not_false_is_true. intros Hu%key_unhashable. eapply Ha; [by right|done].
Qed.
Lemma all_hashable_snoc ops o : all_hashable (ops ++ [o]) <-> all_hashable ops /\ ~ files_unhashable ops o.
Proof.
  unfold all_hashable, files_unhashable. setoid_rewrite node_filed_snoc. setoid_rewrite edge_filed_snoc. naive_solver.
Qed.
Lemma ixs_loop_ends f ixs l : (forall ix v, f ix v <> Diverge) -> ixs_loop f ixs l <> Diverge.
Proof.
  intros Hf. revert ixs. induction l as [|kv l IH]; intros ixs; [done|]. unfold ixs_loop. cbn [rfold].
  destruct (ixs !! kv.1) as [ix|]; [|apply IH]. pose proof (Hf ix kv.2). destruct (f ix kv.2); simpl; try done. apply IH.
Qed.
Lemma ixs_add_ends ixs p id : ixs_add ixs p id <> Diverge.
Proof. apply (ixs_loop_ends (fun ix v => ix_add ix v id)). intros. apply ix_add_ends. Qed.
Lemma ix_update_ends ixs k old new id : ix_update ixs k old new id <> Diverge.
Proof.
  unfold ix_update. destruct (ixs !! k) as [ix|]; [|done]. destruct old as [v|]; simpl.
  - pose proof (ix_remove_ends ix v id). destruct (ix_remove ix v id) as [ix1| |]; simpl; try done.
    destruct new as [w|]; simpl; [|done]. pose proof (ix_add_ends ix1 w id). by destruct (ix_add ix1 w id).
  - destruct new as [w|]; simpl; [|done]. pose proof (ix_add_ends ix w id). by destruct (ix_add ix w id).
Qed.
Lemma scan_ends (f : nat -> option value) (xs : list nat) ix :
  rfold (fun ix n => match f n with Some v => ix_add ix v n | None => Ok ix end) xs ix <> Diverge.
Proof.
  revert ix. induction xs as [|x xs IH]; intros ix; cbn [rfold]; [done|]. destruct (f x) as [v|]; simpl; [|apply IH].
  pose proof (ix_add_ends ix v x). destruct (ix_add ix v x); simpl; [apply IH|done|done].
Qed.
Lemma filing_ends ops g o : valid_history ops -> run ops = Ok g -> valid (srun ops) o -> lists_safe (ops ++ [o]) ->
  files_unhashable ops o -> step g o <> Diverge.
Proof.
  intros Hv Hr Ho Hl (k & v & _ & Hf). pose proof (core_run _ _ Hv Hr) as Hc.
  assert (match o with ONewNode _ _ _ | ONewEdge _ _ _ _ | OSetNodeProp _ _ _ | OSetEdgeProp _ _ _ | OAddNodeIndex _ _ | OAddEdgeIndex _ _ => True | _ => False end) as Hk.
  { unfold files_node, files_edge in Hf. rewrite node_index_snoc, edge_index_snoc in Hf.
    destruct o; try exact I; simpl in Hf; destruct Hf as [[Hi [[]|[Hn _]]]|[Hi [[]|[Hn _]]]]; rewrite Hn in Hi; by destruct Hi. }
  destruct o; try done; cbn [step]; clear Hk Hf.
  - unfold new_node. set (g1 := bump _). destruct (nl_add _ _ _) as [l L]. cbn zeta.
    match goal with |- context [ixs_add ?a ?b ?c] => pose proof (ixs_add_ends a b c) as H; destruct (ixs_add a b c) end; done.
  - destruct Ho as [H1 H2]. destruct (new_edge_parts ops g from to label p Hv Hr (proj1 (lists_safe_prefix _ _ Hl)) H1 H2) as [g3 ->].
    pose proof (ixs_add_ends (g_eix g) p (g_next g)). by destruct (ixs_add (g_eix g) p (g_next g)).
  - destruct Ho as [x Hx]. unfold set_node_prop, deref_node. destruct (core_node _ _ _ _ Hc Hx) as (nd & -> & _). cbn [rbind].
    match goal with |- context [ix_update ?a ?b ?c ?d ?e] => pose proof (ix_update_ends a b c d e) as H; destruct (ix_update a b c d e) end; done.
  - destruct Ho as [x Hx]. unfold set_edge_prop, deref_edge. destruct (core_edge _ _ _ _ Hc Hx) as (-> & _). cbn [rbind].
    match goal with |- context [ix_update ?a ?b ?c ?d ?e] => pose proof (ix_update_ends a b c d e) as H; destruct (ix_update a b c d e) end; done.
  - unfold add_node_index. destruct (g_nix g !! k0); [done|].
    destruct (get_nodes_ok _ _ Hv Hr (proj2 Hl k0 ops [] it eq_refl)) as (xs & -> & [[Hnd Hin] _]). cbn [rbind].
    rewrite (rfold_ext_ok _ (fun ix n => match node_prop g n k0 with Some v => ix_add ix v n | None => Ok ix end)).
    2: { intros ix0 n Hn. apply Hin in Hn as [x Hx]. unfold node_prop, deref_node. destruct (core_node _ _ _ _ Hc Hx) as (nd & -> & _). done. }
    match goal with |- context [rfold ?f xs ?i] => pose proof (scan_ends (fun n => node_prop g n k0) xs i) as H; by destruct (rfold f xs i) end.
  - unfold add_edge_index. destruct (g_eix g !! k0); [done|].
    destruct (get_edges_ok _ _ Hv Hr (lists_safe_edges _ k0 Hl ops [] it eq_refl)) as [(xs & -> & [Hnd Hin]) _]. cbn [rbind].
    rewrite (rfold_ext_ok _ (fun ix n => match edge_prop g n k0 with Some v => ix_add ix v n | None => Ok ix end)).
    2: { intros ix0 n Hn. apply Hin in Hn as [x Hx]. unfold edge_prop, deref_edge. destruct (core_edge _ _ _ _ Hc Hx) as (-> & _). done. }
    match goal with |- context [rfold ?f xs ?i] => pose proof (scan_ends (fun n => edge_prop g n k0) xs i) as H; by destruct (rfold f xs i) end.
Qed.
(** whether a call gives an index an unhashable value can be found out *)
Lemma map_search {A} (m : gmap nat A) (P : nat -> A -> Prop) `{!forall k x, Decision (P k x)} :
  (exists k x, m !! k = Some x /\ P k x) \/ ~ exists k x, m !! k = Some x /\ P k x.
Proof.
  destruct (decide (Exists (fun kx => P kx.1 kx.2) (map_to_list m))) as [HE|HE]; [left|right].
  - apply Exists_exists in HE as ([k x] & Hin & HE). exists k, x. split; [by apply elem_of_map_to_list|done].
  - intros (k & x & Hm & HP). apply HE, Exists_exists. exists (k, x). split; [by apply elem_of_map_to_list|done].
Qed.
Lemma props_search (m : props) (P : string -> value -> Prop) `{!forall k x, Decision (P k x)} :
  (exists k x, m !! k = Some x /\ P k x) \/ ~ exists k x, m !! k = Some x /\ P k x.
Proof.
  destruct (decide (Exists (fun kx => P kx.1 kx.2) (map_to_list m))) as [HE|HE]; [left|right].
  - apply Exists_exists in HE as ([k x] & Hin & HE). exists k, x. split; [by apply elem_of_map_to_list|done].
  - intros (k & x & Hm & HP). apply HE, Exists_exists. exists (k, x). split; [by apply elem_of_map_to_list|done].
Qed.
Lemma files_unhashable_cases ops o : files_unhashable ops o \/ ~ files_unhashable ops o.
Proof.
  assert (Hdu : forall v, Decision (unhashable v)) by (intros v; unfold unhashable; apply _).
  assert (Hdo : forall (p : props) k, Decision (exists v, p !! k = Some v /\ unhashable v)).
  { intros p k. destruct (p !! k) as [v|]; [destruct (decide (unhashable v)); [left; eauto|right; naive_solver]|right; naive_solver]. }
  assert ((exists k v, unhashable v /\ files_node ops o k v) \/ ~ exists k v, unhashable v /\ files_node ops o k v) as Hn.
  { unfold files_node. setoid_rewrite node_index_snoc.
    assert ((forall k v, ~ writes_node o k v) -> (forall k it, o <> OAddNodeIndex k it) ->
      ~ exists k v, unhashable v /\ is_Some match node_index ops k with Some it => Some it | None =>
        match o with OAddNodeIndex k' it => if decide (k' = k) then Some it else None | _ => None end end /\
        (writes_node o k v \/ node_index ops k = None /\ exists n, node_has (srun ops) k v n)) as Hno.
    { intros H1 H2 (k & v & _ & Hi & [Hw|[Hn _]]); [by apply H1 in Hw|]. rewrite Hn in Hi. destruct o; try by destruct Hi. by eapply H2. }
    destruct o; try (right; apply Hno; [by intros ? ? []|done]); clear Hno; cbn [writes_node].
    - destruct (props_search p (fun k v => unhashable v /\ is_Some (node_index ops k))) as [(k & v & Hp & Hu & Hi)|Hn].
      + left. exists k, v. split; [done|]. split; [destruct Hi as [t ->]; by eexists|by left].
      + right. intros (k & v & Hu & Hi & [Hp|[Hni _]]); [apply Hn; exists k, v; split; [done|]; split; [done|]|rewrite Hni in Hi; by destruct Hi].
        destruct (node_index ops k); [by eexists|by destruct Hi].
    - destruct (decide (unhashable v /\ is_Some (node_index ops k))) as [[Hu Hi]|Hn].
      + left. exists k, v. split; [done|]. split; [destruct Hi as [t ->]; by eexists|by left].
      + right. intros (k' & v' & Hu & Hi & [[<- <-]|[Hni _]]); [|rewrite Hni in Hi; by destruct Hi].
        apply Hn. split; [done|]. destruct (node_index ops k); [by eexists|by destruct Hi].
    - destruct (node_index ops k) as [t|] eqn:Hni.
      { right. intros (k' & v' & Hu & Hi & [[]|[Hn _]]). rewrite Hn in Hi. destruct (decide (k = k')) as [<-|]; [congruence|by destruct Hi]. }
      destruct (map_search (s_nodes (srun ops)) (fun _ x => exists v, sn_props x !! k = Some v /\ unhashable v)) as [(n & x & Hx & v & Hv & Hu)|Hn].
      + left. exists k, v. split; [done|]. split; [rewrite Hni, decide_True by done; by eexists|]. right. split; [done|]. by exists n, x.
      + right. intros (k' & v' & Hu & Hi & [[]|[Hn' (n & x & Hx & Hv)]]). rewrite Hn' in Hi. destruct (decide (k = k')) as [<-|]; [|by destruct Hi].
        apply Hn. exists n, x. split; [done|]. by exists v'. }
  assert ((exists k v, unhashable v /\ files_edge ops o k v) \/ ~ exists k v, unhashable v /\ files_edge ops o k v) as He.
  { unfold files_edge. setoid_rewrite edge_index_snoc.
    assert ((forall k v, ~ writes_edge o k v) -> (forall k it, o <> OAddEdgeIndex k it) ->
      ~ exists k v, unhashable v /\ is_Some match edge_index ops k with Some it => Some it | None =>
        match o with OAddEdgeIndex k' it => if decide (k' = k) then Some it else None | _ => None end end /\
        (writes_edge o k v \/ edge_index ops k = None /\ exists n, edge_has (srun ops) k v n)) as Hno.
    { intros H1 H2 (k & v & _ & Hi & [Hw|[Hne _]]); [by apply H1 in Hw|]. rewrite Hne in Hi. destruct o; try by destruct Hi. by eapply H2. }
    destruct o; try (right; apply Hno; [by intros ? ? []|done]); clear Hno; cbn [writes_edge].
    - destruct (props_search p (fun k v => unhashable v /\ is_Some (edge_index ops k))) as [(k & v & Hp & Hu & Hi)|Hne].
      + left. exists k, v. split; [done|]. split; [destruct Hi as [t ->]; by eexists|by left].
      + right. intros (k & v & Hu & Hi & [Hp|[Hni _]]); [apply Hne; exists k, v; split; [done|]; split; [done|]|rewrite Hni in Hi; by destruct Hi].
        destruct (edge_index ops k); [by eexists|by destruct Hi].
    - destruct (decide (unhashable v /\ is_Some (edge_index ops k))) as [[Hu Hi]|Hne].
      + left. exists k, v. split; [done|]. split; [destruct Hi as [t ->]; by eexists|by left].
      + right. intros (k' & v' & Hu & Hi & [[<- <-]|[Hni _]]); [|rewrite Hni in Hi; by destruct Hi].
        apply Hne. split; [done|]. destruct (edge_index ops k); [by eexists|by destruct Hi].
    - destruct (edge_index ops k) as [t|] eqn:Hni.
      { right. intros (k' & v' & Hu & Hi & [[]|[Hne _]]). rewrite Hne in Hi. destruct (decide (k = k')) as [<-|]; [congruence|by destruct Hi]. }
      destruct (map_search (s_edges (srun ops)) (fun _ x => exists v, e_props x !! k = Some v /\ unhashable v)) as [(n & x & Hx & v & Hv & Hu)|Hne].
      + left. exists k, v. split; [done|]. split; [rewrite Hni, decide_True by done; by eexists|]. right. split; [done|]. by exists n, x.
      + right. intros (k' & v' & Hu & Hi & [[]|[Hn' (n & x & Hx & Hv)]]). rewrite Hn' in Hi. destruct (decide (k = k')) as [<-|]; [|by destruct Hi].
        apply Hne. exists n, x. split; [done|]. by exists v'. }
  unfold files_unhashable. destruct Hn as [(k & v & ? & ?)|Hn]; [left; naive_solver|]. destruct He as [(k & v & ? & ?)|He]; [left; naive_solver|right; naive_solver].
Qed.
Theorem hash_calls ops g o : valid_history ops -> run ops = Ok g -> valid (srun ops) o -> hash_only (ops ++ [o]) -> lists_safe (ops ++ [o]) ->
  (step g o = Panic <-> files_unhashable ops o) /\ ((exists g', step g o = Ok g') <-> ~ files_unhashable ops o).
Proof.
  intros Hv Hr Ho Hh Hl.
  assert (all_hashable ops) as Ha.
  { eapply ok_hashable; [done|exact Hr| |by eapply lists_safe_prefix]. by apply Forall_app in Hh as [? _]. }
  assert ((exists g', step g o = Ok g') -> ~ files_unhashable ops o) as H1.
  { intros [g' Hs]. apply (all_hashable_snoc ops o). eapply (ok_hashable _ g'); [by apply valid_history_snoc|by rewrite run_snoc, Hr|done|done]. }
  assert (~ files_unhashable ops o -> exists g', step g o = Ok g') as H2.
  { intros Hn. eapply step_progress; try done. apply hashable_safe; [done|done|]. by apply all_hashable_snoc. }
  split; [|done]. split.
  - intros Hp. destruct (files_unhashable_cases ops o) as [?|Hn]; [done|]. destruct (H2 Hn) as [g' E]. by rewrite Hp in E.
  - intros Hf. pose proof (filing_ends ops g o Hv Hr Ho Hl Hf) as Hd. destruct (step g o) as [g'| |]; [|done|done]. exfalso. apply H1; eauto.
Qed.
Theorem hash_histories ops : valid_history ops -> hash_only ops -> lists_safe ops ->
  (exists g, run ops = Ok g) <-> forall k v, node_filed ops k v \/ edge_filed ops k v -> ~ unhashable v.
Proof.
  intros Hv Hh Hl. split; [intros [g Hr]; by eapply ok_hashable|]. intros Ha. apply run_progress; [done|]. by apply hashable_safe.
Qed.

(** ** Asking for an unhashable value *)
Lemma hgiven_find ixs k F v : hgiven ixs k F -> unhashable v -> exists ix, ixs !! k = Some ix /\
  ((exists w, F w) -> ix_find ix v = Panic) /\ ((forall w, ~ F w) -> ix_find ix v = Ok ([], 0%Z)).
Proof.
  intros (vals & els & fresh & H1 & _ & H3) Hu%unhashable_key. eexists. split; [exact H1|]. simpl. rewrite Hu. split.
  - intros [w Hw]. rewrite decide_False; [done|]. intros E. by eapply (proj1 H3 E).
  - intros Hn. rewrite decide_True; [done|]. by apply H3.
Qed.
Lemma find_nodes_unhashable ops g L p lord pord qord ford k v :
  valid_history ops -> run ops = Ok g -> L <> ∅ -> order_of L lord -> order_of (dom p) pord ->
  p !! k = Some v -> unhashable v -> node_index ops k = Some HashIndex -> node_scan_safe ops k ->
  (exists w, node_filed ops k w) -> find_nodes g L p lord pord qord ford = Panic.
Proof.
  intros Hv Hr HL Hl Ho Hp Hu Hi Hsafe Hw. unfold find_nodes.
  rewrite decide_False by naive_solver. rewrite decide_False by done.
  destruct (get_nodes_all_labels_ok _ _ _ _ Hv Hr HL Hl) as (lxs & lsz & -> & _). simpl.
  destruct (hgiven_find _ _ _ _ (nhash_run k ops g Hv Hr Hi Hsafe) Hu) as (ix & Hix & H1 & _).
  rewrite (prop_iters_refused _ p pord k v ix); [done| |done|done|by apply H1].
  apply Ho. apply elem_of_dom. by eexists.
Qed.
Lemma find_edges_unhashable ops g L p lord pord qord ford k v :
  valid_history ops -> run ops = Ok g -> edge_list_safe ops -> L <> ∅ -> order_of L lord -> order_of (dom p) pord ->
  p !! k = Some v -> unhashable v -> edge_index ops k = Some HashIndex -> edge_scan_safe ops k ->
  (exists w, edge_filed ops k w) -> find_edges g L p lord pord qord ford = Panic.
Proof.
  intros Hv Hr Hs HL Hl Ho Hp Hu Hi Hsafe Hw. unfold find_edges.
  rewrite decide_False by naive_solver. rewrite decide_False by done.
  destruct (get_edges_any_label_ok _ _ _ _ Hv Hr Hs Hl) as (lxs & -> & _). simpl.
  destruct (hgiven_find _ _ _ _ (ehash_run k ops g Hv Hr Hi Hsafe) Hu) as (ix & Hix & H1 & _).
  rewrite (prop_iters_refused _ p pord k v ix); [done| |done|done|by apply H1].
  apply Ho. apply elem_of_dom. by eexists.
Qed.
Lemma order_one (k : string) ord : order_of {[k]} ord -> ord = [k].
Proof.
  intros [Hnd Hin]. destruct ord as [|a [|b ord]].
  - exfalso. apply (not_elem_of_nil k). apply Hin. set_solver.
  - assert (a ∈ ({[k]} : gset string)) as H by (apply Hin; left). apply elem_of_singleton in H as ->. done.
  - assert (a ∈ ({[k]} : gset string)) as H by (apply Hin; left). assert (b ∈ ({[k]} : gset string)) as H' by (apply Hin; right; left).
    apply elem_of_singleton in H as ->. apply elem_of_singleton in H' as ->. apply NoDup_cons in Hnd as [Hn _]. destruct Hn. left.
Qed.
Lemma ask_one (ixs : gmap string index) k v ix : ixs !! k = Some ix -> ix_find ix v = Ok ([], 0%Z) ->
  prop_iters ixs {[k := v]} [k] = Ok {[k := ([], 0%Z)]} /\ min_iter {[k := ([], 0%Z)]} [k] = Some ([], 0%Z).
Proof.
  intros Hix Hf. unfold prop_iters, min_iter. cbn [rfold fold_left]. rewrite !lookup_singleton, Hix, Hf. cbn [rbind].
  split; [done|]. by rewrite decide_False by lia.
Qed.
Lemma find_nodes_unused ops g L lord pord qord ford k v :
  valid_history ops -> run ops = Ok g -> L <> ∅ -> order_of L lord -> order_of {[k]} pord -> order_of {[k]} qord ->
  unhashable v -> node_index ops k = Some HashIndex -> node_scan_safe ops k ->
  (forall w, ~ node_filed ops k w) -> find_nodes g L {[k := v]} lord pord qord ford = Ok ([], 0%Z).
Proof.
  intros Hv Hr HL Hl Hpo Hqo Hu Hi Hsafe Hw. unfold find_nodes.
  rewrite decide_False by naive_solver. rewrite decide_False by done.
  destruct (get_nodes_all_labels_ok _ _ _ _ Hv Hr HL Hl) as (lxs & lsz & -> & _ & Hsz). cbn [rbind].
  destruct (hgiven_find _ _ _ _ (nhash_run k ops g Hv Hr Hi Hsafe) Hu) as (ix & Hix & _ & H1).
  apply order_one in Hpo as ->. apply order_one in Hqo as ->.
  destruct (ask_one _ _ v ix Hix (H1 Hw)) as [-> E]. cbn [rbind]. unfold choose. rewrite E. cbn [snd].
  rewrite bool_decide_eq_false_2 by lia. done.
Qed.
Lemma find_edges_unused ops g L lord pord qord ford k v :
  valid_history ops -> run ops = Ok g -> edge_list_safe ops -> L <> ∅ -> order_of L lord -> order_of {[k]} pord -> order_of {[k]} qord ->
  unhashable v -> edge_index ops k = Some HashIndex -> edge_scan_safe ops k ->
  (forall w, ~ edge_filed ops k w) -> find_edges g L {[k := v]} lord pord qord ford = Ok ([], 0%Z).
Proof.
  intros Hv Hr Hs HL Hl Hpo Hqo Hu Hi Hsafe Hw. unfold find_edges.
  rewrite decide_False by naive_solver. rewrite decide_False by done.
  destruct (get_edges_any_label_ok _ _ _ _ Hv Hr Hs Hl) as (lxs & -> & _). cbn [rbind].
  destruct (hgiven_find _ _ _ _ (ehash_run k ops g Hv Hr Hi Hsafe) Hu) as (ix & Hix & _ & H1).
  apply order_one in Hpo as ->. apply order_one in Hqo as ->.
  destruct (ask_one _ _ v ix Hix (H1 Hw)) as [-> E]. cbn [rbind]. unfold choose. rewrite E. cbn [snd].
  rewrite bool_decide_eq_false_2; [done|]. unfold em_iter_any_size. repeat case_decide; try lia. destruct (em_only _); [|lia]. case_decide; lia.
Qed.

(** for the examples *)
Definition scans_all (ops : list op) : Prop :=
  Forall (fun i => match ops !! i with Some (OAddNodeIndex _ _) => node_list_safe (take i ops) | _ => True end) (seq 0 (length ops)).
Global Instance scans_all_dec ops : Decision (scans_all ops).
Proof. apply Forall_dec. intros i. destruct (ops !! i) as [[]|]; apply _. Defined.
Lemma scans_lists_safe ops : edge_list_safe ops -> scans_all ops -> lists_safe ops.
Proof.
  intros He H. split; [done|]. intros k ops1 ops2 it E. unfold scans_all in H. rewrite Forall_forall in H. specialize (H (length ops1)).
  rewrite E in H at 2. rewrite E in H. rewrite list_lookup_middle in H by done. rewrite take_app in H.
  apply H. apply elem_of_seq. rewrite app_length. simpl. lia.
Qed.
Lemma files_nothing ops o : (forall k v, ~ writes_node o k v) -> (forall k v, ~ writes_edge o k v) ->
  (forall k v it n, o = OAddNodeIndex k it -> node_index ops k = None -> ~ node_has (srun ops) k v n) ->
  (forall k v it e, o = OAddEdgeIndex k it -> edge_index ops k = None -> ~ edge_has (srun ops) k v e) -> ~ files_unhashable ops o.
Proof.
  intros H1 H2 H3 H4 (k & v & _ & [[Hi [Hw|[Hn [n Hh]]]]|[Hi [Hw|[Hn [n Hh]]]]]); [by eapply H1| |by eapply H2|].
  - rewrite node_index_snoc, Hn in Hi. destruct o; try by destruct Hi. destruct (decide _) as [->|]; [|by destruct Hi]. by eapply H3.
  - rewrite edge_index_snoc, Hn in Hi. destruct o; try by destruct Hi. destruct (decide _) as [->|]; [|by destruct Hi]. by eapply H4.
Qed.
