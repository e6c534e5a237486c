(** The property indexes of a graph. *)
From Verif Require Import Base Value ValueProofs FastSet FastSetProofs Links EdgeMap NodeMap Index Graph GraphSpec.
From Verif Require Import LinksProofs EdgeMapProofs IndexProofs CoreProofs CoreStep AdjProofs ReadProofs NodeListProofs EdgeListProofs.

Lemma storable_domain it D : storable it D <-> ix_domain it D.
Proof.
  destruct it; simpl; [done|]. split; intros H v Hv; specialize (H v Hv); by destruct v.
Qed.

(** [ix] holds exactly the pairs satisfying [P] *)
Definition holds (D : value -> Prop) (ix : index) (P : nat -> value -> Prop) : Prop :=
  exists c, ix_rep D ix c /\ forall i v, c !! i = Some v <-> P i v.

Section holds.
  Context (D : value -> Prop).
  Lemma holds_ext ix P Q : holds D ix P -> (forall i v, P i v <-> Q i v) -> holds D ix Q.
  Proof. intros (c & Hc & H) HQ. exists c. split; [done|]. intros i v. by rewrite H. Qed.
  Lemma holds_new it P : (forall i v, ~ P i v) -> holds D (ix_new it) P.
  Proof.
    intros H. exists ∅. split; [apply ix_rep_new|]. intros i v. rewrite lookup_empty.
    split; [done|]. by intros ?%H.
  Qed.
  Lemma holds_add ix P id v :
    ix_domain (ix_type ix) D -> holds D ix P -> D v -> (forall w, ~ P id w) ->
    exists ix', ix_add ix v id = Ok ix' /\ ix_type ix' = ix_type ix /\
      holds D ix' (fun i w => i = id /\ w = v \/ i <> id /\ P i w).
  Proof.
    intros HD (c & Hc & H) Hv Hid. assert (c !! id = None) as Hn.
    { destruct (c !! id) as [w|] eqn:E; [|done]. apply H in E. by apply Hid in E. }
    destruct (ix_add_ok D ix c id v HD Hc Hv Hn) as (ix' & Ha & Hr & Ht). exists ix'.
    split; [done|]. split; [done|]. exists (<[id := v]> c). split; [done|].
    intros i w. rewrite lookup_insert_Some, <- H. naive_solver.
  Qed.
  Lemma holds_remove ix P id v :
    ix_domain (ix_type ix) D -> holds D ix P -> P id v ->
    exists ix', ix_remove ix v id = Ok ix' /\ ix_type ix' = ix_type ix /\
      holds D ix' (fun i w => i <> id /\ P i w).
  Proof.
    intros HD (c & Hc & H) Hid. destruct (ix_remove_ok D ix c id v HD Hc (proj2 (H _ _) Hid)) as (ix' & Ha & Hr & Ht).
    exists ix'. split; [done|]. split; [done|]. exists (delete id c). split; [done|].
    intros i w. rewrite lookup_delete_Some, <- H. naive_solver.
  Qed.
  Lemma holds_values ix P : holds D ix P -> lists (fun i => exists v, P i v) (ix_values ix).1.
  Proof.
    intros (c & Hc & H). destruct (ix_values_ok D ix c Hc) as (H1 & H2 & _). split; [done|].
    intros i. rewrite H2. split; intros [v Hv]; exists v; by apply H.
  Qed.
End holds.

(** The loops over the properties of an object act on each index separately. *)
Definition ixs_loop (f : index -> value -> res index) (ixs : gmap string index) (l : list (string * value)) :=
  rfold (fun ixs kv =>
    match ixs !! kv.1 with
    | None => Ok ixs
    | Some ix => let! ix' := f ix kv.2 in Ok (<[kv.1 := ix']> ixs)
    end) l ixs.
Lemma ixs_loop_key f ixs l ixs' k :
  NoDup l.*1 -> ixs_loop f ixs l = Ok ixs' ->
  match ixs !! k with
  | None => ixs' !! k = None
  | Some ix => (forall v, (k, v) ∈ l -> exists ix', f ix v = Ok ix' /\ ixs' !! k = Some ix') /\
               ((forall v, (k, v) ∉ l) -> ixs' !! k = Some ix)
  end.
Proof.
  unfold ixs_loop. revert ixs. induction l as [|[k0 v0] l IH]; intros ixs Hnd Hr; simpl in Hr.
  { injection Hr as <-. destruct (ixs !! k); [|done]. split; [by intros v ?%elem_of_nil|done]. }
  apply NoDup_cons in Hnd as [Hni Hnd]. apply rbind_Ok_inv in Hr as (ixs1 & H1 & Hr).
  specialize (IH _ Hnd Hr). clear Hr. simpl in H1.
  destruct (decide (k = k0)) as [->|Hne].
  - assert (forall v, (k0, v) ∉ l) as Hno. { intros v Hv. apply Hni. apply elem_of_list_fmap. by exists (k0, v). }
    destruct (ixs !! k0) as [ix|] eqn:Hk0.
    + apply rbind_Ok_inv in H1 as (ix1 & Hf & [= <-]). rewrite lookup_insert in IH. destruct IH as [_ IH].
      split; [|intros Hno'; destruct (Hno' v0); set_solver].
      intros v [[= ->]|Hv]%elem_of_cons; [eauto|]. by apply Hno in Hv.
    + injection H1 as <-. by rewrite Hk0 in IH.
  - assert (ixs1 !! k = ixs !! k) as E.
    { destruct (ixs !! k0); [|by injection H1 as <-]. apply rbind_Ok_inv in H1 as (ix1 & Hf & [= <-]).
      by rewrite lookup_insert_ne. }
    rewrite E in IH. destruct (ixs !! k) as [ix|]; [|done]. destruct IH as [I1 I2]. split.
    + intros v [[= ? ?]|Hv]%elem_of_cons; [done|by apply I1].
    + intros Hno. apply I2. intros v Hv. apply (Hno v). by apply elem_of_cons; right.
Qed.
Lemma ixs_loop_progress f ixs l :
  NoDup l.*1 -> (forall k v ix, (k, v) ∈ l -> ixs !! k = Some ix -> exists ix', f ix v = Ok ix') ->
  exists ixs', ixs_loop f ixs l = Ok ixs'.
Proof.
  unfold ixs_loop. revert ixs. induction l as [|[k0 v0] l IH]; intros ixs Hnd Hf; simpl; [eauto|].
  apply NoDup_cons in Hnd as [Hni Hnd].
  assert (forall v, (k0, v) ∉ l) as Hno. { intros v Hv. apply Hni. apply elem_of_list_fmap. by exists (k0, v). }
  destruct (ixs !! k0) as [ix|] eqn:Hk0; simpl.
  - destruct (Hf k0 v0 ix ltac:(set_solver) Hk0) as [ix' ->]. simpl. apply IH; [done|].
    intros k v ix1 Hin. destruct (decide (k = k0)) as [->|Hne]; [by apply Hno in Hin|].
    rewrite lookup_insert_ne by done. apply Hf. by apply elem_of_cons; right.
  - apply IH; [done|]. intros k v ix1 Hin. apply Hf. by apply elem_of_cons; right.
Qed.
Lemma props_loop_key f ixs (p : props) ixs' k :
  ixs_loop f ixs (map_to_list p) = Ok ixs' ->
  match ixs !! k with
  | None => ixs' !! k = None
  | Some ix => match p !! k with
               | Some v => exists ix', f ix v = Ok ix' /\ ixs' !! k = Some ix'
               | None => ixs' !! k = Some ix
               end
  end.
Proof.
  intros H. pose proof (ixs_loop_key f ixs _ ixs' k (NoDup_fst_map_to_list p) H) as Hk.
  destruct (ixs !! k) as [ix|]; [|done]. destruct Hk as [H1 H2]. destruct (p !! k) as [v|] eqn:E.
  - apply H1. by apply elem_of_map_to_list.
  - apply H2. intros v. rewrite elem_of_map_to_list, E. done.
Qed.
Lemma props_loop_progress f ixs (p : props) :
  (forall k v ix, p !! k = Some v -> ixs !! k = Some ix -> exists ix', f ix v = Ok ix') ->
  exists ixs', ixs_loop f ixs (map_to_list p) = Ok ixs'.
Proof.
  intros H. apply ixs_loop_progress; [apply NoDup_fst_map_to_list|].
  intros k v ix Hin%elem_of_map_to_list. by apply H.
Qed.

(** An index map on key [k]: either no index, or one of type [it] holding [P]. *)
Definition kix (D : value -> Prop) (ixs : gmap string index) (k : string) (it : option index_type) (P : nat -> value -> Prop) : Prop :=
  match it with
  | None => ixs !! k = None
  | Some t => ix_domain t D -> exists ix, ixs !! k = Some ix /\ ix_type ix = t /\ holds D ix P
  end.
(** [None] part also for types whose domain condition fails: the index exists *)
Definition kdom (ixs : gmap string index) (k : string) (it : option index_type) : Prop :=
  ix_type <$> ixs !! k = it.

Section key.
  Context (D : value -> Prop) (k : string).

  Lemma kix_ext ixs it P Q : kix D ixs k it P -> (forall i v, P i v <-> Q i v) -> kix D ixs k it Q.
  Proof.
    destruct it as [t|]; simpl; [|done]. intros H HQ Hd. destruct (H Hd) as (ix & ? & ? & ?).
    exists ix. split; [done|]. split; [done|]. by eapply holds_ext.
  Qed.
  Lemma kix_add ixs it P p id ixs' :
    ixs_add ixs p id = Ok ixs' -> kix D ixs k it P -> (forall w, ~ P id w) ->
    (forall v, is_Some it -> p !! k = Some v -> D v) ->
    kix D ixs' k it (fun i w => i = id /\ p !! k = Some w \/ i <> id /\ P i w).
  Proof.
    intros Ha Hk Hid HD. pose proof (props_loop_key (fun ix v => ix_add ix v id) _ _ _ k Ha) as H.
    destruct it as [t|]; simpl in *; [|by rewrite Hk in H].
    intros Hd. destruct (Hk Hd) as (ix & Hix & Ht & Hh). rewrite Hix in H.
    destruct (p !! k) as [v|] eqn:E.
    - destruct H as (ix' & Hadd & ->). rewrite <- Ht in Hd.
      destruct (holds_add D ix P id v Hd Hh (HD v (mk_is_Some _ _ eq_refl) eq_refl) Hid) as (ix2 & Hadd2 & Ht2 & Hh2).
      assert (ix2 = ix') as -> by congruence. exists ix'. split; [done|]. split; [congruence|].
      eapply holds_ext; [exact Hh2|]. naive_solver.
    - exists ix. split; [done|]. split; [done|]. eapply holds_ext; [exact Hh|].
      intros i w. split; [|naive_solver]. intros HP. right. split; [|done]. intros ->. by eapply Hid.
  Qed.
  Lemma kix_remove ixs it P p id ixs' :
    ixs_remove ixs p id = Ok ixs' -> kix D ixs k it P -> (forall w, P id w <-> p !! k = Some w) ->
    kix D ixs' k it (fun i w => i <> id /\ P i w).
  Proof.
    intros Ha Hk Hid. pose proof (props_loop_key (fun ix v => ix_remove ix v id) _ _ _ k Ha) as H.
    destruct it as [t|]; simpl in *; [|by rewrite Hk in H].
    intros Hd. destruct (Hk Hd) as (ix & Hix & Ht & Hh). rewrite Hix in H.
    destruct (p !! k) as [v|] eqn:E.
    - destruct H as (ix' & Hadd & ->). rewrite <- Ht in Hd.
      destruct (holds_remove D ix P id v Hd Hh) as (ix2 & Hadd2 & Ht2 & Hh2); [by apply Hid|].
      assert (ix2 = ix') as -> by congruence. exists ix'. split; [done|]. split; [congruence|done].
    - exists ix. split; [done|]. split; [done|]. eapply holds_ext; [exact Hh|].
      intros i w. split; [|naive_solver]. intros HP. split; [|done]. intros ->. apply Hid in HP. done.
  Qed.
  Lemma kix_update ixs it P k' old new id ixs' :
    ix_update ixs k' old new id = Ok ixs' -> kix D ixs k it P ->
    (k' = k -> (forall w, P id w <-> old = Some w) /\ (forall v, is_Some it -> new = Some v -> D v)) ->
    kix D ixs' k it (fun i w => if decide (k' = k) then i = id /\ new = Some w \/ i <> id /\ P i w else P i w).
  Proof.
    unfold ix_update. intros Hu Hk Hold. destruct (decide (k' = k)) as [->|Hne].
    - destruct (Hold eq_refl) as [Hid HD]. destruct it as [t|]; simpl in *.
      2: { rewrite Hk in Hu. by injection Hu as <-. }
      intros Hd. destruct (Hk Hd) as (ix & Hix & Ht & Hh). rewrite Hix in Hu.
      apply rbind_Ok_inv in Hu as (ix1 & H1 & Hu). apply rbind_Ok_inv in Hu as (ix2 & H2 & [= <-]).
      exists ix2. rewrite lookup_insert. split; [done|].
      assert (ix_type ix1 = t /\ holds D ix1 (fun i w => i <> id /\ P i w)) as [Ht1 Hh1].
      { destruct old as [v|].
        - rewrite <- Ht in Hd. destruct (holds_remove D ix P id v Hd Hh) as (ix' & ? & ? & ?); [by apply Hid|].
          assert (ix1 = ix') as -> by congruence. split; [congruence|done].
        - injection H1 as <-. split; [done|]. eapply holds_ext; [exact Hh|]. intros i w. split; [|naive_solver].
          intros HP. split; [|done]. intros ->. by apply Hid in HP. }
      destruct new as [v|].
      + rewrite <- Ht1 in Hd. destruct (holds_add D ix1 _ id v Hd Hh1) as (ix' & ? & ? & Hh'); [by apply HD; [eexists|]|naive_solver|].
        assert (ix2 = ix') as -> by congruence. split; [congruence|]. eapply holds_ext; [exact Hh'|]. naive_solver.
      + injection H2 as <-. split; [done|]. eapply holds_ext; [exact Hh1|]. naive_solver.
    - assert (ixs' !! k = ixs !! k) as E.
      { destruct (ixs !! k') as [ix|]; [|by injection Hu as <-].
        apply rbind_Ok_inv in Hu as (ix1 & H1 & Hu). apply rbind_Ok_inv in Hu as (ix2 & H2 & [= <-]).
        by rewrite lookup_insert_ne. }
      unfold kix in *. by rewrite E.
  Qed.
End key.

(** ** Nodes *)
Lemma node_index_snoc ops o k :
  node_index (ops ++ [o]) k =
    match node_index ops k with
    | Some it => Some it
    | None => match o with OAddNodeIndex k' it => if decide (k' = k) then Some it else None | _ => None end
    end.
Proof.
  induction ops as [|o' ops IH]; simpl; [by destruct o|]. rewrite IH. destruct o'; try done.
  by destruct (decide (_ = k)).
Qed.
Lemma edge_index_snoc ops o k :
  edge_index (ops ++ [o]) k =
    match edge_index ops k with
    | Some it => Some it
    | None => match o with OAddEdgeIndex k' it => if decide (k' = k) then Some it else None | _ => None end
    end.
Proof.
  induction ops as [|o' ops IH]; simpl; [by destruct o|]. rewrite IH. destruct o'; try done.
  by destruct (decide (_ = k)).
Qed.
Lemma node_filed_snoc ops o k v : node_filed (ops ++ [o]) k v <-> node_filed ops k v \/ files_node ops o k v.
Proof.
  split.
  - intros (a & o' & b & E & H). destruct b as [|o'' b _] using rev_ind.
    + apply app_inj_tail in E as [-> ->]. by right.
    + rewrite app_comm_cons, app_assoc in E. apply app_inj_tail in E as [-> _]. left. by exists a, o', b.
  - intros [(a & o' & b & -> & H)|H].
    + exists a, o', (b ++ [o]). by rewrite <- app_assoc.
    + by exists ops, o, [].
Qed.
Lemma node_filed_write ops o k v : is_Some (node_index ops k) -> writes_node o k v -> node_filed (ops ++ [o]) k v.
Proof.
  intros [it Hi] Hw. apply node_filed_snoc. right. split; [|by left]. rewrite node_index_snoc, Hi. by eexists.
Qed.
Lemma node_filed_scan ops it k v n : node_index ops k = None -> node_has (srun ops) k v n -> node_filed (ops ++ [OAddNodeIndex k it]) k v.
Proof.
  intros Hi Hh. apply node_filed_snoc. right. split; [|right; eauto]. rewrite node_index_snoc, Hi, decide_True by done. by eexists.
Qed.
Lemma node_filed_app ops1 ops2 k v : node_filed ops1 k v -> node_filed (ops1 ++ ops2) k v.
Proof. intros (a & o & b & -> & H). exists a, o, (b ++ ops2). by rewrite <- app_assoc. Qed.
Lemma edge_filed_snoc ops o k v : edge_filed (ops ++ [o]) k v <-> edge_filed ops k v \/ files_edge ops o k v.
Proof.
  split.
  - intros (a & o' & b & E & H). destruct b as [|o'' b _] using rev_ind.
    + apply app_inj_tail in E as [-> ->]. by right.
    + rewrite app_comm_cons, app_assoc in E. apply app_inj_tail in E as [-> _]. left. by exists a, o', b.
  - intros [(a & o' & b & -> & H)|H].
    + exists a, o', (b ++ [o]). by rewrite <- app_assoc.
    + by exists ops, o, [].
Qed.
Lemma edge_filed_write ops o k v : is_Some (edge_index ops k) -> writes_edge o k v -> edge_filed (ops ++ [o]) k v.
Proof.
  intros [it Hi] Hw. apply edge_filed_snoc. right. split; [|by left]. rewrite edge_index_snoc, Hi. by eexists.
Qed.
Lemma edge_filed_scan ops it k v n : edge_index ops k = None -> edge_has (srun ops) k v n -> edge_filed (ops ++ [OAddEdgeIndex k it]) k v.
Proof.
  intros Hi Hh. apply edge_filed_snoc. right. split; [|right; eauto]. rewrite edge_index_snoc, Hi, decide_True by done. by eexists.
Qed.
Lemma edge_filed_app ops1 ops2 k v : edge_filed ops1 k v -> edge_filed (ops1 ++ ops2) k v.
Proof. intros (a & o & b & -> & H). exists a, o, (b ++ ops2). by rewrite <- app_assoc. Qed.

(** building an index by scanning *)
Lemma scan_index (D : value -> Prop) it (f : nat -> option value) (xs : list nat) :
  NoDup xs -> (forall x v, x ∈ xs -> f x = Some v -> D v) -> ix_domain it D ->
  forall ix0 P, ix_type ix0 = it -> holds D ix0 P -> (forall x v, x ∈ xs -> ~ P x v) ->
  exists ix, rfold (fun ix n => match f n with Some v => ix_add ix v n | None => Ok ix end) xs ix0 = Ok ix /\
    ix_type ix = it /\ holds D ix (fun i w => P i w \/ i ∈ xs /\ f i = Some w).
Proof.
  intros Hnd HD Hd. induction xs as [|x xs IH]; intros ix0 P Ht Hh HP; simpl.
  - exists ix0. split; [done|]. split; [done|]. eapply holds_ext; [exact Hh|]. intros i w.
    rewrite elem_of_nil. tauto.
  - apply NoDup_cons in Hnd as [Hni Hnd]. destruct (f x) as [v|] eqn:Hf.
    + rewrite <- Ht in Hd. destruct (holds_add D ix0 P x v Hd Hh) as (ix1 & -> & Ht1 & Hh1).
      { eapply HD; [|exact Hf]. set_solver. } { intros w. apply HP. set_solver. }
      simpl. destruct (IH Hnd) with (ix0 := ix1) (P := fun i w => i = x /\ w = v \/ i <> x /\ P i w) as (ix & Hr & Ht' & Hh').
      { intros y w Hy. apply HD. by apply elem_of_cons; right. }
      { congruence. } { done. } { intros y w Hy [[-> ->]|[_ Hp]]; [done|]. eapply HP; [|exact Hp]. by apply elem_of_cons; right. }
      exists ix. split; [done|]. split; [done|]. eapply holds_ext; [exact Hh'|]. intros i w. rewrite elem_of_cons.
      split.
      * intros [[[-> ->]|[? ?]]|[? ?]]; [right; split; [by left|done]|by left|right; split; [by right|done]].
      * intros [Hp|[[->|Hi] Hw]].
        -- left. right. split; [|done]. intros ->. eapply HP; [|exact Hp]. set_solver.
        -- left. left. split; congruence.
        -- by right.
    + simpl. destruct (IH Hnd) with (ix0 := ix0) (P := P) as (ix & Hr & Ht' & Hh'); try done.
      { intros y w Hy. apply HD. by apply elem_of_cons; right. }
      { intros y w Hy. apply HP. by apply elem_of_cons; right. }
      exists ix. split; [done|]. split; [done|]. eapply holds_ext; [exact Hh'|]. intros i w. rewrite elem_of_cons.
      split; [naive_solver|]. intros [?|[[->|?] ?]]; [by left|congruence|by right].
Qed.
Lemma rfold_ext {A S} (f h : S -> A -> res S) l s :
  (forall s x, x ∈ l -> f s x = h s x) -> rfold f l s = rfold h l s.
Proof.
  revert s; induction l as [|x l IH]; intros s Hfh; simpl; [done|]. rewrite Hfh by set_solver.
  destruct (h s x); simpl; [|done|done]. apply IH. intros ? y Hy. apply Hfh. by apply elem_of_cons; right.
Qed.
Lemma rfold_ext' {A S} (f h : S -> A -> res S) l s r :
  (forall s x, x ∈ l -> f s x = h s x) -> rfold f l s = r -> rfold h l s = r.
Proof. intros Hfh <-. symmetry. by apply rfold_ext. Qed.

Lemma core_props g s n x : core g s -> s_nodes s !! n = Some x ->
  exists nd, deref_node g n = Ok nd /\ n_props nd = sn_props x /\ n_labels nd = sn_labels x.
Proof.
  intros Hc Hx. destruct (core_node _ _ _ _ Hc Hx) as (nd & Hnd & ? & ?). exists nd. unfold deref_node. by rewrite Hnd.
Qed.

Lemma nix_step (D : value -> Prop) k ops g o g' :
  valid_history ops -> run ops = Ok g -> valid (srun ops) o -> step g o = Ok g' ->
  (forall v, node_filed (ops ++ [o]) k v -> D v) ->
  (forall it, o = OAddNodeIndex k it -> node_list_safe ops) ->
  kix D (g_nix g) k (node_index ops k) (fun i v => node_has (srun ops) k v i) ->
  kix D (g_nix g') k (node_index (ops ++ [o]) k) (fun i v => node_has (sstep (srun ops) o) k v i).
Proof.
  intros Hv Hr Ho Hs HD Hsafe Hk. pose proof (core_run _ _ Hv Hr) as Hc. pose proof Hc as (_ & Hnext & _).
  rewrite node_index_snoc. set (s := srun ops) in *.
  assert (node_index ops k = match node_index ops k with Some it => Some it | None => None end) as Hni
    by (by destruct (node_index ops k)).
  destruct o; simpl in Hs, Ho.
  - inv_ok Hs. destruct a as [g1 n]. injection Hs as <-.
    apply new_node_shape in Ha as (->&_&_&_&_&_&_&_&_&Hix&_). rewrite <- Hni.
    eapply kix_ext; [eapply kix_add; [exact Hix|exact Hk| |]|].
    + intros w (x & Hx & _). assert (g_next g < s_next s); [|lia]. eapply core_live_lt; [done|]. by eexists.
    + intros v Hin' Hpv. by apply HD, node_filed_write.
    + intros i v. simpl. unfold node_has. simpl. rewrite <- Hnext. destruct (decide (i = g_next g)) as [->|].
      * rewrite lookup_insert. naive_solver.
      * rewrite lookup_insert_ne by done. naive_solver.
  - inv_ok Hs. destruct a as [g1 e]. injection Hs as <-.
    apply new_edge_shape in Ha as (->&_&_&_&_&_&Hix&_). cbn [fst]. rewrite Hix, <- Hni. done.
  - unfold set_labels in Hs. inv_ok Hs. injection Hs as <-. cbn [g_nix set_nodes set_lab]. rewrite <- Hni.
    eapply kix_ext; [exact Hk|]. intros i v. unfold node_has. simpl. destruct (decide (i = n)) as [->|].
    + rewrite lookup_alter. destruct (s_nodes s !! n); simpl; naive_solver.
    + by rewrite lookup_alter_ne.
  - unfold set_node_prop in Hs. inv_ok Hs. injection Hs as <-. cbn [g_nix set_nodes set_nix]. rewrite <- Hni.
    destruct Ho as [x Hx]. destruct (core_props _ _ _ _ Hc Hx) as (nd & Hnd & Hp & _).
    assert (a = nd) as -> by congruence.
    eapply kix_ext; [eapply kix_update; [exact Ha0|exact Hk|]|].
    + intros ->. split.
      * intros w. unfold node_has. rewrite Hx, Hp. naive_solver.
      * intros w Hin' [= <-]. by apply HD, node_filed_write.
    + intros i w. simpl. unfold node_has. simpl. destruct (decide (i = n)) as [->|].
      * rewrite lookup_alter, Hx. simpl. destruct (decide (k0 = k)) as [->|].
        -- split; [intros [[_ ?]|[? _]]; [|done]|]; [eexists; split; [done|]; simpl; by rewrite lookup_insert|].
           intros (y & [= <-] & Hy). simpl in Hy. rewrite lookup_insert in Hy. by left.
        -- split; intros (y & [= <-] & Hy); (eexists; split; [done|]); simpl in *.
           ++ by rewrite lookup_insert_ne.
           ++ by rewrite lookup_insert_ne in Hy.
      * rewrite lookup_alter_ne by done. destruct (decide (k0 = k)); naive_solver.
  - unfold rem_node_prop in Hs. inv_ok Hs.
    destruct Ho as [x Hx]. destruct (core_props _ _ _ _ Hc Hx) as (nd & Hnd & Hp & _).
    assert (a = nd) as -> by congruence. rewrite <- Hni.
    assert (kix D (g_nix g') k (node_index ops k)
      (fun i w => if decide (k0 = k) then i <> n /\ node_has s k w i else node_has s k w i)) as Hk'.
    { destruct (n_props nd !! k0) as [v|] eqn:Hv0.
      - inv_ok Hs. injection Hs as <-. cbn [g_nix set_nodes set_nix].
        eapply kix_ext; [eapply kix_update; [exact Ha0|exact Hk|]|].
        + intros ->. split; [|done]. intros w. unfold node_has. rewrite Hx. rewrite Hp in *. naive_solver.
        + intros i w. simpl. destruct (decide (k0 = k)); naive_solver.
      - injection Hs as <-. eapply kix_ext; [exact Hk|]. intros i w. destruct (decide (k0 = k)) as [->|]; [|done].
        split; [|naive_solver]. intros Hh. split; [|done]. intros ->. destruct Hh as (y & Hy & Hw).
        rewrite Hx in Hy. injection Hy as <-. congruence. }
    eapply kix_ext; [exact Hk'|]. intros i w. simpl. unfold node_has. simpl. destruct (decide (i = n)) as [->|].
    + rewrite lookup_alter, Hx. simpl. destruct (decide (k0 = k)) as [->|].
      * split; [by intros [? _]|]. intros (y & [= <-] & Hy). simpl in Hy. by rewrite lookup_delete in Hy.
      * split; intros (y & [= <-] & Hy); (eexists; split; [done|]); simpl in *.
        ++ by rewrite lookup_delete_ne.
        ++ by rewrite lookup_delete_ne in Hy.
    + rewrite lookup_alter_ne by done. destruct (decide (k0 = k)); naive_solver.
  - apply detach_shape in Hs as (_&_&_&_&->&_). rewrite <- Hni. done.
  - apply detach_remove_shape in Hs as (g1 & nd & Hd & Hnd & _&_&_&_&_&_&_&_&_&_& Hix).
    apply detach_shape in Hd as (_&_&_&_&E&_&Hdata). rewrite E in Hix. rewrite <- Hni.
    destruct Ho as (x & Hx & _). destruct (core_props _ _ _ _ Hc Hx) as (nd0 & Hnd0 & Hp & _).
    assert (n_props nd = sn_props x) as Hp'.
    { specialize (Hdata n). unfold data, deref_node in *. rewrite Hnd in Hdata. destruct (g_nodes g !! n) as [y|]; [|done].
      injection Hnd0 as ->. simpl in Hdata. injection Hdata as _ ?. congruence. }
    eapply kix_ext; [eapply kix_remove; [exact Hix|exact Hk|]|].
    + intros w. unfold node_has. rewrite Hx, Hp'. naive_solver.
    + intros i w. simpl. unfold node_has. simpl. setoid_rewrite lookup_delete_Some. naive_solver.
  - apply set_edge_label_shape in Hs as (?&_&_&_&_&_&_&_&_&->&_). rewrite <- Hni. done.
  - unfold set_edge_prop in Hs. inv_ok Hs. injection Hs as <-. rewrite <- Hni. done.
  - unfold rem_edge_prop in Hs. inv_ok Hs. rewrite <- Hni.
    destruct (e_props _ !! _); [inv_ok Hs|]; injection Hs as <-; done.
  - apply remove_edge_shape in Hs as ((_&_&_&_&->&_) & _). rewrite <- Hni. done.
  - unfold add_node_index in Hs. destruct (decide (k0 = k)) as [->|Hne].
    + destruct (g_nix g !! k) as [ix|] eqn:Hg.
      * injection Hs as <-. destruct (node_index ops k); [done|]. simpl in Hk. congruence.
      * inv_ok Hs. injection Hs as <-. destruct (node_index ops k) as [t|] eqn:Hit; simpl in *.
        -- intros Hd. destruct (Hk Hd) as (ix & Hix & _). congruence.
        -- intros Hd. rewrite lookup_insert. destruct (get_nodes_ok _ _ Hv Hr (Hsafe _ eq_refl)) as (xs & Hxs & [[Hnd Hin] _]).
           rewrite Ha in Hxs. injection Hxs as <-.
           eapply (rfold_ext' _ (fun ix n => match node_prop g n k with Some v => ix_add ix v n | None => Ok ix end)) in Ha0.
           2: { intros ix n Hn. apply Hin in Hn as [x Hx]. unfold node_prop. destruct (core_props _ _ _ _ Hc Hx) as (nd & Hndd & Hp & _).
                rewrite Hndd. simpl. unfold deref_node in Hndd. destruct (g_nodes g !! n); [|done]. injection Hndd as ->. done. }
           assert (forall n v, n ∈ a -> node_prop g n k = Some v <-> node_has s k v n) as Hnp.
           { intros n v Hn. apply Hin in Hn as [x Hx]. fold s in Hx. destruct (read_node g s Hc n x Hx) as [_ Hrp].
             rewrite Hrp. unfold node_has. rewrite Hx. naive_solver. }
           destruct (scan_index D it (fun n => node_prop g n k) a) with (ix0 := ix_new it) (P := fun (_ : nat) (_ : value) => False)
             as (ix & Hix & Ht & Hh); try done.
           { intros n v Hn Hv'. eapply HD, node_filed_scan; [done|]. by apply (Hnp n v Hn). }
           { by destruct it. }
           { apply holds_new. by intros ? ? []. }
           { by intros ? ? ? []. }
           assert (ix = a0) as -> by congruence. exists a0. split; [done|]. split; [done|].
           eapply holds_ext; [exact Hh|]. intros i v. split.
           ++ intros [[]|[Hi Hv']]. by apply Hnp.
           ++ intros Hh'. right. assert (i ∈ a) as Hi. { apply Hin. destruct Hh' as (x & ? & _). by exists x. }
              split; [done|]. by apply Hnp.
    + assert (g_nix g' !! k = g_nix g !! k) as E.
      { destruct (g_nix g !! k0); [by injection Hs as <-|]. inv_ok Hs. injection Hs as <-. simpl. by rewrite lookup_insert_ne. }
      unfold kix in *. rewrite E. destruct (node_index ops k); done.
  - unfold add_edge_index in Hs. rewrite <- Hni.
    destruct (g_eix g !! _); [injection Hs as <-; done|]. inv_ok Hs. injection Hs as <-. done.
Qed.

Lemma node_has_filed ops k v n :
  is_Some (node_index ops k) -> node_has (srun ops) k v n -> node_filed ops k v.
Proof.
  induction ops as [|o ops IH] using rev_ind.
  { intros _ (x & Hx & _). simpl in Hx. by rewrite lookup_empty in Hx. }
  intros Hi Hh. destruct (node_index ops k) as [t|] eqn:Hit.
  2: { rewrite node_index_snoc, Hit in Hi. destruct o; try by destruct Hi. destruct (decide _) as [->|]; [|by destruct Hi].
       rewrite srun_snoc in Hh. by eapply node_filed_scan. }
  rewrite srun_snoc in Hh. destruct Hh as (x & Hx & Hv).
  assert (forall w : value, writes_node o k w -> node_filed (ops ++ [o]) k w) as Hw by (intros w; apply node_filed_write; eauto).
  rewrite node_filed_snoc. setoid_rewrite node_filed_snoc in Hw.
  assert (forall y, s_nodes (srun ops) !! n = Some y -> sn_props y !! k = Some v -> node_filed ops k v) as IH'.
  { intros y Hy Hv'. apply IH; [by eexists|]. by exists y. }
  destruct o; simpl in Hx; try (left; by eapply IH').
  - apply lookup_insert_Some in Hx as [[<- <-]|[_ Hx]]; [by apply Hw|left; by eapply IH'].
  - apply lookup_alter_Some in Hx as [(-> & y & Hy & ->)|[_ Hx]]; left; [by eapply IH'|by eapply IH'].
  - apply lookup_alter_Some in Hx as [(-> & y & Hy & ->)|[_ Hx]]; [|left; by eapply IH'].
    simpl in Hv. apply lookup_insert_Some in Hv as [[-> ->]|[_ Hv]]; [by apply Hw|left; by eapply IH'].
  - apply lookup_alter_Some in Hx as [(-> & y & Hy & ->)|[_ Hx]]; [|left; by eapply IH'].
    simpl in Hv. apply lookup_delete_Some in Hv as [_ Hv]. left; by eapply IH'.
  - apply lookup_delete_Some in Hx as [_ Hx]. left; by eapply IH'.
Qed.
Lemma edge_has_filed ops k v n :
  is_Some (edge_index ops k) -> edge_has (srun ops) k v n -> edge_filed ops k v.
Proof.
  induction ops as [|o ops IH] using rev_ind.
  { intros _ (x & Hx & _). simpl in Hx. by rewrite lookup_empty in Hx. }
  intros Hi Hh. destruct (edge_index ops k) as [t|] eqn:Hit.
  2: { rewrite edge_index_snoc, Hit in Hi. destruct o; try by destruct Hi. destruct (decide _) as [->|]; [|by destruct Hi].
       rewrite srun_snoc in Hh. by eapply edge_filed_scan. }
  rewrite srun_snoc in Hh. destruct Hh as (x & Hx & Hv).
  assert (forall w : value, writes_edge o k w -> edge_filed (ops ++ [o]) k w) as Hw by (intros w; apply edge_filed_write; eauto).
  rewrite edge_filed_snoc. setoid_rewrite edge_filed_snoc in Hw.
  assert (forall y, s_edges (srun ops) !! n = Some y -> e_props y !! k = Some v -> edge_filed ops k v) as IH'.
  { intros y Hy Hv'. apply IH; [by eexists|]. by exists y. }
  destruct o; simpl in Hx; try (left; by eapply IH').
  - apply lookup_insert_Some in Hx as [[<- <-]|[_ Hx]]; [by apply Hw|left; by eapply IH'].
  - apply s_detach_lookup in Hx as [Hx _]. left; by eapply IH'.
  - apply s_detach_lookup in Hx as [Hx _]. left; by eapply IH'.
  - apply lookup_alter_Some in Hx as [(-> & y & Hy & ->)|[_ Hx]]; left; [by eapply IH'|by eapply IH'].
  - apply lookup_alter_Some in Hx as [(-> & y & Hy & ->)|[_ Hx]]; [|left; by eapply IH'].
    simpl in Hv. apply lookup_insert_Some in Hv as [[-> ->]|[_ Hv]]; [by apply Hw|left; by eapply IH'].
  - apply lookup_alter_Some in Hx as [(-> & y & Hy & ->)|[_ Hx]]; [|left; by eapply IH'].
    simpl in Hv. apply lookup_delete_Some in Hv as [_ Hv]. left; by eapply IH'.
  - apply lookup_delete_Some in Hx as [_ Hx]. left; by eapply IH'.
Qed.

Lemma node_has_written ops k v n :
  node_has (srun ops) k v n -> (exists o, o ∈ ops /\ writes_node o k v).
Proof.
  induction ops as [|o ops IH] using rev_ind.
  { intros (x & Hx & _). simpl in Hx. by rewrite lookup_empty in Hx. }
  rewrite srun_snoc. setoid_rewrite elem_of_app. setoid_rewrite elem_of_list_singleton. intros (x & Hx & Hv).
  assert (forall y, s_nodes (srun ops) !! n = Some y -> sn_props y !! k = Some v -> (exists o, o ∈ ops /\ writes_node o k v)) as IH'.
  { intros y Hy Hv'. apply IH. by exists y. }
  assert (forall P : Prop, (P -> (exists o, o ∈ ops /\ writes_node o k v) \/ writes_node o k v) -> P -> exists o', (o' ∈ ops \/ o' = o) /\ writes_node o' k v) as Hor by naive_solver.
  eapply (Hor True); [intros _|done]. clear Hor.
  destruct o; simpl in Hx; try (left; by eapply IH').
  - apply lookup_insert_Some in Hx as [[<- <-]|[_ Hx]]; [by right|left; by eapply IH'].
  - apply lookup_alter_Some in Hx as [(-> & y & Hy & ->)|[_ Hx]]; left; [by eapply IH'|by eapply IH'].
  - apply lookup_alter_Some in Hx as [(-> & y & Hy & ->)|[_ Hx]]; [|left; by eapply IH'].
    simpl in Hv. apply lookup_insert_Some in Hv as [[-> ->]|[_ Hv]]; [by right|left; by eapply IH'].
  - apply lookup_alter_Some in Hx as [(-> & y & Hy & ->)|[_ Hx]]; [|left; by eapply IH'].
    simpl in Hv. apply lookup_delete_Some in Hv as [_ Hv]. left; by eapply IH'.
  - apply lookup_delete_Some in Hx as [_ Hx]. left; by eapply IH'.
Qed.
Lemma node_filed_written ops k v : node_filed ops k v -> exists o, o ∈ ops /\ writes_node o k v.
Proof.
  intros (a & o & b & -> & _ & [Hw|[_ [n Hh]]]).
  - exists o. split; [|done]. apply elem_of_app. right. left.
  - apply node_has_written in Hh as (o' & Ho & Hw). exists o'. split; [|done]. apply elem_of_app. by left.
Qed.
Lemma edge_has_written ops k v n :
  edge_has (srun ops) k v n -> (exists o, o ∈ ops /\ writes_edge o k v).
Proof.
  induction ops as [|o ops IH] using rev_ind.
  { intros (x & Hx & _). simpl in Hx. by rewrite lookup_empty in Hx. }
  rewrite srun_snoc. setoid_rewrite elem_of_app. setoid_rewrite elem_of_list_singleton. intros (x & Hx & Hv).
  assert (forall y, s_edges (srun ops) !! n = Some y -> e_props y !! k = Some v -> (exists o, o ∈ ops /\ writes_edge o k v)) as IH'.
  { intros y Hy Hv'. apply IH. by exists y. }
  assert (forall P : Prop, (P -> (exists o, o ∈ ops /\ writes_edge o k v) \/ writes_edge o k v) -> P -> exists o', (o' ∈ ops \/ o' = o) /\ writes_edge o' k v) as Hor by naive_solver.
  eapply (Hor True); [intros _|done]. clear Hor.
  destruct o; simpl in Hx; try (left; by eapply IH').
  - apply lookup_insert_Some in Hx as [[<- <-]|[_ Hx]]; [by right|left; by eapply IH'].
  - apply s_detach_lookup in Hx as [Hx _]. left; by eapply IH'.
  - apply s_detach_lookup in Hx as [Hx _]. left; by eapply IH'.
  - apply lookup_alter_Some in Hx as [(-> & y & Hy & ->)|[_ Hx]]; left; [by eapply IH'|by eapply IH'].
  - apply lookup_alter_Some in Hx as [(-> & y & Hy & ->)|[_ Hx]]; [|left; by eapply IH'].
    simpl in Hv. apply lookup_insert_Some in Hv as [[-> ->]|[_ Hv]]; [by right|left; by eapply IH'].
  - apply lookup_alter_Some in Hx as [(-> & y & Hy & ->)|[_ Hx]]; [|left; by eapply IH'].
    simpl in Hv. apply lookup_delete_Some in Hv as [_ Hv]. left; by eapply IH'.
  - apply lookup_delete_Some in Hx as [_ Hx]. left; by eapply IH'.
Qed.
Lemma edge_filed_written ops k v : edge_filed ops k v -> exists o, o ∈ ops /\ writes_edge o k v.
Proof.
  intros (a & o & b & -> & _ & [Hw|[_ [n Hh]]]).
  - exists o. split; [|done]. apply elem_of_app. right. left.
  - apply edge_has_written in Hh as (o' & Ho & Hw). exists o'. split; [|done]. apply elem_of_app. by left.
Qed.
Lemma nix_run (D : value -> Prop) k ops g :
  valid_history ops -> run ops = Ok g -> (forall v, node_filed ops k v -> D v) -> node_scan_safe ops k ->
  kix D (g_nix g) k (node_index ops k) (fun i v => node_has (srun ops) k v i).
Proof.
  revert ops g. apply (history_ind (fun ops g => (forall v, node_filed ops k v -> D v) -> node_scan_safe ops k ->
    kix D (g_nix g) k (node_index ops k) (fun i v => node_has (srun ops) k v i))).
  { intros _ _. done. }
  intros ops g o g' Hv Hr IH Ho Hs HD Hsafe. rewrite srun_snoc. eapply nix_step; eauto.
  - intros it ->. eapply (Hsafe ops []). done.
  - apply IH.
    + intros v Hw. apply HD, node_filed_snoc. by left.
    + intros ops1 ops2 it ->. eapply (Hsafe ops1 (ops2 ++ [o])). by rewrite <- app_assoc.
Qed.

Lemma nodes_with_property_indexed ops g k it :
  valid_history ops -> run ops = Ok g -> node_index ops k = Some it -> storable it (node_filed ops k) ->
  node_scan_safe ops k ->
  exists xs, get_nodes_with_property g k = Ok xs /\ lists (fun n => exists v, node_has (srun ops) k v n) xs.
Proof.
  intros Hv Hr Hi Hst Hsafe. pose proof (nix_run _ k ops g Hv Hr (fun v H => H) Hsafe) as Hk. rewrite Hi in Hk.
  apply storable_domain in Hst. destruct (Hk Hst) as (ix & Hix & _ & Hh). unfold get_nodes_with_property. rewrite Hix.
  eexists. split; [done|]. eapply holds_values. exact Hh.
Qed.
Lemma node_index_none_safe ops k : node_index ops k = None -> node_scan_safe ops k.
Proof.
  intros H ops1 ops2 it ->. exfalso. revert H. induction ops1 as [|o ops1 IH]; simpl.
  - by rewrite decide_True.
  - destruct o; try done. by destruct (decide _).
Qed.
Lemma nodes_with_property_scan ops g k :
  valid_history ops -> run ops = Ok g -> node_index ops k = None -> node_list_safe ops ->
  exists xs, get_nodes_with_property g k = Ok xs /\ lists (fun n => exists v, node_has (srun ops) k v n) xs.
Proof.
  intros Hv Hr Hi Hsafe. pose proof (nix_run (fun _ => True) k ops g Hv Hr (fun _ _ => I) (node_index_none_safe _ _ Hi)) as Hk.
  rewrite Hi in Hk. simpl in Hk. unfold get_nodes_with_property. rewrite Hk.
  destruct (get_nodes_ok _ _ Hv Hr Hsafe) as (xs & -> & [[Hnd Hin] _]). simpl. eexists. split; [done|].
  split; [by apply NoDup_filter|]. intros n. rewrite elem_of_list_filter, Hin.
  pose proof (core_run _ _ Hv Hr) as Hc. split.
  - intros [[v Hp] [x Hx]]. exists v. exists x. split; [done|]. destruct (read_node _ _ Hc _ _ Hx) as [_ E]. by rewrite <- E.
  - intros (v & x & Hx & Hp). split; [|by exists x]. destruct (read_node _ _ Hc _ _ Hx) as [_ E]. rewrite E. by exists v.
Qed.

(** ** Edges *)
Lemma kix_removes (D : value -> Prop) k (E : gmap nat edge) (es : list nat) ixs ixs' it P :
  rfold (fun ixs e => match E !! e with Some ed => ixs_remove ixs (e_props ed) e | None => Panic end) es ixs = Ok ixs' ->
  NoDup es -> (forall e ed w, e ∈ es -> E !! e = Some ed -> P e w <-> e_props ed !! k = Some w) ->
  kix D ixs k it P -> kix D ixs' k it (fun i w => i ∉ es /\ P i w).
Proof.
  revert ixs P. induction es as [|e es IH]; intros ixs P Hr Hnd HP Hk; simpl in Hr.
  - injection Hr as <-. eapply kix_ext; [exact Hk|]. intros i v. rewrite elem_of_nil. tauto.
  - apply rbind_Ok_inv in Hr as (ixs1 & H1 & Hr). apply NoDup_cons in Hnd as [Hni Hnd].
    destruct (E !! e) as [ed|] eqn:He; [|done].
    eapply kix_remove in H1; [|exact Hk|].
    2: { intros w. eapply HP; [|done]. by apply elem_of_cons; left. }
    eapply IH in H1; [|exact Hr|done|].
    + eapply kix_ext; [exact H1|]. intros i w. simpl. rewrite not_elem_of_cons. tauto.
    + intros e' ed' w He' HE. simpl. rewrite <- (HP e' ed' w); [|by apply elem_of_cons; right|done].
      split; [tauto|]. intros ?. split; [|done]. by intros ->.
Qed.

Lemma s_edge_lt ops e : live_edge (srun ops) e -> e < s_next (srun ops).
Proof.
  induction ops as [|o ops IH] using rev_ind.
  { intros [x Hx]. simpl in Hx. by rewrite lookup_empty in Hx. }
  rewrite srun_snoc. intros [x Hx].
  assert (is_Some (s_edges (srun ops) !! e) -> e < s_next (srun ops)) as IH' by apply IH.
  destruct o; simpl in *; try (by apply IH'; eexists).
  - apply Nat.lt_lt_succ_r, IH'. by eexists.
  - apply lookup_insert_Some in Hx as [[<- <-]|[_ Hx]]; [lia|]. apply Nat.lt_lt_succ_r, IH'. by eexists.
  - apply s_detach_lookup in Hx as [Hx _]. apply IH'. by eexists.
  - apply s_detach_lookup in Hx as [Hx _]. apply IH'. by eexists.
  - apply lookup_alter_Some in Hx as [(-> & y & Hy & ->)|[_ Hx]]; apply IH'; by eexists.
  - apply lookup_alter_Some in Hx as [(-> & y & Hy & ->)|[_ Hx]]; apply IH'; by eexists.
  - apply lookup_alter_Some in Hx as [(-> & y & Hy & ->)|[_ Hx]]; apply IH'; by eexists.
  - apply lookup_delete_Some in Hx as [_ Hx]. apply IH'. by eexists.
Qed.
Lemma s_next_le s o : s_next s <= s_next (sstep s o).
Proof. destruct o; simpl; lia. Qed.
Lemma sstep_edge_old s o e : live_edge (sstep s o) e -> e < s_next s -> live_edge s e.
Proof.
  intros [x Hx] Hlt. unfold live_edge. destruct o; simpl in *; try (by eexists).
  - apply lookup_insert_Some in Hx as [[<- <-]|[_ Hx]]; [lia|by eexists].
  - apply s_detach_lookup in Hx as [Hx _]. by eexists.
  - apply s_detach_lookup in Hx as [Hx _]. by eexists.
  - apply lookup_alter_Some in Hx as [(-> & y & Hy & ->)|[_ Hx]]; by eexists.
  - apply lookup_alter_Some in Hx as [(-> & y & Hy & ->)|[_ Hx]]; by eexists.
  - apply lookup_alter_Some in Hx as [(-> & y & Hy & ->)|[_ Hx]]; by eexists.
  - apply lookup_delete_Some in Hx as [_ Hx]. by eexists.
Qed.

Lemma left_over_snoc ops o k v e :
  left_over (ops ++ [o]) k v e <->
  left_over ops k v e \/ (o = ORemoveEdge e /\ is_Some (edge_index ops k) /\ edge_has (srun ops) k v e).
Proof.
  split.
  - intros (ops1 & ops2 & E & Hi & Hh). destruct ops2 as [|o' ops2 _] using rev_ind.
    + apply app_inj_tail in E as [<- ->]. by right.
    + rewrite app_comm_cons, app_assoc in E. apply app_inj_tail in E as [-> ->]. left. by exists ops1, ops2.
  - intros [(ops1 & ops2 & -> & Hi & Hh)|(-> & Hi & Hh)].
    + exists ops1, (ops2 ++ [o]). split; [by rewrite <- app_assoc|done].
    + by exists ops, [].
Qed.
Lemma left_over_dead ops k v e : left_over ops k v e -> ~ live_edge (srun ops) e /\ e < s_next (srun ops).
Proof.
  induction ops as [|o ops IH] using rev_ind.
  { intros (ops1 & ops2 & E & _). by destruct ops1. }
  rewrite left_over_snoc, srun_snoc. intros [H|(-> & _ & Hh)].
  - apply IH in H as [H1 H2]. split; [|pose proof (s_next_le (srun ops) o); lia].
    intros H. apply H1. by eapply sstep_edge_old.
  - split; simpl.
    + intros [x Hx]. simpl in Hx. by rewrite lookup_delete in Hx.
    + apply s_edge_lt. destruct Hh as (x & Hx & _). by exists x.
Qed.
Lemma edge_index_some_app ops1 ops2 k : is_Some (edge_index ops1 k) -> is_Some (edge_index (ops1 ++ ops2) k).
Proof.
  induction ops1 as [|o ops1 IH]; simpl; [by intros [? ?]|]. destruct o; try done. by destruct (decide _).
Qed.
Lemma left_over_indexed ops k v e : left_over ops k v e -> is_Some (edge_index ops k).
Proof. intros (ops1 & ops2 & -> & Hi & _). by apply edge_index_some_app. Qed.

Definition edge_entry (ops : list op) (k : string) (v : value) (e : nat) : Prop :=
  edge_has (srun ops) k v e \/ left_over ops k v e.

Lemma eix_step (D : value -> Prop) k ops g o g' :
  valid_history ops -> run ops = Ok g -> valid (srun ops) o -> step g o = Ok g' ->
  (forall v, edge_filed (ops ++ [o]) k v -> D v) ->
  (forall it, o = OAddEdgeIndex k it -> edge_list_safe ops) ->
  kix D (g_eix g) k (edge_index ops k) (fun i v => edge_entry ops k v i) ->
  kix D (g_eix g') k (edge_index (ops ++ [o]) k) (fun i v => edge_entry (ops ++ [o]) k v i).
Proof.
  intros Hv Hr Ho Hs HD Hsafe Hk. pose proof (core_run _ _ Hv Hr) as Hc. pose proof Hc as (_ & Hnext & _).
  rewrite edge_index_snoc.
  assert (edge_index ops k = match edge_index ops k with Some it => Some it | None => None end) as Hni
    by (by destruct (edge_index ops k)).
  assert (forall e x, s_edges (srun ops) !! e = Some x -> forall w, edge_entry ops k w e <-> e_props x !! k = Some w) as Hlive.
  { intros e x Hx w. unfold edge_entry, edge_has. rewrite Hx. split; [|naive_solver].
    intros [(y & [= <-] & ?)|Hl]; [done|]. apply left_over_dead in Hl as [Hl _]. destruct Hl. by exists x. }
  assert ((forall e, o <> ORemoveEdge e) -> forall i w, edge_entry (ops ++ [o]) k w i <->
    edge_has (sstep (srun ops) o) k w i \/ left_over ops k w i) as Hent.
  { intros Hne i w. unfold edge_entry. rewrite srun_snoc, left_over_snoc. naive_solver. }
  assert ((forall e, o <> ORemoveEdge e) -> s_edges (sstep (srun ops) o) = s_edges (srun ops) -> 
    forall i w, edge_entry ops k w i <-> edge_entry (ops ++ [o]) k w i) as Hsame.
  { intros Hne E i w. rewrite Hent by done. unfold edge_entry, edge_has. by rewrite E. }
  destruct o; simpl in Hs, Ho.
  - inv_ok Hs. destruct a as [g1 n]. injection Hs as <-.
    apply new_node_shape in Ha as (_&_&_&_&_&_&_&_&_&_&E&_). simpl. rewrite E, <- Hni. eapply kix_ext; [exact Hk|]. by apply Hsame.
  - inv_ok Hs. destruct a as [g1 e]. injection Hs as <-.
    apply new_edge_shape in Ha as (->&_&_&_&_&_&_&_&Hix&_). cbn [fst]. rewrite <- Hni.
    assert (s_edges (srun ops) !! g_next g = None) as Hfresh.
    { destruct (s_edges (srun ops) !! g_next g) as [x|] eqn:Hx; [|done].
      assert (g_next g < s_next (srun ops)); [|lia]. apply s_edge_lt. by exists x. }
    assert (forall w, ~ left_over ops k w (g_next g)) as Hnl.
    { intros w Hl. apply left_over_dead in Hl as [_ ?]. lia. }
    eapply kix_ext; [eapply kix_add; [exact Hix|exact Hk| |]|].
    + intros w [(x & Hx & _)|Hl]; [congruence|]. by apply Hnl in Hl.
    + intros v Hin' Hpv. by apply HD, edge_filed_write.
    + intros i v. rewrite Hent by done. unfold edge_entry, edge_has. simpl. rewrite <- Hnext.
      destruct (decide (i = g_next g)) as [->|].
      * rewrite lookup_insert. specialize (Hnl v). naive_solver.
      * rewrite lookup_insert_ne by done. naive_solver.
  - unfold set_labels in Hs. inv_ok Hs. injection Hs as <-. cbn [g_eix set_nodes set_lab]. rewrite <- Hni.
    eapply kix_ext; [exact Hk|]. by apply Hsame.
  - unfold set_node_prop in Hs. inv_ok Hs. injection Hs as <-. cbn [g_eix set_nodes set_nix]. rewrite <- Hni.
    eapply kix_ext; [exact Hk|]. by apply Hsame.
  - unfold rem_node_prop in Hs. inv_ok Hs. rewrite <- Hni.
    destruct (n_props _ !! _); [inv_ok Hs|]; injection Hs as <-; (eapply kix_ext; [exact Hk|]; by apply Hsame).
  - destruct (core_detach _ _ _ _ Hs Ho Hc) as (_ & dropped & _ & _ & Hix & Hnd & Hin). rewrite <- Hni.
    eapply kix_ext; [eapply kix_removes; [exact Hix|done| |exact Hk]|].
    + intros e ed w He Hed. apply Hin in He as (x & Hx & _). destruct (core_edge _ _ _ _ Hc Hx) as [E _].
      assert (x = ed) as -> by congruence. by apply Hlive.
    + intros i w. rewrite Hent by done. simpl. unfold edge_entry, edge_has. simpl. setoid_rewrite s_detach_lookup. split.
      * intros [Hi [(x & Hx & Hw)|Hl]]; [|by right]. left. exists x. split; [split; [done|]|done].
        rewrite Hin in Hi. naive_solver.
      * intros [(x & [Hx Hne] & Hw)|Hl].
        -- split; [|left; eauto]. rewrite Hin. intros (y & Hy & ?). rewrite Hx in Hy. injection Hy as <-. tauto.
        -- split; [|by right]. rewrite Hin. intros (y & Hy & _). apply left_over_dead in Hl as [[] _]. by exists y.
  - apply detach_remove_shape in Hs as (g1 & nd & Hd & Hnd & _&_&_&_&_&_&->&_). destruct Ho as (x0 & Hx0 & _).
    destruct (core_detach _ _ _ _ Hd (ex_intro _ x0 Hx0) Hc) as (_ & dropped & _ & _ & Hix & Hndd & Hin). rewrite <- Hni.
    eapply kix_ext; [eapply kix_removes; [exact Hix|done| |exact Hk]|].
    + intros e ed w He Hed. apply Hin in He as (x & Hx & _). destruct (core_edge _ _ _ _ Hc Hx) as [E _].
      assert (x = ed) as -> by congruence. by apply Hlive.
    + intros i w. rewrite Hent by done. simpl. unfold edge_entry, edge_has. simpl. setoid_rewrite s_detach_lookup. split.
      * intros [Hi [(x & Hx & Hw)|Hl]]; [|by right]. left. exists x. split; [split; [done|]|done].
        rewrite Hin in Hi. naive_solver.
      * intros [(x & [Hx Hne] & Hw)|Hl].
        -- split; [|left; eauto]. rewrite Hin. intros (y & Hy & ?). rewrite Hx in Hy. injection Hy as <-. tauto.
        -- split; [|by right]. rewrite Hin. intros (y & Hy & _). apply left_over_dead in Hl as [[] _]. by exists y.
  - apply set_edge_label_shape in Hs as (?&_&_&_&_&_&_&_&_&_&->&_). rewrite <- Hni.
    eapply kix_ext; [exact Hk|]. intros i w. rewrite Hent by done. unfold edge_entry, edge_has. simpl.
    destruct (decide (i = e)) as [->|].
    + rewrite lookup_alter. destruct (s_edges (srun ops) !! e); simpl; naive_solver.
    + by rewrite lookup_alter_ne.
  - unfold set_edge_prop in Hs. inv_ok Hs. injection Hs as <-. cbn [g_eix set_edges set_eix]. rewrite <- Hni.
    destruct Ho as [x Hx]. destruct (core_edge _ _ _ _ Hc Hx) as (Hed & _). unfold deref_edge in Ha. rewrite Hed in Ha.
    injection Ha as <-. pose proof (Hlive _ _ Hx) as Hw.
    assert (forall w, ~ left_over ops k w e) as Hnl.
    { intros w Hl. apply left_over_dead in Hl as [[] _]. by exists x. }
    eapply kix_ext; [eapply kix_update; [exact Ha0|exact Hk|]|].
    + intros ->. split; [apply Hw|]. intros w Hin' [= <-]. by apply HD, edge_filed_write.
    + intros i w. rewrite Hent by done. simpl. unfold edge_has. simpl. destruct (decide (i = e)) as [->|].
      * rewrite lookup_alter, Hx. simpl. specialize (Hnl w). destruct (decide (k0 = k)) as [->|].
        -- split; [intros [[_ ?]|[? _]]; [|done]|].
           ++ left. eexists; split; [done|]; simpl. by rewrite lookup_insert.
           ++ intros [(y & [= <-] & Hy)|?]; [|done]. simpl in Hy. rewrite lookup_insert in Hy. by left.
        -- rewrite Hw. split.
           ++ intros Hy. left. eexists; split; [done|]; simpl. by rewrite lookup_insert_ne.
           ++ intros [(y & [= <-] & Hy)|?]; [|done]. simpl in Hy. by rewrite lookup_insert_ne in Hy.
      * rewrite lookup_alter_ne by done. unfold edge_entry, edge_has. destruct (decide (k0 = k)); naive_solver.
  - unfold rem_edge_prop in Hs. inv_ok Hs.
    destruct Ho as [x Hx]. destruct (core_edge _ _ _ _ Hc Hx) as (Hed & _). unfold deref_edge in Ha. rewrite Hed in Ha.
    injection Ha as <-. pose proof (Hlive _ _ Hx) as Hw. rewrite <- Hni.
    assert (forall w, ~ left_over ops k w e) as Hnl.
    { intros w Hl. apply left_over_dead in Hl as [[] _]. by exists x. }
    assert (kix D (g_eix g') k (edge_index ops k)
      (fun i w => if decide (k0 = k) then i <> e /\ edge_entry ops k w i else edge_entry ops k w i)) as Hk'.
    { destruct (e_props x !! k0) as [v|] eqn:Hv0.
      - inv_ok Hs. injection Hs as <-. cbn [g_eix set_edges set_eix].
        eapply kix_ext; [eapply kix_update; [exact Ha|exact Hk|]|].
        + intros ->. split; [|done]. intros w. rewrite Hw, Hv0. done.
        + intros i w. simpl. destruct (decide (k0 = k)); naive_solver.
      - injection Hs as <-. eapply kix_ext; [exact Hk|]. intros i w. destruct (decide (k0 = k)) as [->|]; [|done].
        split; [|naive_solver]. intros Hh. split; [|done]. intros ->. apply Hw in Hh. congruence. }
    eapply kix_ext; [exact Hk'|]. intros i w. rewrite Hent by done. simpl. unfold edge_has. simpl. destruct (decide (i = e)) as [->|].
    + rewrite lookup_alter, Hx. simpl. specialize (Hnl w). destruct (decide (k0 = k)) as [->|].
      * split; [by intros [? _]|]. intros [(y & [= <-] & Hy)|?]; [|done]. simpl in Hy. by rewrite lookup_delete in Hy.
      * rewrite Hw. split.
        ++ intros Hy. left. eexists; split; [done|]; simpl. by rewrite lookup_delete_ne.
        ++ intros [(y & [= <-] & Hy)|?]; [|done]. simpl in Hy. by rewrite lookup_delete_ne in Hy.
    + rewrite lookup_alter_ne by done. unfold edge_entry, edge_has. destruct (decide (k0 = k)); naive_solver.
  - apply remove_edge_shape in Hs as (_ & _ & ->). rewrite <- Hni.
    destruct (edge_index ops k) as [t|] eqn:Hit; [|done].
    eapply kix_ext; [exact Hk|]. intros i w. unfold edge_entry. rewrite srun_snoc, left_over_snoc.
    unfold edge_has. simpl. setoid_rewrite lookup_delete_Some. split.
    + intros [(x & Hx & Hw)|?]; [|tauto]. destruct (decide (i = e)) as [->|].
      * right. right. rewrite Hit. eauto.
      * left. exists x. auto.
    + intros [(x & [? Hx] & Hw)|[?|([= ->] & _ & ?)]]; [left; by exists x|by right|by left].
  - unfold add_node_index in Hs. rewrite <- Hni.
    destruct (g_nix g !! _); [injection Hs as <-|inv_ok Hs; injection Hs as <-]; simpl;
      (eapply kix_ext; [exact Hk|]; by apply Hsame).
  - unfold add_edge_index in Hs. destruct (decide (k0 = k)) as [->|Hne].
    + destruct (g_eix g !! k) as [ix|] eqn:Hg.
      * injection Hs as <-. destruct (edge_index ops k); [eapply kix_ext; [exact Hk|by apply Hsame]|]. simpl in Hk. congruence.
      * inv_ok Hs. injection Hs as <-. destruct (edge_index ops k) as [t|] eqn:Hit; simpl in *.
        -- intros Hd. destruct (Hk Hd) as (ix & Hix & _). congruence.
        -- intros Hd. rewrite lookup_insert.
           destruct (get_edges_ok _ _ Hv Hr (Hsafe _ eq_refl)) as [(xs & Hxs & [Hnd Hin]) _].
           rewrite Ha in Hxs. injection Hxs as <-.
           eapply (rfold_ext' _ (fun ix n => match edge_prop g n k with Some v => ix_add ix v n | None => Ok ix end)) in Ha0.
           2: { intros ix n Hn. apply Hin in Hn as [x Hx]. unfold edge_prop, deref_edge.
                destruct (core_edge _ _ _ _ Hc Hx) as [-> _]. done. }
           assert (forall n v, n ∈ a -> edge_prop g n k = Some v <-> edge_has (srun ops) k v n) as Hnp.
           { intros n v Hn. apply Hin in Hn as [x Hx]. unfold edge_prop, edge_has.
             destruct (core_edge _ _ _ _ Hc Hx) as [-> _]. rewrite Hx. unfold get_property. naive_solver. }
           destruct (scan_index D it (fun n => edge_prop g n k) a) with (ix0 := ix_new it) (P := fun (_ : nat) (_ : value) => False)
             as (ix & Hix & Ht & Hh); try done.
           { intros n v Hn Hv'. eapply HD, edge_filed_scan; [done|]. by apply (Hnp n v Hn). }
           { by destruct it. }
           { apply holds_new. by intros ? ? []. }
           { by intros ? ? ? []. }
           assert (ix = a0) as -> by congruence. exists a0. split; [done|]. split; [done|].
           eapply holds_ext; [exact Hh|]. intros i v. rewrite Hent by done.
           change (edge_has (sstep (srun ops) (OAddEdgeIndex k it)) k v i) with (edge_has (srun ops) k v i). split.
           ++ intros [[]|[Hi Hv']]. left. by apply Hnp.
           ++ intros [Hh'|Hl].
              ** right. assert (i ∈ a) as Hi. { apply Hin. destruct Hh' as (x & ? & _). by exists x. }
                 split; [done|]. by apply Hnp.
              ** apply left_over_indexed in Hl. rewrite Hit in Hl. by destruct Hl.
    + assert (g_eix g' !! k = g_eix g !! k) as E.
      { destruct (g_eix g !! k0); [by injection Hs as <-|]. inv_ok Hs. injection Hs as <-. simpl. by rewrite lookup_insert_ne. }
      eapply kix_ext; [|by apply Hsame]. unfold kix in *. rewrite E. destruct (edge_index ops k); done.
Qed.

Lemma eix_run (D : value -> Prop) k ops g :
  valid_history ops -> run ops = Ok g -> (forall v, edge_filed ops k v -> D v) -> edge_scan_safe ops k ->
  kix D (g_eix g) k (edge_index ops k) (fun i v => edge_entry ops k v i).
Proof.
  revert ops g. apply (history_ind (fun ops g => (forall v, edge_filed ops k v -> D v) -> edge_scan_safe ops k ->
    kix D (g_eix g) k (edge_index ops k) (fun i v => edge_entry ops k v i))).
  { intros _ _. done. }
  intros ops g o g' Hv Hr IH Ho Hs HD Hsafe. eapply eix_step; eauto.
  - intros it ->. eapply (Hsafe ops []). done.
  - apply IH.
    + intros v Hw. apply HD, edge_filed_snoc. by left.
    + intros ops1 ops2 it ->. eapply (Hsafe ops1 (ops2 ++ [o])). by rewrite <- app_assoc.
Qed.

Lemma edges_with_property_indexed ops g k it :
  valid_history ops -> run ops = Ok g -> edge_index ops k = Some it -> storable it (edge_filed ops k) ->
  edge_scan_safe ops k ->
  exists xs, get_edges_with_property g k = Ok xs /\
    lists (fun e => exists v, edge_has (srun ops) k v e \/ left_over ops k v e) xs.
Proof.
  intros Hv Hr Hi Hst Hsafe. pose proof (eix_run _ k ops g Hv Hr (fun v H => H) Hsafe) as Hk. rewrite Hi in Hk.
  apply storable_domain in Hst. destruct (Hk Hst) as (ix & Hix & _ & Hh). unfold get_edges_with_property. rewrite Hix.
  eexists. split; [done|]. eapply holds_values. exact Hh.
Qed.
Lemma edges_with_property_indexed_exact ops g k it :
  valid_history ops -> run ops = Ok g -> edge_index ops k = Some it -> storable it (edge_filed ops k) ->
  edge_scan_safe ops k -> (forall v e, ~ left_over ops k v e) ->
  exists xs, get_edges_with_property g k = Ok xs /\ lists (fun e => exists v, edge_has (srun ops) k v e) xs.
Proof.
  intros Hv Hr Hi Hst Hsafe Hn. destruct (edges_with_property_indexed _ _ _ _ Hv Hr Hi Hst Hsafe) as (xs & Hx & Hl).
  exists xs. split; [done|]. eapply lists_ext; [|exact Hl]. intros e. split; intros [v Hw]; exists v; [|by left].
  destruct Hw as [?|Hw]; [done|]. by apply Hn in Hw.
Qed.
Lemma edge_index_none_safe ops k : edge_index ops k = None -> edge_scan_safe ops k.
Proof.
  intros H ops1 ops2 it ->. exfalso. revert H. induction ops1 as [|o ops1 IH]; simpl.
  - by rewrite decide_True.
  - destruct o; try done. by destruct (decide _).
Qed.
Lemma edges_with_property_scan ops g k :
  valid_history ops -> run ops = Ok g -> edge_index ops k = None -> edge_list_safe ops ->
  exists xs, get_edges_with_property g k = Ok xs /\ lists (fun e => exists v, edge_has (srun ops) k v e) xs.
Proof.
  intros Hv Hr Hi Hsafe. pose proof (eix_run (fun _ => True) k ops g Hv Hr (fun _ _ => I) (edge_index_none_safe _ _ Hi)) as Hk.
  rewrite Hi in Hk. simpl in Hk. unfold get_edges_with_property. rewrite Hk.
  destruct (get_edges_ok _ _ Hv Hr Hsafe) as [(xs & -> & [Hnd Hin]) _]. simpl. eexists. split; [done|].
  split; [by apply NoDup_filter|]. intros n. rewrite elem_of_list_filter, Hin.
  pose proof (core_run _ _ Hv Hr) as Hc. split.
  - intros [[v Hp] [x Hx]]. exists v, x. split; [done|]. unfold edge_prop in Hp.
    destruct (core_edge _ _ _ _ Hc Hx) as [E _]. by rewrite E in Hp.
  - intros (v & x & Hx & Hp). split; [|by exists x]. unfold edge_prop.
    destruct (core_edge _ _ _ _ Hc Hx) as [-> _]. by exists v.
Qed.

(** ** Both cases together *)
Lemma nodes_with_property_ok ops g k :
  valid_history ops -> run ops = Ok g -> node_query_safe ops k ->
  exists xs, get_nodes_with_property g k = Ok xs /\ lists (fun n => exists v, node_has (srun ops) k v n) xs.
Proof.
  intros Hv Hr Hq. unfold node_query_safe in Hq. destruct (node_index ops k) as [it|] eqn:Hi.
  - destruct Hq. by eapply nodes_with_property_indexed.
  - by apply nodes_with_property_scan.
Qed.
Lemma edges_with_property_ok ops g k :
  valid_history ops -> run ops = Ok g -> edge_query_safe ops k ->
  exists xs, get_edges_with_property g k = Ok xs /\
    lists (fun e => exists v, edge_has (srun ops) k v e \/ left_over ops k v e) xs.
Proof.
  intros Hv Hr Hq. unfold edge_query_safe in Hq. destruct (edge_index ops k) as [it|] eqn:Hi.
  - destruct Hq. by eapply edges_with_property_indexed.
  - destruct (edges_with_property_scan _ _ _ Hv Hr Hi Hq) as (xs & Hx & Hl). exists xs. split; [done|].
    eapply lists_ext; [|exact Hl]. intros e. split; intros [v Hw]; exists v; [by left|].
    destruct Hw as [?|Hw]; [done|]. apply left_over_indexed in Hw. rewrite Hi in Hw. by destruct Hw.
Qed.
Lemma edges_with_property_exact ops g k :
  valid_history ops -> run ops = Ok g -> edge_query_safe ops k -> (forall v e, ~ left_over ops k v e) ->
  exists xs, get_edges_with_property g k = Ok xs /\ lists (fun e => exists v, edge_has (srun ops) k v e) xs.
Proof.
  intros Hv Hr Hq Hn. destruct (edges_with_property_ok _ _ _ Hv Hr Hq) as (xs & Hx & Hl). exists xs. split; [done|].
  eapply lists_ext; [|exact Hl]. intros e. split; intros [v Hw]; exists v; [|by left].
  destruct Hw as [?|Hw]; [done|]. by apply Hn in Hw.
Qed.
Lemma lists_perm (P Q : nat -> Prop) xs ys : lists P xs -> lists Q ys -> (forall n, P n <-> Q n) -> xs ≡ₚ ys.
Proof. intros [H1 H2] [H3 H4] H. apply NoDup_Permutation; [done..|]. intros x. rewrite H2, H4. apply H. Qed.
Lemma nodes_with_property_same ops1 ops2 g1 g2 k :
  valid_history ops1 -> run ops1 = Ok g1 -> node_query_safe ops1 k ->
  valid_history ops2 -> run ops2 = Ok g2 -> node_query_safe ops2 k ->
  s_nodes (srun ops1) = s_nodes (srun ops2) ->
  exists xs ys, get_nodes_with_property g1 k = Ok xs /\ get_nodes_with_property g2 k = Ok ys /\ xs ≡ₚ ys.
Proof.
  intros Hv1 Hr1 Hq1 Hv2 Hr2 Hq2 E.
  destruct (nodes_with_property_ok _ _ _ Hv1 Hr1 Hq1) as (xs & Hx & Hlx).
  destruct (nodes_with_property_ok _ _ _ Hv2 Hr2 Hq2) as (ys & Hy & Hly).
  exists xs, ys. split; [done|]. split; [done|]. eapply lists_perm; [done..|]. intros n. unfold node_has. by rewrite E.
Qed.
