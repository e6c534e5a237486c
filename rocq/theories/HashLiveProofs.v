(** Loops over the nodes or edges with a property (SetLive.v). *)
From Verif Require Import Base AssocProofs Value FastSet FastSetProofs Links EdgeMap NodeMap NodeMapProofs Index Graph GraphSpec ItrLive ItrLiveSpec.
From Verif Require Import LinksProofs EdgeMapProofs IndexProofs CoreProofs CoreStep AdjProofs ReadProofs NodeListProofs EdgeListProofs LabelProofs IndexGraphProofs ItrLiveProofs StoreProofs LiveLoopProofs LiveUseProofs.
From Verif Require Import SetLive SetLiveSpec SetLiveProofs.

(** what the calls do to the node indexes *)
Lemma step_nix g o g' : step g o = Ok g' ->
  match o with
  | ONewNode _ p _ => ixs_add (g_nix g) p (g_next g) = Ok (g_nix g')
  | OSetNodeProp n k v => ix_update (g_nix g) k (node_prop g n k) (Some v) n = Ok (g_nix g')
  | ORemNodeProp n k => g_nix g' = g_nix g \/ exists v, ix_update (g_nix g) k (Some v) None n = Ok (g_nix g')
  | ODetachRemove n _ => exists p, ixs_remove (g_nix g) p n = Ok (g_nix g')
  | OAddNodeIndex _ _ => forall k, is_Some (g_nix g !! k) -> g_nix g' !! k = g_nix g !! k
  | _ => g_nix g' = g_nix g
  end.
Proof.
  intros H. destruct o; cbn [step] in H.
  - inv_ok H. destruct a as [g1 n]. injection H as <-. by apply new_node_shape in Ha as (->&_&_&_&_&_&_&_&_&?&_).
  - inv_ok H. destruct a as [g1 n]. injection H as <-. by apply new_edge_shape in Ha as (_&_&_&_&_&_&?&_).
  - unfold set_labels in H. inv_ok H. by injection H as <-.
  - unfold set_node_prop in H. inv_ok H. injection H as <-. unfold deref_node in Ha. unfold node_prop. destruct (g_nodes g !! n); [|done]. by injection Ha as <-.
  - unfold rem_node_prop in H. inv_ok H. destruct (n_props a !! k) as [v|]; [|injection H as <-; by left]. inv_ok H. injection H as <-. right. by exists v.
  - by apply detach_shape in H as (_&_&_&_&?&_).
  - apply detach_remove_shape in H as (g1 & nd & H & Hnd & _ & _ & _ & _ & _ & _ & _ & _ & _ & _ & Hix).
    apply detach_shape in H as (_&_&_&_&E&_). rewrite E in Hix. by exists (n_props nd).
  - by apply set_edge_label_shape in H as (?&_&_&_&_&_&_&_&_&?&_).
  - unfold set_edge_prop in H. inv_ok H. by injection H as <-.
  - unfold rem_edge_prop in H. inv_ok H. destruct (_ !! _); [inv_ok H|]; by injection H as <-.
  - by apply remove_edge_shape in H as ((_&_&_&_&?&_)&_).
  - unfold add_node_index in H. destruct (g_nix g !! k) eqn:E; [by injection H as <-|]. inv_ok H. injection H as <-. intros k' Hk'. cbn.
    rewrite lookup_insert_ne; [done|]. intros <-. rewrite E in Hk'. by destruct Hk'.
  - unfold add_edge_index in H. destruct (_ !! _); [by injection H as <-|]. inv_ok H. by injection H as <-.
Qed.
(** ... and to the edge indexes *)
Lemma step_eix g s o g' : core g s -> valid s o -> step g o = Ok g' ->
  match o with
  | ONewEdge _ _ _ p => ixs_add (g_eix g) p (g_next g) = Ok (g_eix g')
  | OSetEdgeProp e k v => ix_update (g_eix g) k (edge_prop g e k) (Some v) e = Ok (g_eix g')
  | ORemEdgeProp e k => g_eix g' = g_eix g \/ exists v, ix_update (g_eix g) k (Some v) None e = Ok (g_eix g')
  | ODetach n | ODetachRemove n _ => exists dropped : list nat, NoDup dropped /\ (forall e, e ∈ dropped <-> incident s n e) /\
      rfold (fun ixs e => match g_edges g !! e with Some ed => ixs_remove ixs (e_props ed) e | None => Panic end) dropped (g_eix g) = Ok (g_eix g')
  | OAddEdgeIndex _ _ => forall k, is_Some (g_eix g !! k) -> g_eix g' !! k = g_eix g !! k
  | _ => g_eix g' = g_eix g
  end.
Proof.
  intros Hc Ho H.
  assert (forall n (dropped : list nat), (forall e, e ∈ dropped <-> exists ed, s_edges s !! e = Some ed /\ (e_from ed = n \/ e_to ed = n)) ->
    forall e, e ∈ dropped <-> incident s n e) as Hinc.
  { intros n dropped Hd e. rewrite Hd. unfold incident. destruct (s_edges s !! e); naive_solver. }
  destruct o; cbn [step] in H.
  - inv_ok H. destruct a as [g1 n]. injection H as <-. by apply new_node_shape in Ha as (->&_&_&_&_&_&_&_&_&_&?&_).
  - inv_ok H. destruct a as [g1 n]. injection H as <-. by apply new_edge_shape in Ha as (->&_&_&_&_&_&_&_&?&_).
  - unfold set_labels in H. inv_ok H. by injection H as <-.
  - unfold set_node_prop in H. inv_ok H. by injection H as <-.
  - unfold rem_node_prop in H. inv_ok H. destruct (_ !! _); [inv_ok H|]; by injection H as <-.
  - destruct (core_detach _ _ _ _ H Ho Hc) as (_ & dropped & _ & _ & Hix & Hnd & Hin). exists dropped. split; [done|]. split; [by apply Hinc|done].
  - apply detach_remove_shape in H as (g1 & nd & Hd & Hnd & _&_&_&_&_&_&E&_). destruct Ho as (x0 & Hx0 & _).
    destruct (core_detach _ _ _ _ Hd (ex_intro _ x0 Hx0) Hc) as (_ & dropped & _ & _ & Hix & Hndd & Hin). exists dropped. split; [done|]. split; [by apply Hinc|by rewrite E].
  - by apply set_edge_label_shape in H as (?&_&_&_&_&_&_&_&_&_&?&_).
  - unfold set_edge_prop in H. inv_ok H. injection H as <-. unfold deref_edge in Ha. unfold edge_prop. destruct (g_edges g !! e); [|done]. by injection Ha as <-.
  - unfold rem_edge_prop in H. inv_ok H. destruct (e_props a !! k) as [v|]; [|injection H as <-; by left]. inv_ok H. injection H as <-. right. by exists v.
  - by apply remove_edge_shape in H as (_&_&?).
  - unfold add_node_index in H. destruct (_ !! _); [by injection H as <-|]. inv_ok H. by injection H as <-.
  - unfold add_edge_index in H. destruct (g_eix g !! k) eqn:E; [by injection H as <-|]. inv_ok H. injection H as <-. intros k' Hk'. cbn.
    rewrite lookup_insert_ne; [done|]. intros <-. rewrite E in Hk'. by destruct Hk'.
Qed.

Lemma hash_els_Some ixs k els : hash_els ixs k = Some els <-> exists vals fresh, ixs !! k = Some (IHash vals els fresh).
Proof. unfold hash_els. destruct (ixs !! k) as [[t|vals els' fresh]|]; split; try done; try (by intros (?&?&?)); [intros [= ->]; eauto|intros (?&?&[= -> -> ->]); done]. Qed.

Section hash.
  Context (D : value -> Prop) (HD : ix_domain HashIndex D) (k : string).
  Lemma hash_kix ixs P els : kix D ixs k (Some HashIndex) P -> hash_els ixs k = Some els ->
    exists vals fresh c, ixs !! k = Some (IHash vals els fresh) /\ ix_rep D (IHash vals els fresh) c /\ forall i v, c !! i = Some v <-> P i v.
  Proof.
    intros Hk (vals & fresh & E)%hash_els_Some. destruct (Hk HD) as (ix & E' & _ & c & Hc & HP). rewrite E in E'. injection E' as <-. by exists vals, fresh, c.
  Qed.
  Lemma hash_kix_NoDup ixs P els : kix D ixs k (Some HashIndex) P -> hash_els ixs k = Some els ->
    NoDup els.*1 /\ NoDup els.*2 /\ forall i, i ∈ els.*2 <-> exists v, P i v.
  Proof.
    intros Hk He. destruct (hash_kix _ _ _ Hk He) as (vals & fresh & c & _ & (_ & _ & H1 & _ & H2 & H3 & _) & HP).
    split; [done|]. split; [done|]. intros i. rewrite H3. split; intros [v Hv]; exists v; by apply HP.
  Qed.
  Lemma hash_remove vals els fresh c v id ix' : ix_rep D (IHash vals els fresh) c -> ix_remove (IHash vals els fresh) v id = Ok ix' ->
    exists vals' els', ix' = IHash vals' els' fresh /\ (els' = els \/ exists h, (h, id) ∈ els /\ els' = filter (fun p : nat * nat => p.1 <> h) els).
  Proof.
    intros (_ & Hnd & _ & _ & _ & _ & Hbk). cbn [ix_remove]. destruct (decide (fresh = 0)); [intros [= <-]; eauto|].
    destruct (hashable (hkey v)); [|done]. pose proof (h_get_spec vals (hkey v) Hnd) as Hg. destruct (h_get vals (hkey v)) as [s|]; [|intros [= <-]; eauto].
    destruct (bk_get _ _ _ _ _ _ _ Hbk Hg) as (xs & Hxs & Hin). destruct (fs_get s id) as [h|] eqn:E; [|intros [= <-]; eauto].
    intros [= <-]. eexists _, _. split; [done|]. right. exists h. split; [|done]. apply (fs_get_ok _ _ _ _ Hxs) in E. apply Hin in E. tauto.
  Qed.
  Lemma hash_one ixs P v id ix ix' pre U : kix D ixs k (Some HashIndex) P -> hash_els ixs k = Some (pre ++ U) -> id ∉ U.*2 ->
    ixs !! k = Some ix -> ix_remove ix v id = Ok ix' -> exists vals pre' fresh, ix' = IHash vals (pre' ++ U) fresh.
  Proof.
    intros Hk He Hid Hix Hr. destruct (hash_kix_NoDup _ _ _ Hk He) as (Hnd & _).
    destruct (hash_kix _ _ _ Hk He) as (vals & fresh & c & E & Hc & _). rewrite Hix in E. injection E as ->.
    destruct (hash_remove _ _ _ _ _ _ _ Hc Hr) as (vals' & els' & -> & [->|(h & Hh & ->)]); [by exists vals', pre, fresh|].
    destruct (filter_away _ _ _ _ Hnd Hh Hid) as (pre' & ->). by exists vals', pre', fresh.
  Qed.
  Lemma hash_ixs_remove ixs P p id ixs' pre U : kix D ixs k (Some HashIndex) P -> ixs_remove ixs p id = Ok ixs' -> hash_els ixs k = Some (pre ++ U) -> id ∉ U.*2 ->
    exists pre', hash_els ixs' k = Some (pre' ++ U).
  Proof.
    intros Hk Ha He Hid. pose proof (props_loop_key (fun ix v => ix_remove ix v id) _ _ _ k Ha) as H.
    destruct (proj1 (hash_els_Some _ _ _) He) as (vals & fresh & E). rewrite E in H.
    destruct (p !! k) as [v|]; [|exists pre; apply hash_els_Some; eauto]. destruct H as (ix' & Hr & E').
    destruct (hash_one _ _ _ _ _ _ _ _ Hk He Hid E Hr) as (vals' & pre' & fresh' & ->). exists pre'. apply hash_els_Some. eauto.
  Qed.
  Lemma hash_update ixs P k' old id ixs' pre U : kix D ixs k (Some HashIndex) P -> ix_update ixs k' (Some old) None id = Ok ixs' -> hash_els ixs k = Some (pre ++ U) ->
    (k' = k -> id ∉ U.*2) -> exists pre', hash_els ixs' k = Some (pre' ++ U).
  Proof.
    intros Hk Ha He Hid. unfold ix_update in Ha. destruct (ixs !! k') as [ix|] eqn:E; [|injection Ha as <-; by exists pre].
    apply rbind_Ok_inv in Ha as (ix1 & Ha0 & Ha). cbn [rbind] in Ha. injection Ha as <-. destruct (decide (k' = k)) as [->|Hne].
    - destruct (hash_one _ _ _ _ _ _ _ _ Hk He (Hid eq_refl) E Ha0) as (vals' & pre' & fresh' & ->). exists pre'. apply hash_els_Some. rewrite lookup_insert. eauto.
    - exists pre. unfold hash_els. rewrite lookup_insert_ne by done. exact He.
  Qed.
  Lemma update_other ixs k' old new id ixs' : ix_update ixs k' old new id = Ok ixs' -> k' <> k -> ixs' !! k = ixs !! k.
  Proof.
    unfold ix_update. intros H Hne. destruct (ixs !! k') as [ix|]; [|by injection H as <-]. apply rbind_Ok_inv in H as (a & _ & H). apply rbind_Ok_inv in H as (b & _ & H).
    injection H as <-. by rewrite lookup_insert_ne.
  Qed.
  Lemma add_other ixs p id ixs' : ixs_add ixs p id = Ok ixs' -> p !! k = None -> is_Some (ixs !! k) -> ixs' !! k = ixs !! k.
  Proof.
    intros H Hp [ix Hix]. pose proof (props_loop_key (fun ix v => ix_add ix v id) _ _ _ k H) as Hk. rewrite Hix, Hp in Hk. congruence.
  Qed.
  Lemma hash_removes (E : gmap nat edge) es : forall ixs ixs' pre U P,
    rfold (fun ixs e => match E !! e with Some ed => ixs_remove ixs (e_props ed) e | None => Panic end) es ixs = Ok ixs' -> NoDup es ->
    (forall e ed w, e ∈ es -> E !! e = Some ed -> P e w <-> e_props ed !! k = Some w) ->
    kix D ixs k (Some HashIndex) P -> hash_els ixs k = Some (pre ++ U) -> (forall e, e ∈ es -> e ∉ U.*2) -> exists pre', hash_els ixs' k = Some (pre' ++ U).
  Proof.
    induction es as [|e es IH]; intros ixs ixs' pre U P Hr Hnd HP Hk He HU; cbn [rfold] in Hr; [injection Hr as <-; by exists pre|].
    apply rbind_Ok_inv in Hr as (ixs1 & H1 & Hr). destruct (E !! e) as [ed|] eqn:Eed; [|done]. apply NoDup_cons in Hnd as [Hni Hnd].
    destruct (hash_ixs_remove _ _ _ _ _ _ _ Hk H1 He) as (pre1 & He1); [apply HU; left|].
    apply (IH ixs1 ixs' pre1 U (fun i w => i <> e /\ P i w)); try done.
    - intros e' ed' w He' Hed'. rewrite <-(HP e' ed' w) by (try done; by right). split; [tauto|]. intros ?. split; [|done]. by intros ->.
    - eapply kix_remove; [exact H1|exact Hk|]. intros w. apply HP; [left|done].
    - intros y Hy. apply HU. by right.
  Qed.
End hash.

Lemma filter_all (l : list nat) : filter (fun _ => true = true) l = l.
Proof. induction l as [|x l IH]; [done|]. rewrite filter_cons_True by done. by rewrite IH. Qed.
Lemma node_index_app ops1 ops2 k : node_index (ops1 ++ ops2) k = match node_index ops1 k with Some it => Some it | None => node_index ops2 k end.
Proof. induction ops1 as [|o ops1 IH]; [done|]. cbn [app node_index]. destruct o; try done. by destruct (decide _). Qed.
Lemma edge_index_app ops1 ops2 k : edge_index (ops1 ++ ops2) k = match edge_index ops1 k with Some it => Some it | None => edge_index ops2 k end.
Proof. induction ops1 as [|o ops1 IH]; [done|]. cbn [app edge_index]. destruct o; try done. by destruct (decide _). Qed.
Lemma node_scan_safe_app ops1 ops2 k : node_scan_safe (ops1 ++ ops2) k -> node_scan_safe ops1 k.
Proof. intros H a b it ->. eapply (H a (b ++ ops2)). by rewrite <-app_assoc. Qed.
Lemma edge_scan_safe_app ops1 ops2 k : edge_scan_safe (ops1 ++ ops2) k -> edge_scan_safe ops1 k.
Proof. intros H a b it ->. eapply (H a (b ++ ops2)). by rewrite <-app_assoc. Qed.

(** ** Nodes *)
Definition hgood (k : string) (ops : list op) : Prop :=
  storable HashIndex (node_filed ops k) /\ node_scan_safe ops k /\ (forall it, node_index ops k = Some it -> it = HashIndex).
Lemma hgood_app k ops1 ops2 : hgood k (ops1 ++ ops2) -> hgood k ops1.
Proof.
  intros (H1 & H2 & H3). split; [|split].
  - intros v Hw. apply H1. by apply node_filed_app.
  - by eapply node_scan_safe_app.
  - intros it E. apply H3. by rewrite node_index_app, E.
Qed.
Lemma hgood_kix k ops g els : valid_history ops -> run ops = Ok g -> hgood k ops -> hash_els (g_nix g) k = Some els ->
  ix_domain HashIndex (node_filed ops k) /\ kix (node_filed ops k) (g_nix g) k (Some HashIndex) (fun i v => node_has (srun ops) k v i).
Proof.
  intros Hv Hr (H1 & H2 & H3) He. split; [by apply storable_domain|]. pose proof (nix_run (node_filed ops k) k ops g Hv Hr (fun v H => H) H2) as Hk.
  destruct (node_index ops k) as [it|] eqn:E; [by rewrite (H3 it eq_refl) in Hk|]. cbn in Hk. apply hash_els_Some in He as (vals & fresh & He). rewrite Hk in He. done.
Qed.
Lemma hash_step k ops g o g' (vis rest : list nat) pre U : valid_history (ops ++ [o]) -> run ops = Ok g -> step g o = Ok g' -> hgood k (ops ++ [o]) ->
  prop_keeps k (srun ops) rest o -> hash_els (g_nix g) k = Some (pre ++ U) -> U.*2 = rest -> exists pre', hash_els (g_nix g') k = Some (pre' ++ U).
Proof.
  intros Hv Hr Hs Hg Hk He HU. apply valid_history_snoc in Hv as [Hv Ho]. destruct (hgood_kix _ _ _ _ Hv Hr (hgood_app _ _ _ Hg) He) as [HD Hx].
  pose proof (step_nix _ _ _ Hs) as H. clear Hs Ho Hg.
  assert (is_Some (g_nix g !! k)) as Hin by (apply hash_els_Some in He as (?&?&->); eauto).
  assert (forall g2, g_nix g2 !! k = g_nix g !! k -> exists pre', hash_els (g_nix g2) k = Some (pre' ++ U)) as Hsame.
  { intros g2 E. exists pre. unfold hash_els in *. by rewrite E. }
  destruct o; cbn [prop_keeps] in Hk; try (apply Hsame; by rewrite H).
  - apply Hsame. by eapply add_other.
  - apply Hsame. by eapply update_other.
  - destruct H as [H|[v H]]; [apply Hsame; by rewrite H|]. eapply (hash_update _ HD); [exact Hx|exact H|exact He|]. intros E. rewrite HU. by apply Hk.
  - destruct H as [p H]. eapply (hash_ixs_remove _ HD); [exact Hx|exact H|exact He|]. by rewrite HU.
Qed.
Lemma head_point (els : list (nat * nat)) : head els = None /\ els.*2 = [] \/ exists p r, head els = Some p /\ els = p :: r.
Proof. destruct els as [|p r]; [by left|right; eauto]. Qed.


(** A loop over the nodes with property [k] that does not touch the property of nodes still to be visited. *)
Theorem hash_loop_ok ops body g g' k es fuel :
  valid_history (ops ++ loop_calls body [] es) -> run ops = Ok g -> run (ops ++ loop_calls body [] es) = Ok g' ->
  node_index ops k = Some HashIndex -> storable HashIndex (node_filed (ops ++ loop_calls body [] es) k) ->
  node_scan_safe (ops ++ loop_calls body [] es) k ->
  get_nodes_with_property g k = Ok es -> loop_keeps (prop_keeps k) body (srun ops) [] es -> length es < fuel ->
  hash_loop g_nix fuel body g k = Ok (es, g').
Proof.
  intros Hv Hr Hr' Hi Hst Hsc Hq Hk Hlen. unfold hash_loop.
  assert (hgood k (ops ++ loop_calls body [] es)) as Hg.
  { split; [done|]. split; [done|]. intros it. rewrite node_index_app, Hi. congruence. }
  assert (valid_history ops) as Hv0 by (unfold valid_history in Hv; by apply valid_from_app in Hv as [? _]).
  assert (exists els, hash_els (g_nix g) k = Some els /\ es = els.*2) as (els & He & ->).
  { pose proof (nix_run (node_filed ops k) k ops g Hv0 Hr (fun v H => H) (node_scan_safe_app _ _ _ Hsc)) as Hx. rewrite Hi in Hx.
    destruct (hgood_app _ _ _ Hg) as (Hs0 & _). destruct (Hx (proj1 (storable_domain _ _) Hs0)) as (ix & Hix & Ht & _). unfold get_nodes_with_property in Hq. unfold hash_els.
    rewrite Hix in *. destruct ix as [t|vals els fresh]; [done|]. cbn in Hq. injection Hq as <-. eauto. }
  rewrite He. cbn [default]. unfold id. match goal with |- ?x = Ok (?l, ?h) => change (x = Ok ([] ++ l, h)) end.
  apply (s_loop_ok (fun g => hash_els (g_nix g) k) (fun _ _ => true) body (prop_keeps k) (fun _ r => r) (hgood k) (fun _ _ _ => True)) with (ops := ops); try done.
  - apply hgood_app.
  - intros ops0 g0 els0 Hv1 Hr1 Hg1 He1. destruct (hgood_kix _ _ _ _ Hv1 Hr1 Hg1 He1) as [HD Hx]. destruct (hash_kix_NoDup _ HD _ _ _ _ Hx He1) as (?&?&_). done.
  - intros ops0 g0 o g1 vis rest pre U Hv1 Hr1 Hs1 Hg1 Hk1 He1 _ Hf _. rewrite filter_all in Hf.
    destruct (hash_step _ _ _ _ _ vis rest pre U Hv1 Hr1 Hs1 Hg1 Hk1 He1 Hf) as (pre' & E). exists pre', []. rewrite app_nil_r. rewrite filter_all. done.
  - unfold run in Hr' |- *. rewrite rfold_app in Hr'. change (rfold step ops new_graph) with (run ops) in Hr'. rewrite Hr in Hr'. exact Hr'.
  - destruct (head_point els) as [[-> ->]|(p & r & -> & ->)]; [by left|]. right. exists [], p, r. rewrite He, filter_all. done.
Qed.

(** ** Edges *)
Definition egood (k : string) (ops : list op) : Prop :=
  storable HashIndex (edge_filed ops k) /\ edge_scan_safe ops k /\ (forall it, edge_index ops k = Some it -> it = HashIndex).
Lemma egood_app k ops1 ops2 : egood k (ops1 ++ ops2) -> egood k ops1.
Proof.
  intros (H1 & H2 & H3). split; [|split].
  - intros v Hw. apply H1. by apply edge_filed_app.
  - by eapply edge_scan_safe_app.
  - intros it E. apply H3. by rewrite edge_index_app, E.
Qed.
Lemma egood_kix k ops g els : valid_history ops -> run ops = Ok g -> egood k ops -> hash_els (g_eix g) k = Some els ->
  ix_domain HashIndex (edge_filed ops k) /\ kix (edge_filed ops k) (g_eix g) k (Some HashIndex) (fun i v => edge_entry ops k v i).
Proof.
  intros Hv Hr (H1 & H2 & H3) He. split; [by apply storable_domain|]. pose proof (eix_run (edge_filed ops k) k ops g Hv Hr (fun v H => H) H2) as Hk.
  destruct (edge_index ops k) as [it|] eqn:E; [by rewrite (H3 it eq_refl) in Hk|]. cbn in Hk. apply hash_els_Some in He as (vals & fresh & He). rewrite Hk in He. done.
Qed.
Lemma ehash_step k ops g o g' (vis rest : list nat) pre U : valid_history (ops ++ [o]) -> run ops = Ok g -> step g o = Ok g' -> egood k (ops ++ [o]) ->
  eprop_keeps k (srun ops) rest o -> hash_els (g_eix g) k = Some (pre ++ U) -> U.*2 = rest -> exists pre', hash_els (g_eix g') k = Some (pre' ++ U).
Proof.
  intros Hv Hr Hs Hg Hk He HU. apply valid_history_snoc in Hv as [Hv Ho]. destruct (egood_kix _ _ _ _ Hv Hr (egood_app _ _ _ Hg) He) as [HD Hx].
  pose proof (core_run _ _ Hv Hr) as Hc. pose proof (step_eix _ _ _ _ Hc Ho Hs) as H. clear Hs Ho Hg.
  assert (is_Some (g_eix g !! k)) as Hin by (apply hash_els_Some in He as (?&?&->); eauto).
  assert (forall g2, g_eix g2 !! k = g_eix g !! k -> exists pre', hash_els (g_eix g2) k = Some (pre' ++ U)) as Hsame.
  { intros g2 E. exists pre. unfold hash_els in *. by rewrite E. }
  assert (forall n, (exists dropped : list nat, NoDup dropped /\ (forall e, e ∈ dropped <-> incident (srun ops) n e) /\
      rfold (fun ixs e => match g_edges g !! e with Some ed => ixs_remove ixs (e_props ed) e | None => Panic end) dropped (g_eix g) = Ok (g_eix g')) ->
    (forall e, e ∈ rest -> ~ incident (srun ops) n e) -> exists pre', hash_els (g_eix g') k = Some (pre' ++ U)) as Hdet.
  { intros n (dropped & Hnd & Hd & Hf) Hno. eapply (hash_removes _ HD k _ _ _ _ _ _ _ Hf Hnd); [|exact Hx|exact He|].
    - intros e ed w Hin' Hed. apply Hd in Hin'. unfold incident in Hin'. destruct (s_edges (srun ops) !! e) as [x|] eqn:Ex; [|done].
      destruct (core_edge _ _ _ _ Hc Ex) as [Hed' _]. rewrite Hed in Hed'. injection Hed' as ->.
      unfold edge_entry, edge_has. rewrite Ex. split; [|naive_solver].
      intros [(y & [= <-] & ?)|Hl]; [done|]. apply left_over_dead in Hl as [Hl _]. destruct Hl. by exists x.
    - intros e Hin' Hbad. rewrite HU in Hbad. apply (Hno e); [done|]. by apply Hd. }
  destruct o; cbn [eprop_keeps] in Hk; try (apply Hsame; by rewrite H); try (by eapply Hdet).
  - apply Hsame. by eapply add_other.
  - apply Hsame. by eapply update_other.
  - destruct H as [H|[v H]]; [apply Hsame; by rewrite H|]. eapply (hash_update _ HD); [exact Hx|exact H|exact He|]. intros E. rewrite HU. by apply Hk.
Qed.
Theorem ehash_loop_ok ops body g g' k es fuel :
  valid_history (ops ++ loop_calls body [] es) -> run ops = Ok g -> run (ops ++ loop_calls body [] es) = Ok g' ->
  edge_index ops k = Some HashIndex -> storable HashIndex (edge_filed (ops ++ loop_calls body [] es) k) ->
  edge_scan_safe (ops ++ loop_calls body [] es) k ->
  get_edges_with_property g k = Ok es -> loop_keeps (eprop_keeps k) body (srun ops) [] es -> length es < fuel ->
  hash_loop g_eix fuel body g k = Ok (es, g').
Proof.
  intros Hv Hr Hr' Hi Hst Hsc Hq Hk Hlen. unfold hash_loop.
  assert (egood k (ops ++ loop_calls body [] es)) as Hg.
  { split; [done|]. split; [done|]. intros it. rewrite edge_index_app, Hi. congruence. }
  assert (valid_history ops) as Hv0 by (unfold valid_history in Hv; by apply valid_from_app in Hv as [? _]).
  assert (exists els, hash_els (g_eix g) k = Some els /\ es = els.*2) as (els & He & ->).
  { pose proof (eix_run (edge_filed ops k) k ops g Hv0 Hr (fun v H => H) (edge_scan_safe_app _ _ _ Hsc)) as Hx. rewrite Hi in Hx.
    destruct (egood_app _ _ _ Hg) as (Hs0 & _). destruct (Hx (proj1 (storable_domain _ _) Hs0)) as (ix & Hix & Ht & _). unfold get_edges_with_property in Hq. unfold hash_els.
    rewrite Hix in *. destruct ix as [t|vals els fresh]; [done|]. cbn in Hq. injection Hq as <-. eauto. }
  rewrite He. cbn [default]. unfold id. match goal with |- ?x = Ok (?l, ?h) => change (x = Ok ([] ++ l, h)) end.
  apply (s_loop_ok (fun g => hash_els (g_eix g) k) (fun _ _ => true) body (eprop_keeps k) (fun _ r => r) (egood k) (fun _ _ _ => True)) with (ops := ops); try done.
  - apply egood_app.
  - intros ops0 g0 els0 Hv1 Hr1 Hg1 He1. destruct (egood_kix _ _ _ _ Hv1 Hr1 Hg1 He1) as [HD Hx]. destruct (hash_kix_NoDup _ HD _ _ _ _ Hx He1) as (?&?&_). done.
  - intros ops0 g0 o g1 vis rest pre U Hv1 Hr1 Hs1 Hg1 Hk1 He1 _ Hf _. rewrite filter_all in Hf.
    destruct (ehash_step _ _ _ _ _ vis rest pre U Hv1 Hr1 Hs1 Hg1 Hk1 He1 Hf) as (pre' & E). exists pre', []. rewrite app_nil_r. rewrite filter_all. done.
  - unfold run in Hr' |- *. rewrite rfold_app in Hr'. change (rfold step ops new_graph) with (run ops) in Hr'. rewrite Hr in Hr'. exact Hr'.
  - destruct (head_point els) as [[-> ->]|(p & r & -> & ->)]; [by left|]. right. exists [], p, r. rewrite He, filter_all. done.
Qed.

(** ** Without an index *)
Lemma sorted_lists_unique P xs : forall ys, lists P xs -> lists P ys -> StronglySorted lt xs -> StronglySorted lt ys -> xs = ys.
Proof.
  revert P. induction xs as [|x xs IH]; intros P [|y ys] [Hx1 Hx2] [Hy1 Hy2] Hsx Hsy; [done| | |].
  - exfalso. assert (y ∈ ([] : list nat)) as Hin; [|by apply elem_of_nil in Hin]. apply Hx2, Hy2. left.
  - exfalso. assert (x ∈ ([] : list nat)) as Hin; [|by apply elem_of_nil in Hin]. apply Hy2, Hx2. left.
  - apply StronglySorted_inv in Hsx as [Hsx Hlx], Hsy as [Hsy Hly]. rewrite Forall_forall in Hlx, Hly.
    assert (x = y) as ->.
    { assert (x ∈ y :: ys) as [?|Hin]%elem_of_cons by (apply Hy2, Hx2; left); [done|].
      assert (y ∈ x :: xs) as [?|Hin']%elem_of_cons by (apply Hx2, Hy2; left); [done|]. specialize (Hlx _ Hin'). specialize (Hly _ Hin). lia. }
    apply NoDup_cons in Hx1 as [Hx1 Hx1'], Hy1 as [Hy1 Hy1']. f_equal. apply (IH (fun z => z <> y /\ P z)); try done; (split; [done|]); intros z.
    + rewrite <-Hx2, elem_of_cons. split; [|naive_solver]. intros H. split; [by intros ->|by right].
    + rewrite <-Hy2, elem_of_cons. split; [|naive_solver]. intros H. split; [by intros ->|by right].
Qed.
Lemma lists_nodes_unique s xs ys : lists_nodes s xs -> lists_nodes s ys -> xs = ys.
Proof. intros [H1 H2] [H3 H4]. by eapply sorted_lists_unique. Qed.

Section scan.
  Context (k : string).
  Definition has_k (s : sgraph) (n : nat) : bool := match s_nodes s !! n with Some x => bool_decide (is_Some (sn_props x !! k)) | None => false end.
  Definition np_inv (s : sgraph) (next : option nat) (vis rest : list nat) (m : nat) : Prop :=
    next = None /\ rest = [] \/
    exists pre n ns, lists_nodes s (pre ++ n :: ns) /\ next = Some n /\ filter (fun x => has_k s x = true) (n :: ns) = rest /\
      (forall v, v ∈ vis -> v < n) /\ length (n :: ns) <= m.
  Lemma filter_has s s' (l : list nat) : (forall x, x ∈ l -> has_k s' x = has_k s x) ->
    filter (fun x => has_k s' x = true) l = filter (fun x => has_k s x = true) l.
  Proof.
    induction l as [|x l IH]; intros H; [done|]. assert (filter (fun x => has_k s' x = true) l = filter (fun x => has_k s x = true) l) as E by (apply IH; intros; apply H; by right).
    destruct (has_k s x) eqn:Ex.
    - rewrite !filter_cons_True; [by rewrite E|done|]. rewrite H; [done|left].
    - rewrite !filter_cons_False; [done|by rewrite Ex|]. rewrite H; [by rewrite Ex|left].
  Qed.
  Lemma sorted_mid (pre : list nat) n ns y : StronglySorted lt (pre ++ n :: ns) -> y ∈ pre -> y < n.
  Proof.
    induction pre as [|x pre IH]; [by intros _ ?%elem_of_nil|]. cbn [app]. intros [Hs Hl]%StronglySorted_inv [->|Hy]%elem_of_cons; [|by apply IH].
    rewrite Forall_forall in Hl. apply Hl. apply elem_of_app. right. left.
  Qed.
  Lemma sorted_tail (pre : list nat) n ns y : StronglySorted lt (pre ++ n :: ns) -> y ∈ n :: ns -> n <= y.
  Proof.
    induction pre as [|x pre IH]; cbn [app]; intros [Hs Hl]%StronglySorted_inv Hy; [|by apply IH].
    rewrite Forall_forall in Hl. apply elem_of_cons in Hy as [->|Hy]; [done|]. specialize (Hl _ Hy). lia.
  Qed.
  Lemma np_step s o next vis rest m : valid s o -> (forall n, live_node s n -> n < s_next s) -> scan_keeps k s vis o ->
    np_inv s next vis rest m -> np_inv (sstep s o) next vis rest (S m).
  Proof.
    intros Ho Hlt Hk [?|(pre & n & ns & Hl & -> & Hf & Hv & Hm)]; [by left|]. right. pose proof Hl as [[_ Hin] Hsort].
    assert (forall y, y ∈ n :: ns -> live_node s y) as Hlive by (intros y Hy; apply Hin; apply elem_of_app; by right).
    assert ((forall y, live_node s y <-> live_node (sstep s o) y) -> (forall y, y ∈ n :: ns -> has_k (sstep s o) y = has_k s y) ->
      exists pre n0 ns, lists_nodes (sstep s o) (pre ++ n0 :: ns) /\ Some n = Some n0 /\ filter (fun x => has_k (sstep s o) x = true) (n0 :: ns) = rest /\
      (forall v, v ∈ vis -> v < n0) /\ length (n0 :: ns) <= S m) as Hsame.
    { intros H1 H2. exists pre, n, ns. split; [by eapply lists_nodes_ext|]. split; [done|]. rewrite (filter_has s) by done. split; [done|]. split; [done|]. lia. }
    destruct o; try (apply Hsame; [intros y; symmetry; by apply live_other|]; done).
    - exists pre, n, (ns ++ [s_next s]). cbn in Hk. split; [|split; [done|split; [|split; [done|]]]].
      + change (n :: ns ++ [s_next s]) with ((n :: ns) ++ [s_next s]). rewrite app_assoc. eapply lists_nodes_add; [exact Hl| |done|done]. intros y Hy. by apply Hlt, Hin.
      + change (n :: ns ++ [s_next s]) with ((n :: ns) ++ [s_next s]). rewrite filter_app, (filter_has s), Hf.
        * rewrite filter_cons_False; [by rewrite app_nil_r|]. unfold has_k. cbn. rewrite lookup_insert. cbn. rewrite Hk. by rewrite bool_decide_false by (by intros [? ?]).
        * intros y Hy. unfold has_k. cbn. rewrite lookup_insert_ne; [done|]. intros <-. specialize (Hlt _ (Hlive _ Hy)). lia.
      + cbn in *. rewrite app_length. cbn. lia.
    - apply Hsame; [intros y; symmetry; by apply live_other|]. intros y Hy. unfold has_k. cbn. destruct (decide (y = n0)) as [->|].
      + rewrite lookup_alter. by destruct (s_nodes s !! n0).
      + by rewrite lookup_alter_ne.
    - apply Hsame; [intros y; symmetry; by apply live_other|]. intros y Hy. unfold has_k. cbn. destruct (decide (y = n0)) as [->|].
      + rewrite lookup_alter. destruct (s_nodes s !! n0) as [x|] eqn:Ex; [|done]. cbn. apply bool_decide_ext. destruct (decide (k0 = k)) as [->|].
        * rewrite lookup_insert. cbn in Hk. destruct (Hk eq_refl) as (x' & Hx' & Hp). rewrite Ex in Hx'. injection Hx' as <-. split; [done|eauto].
        * by rewrite lookup_insert_ne.
      + by rewrite lookup_alter_ne.
    - apply Hsame; [intros y; symmetry; by apply live_other|]. intros y Hy. unfold has_k. cbn. destruct (decide (y = n0)) as [->|].
      + rewrite lookup_alter. destruct (s_nodes s !! n0) as [x|] eqn:Ex; [|done]. cbn. apply bool_decide_ext. destruct (decide (k0 = k)) as [->|].
        * exfalso. cbn in Hk. destruct (Hk eq_refl) as (v & Hv' & Hle). specialize (Hv _ Hv'). pose proof (sorted_tail _ _ _ _ Hsort Hy). lia.
        * by rewrite lookup_delete_ne.
      + by rewrite lookup_alter_ne.
    - cbn in Hk. destruct Hk as (v & Hv' & Hle). specialize (Hv _ Hv') as Hvn. destruct Ho as (x & Hx & _).
      assert (n0 ∈ pre ++ n :: ns) as [Hp|Hp]%elem_of_app by (apply Hin; by exists x); [|pose proof (sorted_tail _ _ _ _ Hsort Hp); lia].
      apply elem_of_list_split in Hp as (a & b & ->). exists (a ++ b), n, ns. split; [|split; [done|split; [|split; [done|lia]]]].
      + rewrite <-app_assoc. cbn [sstep]. rewrite <-app_assoc in Hl. by apply lists_nodes_del.
      + rewrite (filter_has s); [done|]. intros y Hy. unfold has_k. cbn. rewrite lookup_delete_ne; [done|]. intros ->. pose proof (sorted_tail _ _ _ _ Hsort Hy). lia.
  Qed.
  Lemma s_live_lt ops : forall n, live_node (srun ops) n -> n < s_next (srun ops).
  Proof.
    unfold srun. induction ops as [|o ops IH] using rev_ind; [by intros n [? ?]|]. intros n. rewrite fold_left_app. cbn [fold_left].
    set (s := fold_left sstep ops s_empty) in *. clearbody s. intros Hn.
    assert (forall f y, is_Some (alter f y (s_nodes s) !! n) -> n < s_next s) as Halt by (intros f y ?%lookup_alter_is_Some; by apply IH).
    unfold live_node in Hn. destruct o; cbn in *; try (by apply IH); try (by eapply Halt).
    - destruct (decide (n = s_next s)) as [->|]; [lia|]. rewrite lookup_insert_ne in Hn by done. specialize (IH _ Hn). lia.
    - specialize (IH _ Hn). lia.
    - destruct (decide (n = n0)) as [->|]; [rewrite lookup_delete in Hn; by destruct Hn|]. rewrite lookup_delete_ne in Hn by done. by apply IH.
  Qed.
  Lemma np_calls calls : forall ops next vis rest m, valid_history (ops ++ calls) ->
    calls_keep (scan_keeps k) (srun ops) vis calls -> np_inv (srun ops) next vis rest m -> np_inv (srun (ops ++ calls)) next vis rest (length calls + m).
  Proof.
    induction calls as [|c calls IH]; intros ops next vis rest m Hv Hk Hi; [by rewrite app_nil_r|].
    assert (ops ++ c :: calls = (ops ++ [c]) ++ calls) as E by (by rewrite <-app_assoc). rewrite E in Hv |- *. destruct Hk as [Hk1 Hk2].
    assert (valid_history (ops ++ [c])) as Hv1 by (unfold valid_history in Hv; by apply valid_from_app in Hv as [? _]).
    cbn [length]. replace (S (length calls) + m) with (length calls + S m) by lia. apply IH; try done; [by rewrite srun_snoc|]. rewrite srun_snoc.
    apply valid_history_snoc in Hv1 as [Hv1 Hc]. apply np_step; try done. apply s_live_lt.
  Qed.
End scan.
Lemma nl_inv_next_at ops g pre n ns : valid_history ops -> run ops = Ok g -> node_list_safe ops -> lists_nodes (srun ops) (pre ++ n :: ns) ->
  el_next (lk (g_nl g) n) = head ns.
Proof.
  intros Hv Hr Hs Hl. destruct (nodes_inv_run _ _ Hv Hr Hs) as (xs & Hl' & (_ & _ & Hi & _)).
  pose proof (lists_nodes_unique _ _ _ Hl' Hl) as ->. by destruct (Hi pre n ns eq_refl) as (? & _).
Qed.
Lemma has_k_graph k ops g n : valid_history ops -> run ops = Ok g -> live_node (srun ops) n -> bool_decide (is_Some (node_prop g n k)) = has_k k (srun ops) n.
Proof.
  intros Hv Hr [x Hx]. destruct (core_props _ _ _ _ (core_run _ _ Hv Hr) Hx) as (nd & Hd & Hp & _). unfold has_k, node_prop. rewrite Hx.
  unfold deref_node in Hd. destruct (g_nodes g !! n); [|done]. injection Hd as ->. by rewrite Hp.
Qed.
Lemma np_loop_ok k body g' : forall fuel ops g next vis rest m, np_inv k (srun ops) next vis rest m -> valid_history (ops ++ loop_calls body vis rest) ->
  run ops = Ok g -> rfold step (loop_calls body vis rest) g = Ok g' -> node_list_safe (ops ++ loop_calls body vis rest) ->
  loop_keeps_vis (scan_keeps k) body (srun ops) vis rest -> m + length (loop_calls body vis rest) < fuel ->
  np_loop fuel (fun g n => bool_decide (is_Some (node_prop g n k))) body g next vis = Ok (vis ++ rest, g').
Proof.
  induction fuel as [|fuel IH]; intros ops g next vis rest m Hi Hv Hr Hs Hsafe Hk Hlen; [lia|]. cbn [np_loop].
  destruct Hi as [[-> ->]|(pre & n & ns & Hl & -> & Hf & Hvis & Hm)]; [injection Hs as <-; by rewrite app_nil_r|].
  assert (valid_history ops) as Hv0 by (unfold valid_history in Hv; by apply valid_from_app in Hv as [? _]).
  assert (node_list_safe ops) as Hsafe0 by (by eapply safe_nodes_app).
  assert (live_node (srun ops) n) as Hn by (destruct Hl as [[_ Hin] _]; apply Hin, elem_of_app; right; left).
  rewrite (nl_inv_next_at ops g pre n ns) by done. rewrite (has_k_graph k ops g n) by done.
  assert (forall vis', vis' = vis \/ vis' = vis ++ [n] -> np_inv k (srun ops) (head ns) vis' (filter (fun x => has_k k (srun ops) x = true) ns) (m - 1)) as Hi'.
  { intros vis' Hvis'. destruct ns as [|n' ns]; [by left|]. right. exists (pre ++ [n]), n', ns. rewrite <-app_assoc. split; [done|]. split; [done|]. split; [done|]. split; [|cbn in *; lia].
    assert (n < n') as Hlt.
    { destruct Hl as [_ Hsort]. assert (pre ++ n :: n' :: ns = (pre ++ [n]) ++ n' :: ns) as E by (by rewrite <-app_assoc). rewrite E in Hsort. eapply sorted_mid; [exact Hsort|]. apply elem_of_app. right. left. }
    intros v Hv'. destruct Hvis' as [->| ->]; [apply Hvis in Hv'; lia|]. apply elem_of_app in Hv' as [Hv'| ->%elem_of_list_singleton]; [apply Hvis in Hv'; lia|done]. }
  cbn [length] in Hm. destruct (has_k k (srun ops) n) eqn:E.
  - rewrite filter_cons_True in Hf by done. subst rest. set (rest := filter _ ns) in *. cbn [loop_calls] in *.
    rewrite app_assoc in Hv, Hsafe. rewrite rfold_app in Hs. apply rbind_Ok_inv in Hs as (g1 & Hs1 & Hs). rewrite Hs1. cbn [rbind]. destruct Hk as [Hk1 Hk2]. rewrite app_length in Hlen.
    rewrite (IH (ops ++ body (vis ++ [n])) g1 _ _ rest (length (body (vis ++ [n])) + (m - 1))); try done.
    + by rewrite <-app_assoc.
    + apply np_calls; [|done|by apply Hi'; right]. unfold valid_history in Hv. by apply valid_from_app in Hv as [? _].
    + unfold run. rewrite rfold_app. change (rfold step ops new_graph) with (run ops). by rewrite Hr.
    + unfold srun. rewrite fold_left_app. done.
    + lia.
  - rewrite filter_cons_False in Hf by (by rewrite E). subst rest. apply (IH ops g _ _ _ (m - 1)); try done; [by apply Hi'; left|]. lia.
Qed.
Lemma filter_ext_in (P Q : nat -> Prop) `{!forall x, Decision (P x), !forall x, Decision (Q x)} (l : list nat) :
  (forall x, x ∈ l -> P x <-> Q x) -> filter P l = filter Q l.
Proof.
  induction l as [|x l IH]; intros HPQ; [done|]. assert (filter P l = filter Q l) as E by (apply IH; intros y Hy; apply HPQ; by right).
  pose proof (HPQ x ltac:(left)) as Hx. rewrite !filter_cons, E. destruct (decide (P x)), (decide (Q x)); tauto || done.
Qed.
Theorem scan_loop_ok ops body g g' k ns es fuel :
  valid_history (ops ++ loop_calls body [] es) -> run ops = Ok g -> run (ops ++ loop_calls body [] es) = Ok g' ->
  node_list_safe (ops ++ loop_calls body [] es) -> node_index ops k = None -> get_nodes g = Ok ns -> get_nodes_with_property g k = Ok es ->
  loop_keeps_vis (scan_keeps k) body (srun ops) [] es -> length ns + length (loop_calls body [] es) < fuel ->
  scan_loop fuel body g k = Ok (es, g').
Proof.
  intros Hv Hr Hr' Hsafe Hi Hns Hes Hk Hlen. unfold run in Hr'. rewrite rfold_app in Hr'. change (rfold step ops new_graph) with (run ops) in Hr'. rewrite Hr in Hr'. cbn [rbind] in Hr'.
  assert (valid_history ops) as Hv0 by (unfold valid_history in Hv; by apply valid_from_app in Hv as [? _]).
  assert (node_list_safe ops) as Hsafe0 by (by eapply safe_nodes_app).
  destruct (nodes_inv_run _ _ Hv0 Hr Hsafe0) as (xs & Hl & Hinv). destruct (get_nodes_ok _ _ Hv0 Hr Hsafe0) as (xs' & Hx & Hl').
  rewrite Hx in Hns. injection Hns as ->. pose proof (lists_nodes_unique _ _ _ Hl Hl') as ->. destruct Hinv as (_ & Hh & _).
  pose proof (nix_run (fun _ => True) k ops g Hv0 Hr (fun _ _ => I) (node_index_none_safe _ _ Hi)) as Hkix. rewrite Hi in Hkix. cbn in Hkix.
  unfold get_nodes_with_property in Hes. rewrite Hkix, Hx in Hes. cbn [rbind] in Hes. injection Hes as Hes.
  unfold scan_loop. rewrite Hh. change (Ok (es, g')) with (Ok ([] ++ es, g')). eapply np_loop_ok; try done.
  destruct ns as [|n ns]; [left; by rewrite <-Hes|right]. exists [], n, ns. split; [done|]. split; [done|]. split; [|split; [by intros v ?%elem_of_nil|done]].
  rewrite <-Hes. apply filter_ext_in. intros x Hx'. rewrite <-(has_k_graph k ops g x); [apply bool_decide_eq_true|done|done|]. destruct Hl' as [[_ Hin] _]. by apply Hin.
Qed.

(** ** Setting the property of each node of a hash index *)
Lemma filter_front (pre r : list (nat * nat)) h n : NoDup (pre ++ (h, n) :: r).*1 ->
  exists pre', filter (fun p : nat * nat => p.1 <> h) (pre ++ (h, n) :: r) = pre' ++ r.
Proof.
  intros Hnd. rewrite filter_app, filter_cons_False by (intros H; by apply H). eexists. f_equal.
  rewrite fmap_app, fmap_cons in Hnd. apply NoDup_app in Hnd as (_ & _ & [Hh _]%NoDup_cons). cbn in Hh.
  clear -Hh. induction r as [|q r IH]; [done|]. rewrite fmap_cons in Hh. rewrite filter_cons_True by set_solver. f_equal. apply IH. set_solver.
Qed.
Lemma setting_never_ends D k v : ix_domain HashIndex D -> D v -> forall fuel g P pre p r vis,
  kix D (g_nix g) k (Some HashIndex) P -> (forall i w, P i w -> node_prop g i k = Some w) -> hash_els (g_nix g) k = Some (pre ++ p :: r) -> r <> [] ->
  s_loop (fun g => hash_els (g_nix g) k) (fun _ _ => true) (setting k v) fuel g true (Some p) vis = Diverge.
Proof.
  intros HD Hv. induction fuel as [|fuel IH]; intros g P pre p r vis Hk HP He Hr; [done|]. cbn [s_loop]. rewrite He. cbn [default upcoming]. unfold id.
  destruct (hash_kix_NoDup _ HD _ _ _ _ Hk He) as (Hnd1 & Hnd2 & Hin). rewrite behind_split by done. destruct p as [h n]. cbn [l_next fst snd].
  unfold setting at 1. rewrite list.last_snoc. cbn [rfold].
  assert (exists w, P n w) as [w Hw] by (apply Hin; rewrite fmap_app; apply elem_of_app; right; left).
  destruct (Hk HD) as (ix & Hix & Ht & Hh). destruct (holds_remove D ix P n w) as (ix1 & H1 & Ht1 & Hh1); [by rewrite Ht|done|done|].
  destruct (holds_add D ix1 (fun i x => i <> n /\ P i x) n v) as (ix2 & H2 & Ht2 & Hh2); [by rewrite Ht1, Ht|done|done|by intros x [? _]|].
  pose proof (HP _ _ Hw) as Hnp. unfold node_prop, get_property in Hnp. destruct (g_nodes g !! n) as [nd|] eqn:Hnd; [|done].
  assert (exists g', step g (OSetNodeProp n k v) = Ok g' /\ g_nix g' = <[k := ix2]> (g_nix g) /\
    forall i, node_prop g' i k = if decide (i = n) then Some v else node_prop g i k) as (g' & Hs & Hnix & Hprop).
  { cbn [step]. unfold set_node_prop, deref_node. rewrite Hnd. cbn [rbind]. unfold ix_update. rewrite Hix, Hnp, H1. cbn [rbind]. rewrite H2. cbn [rbind].
    eexists. split; [done|]. split; [done|]. intros i. unfold node_prop. cbn. destruct (decide (i = n)) as [->|]; [rewrite lookup_insert; unfold get_property; cbn; by rewrite lookup_insert|].
    by rewrite lookup_insert_ne. }
  unfold src_step at 1. cbn [fst snd]. rewrite Hs. cbn [rbind].
  destruct (hash_kix _ HD _ _ _ _ Hk He) as (vals & fresh & c & Hix' & Hc & _). rewrite Hix in Hix'. injection Hix' as ->.
  destruct (hash_remove _ _ _ _ _ _ _ _ Hc H1) as (vals1 & els1 & -> & Hels).
  assert (n ∉ els1.*2) as Hn1.
  { intros Hbad. assert (kix D (<[k := IHash vals1 els1 fresh]> (g_nix g)) k (Some HashIndex) (fun i x => i <> n /\ P i x)) as Hk1.
    { intros _. exists (IHash vals1 els1 fresh). rewrite lookup_insert. done. }
    destruct (hash_kix_NoDup _ HD _ _ _ els1 Hk1) as (_ & _ & Hin1); [unfold hash_els; by rewrite lookup_insert|].
    apply Hin1 in Hbad as (? & ? & _). done. }
  assert (exists pre1, els1 = pre1 ++ r) as [pre1 ->].
  { destruct Hels as [->|(h' & Hh' & ->)].
    - destruct Hn1. rewrite fmap_app. apply elem_of_app. right. left.
    - assert (h' = h) as -> by (eapply (snd_inj _ n h' h Hnd2 Hh'); apply elem_of_app; right; left). by eapply filter_front. }
  cbn [ix_add] in H2. destruct (hashable (hkey v)); [|done]. injection H2 as <-.
  assert (hash_els (g_nix g') k = Some ((pre1 ++ r) ++ [(fresh, n)])) as He' by (unfold hash_els; by rewrite Hnix, lookup_insert).
  rewrite He'. rewrite bool_decide_true by eauto. cbn [andb]. destruct r as [|q r]; [done|]. cbn [head].
  eapply (IH g' (fun i x => i = n /\ x = v \/ i <> n /\ i <> n /\ P i x) pre1 q (r ++ [(fresh, n)])).
  - intros _. rewrite Hnix. eexists. rewrite lookup_insert. split; [done|]. split; [done|]. exact Hh2.
  - intros i x [[-> ->]|(Hne & _ & Hx)]; rewrite Hprop; [by rewrite decide_True|]. rewrite decide_False by done. by apply HP.
  - rewrite He'. by rewrite <-app_assoc.
  - by destruct r.
Qed.
Theorem setting_diverges ops g k v es fuel : valid_history ops -> run ops = Ok g -> node_index ops k = Some HashIndex ->
  storable HashIndex (fun w => node_filed ops k w \/ w = v) -> node_scan_safe ops k -> get_nodes_with_property g k = Ok es -> 2 <= length es ->
  hash_loop g_nix fuel (setting k v) g k = Diverge.
Proof.
  intros Hv Hr Hi Hst Hsc Hes Hlen. pose proof (nix_run (fun w => node_filed ops k w \/ w = v) k ops g Hv Hr (fun w H => or_introl H) Hsc) as Hk. rewrite Hi in Hk.
  apply storable_domain in Hst. destruct (Hk Hst) as (ix & Hix & Ht & _). unfold get_nodes_with_property in Hes. rewrite Hix in Hes.
  destruct ix as [t|vals els fresh]; [done|]. cbn in Hes. injection Hes as <-. rewrite fmap_length in Hlen. destruct els as [|p r]; [cbn in Hlen; lia|].
  assert (hash_els (g_nix g) k = Some ([] ++ p :: r)) as He by (unfold hash_els; by rewrite Hix). unfold hash_loop. rewrite He. cbn [default app head]. unfold id. cbn [head].
  eapply (setting_never_ends _ k v Hst); [by right|exact Hk| |exact He|].
  - intros i w (x & Hx & Hw). destruct (core_props _ _ _ _ (core_run _ _ Hv Hr) Hx) as (nd & Hd & Hp & _). unfold node_prop. unfold deref_node in Hd.
    destruct (g_nodes g !! i); [|done]. injection Hd as ->. by rewrite Hp.
  - destruct r; [cbn in Hlen; lia|done].
Qed.

(** ** Removing the property of each node of a hash index *)
Lemma unsetting_calls k es : forall vis, loop_calls (unsetting k) vis es = map (fun n => ORemNodeProp n k) es.
Proof. induction es as [|e es IH]; intros vis; cbn [loop_calls map]; [done|]. unfold unsetting at 1. rewrite list.last_snoc, IH. done. Qed.
Lemma unsetting_keeps k es : forall s vis, NoDup es -> loop_keeps (prop_keeps k) (unsetting k) s vis es.
Proof.
  induction es as [|e es IH]; intros s vis Hnd; cbn [loop_keeps]; [done|]. apply NoDup_cons in Hnd as [Hn Hnd]. unfold unsetting at 1. rewrite list.last_snoc.
  split; [|by apply IH]. cbn. done.
Qed.
Lemma hgood_unset k ops n : hgood k ops -> hgood k (ops ++ [ORemNodeProp n k]).
Proof.
  intros (H1 & H2 & H3). split; [|split].
  - intros v [Hw|[Hi [[]|[Hn _]]]]%node_filed_snoc; [by apply H1|]. rewrite node_index_snoc, Hn in Hi. by destruct Hi.
  - intros a b it E. destruct b as [|o b _] using rev_ind.
    + apply (app_inj_tail ops a) in E as [_ E]. done.
    + rewrite app_comm_cons, app_assoc in E. apply app_inj_tail in E as [-> _]. by eapply H2.
  - intros it. rewrite node_index_snoc. destruct (node_index ops k) eqn:E; [intros [= ->]; by apply H3|done].
Qed.
Lemma unsetting_runs k es : forall ops g, valid_history ops -> run ops = Ok g -> hgood k ops -> (forall n, n ∈ es -> live_node (srun ops) n) ->
  valid_history (ops ++ map (fun n => ORemNodeProp n k) es) /\ hgood k (ops ++ map (fun n => ORemNodeProp n k) es) /\
  (exists g', run (ops ++ map (fun n => ORemNodeProp n k) es) = Ok g') /\
  forall n v, node_has (srun (ops ++ map (fun n => ORemNodeProp n k) es)) k v n <-> node_has (srun ops) k v n /\ n ∉ es.
Proof.
  induction es as [|e es IH]; intros ops g Hv Hr Hg Hl; cbn [map].
  { rewrite app_nil_r. split; [done|]. split; [done|]. split; [eauto|]. intros n v. split; [|by intros [? _]]. intros H. split; [done|]. by intros ?%elem_of_nil. }
  assert (forall o (l : list op), ops ++ o :: l = (ops ++ [o]) ++ l) as E by (intros; by rewrite <-app_assoc). rewrite E.
  destruct (Hl e ltac:(left)) as [x Hx]. pose proof (core_run _ _ Hv Hr) as Hc. destruct (core_props _ _ _ _ Hc Hx) as (nd & Hd & Hp & _).
  assert (exists g1, step g (ORemNodeProp e k) = Ok g1) as [g1 Hs].
  { cbn [step]. unfold rem_node_prop. rewrite Hd. cbn [rbind]. destruct (n_props nd !! k) as [v|] eqn:Ev; [|eauto].
    unfold ix_update. destruct (g_nix g !! k) as [ix|] eqn:Eix; [|cbn; eauto].
    destruct Hg as (G1 & G2 & G3). pose proof (nix_run (node_filed ops k) k ops g Hv Hr (fun v H => H) G2) as Hk.
    destruct (node_index ops k) as [it|] eqn:Ei; [|cbn in Hk; congruence]. rewrite (G3 it eq_refl) in Hk. apply storable_domain in G1.
    destruct (Hk G1) as (ix' & Hix' & Ht & Hh). assert (ix' = ix) as -> by congruence.
    destruct (holds_remove _ ix _ e v ltac:(by rewrite Ht) Hh) as (ix1 & -> & _); [exists x; split; [done|congruence]|]. cbn. eauto. }
  assert (valid_history (ops ++ [ORemNodeProp e k])) as Hv1 by (apply valid_history_snoc; split; [done|by exists x]).
  assert (run (ops ++ [ORemNodeProp e k]) = Ok g1) as Hr1 by (rewrite run_snoc, Hr; done).
  destruct (IH (ops ++ [ORemNodeProp e k]) g1) as (A1 & A2 & A3 & A4); try done; [by apply hgood_unset| |].
  - intros n Hn. rewrite srun_snoc. apply live_other; [done|]. apply Hl. by right.
  - split; [done|]. split; [done|]. split; [done|]. intros n v. rewrite A4, srun_snoc, not_elem_of_cons. unfold node_has. cbn. destruct (decide (n = e)) as [->|Hne].
    + rewrite lookup_alter, Hx. cbn. split; [|naive_solver]. intros [(y & [= <-] & Hy) _]. cbn in Hy. by rewrite lookup_delete in Hy.
    + rewrite lookup_alter_ne by done. naive_solver.
Qed.
Theorem unsetting_ok ops g k es fuel : valid_history ops -> run ops = Ok g -> node_index ops k = Some HashIndex ->
  storable HashIndex (node_filed ops k) -> node_scan_safe ops k -> get_nodes_with_property g k = Ok es -> length es < fuel ->
  exists g', hash_loop g_nix fuel (unsetting k) g k = Ok (es, g') /\ valid_history (ops ++ map (fun n => ORemNodeProp n k) es) /\
    run (ops ++ map (fun n => ORemNodeProp n k) es) = Ok g' /\ forall n v, ~ node_has (srun (ops ++ map (fun n => ORemNodeProp n k) es)) k v n.
Proof.
  intros Hv Hr Hi Hst Hsc Hes Hlen.
  assert (hgood k ops) as Hg by (split; [done|]; split; [done|]; intros it; rewrite Hi; congruence).
  pose proof (nix_run (node_filed ops k) k ops g Hv Hr (fun w H => H) Hsc) as Hk. rewrite Hi in Hk. pose proof (proj1 (storable_domain _ _) Hst) as HD.
  destruct (Hk HD) as (ix & Hix & Ht & Hh). pose proof (holds_values _ _ _ Hh) as [Hnd Hin].
  assert (es = (ix_values ix).1) as Ees by (unfold get_nodes_with_property in Hes; rewrite Hix in Hes; by injection Hes). rewrite <-Ees in Hnd, Hin.
  destruct (unsetting_runs k es ops g Hv Hr Hg) as (A1 & A2 & (g' & A3) & A4).
  { intros n Hn. apply Hin in Hn as (v & x & Hx & _). by exists x. }
  exists g'. split; [|split; [done|split; [done|]]].
  - destruct A2 as (B1 & B2 & _). eapply (hash_loop_ok ops); try rewrite unsetting_calls; try done. by apply unsetting_keeps.
  - intros n v [Hn Hno]%A4. apply Hno, Hin. eauto.
Qed.

(** ** Uses of loops over labels *)
Lemma labelling_calls ls f es : forall vis, loop_calls (labelling ls f) vis es = map (fun n => OSetLabels n ls (f n).1 (f n).2) es.
Proof. induction es as [|e es IH]; intros vis; cbn [loop_calls map]; [done|]. unfold labelling at 1. rewrite list.last_snoc, IH. done. Qed.
Lemma labelling_keeps labels ls f es : forall s vis, NoDup es -> (forall n, n ∈ es -> exists x, s_nodes s !! n = Some x /\ labels ⊆ sn_labels x) ->
  loop_keeps_vis (labels_keep labels) (labelling ls f) s vis es.
Proof.
  induction es as [|e es IH]; intros s vis Hnd Hl; cbn [loop_keeps_vis]; [done|]. apply NoDup_cons in Hnd as [Hn Hnd].
  assert (labelling ls f (vis ++ [e]) = [OSetLabels e ls (f e).1 (f e).2]) as -> by (unfold labelling; by rewrite list.last_snoc). split.
  - split; [|done]. cbn. intros x Hx. right. split; [apply elem_of_app; right; left|]. destruct (Hl e ltac:(left)) as (x' & Hx' & Hs). rewrite Hx in Hx'. injection Hx' as <-.
    intros l Hl' _. by apply Hs.
  - apply IH; [done|]. intros n Hn'. cbn. rewrite lookup_alter_ne by (by intros ->). apply Hl. by right.
Qed.
Theorem labelling_ok ops g g' labels ord ls f es m k : valid_history (ops ++ map (fun n => OSetLabels n ls (f n).1 (f n).2) es) -> run ops = Ok g ->
  run (ops ++ map (fun n => OSetLabels n ls (f n).1 (f n).2) es) = Ok g' -> labels <> ∅ -> order_of labels ord ->
  get_nodes_all_labels g labels ord = Ok (es, m) -> length es < k ->
  labels_loop k (labelling ls f) g labels ord = Ok (es, g').
Proof.
  intros Hv Hr Hr' Hne Hord Hq Hlen. assert (valid_history ops) as Hv0 by (unfold valid_history in Hv; by apply valid_from_app in Hv as [? _]).
  destruct (get_nodes_all_labels_ok ops g labels ord Hv0 Hr Hne Hord) as (xs & sz & Hq' & [Hnd Hin] & _). rewrite Hq in Hq'. injection Hq' as <- <-.
  apply (labels_loop_ok ops) with (m := m); rewrite ?labelling_calls; try done. apply labelling_keeps; [done|]. intros n Hn. by apply Hin.
Qed.
Lemma removing_labels_keep labels ordf es : forall s vis, loop_keeps_vis (labels_keep labels) (removing_nodes ordf) s vis es.
Proof.
  induction es as [|e es IH]; intros s vis; cbn [loop_keeps_vis]; [done|]. split; [|by apply IH]. unfold removing_nodes. rewrite list.last_snoc.
  split; [|done]. cbn. intros x l _ _ _. apply elem_of_app. right. left.
Qed.
Theorem removing_labels_ok ops g g' labels ord ordf es m k : valid_history (ops ++ map (fun n => ODetachRemove n (ordf n)) es) -> run ops = Ok g ->
  run (ops ++ map (fun n => ODetachRemove n (ordf n)) es) = Ok g' -> order_of labels ord ->
  get_nodes_all_labels g labels ord = Ok (es, m) -> length es < k ->
  labels_loop k (removing_nodes ordf) g labels ord = Ok (es, g').
Proof.
  intros Hv Hr Hr' Hord Hq Hlen. apply (labels_loop_ok ops) with (m := m); rewrite ?removing_nodes_calls; try done. by apply removing_labels_keep.
Qed.
Lemma nothing_calls es : forall vis, loop_calls nothing vis es = [].
Proof. induction es as [|e es IH]; intros vis; [done|]. cbn. apply IH. Qed.
Lemma nothing_keeps K es : forall s vis, loop_keeps_vis K nothing s vis es.
Proof. induction es as [|e es IH]; intros s vis; [done|]. split; [done|]. apply IH. Qed.
Theorem quiet_labels ops g labels ord es m k : valid_history ops -> run ops = Ok g -> order_of labels ord -> get_nodes_all_labels g labels ord = Ok (es, m) ->
  length es < k -> labels_loop k nothing g labels ord = Ok (es, g).
Proof.
  intros Hv Hr Hord Hq Hlen. apply (labels_loop_ok ops) with (m := m); rewrite ?nothing_calls, ?app_nil_r; try done. by apply nothing_keeps.
Qed.

(** ** Setting the property of each node, without index *)
Lemma setting_calls k v es : forall vis, loop_calls (setting k v) vis es = map (fun n => OSetNodeProp n k v) es.
Proof. induction es as [|e es IH]; intros vis; cbn [loop_calls map]; [done|]. unfold setting at 1. rewrite list.last_snoc, IH. done. Qed.
Lemma setting_keeps k v es : forall s vis, (forall n, n ∈ es -> exists x, s_nodes s !! n = Some x /\ is_Some (sn_props x !! k)) ->
  loop_keeps_vis (scan_keeps k) (setting k v) s vis es.
Proof.
  induction es as [|e es IH]; intros s vis Hl; cbn [loop_keeps_vis]; [done|].
  assert (setting k v (vis ++ [e]) = [OSetNodeProp e k v]) as -> by (unfold setting; by rewrite list.last_snoc). split.
  - split; [|done]. cbn. intros _. apply Hl. left.
  - apply IH. intros n Hn. cbn. destruct (Hl n ltac:(by right)) as (x & Hx & Hp). destruct (decide (n = e)) as [->|].
    + rewrite lookup_alter, Hx. eexists. split; [done|]. cbn. rewrite lookup_insert. eauto.
    + rewrite lookup_alter_ne by done. eauto.
Qed.
Lemma setting_runs k v es : forall ops g, valid_history ops -> run ops = Ok g -> node_list_safe ops -> node_index ops k = None -> (forall n, n ∈ es -> live_node (srun ops) n) ->
  valid_history (ops ++ map (fun n => OSetNodeProp n k v) es) /\ node_list_safe (ops ++ map (fun n => OSetNodeProp n k v) es) /\
  exists g', run (ops ++ map (fun n => OSetNodeProp n k v) es) = Ok g'.
Proof.
  induction es as [|e es IH]; intros ops g Hv Hr Hsafe Hi Hl; cbn [map]; [rewrite app_nil_r; eauto|].
  assert (forall o (l : list op), ops ++ o :: l = (ops ++ [o]) ++ l) as E by (intros; by rewrite <-app_assoc). rewrite E.
  destruct (Hl e ltac:(left)) as [x Hx]. destruct (core_props _ _ _ _ (core_run _ _ Hv Hr) Hx) as (nd & Hd & _).
  pose proof (nix_run (fun _ => True) k ops g Hv Hr (fun _ _ => I) (node_index_none_safe _ _ Hi)) as Hk. rewrite Hi in Hk. cbn in Hk.
  assert (exists g1, step g (OSetNodeProp e k v) = Ok g1) as [g1 Hs].
  { cbn [step]. unfold set_node_prop. rewrite Hd. cbn [rbind]. unfold ix_update. rewrite Hk. cbn. eauto. }
  apply (IH _ g1).
  - apply valid_history_snoc. split; [done|by exists x].
  - rewrite run_snoc, Hr. done.
  - unfold node_list_safe. apply node_list_safe_snoc. done.
  - by rewrite node_index_snoc, Hi.
  - intros n Hn. rewrite srun_snoc. apply live_other; [done|]. apply Hl. by right.
Qed.
Theorem setting_scan_ok ops g k v ns es fuel : valid_history ops -> run ops = Ok g -> node_list_safe ops -> node_index ops k = None ->
  get_nodes g = Ok ns -> get_nodes_with_property g k = Ok es -> length ns + length es < fuel ->
  exists g', scan_loop fuel (setting k v) g k = Ok (es, g') /\ run (ops ++ map (fun n => OSetNodeProp n k v) es) = Ok g'.
Proof.
  intros Hv Hr Hsafe Hi Hns Hes Hlen. destruct (get_nodes_ok _ _ Hv Hr Hsafe) as (xs & Hx & [[_ Hin] _]). rewrite Hns in Hx. injection Hx as <-.
  pose proof (nix_run (fun _ => True) k ops g Hv Hr (fun _ _ => I) (node_index_none_safe _ _ Hi)) as Hk. rewrite Hi in Hk. cbn in Hk.
  assert (forall n, n ∈ es -> exists x, s_nodes (srun ops) !! n = Some x /\ is_Some (sn_props x !! k)) as Hl.
  { intros n Hn. unfold get_nodes_with_property in Hes. rewrite Hk, Hns in Hes. cbn [rbind] in Hes. injection Hes as <-. apply elem_of_list_filter in Hn as [Hp Hn].
    apply Hin in Hn as [x Hx]. exists x. split; [done|]. destruct (core_props _ _ _ _ (core_run _ _ Hv Hr) Hx) as (nd & Hd & E & _). unfold node_prop in Hp. unfold deref_node in Hd.
    destruct (g_nodes g !! n); [|done]. injection Hd as ->. by rewrite <-E. }
  destruct (setting_runs k v es ops g Hv Hr Hsafe Hi) as (A1 & A2 & g' & A3).
  { intros n Hn. destruct (Hl n Hn) as (x & Hx & _). by exists x. }
  exists g'. split; [|done]. apply (scan_loop_ok ops) with (ns := ns); rewrite ?setting_calls; try done.
  - by apply setting_keeps.
  - by rewrite map_length.
Qed.
