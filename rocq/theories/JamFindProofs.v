(** Proofs about which queries panic (JamSpec.v). *)
From Verif Require Import Base Value ValueProofs FastSet FastSetProofs Links EdgeMap NodeMap Index IndexProofs Graph GraphSpec Find.
From Verif Require Import LinksProofs EdgeMapProofs CoreProofs CoreStep AdjProofs ReadProofs NodeListProofs EdgeListProofs LabelProofs IndexGraphProofs ProgressProofs HashLiveProofs.
From Verif Require Import RecoverProofs HashOnlySpec HashOnlyProofs OrderSpec QueryOrderSpec QueryOrderProofs QueryEdgeOrderProofs JamSpec JamProofs JamStepProofs.

Lemma held_ask ot c v : held (IBtree ot) c -> plain v ->
  (exists r, ix_find (IBtree ot) v = Ok r) /\ ~ jams_in BtreeIndex c v \/ ix_find (IBtree ot) v = Panic /\ jams_in BtreeIndex c v.
Proof.
  intros Hh Hpl. cbn [jams_in]. destruct Hh as [[E ->]|[(K & t & -> & Hne & Hfl & Hrep)|(i & w & -> & -> & Hk & Hw)]].
  - left. split; [|intros (i & w & Hw & _); by rewrite lookup_empty in Hw]. simpl. destruct ot as [t|]; [simpl in E; subst t|]; simpl; eauto.
  - destruct Hrep as (Hc & Hok & Hbk). destruct (decide (kind v = Some K)) as [Hk|Hk].
    + left. split.
      * simpl. destruct (bt_get_spec _ _ v (of_kind_comparable K) Hok Hk) as (o & -> & _). simpl. destruct o; eauto.
      * intros (j & x & Hx & Hn). apply Hn. eapply of_kind_fit; [|exact Hk]. by eapply Hc.
    + right. destruct (map_some _ Hne) as (j & w & Hj). pose proof (Hc _ _ Hj) as Hw.
      split; [|exists j, w; split; [done|]; intros Hf; apply Hk; exact (proj1 (of_kind_fit K v w Hw) Hf)].
      destruct Hok as [_ HF]. destruct (proj2 Hbk _ _ Hj) as (k & s & Hin & _). destruct t as [|[k0 s0] t]; [by apply elem_of_nil in Hin|]. simpl.
      apply Forall_cons in HF as [Hk0 _]. simpl in Hk0. rewrite unfit_compare; [done|done|by eapply of_kind_plain|].
      intros Hf. apply Hk. exact (proj1 (of_kind_fit K v _ Hk0) Hf).
  - right. assert (~ fit v w) as Hf by (unfold fit; rewrite Hk; intros [? ?]; done). split.
    + simpl. by rewrite unfit_compare.
    + exists i, w. by rewrite lookup_singleton.
Qed.
Definition asked (ixs : gmap string index) (J : Prop) (k : string) (v : value) : Prop :=
  match ixs !! k with
  | None => ~ J
  | Some ix => (exists r, ix_find ix v = Ok r) /\ ~ J \/ ix_find ix v = Panic /\ J
  end.
Lemma held_asked ixs k it F c v : kheld ixs k it c -> (it = Some HashIndex -> hgiven ixs k F) -> (it = Some BtreeIndex -> plain v) ->
  asked ixs (jams_ask it F c v) k v.
Proof.
  intros Hk Hg Hp. unfold asked. destruct it as [t|]; [|simpl in Hk; rewrite Hk; by intros []].
  destruct Hk as (ix & Hix & <- & Hh). rewrite Hix. destruct ix as [ot|vals els fresh]; cbn [ix_type jams_ask] in *.
  - apply held_ask; auto.
  - destruct (hashable (hkey v)) eqn:Hu.
    + left. split; [|intros [Hu'%unhashable_key _]; congruence]. simpl. rewrite Hu. case_decide; [eauto|]. destruct (h_get _ _); eauto.
    + destruct (Hg eq_refl) as (vals' & els' & fresh' & Hix' & _ & H3). rewrite Hix in Hix'. injection Hix' as <- <- <-. cbn [ix_find]. rewrite Hu.
      destruct (decide (fresh = 0)) as [E|Hn].
      * left. split; [eauto|]. intros [_ Hw]. by apply Hw, H3.
      * right. split; [done|]. split; [by apply key_unhashable|]. intros Hw. by apply Hn, H3.
Qed.
Lemma prop_iters_exact ixs (p : props) J ord : (forall k, k ∈ ord <-> k ∈ dom p) -> (forall k v, p !! k = Some v -> asked ixs (J k v) k v) ->
  let bad := exists k v, p !! k = Some v /\ J k v in
  (exists its, prop_iters ixs p ord = Ok its) /\ ~ bad \/ prop_iters ixs p ord = Panic /\ bad.
Proof.
  intros Hord Ha bad. unfold prop_iters.
  assert (forall m : gmap string (list nat * Z), (exists its, rfold (fun m k => match p !! k, ixs !! k with
    | Some v, Some ix => let! r := ix_find ix v in Ok (<[k := r]> m) | _, _ => Ok m end) ord m = Ok its) /\ (forall k v, k ∈ ord -> p !! k = Some v -> ~ J k v) \/
    rfold (fun m k => match p !! k, ixs !! k with
    | Some v, Some ix => let! r := ix_find ix v in Ok (<[k := r]> m) | _, _ => Ok m end) ord m = Panic /\ bad) as H.
  { clear Hord. induction ord as [|k ord IH]; intros m; cbn [rfold].
    - left. split; [eauto|]. by intros k v ?%elem_of_nil.
    - destruct (p !! k) as [v|] eqn:Hp; cbn [rbind].
      + specialize (Ha k v Hp). unfold asked in Ha. destruct (ixs !! k) as [ix|]; cbn [rbind].
        * destruct Ha as [[[r ->] Hn]|[-> Hj]]; cbn [rbind]; [|right; split; [done|]; by exists k, v].
          destruct (IH (<[k:=r]> m)) as [[Hok Hno]|?]; [|by right]. left. split; [done|]. intros k' v' [->|Hin]%elem_of_cons Hp'; [congruence|by eapply Hno].
        * destruct (IH m) as [[Hok Hno]|?]; [|by right]. left. split; [done|]. intros k' v' [->|Hin]%elem_of_cons Hp'; [congruence|by eapply Hno].
      + destruct (IH m) as [[Hok Hno]|?]; [|by right]. left. split; [done|]. intros k' v' [->|Hin]%elem_of_cons Hp'; [congruence|by eapply Hno]. }
  destruct (H ∅) as [[Hok Hno]|?]; [|by right]. left. split; [done|]. intros (k & v & Hp & Hj). apply (Hno k v); [|done|done]. apply Hord, elem_of_dom. by eexists.
Qed.

Theorem jam_find_nodes ops g L p lord pord qord ford :
  valid_history ops -> run ops = Ok g -> lists_safe ops -> plain_trees ops -> L <> ∅ -> order_of L lord -> order_of (dom p) pord ->
  (forall k v, p !! k = Some v -> node_index ops k = Some BtreeIndex -> plain v) ->
  let bad := jams_find (node_index ops) (node_filed ops) (node_vals (srun ops)) p in
  (find_nodes g L p lord pord qord ford = Panic <-> bad) /\ ((exists r, find_nodes g L p lord pord qord ford = Ok r) <-> ~ bad).
Proof.
  intros Hv Hr Hl Hpl HL Hlo Hpo Hp bad.
  assert ((exists r, find_nodes g L p lord pord qord ford = Ok r) /\ ~ bad \/ find_nodes g L p lord pord qord ford = Panic /\ bad) as H.
  2: { destruct H as [[[r ->] Hn]|[-> Hb]]; (split; [done|]); [by split; eauto|]. split; [by intros [r ?]|done]. }
  unfold find_nodes. rewrite decide_False by naive_solver. rewrite decide_False by done.
  destruct (get_nodes_all_labels_ok _ _ _ _ Hv Hr HL Hlo) as (lxs & lsz & -> & _ & Hsz). cbn [rbind].
  destruct (prop_iters_exact (g_nix g) p (fun k v => jams_ask (node_index ops k) (node_filed ops k) (node_vals (srun ops) k) v) pord) as [[[its ->] Hn]|[-> Hb]].
  - apply Hpo.
  - intros k v Hk. apply held_asked; [| |by apply Hp].
    + apply nheld_run; [done|done| |apply Hl]. intros Hi w Hw. apply (Hpl k). auto.
    + intros Hi. apply (nhash_run k ops g Hv Hr Hi). apply Hl.
  - left. split; [|done]. cbn [rbind]. unfold choose. destruct (min_iter its qord) as [[xs sz]|]; [case_bool_decide; eauto|].
    rewrite bool_decide_eq_true_2; [eauto|]. simpl. lia.
  - right. split; done.
Qed.
Theorem jam_find_edges ops g L p lord pord qord ford :
  valid_history ops -> run ops = Ok g -> lists_safe ops -> plain_trees ops -> L <> ∅ -> order_of L lord -> order_of (dom p) pord ->
  (forall k v, p !! k = Some v -> edge_index ops k = Some BtreeIndex -> plain v) ->
  let bad := jams_find (edge_index ops) (edge_filed ops) (edge_entries ops) p in
  (find_edges g L p lord pord qord ford = Panic <-> bad) /\ ((exists r, find_edges g L p lord pord qord ford = Ok r) <-> ~ bad).
Proof.
  intros Hv Hr Hl Hpl HL Hlo Hpo Hp bad.
  assert ((exists r, find_edges g L p lord pord qord ford = Ok r) /\ ~ bad \/ find_edges g L p lord pord qord ford = Panic /\ bad) as H.
  2: { destruct H as [[[r ->] Hn]|[-> Hb]]; (split; [done|]); [by split; eauto|]. split; [by intros [r ?]|done]. }
  unfold find_edges. rewrite decide_False by naive_solver. rewrite decide_False by done.
  destruct (get_edges_any_label_ok _ _ _ _ Hv Hr (proj1 Hl) Hlo) as (lxs & -> & _). cbn [rbind].
  destruct (prop_iters_exact (g_eix g) p (fun k v => jams_ask (edge_index ops k) (edge_filed ops k) (edge_entries ops k) v) pord) as [[[its ->] Hn]|[-> Hb]].
  - apply Hpo.
  - intros k v Hk. apply held_asked; [| |by apply Hp].
    + apply eheld_run; [done|done| |by apply lists_safe_edges]. intros Hi w Hw. apply (Hpl k). auto.
    + intros Hi. apply (ehash_run k ops g Hv Hr Hi). by apply lists_safe_edges.
  - left. split; [|done]. cbn [rbind]. unfold choose. destruct (min_iter its qord) as [[xs sz]|]; [case_bool_decide; eauto|].
    destruct (get_edges_ok _ _ Hv Hr (proj1 Hl)) as [(es & -> & _) _]. case_bool_decide; simpl; eauto.
  - right. split; done.
Qed.

(** for the examples *)
Definition op_plain (o : op) : Prop :=
  match o with
  | ONewNode _ p _ | ONewEdge _ _ _ p => map_Forall (fun _ v => plain v) p
  | OSetNodeProp _ _ v | OSetEdgeProp _ _ v => plain v
  | _ => True
  end.
Lemma all_plain_trees ops : Forall op_plain ops -> plain_trees ops.
Proof.
  rewrite Forall_forall. intros H k v [[_ Hf]|[_ Hf]].
  - apply node_filed_written in Hf as (o & Ho & Hw). specialize (H o Ho). destruct o; simpl in *; try done; [by eapply H|]. by destruct Hw as [_ ->].
  - apply edge_filed_written in Hf as (o & Ho & Hw). specialize (H o Ho). destruct o; simpl in *; try done; [by eapply H|]. by destruct Hw as [_ ->].
Qed.
Global Instance plain_dec v : Decision (plain v).
Proof. induction v; try (by left); [right; by intros []|exact IHv]. Defined.
Global Instance op_plain_dec o : Decision (op_plain o).
Proof. destruct o; apply _. Defined.
