(** Proofs for C97: the functions of Json.v that read values, and the relations of JsonValSpec.v. *)
From Verif Require Import Base Value JsonText Json JsonSpec JsonValSpec.
Local Open Scope string_scope.
Local Open Scope list_scope.

Lemma last_at_nil k v : ~ last_at [] k v.
Proof. intros (l1 & l2 & E & _). by destruct l1. Qed.
Lemma last_at_snoc l p k v : last_at (l ++ [p]) k v <-> p = (k, v) \/ p.1 <> k /\ last_at l k v.
Proof.
  split.
  - intros (l1 & l2 & E & Hn). destruct l2 as [|q l2 _] using rev_ind.
    + apply app_inj_tail in E as [_ ->]. by left.
    + rewrite app_comm_cons, app_assoc in E. apply app_inj_tail in E as [-> ->]. rewrite fmap_app in Hn. cbn in Hn. right.
      rewrite elem_of_app, elem_of_list_singleton in Hn. split; [intros <-; tauto|]. exists l1, l2. tauto.
  - intros [-> |[Hp (l1 & l2 & -> & Hn)]].
    + exists l, []. split; [done|]. apply not_elem_of_nil.
    + exists l1, (l2 ++ [p]). split; [by rewrite <-app_assoc|]. rewrite fmap_app, elem_of_app. cbn. rewrite elem_of_list_singleton. naive_solver.
Qed.
Lemma field_snoc l p k : field (l ++ [p]) k = if decide (p.1 = k) then p.2 else field l k.
Proof. unfold field. by rewrite foldl_app. Qed.
Lemma field_last l k v : last_at l k v -> field l k = v.
Proof.
  induction l as [|p l IH] using rev_ind; [by intros ?%last_at_nil|]. rewrite last_at_snoc, field_snoc.
  intros [-> |[Hp H]]; [by rewrite decide_True|]. rewrite decide_False by done. by apply IH.
Qed.
Lemma field_none l k : k ∉ l.*1 -> field l k = JS SNull.
Proof.
  induction l as [|p l IH] using rev_ind; [done|]. rewrite fmap_app, elem_of_app, field_snoc. cbn. rewrite elem_of_list_singleton.
  intros Hn. rewrite decide_False by naive_solver. apply IH. tauto.
Qed.
Lemma field_cases l k : k ∉ l.*1 /\ field l k = JS SNull \/ last_at l k (field l k).
Proof.
  induction l as [|p l IH] using rev_ind; [left; split; [apply not_elem_of_nil|done]|]. rewrite last_at_snoc, field_snoc.
  rewrite fmap_app, elem_of_app. cbn. rewrite elem_of_list_singleton.
  destruct (decide (p.1 = k)) as [<-|Hp]; [right; left; by destruct p|]. destruct IH as [[H1 H2]|H]; [left; naive_solver|right; right; done].
Qed.
Lemma field_missing l k : missing l k <-> field l k = JS SNull.
Proof.
  split; [intros [?|?]; [by apply field_none|by apply field_last]|]. intros E. destruct (field_cases l k) as [[? _]|H]; [by left|right]. by rewrite E in H.
Qed.
Lemma field_is l k v : v <> JS SNull -> last_at l k v <-> field l k = v.
Proof.
  intros Hv. split; [apply field_last|]. intros E. destruct (field_cases l k) as [[_ ?]|H]; [congruence|]. by rewrite E in H.
Qed.
Lemma read_int_at l k z : read_int (field l k) = Some z <-> int_at l k z.
Proof.
  unfold int_at. rewrite field_missing, field_is by done. destruct (field l k) as [[]|vs|ms]; cbn; naive_solver.
Qed.
Lemma read_str_is v s : read_str v = Some s <-> str_is v s.
Proof. unfold str_is. destruct v as [[]|vs|ms]; cbn; naive_solver. Qed.
Lemma read_str_at l k s : read_str (field l k) = Some s <-> str_at l k s.
Proof.
  unfold str_at. rewrite field_missing, field_is by done. destruct (field l k) as [[]|vs|ms]; cbn; naive_solver.
Qed.
Lemma fold_map_at ms x v : (foldl (fun (m : gmap string json) p => <[p.1 := p.2]> m) ∅ ms) !! x = Some v <-> last_at ms x v.
Proof.
  induction ms as [|[k w] ms IH] using rev_ind; [cbn; rewrite lookup_empty; split; [done|by intros ?%last_at_nil]|].
  rewrite foldl_app, last_at_snoc. cbn. rewrite lookup_insert_Some, IH. naive_solver.
Qed.
Lemma read_map_at l k m : read_map (field l k) = Some m <-> map_at l k m.
Proof.
  unfold map_at. rewrite field_missing. split.
  - intros H. destruct (field l k) as [s|vs|ms] eqn:E; cbn in H; [|done|].
    + destruct s; try done. injection H as <-. by left.
    + injection H as <-. right. exists ms. split; [by apply field_is|]. intros x v. apply fold_map_at.
  - intros [[-> ->]|(ms & Hms & Hm)]; [done|]. apply field_is in Hms as ->; [|done]. cbn. f_equal. apply map_eq. intros x.
    apply option_eq. intros v. by rewrite Hm, fold_map_at.
Qed.
Lemma read_list_is {A} (f : json -> option A) R v xs : (forall v x, f v = Some x <-> R v x) -> read_list f v = Some xs <-> list_is R v xs.
Proof.
  intros HR. unfold list_is. destruct v as [s|vs|ms]; cbn.
  - destruct s; naive_solver.
  - rewrite mapM_Some. split.
    + intros H. right. exists vs. split; [done|]. eapply Forall2_impl; [exact H|]. intros v x. apply HR.
    + intros [[? _]|(vs' & [= <-] & H)]; [done|]. eapply Forall2_impl; [exact H|]. intros v x. apply HR.
  - naive_solver.
Qed.
Lemma read_list_at {A} (f : json -> option A) R l k xs : (forall v x, f v = Some x <-> R v x) -> read_list f (field l k) = Some xs <-> list_at R l k xs.
Proof.
  intros HR. rewrite (read_list_is f R) by done. unfold list_is, list_at. rewrite field_missing. split.
  - intros [?|(vs & E & H)]; [by left|right]. exists vs. split; [by apply field_is|done].
  - intros [?|(vs & E & H)]; [by left|right]. exists vs. split; [by apply field_is in E|done].
Qed.
Lemma members_is v l : members v = Some l <-> members_are v l.
Proof. unfold members_are. destruct v as [[]|vs|ms]; cbn; naive_solver. Qed.
Lemma read_edge_is from v ed : read_edge from v = Some ed <-> edge_is from v ed.
Proof.
  unfold read_edge, edge_is. split.
  - intros (l & El & H)%bind_Some. apply bind_Some in H as (f & Ef & H). apply bind_Some in H as (t & Et & H). apply bind_Some in H as (s & Es & H).
    apply bind_Some in H as (p & Ep & [= <-]). exists l. cbn. split; [by apply members_is|].
    split; [destruct from; [by apply read_int_at|by injection Ef]|]. split; [by apply read_int_at|]. split; [by apply read_str_at|by apply read_map_at].
  - intros (l & El & Ef & Et & Es & Ep). destruct ed as [f t s p]. cbn in *. rewrite <-members_is in El. rewrite <-read_int_at in Et. rewrite <-read_str_at in Es. rewrite <-read_map_at in Ep.
    rewrite El. cbn. assert ((if from then read_int (field l "from") else Some 0%Z) = Some f) as ->.
    { destruct from; [by apply read_int_at|by subst]. }
    cbn. rewrite Et. cbn. rewrite Es. cbn. by rewrite Ep.
Qed.
Lemma read_node_is v nd : read_node v = Some nd <-> node_is v nd.
Proof.
  unfold read_node, node_is. split.
  - intros (l & El & H)%bind_Some. apply bind_Some in H as (n & En & H). apply bind_Some in H as (ls & Els & H). apply bind_Some in H as (p & Ep & H).
    apply bind_Some in H as (es & Ees & [= <-]). exists l. cbn. rewrite <-members_is, <-read_int_at, <-read_map_at.
    rewrite <-(read_list_at read_str) by apply read_str_is. rewrite <-(read_list_at (read_edge false)) by apply read_edge_is. done.
  - intros (l & El & En & Els & Ep & Ees). destruct nd as [n ls p es]. cbn in *. rewrite <-members_is in El. rewrite <-read_int_at in En. rewrite <-read_map_at in Ep.
    rewrite <-(read_list_at read_str) in Els by apply read_str_is. rewrite <-(read_list_at (read_edge false)) in Ees by apply read_edge_is.
    rewrite El. cbn. rewrite En. cbn. rewrite Els. cbn. rewrite Ep. cbn. by rewrite Ees.
Qed.
Lemma all_at_is {A} (f : json -> option A) R ms k xs : (forall v x, f v = Some x <-> R v x) ->
  mjoin <$> mapM (fun p => read_list f p.2) (filter (fun p => p.1 = k) ms) = Some xs <-> all_at R ms k xs.
Proof.
  intros HR. unfold all_at. rewrite fmap_Some. setoid_rewrite mapM_Some. split; intros (xss & H & ->); exists xss; (split; [|done]).
  - rewrite Forall2_fmap_l. eapply Forall2_impl; [exact H|]. intros p ys. cbn. by apply read_list_is.
  - rewrite Forall2_fmap_l in H. eapply Forall2_impl; [exact H|]. intros p ys. cbn. by apply read_list_is.
Qed.
Lemma declares_is ms nds eds : declares ms nds eds <-> document_is ms nds eds.
Proof.
  unfold declares, document_is, doc_nodes, doc_edges. setoid_rewrite (all_at_is read_node node_is); [|apply read_node_is].
  setoid_rewrite (all_at_is (read_edge true) (edge_is true)); [|apply read_edge_is]. split.
  - intros (es & H1 & H2 & H3). split; [done|]. by exists es.
  - intros (H1 & es & H2 & H3). by exists es.
Qed.

(** ** Properties *)
Section fold.
  Context (pu : unmarshaler).
  Definition pstep (acc : option props) (kd : string * json) : option props :=
    match acc with
    | None => None
    | Some p => match pu kd.1 kd.2 with None => None | Some (k, v) => Some (if decide (k = "") then p else <[k := v]> p) end
    end.
  Lemma pfold_none l : foldl pstep None l = None.
  Proof. by induction l. Qed.
  Lemma pfold_some l : forall p, is_Some (foldl pstep (Some p) l) <-> forall kd, kd ∈ l -> is_Some (pu kd.1 kd.2).
  Proof.
    induction l as [|kd l IH]; intros p; cbn [foldl].
    { split; [by intros _ kd ?%elem_of_nil|by intros _; exists p]. }
    cbn [pstep]. destruct (pu kd.1 kd.2) as [[k v]|] eqn:E.
    - rewrite IH. split; [|intros H kd' ?; apply H; by right]. intros H kd' [-> |?]%elem_of_cons; [by rewrite E|by apply H].
    - rewrite pfold_none. split; [by intros [? ?]|]. intros H. destruct (H kd (elem_of_list_here _ _)) as [? ?]. congruence.
  Qed.
  Lemma pfold_lookup l : NoDup l.*1 ->
    (forall a b k v1 v2, a ∈ l -> b ∈ l -> pu a.1 a.2 = Some (k, v1) -> pu b.1 b.2 = Some (k, v2) -> a.1 = b.1) ->
    forall p0 p, foldl pstep (Some p0) l = Some p -> (forall a k v, a ∈ l -> pu a.1 a.2 = Some (k, v) -> p0 !! k = None) ->
    forall k v, p !! k = Some v <-> p0 !! k = Some v \/ k <> "" /\ exists a, a ∈ l /\ pu a.1 a.2 = Some (k, v).
  Proof.
    induction l as [|kd l IH]; intros Hnd Hap p0 p H Hfree k v; cbn [foldl] in H.
    { injection H as <-. split; [by left|]. intros [?|(_ & a & ?%elem_of_nil & _)]; done. }
    cbn in Hnd. apply NoDup_cons in Hnd as [Hn Hnd]. cbn [pstep] in H. destruct (pu kd.1 kd.2) as [[k1 v1]|] eqn:E; [|by rewrite pfold_none in H].
    assert (Hoth : forall a v2, a ∈ l -> pu a.1 a.2 = Some (k1, v2) -> False).
    { intros a v2 Ha E2. apply Hn. rewrite (Hap kd a k1 v1 v2); [|left|by right|done|done]. by apply elem_of_list_fmap_1. }
    rewrite (IH Hnd) with (p0 := if decide (k1 = "") then p0 else <[k1 := v1]> p0); [|intros; eapply Hap; eauto; by right|done|].
    2: { intros a k2 v2 Ha E2. case_decide; [eapply Hfree; [by right|done]|]. rewrite lookup_insert_ne; [eapply Hfree; [by right|done]|].
         intros <-. by eapply Hoth. }
    assert (p0 !! k1 = None) as Hk1 by (eapply Hfree; [left|done]).
    setoid_rewrite elem_of_cons. case_decide as Hk.
    - split; [intros [?|(? & a & ? & ?)]; [by left|right; eauto]|]. intros [?|(Hne & a & [-> |Ha] & Ea)]; [by left|congruence|right; eauto].
    - rewrite lookup_insert_Some. split.
      + intros [[[-> ->]|[? ?]]|(Hne & a & Ha & Ea)]; [right; split; [done|]; exists kd; auto|by left|right; eauto].
      + intros [H0|(Hne & a & [-> |Ha] & Ea)]; [left; right; split; [congruence|done]|left; left; split; congruence|right; eauto].
  Qed.
End fold.
Lemma readable_is pu m : readable pu m <-> all_read pu m.
Proof.
  unfold readable, all_read, unmarshal_props. change (is_Some (foldl (pstep pu) (Some ∅) (map_to_list m)) <-> forall k d, m !! k = Some d -> is_Some (pu k d)).
  rewrite pfold_some. split.
  - intros H k d Hd. apply (H (k, d)). by apply elem_of_map_to_list.
  - intros H [k d] Hd. apply H. by apply elem_of_map_to_list.
Qed.
Lemma properties_read pu m p : apart pu m -> unmarshal_props pu m = Some p -> properties_are pu m p.
Proof.
  intros Hap H k v. rewrite (pfold_lookup pu (map_to_list m)) with (p0 := ∅); [|apply NoDup_fst_map_to_list| |exact H|].
  - rewrite lookup_empty. split.
    + intros [?|(Hk & [k0 d] & Hin & E)]; [done|]. split; [done|]. exists k0, d. split; [by apply elem_of_map_to_list|done].
    + intros (Hk & k0 & d & Hin & E). right. split; [done|]. exists (k0, d). split; [by apply elem_of_map_to_list|done].
  - intros [k1 d1] [k2 d2] k3 v1 v2 H1%elem_of_map_to_list H2%elem_of_map_to_list E1 E2. by eapply Hap.
  - intros. apply lookup_empty.
Qed.
Lemma sound_is pu nds eds : sound_doc pu nds eds <->
  (forall nd, nd ∈ nds -> all_read pu (jn_props nd)) /\
  (forall ed, ed ∈ eds -> all_read pu (je_props ed) /\ declared nds (je_from ed) /\ declared nds (je_to ed)).
Proof. unfold sound_doc. by setoid_rewrite readable_is. Qed.
Lemma document_unique ms nds eds nds' eds' : document_is ms nds eds -> document_is ms nds' eds' -> nds' = nds /\ eds' = eds.
Proof.
  rewrite <-!declares_is. intros (es & A1 & A2 & A3) (es' & B1 & B2 & B3). assert (nds' = nds) as -> by congruence. assert (es' = es) as -> by congruence. by subst.
Qed.
