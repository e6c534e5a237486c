(** Concrete histories for the examples beside the theorems, and decision procedures that let
    [vm_compute] check their hypotheses. *)
From Verif Require Import Base Value Index Graph GraphSpec.
From Verif Require Import CoreStep NodeListProofs IndexGraphProofs.

Global Instance order_of_dec X ord : Decision (order_of X ord).
Proof.
  refine (cast_if (decide (NoDup ord /\ (list_to_set ord : gset string) = X))).
  - abstract (destruct a as [H1 <-]; split; [done|]; intros; by rewrite elem_of_list_to_set).
  - abstract (intros [H1 H2]; apply n; split; [done|]; apply set_eq; intros; by rewrite elem_of_list_to_set).
Defined.
Global Instance live_node_dec s n : Decision (live_node s n).
Proof. unfold live_node. apply _. Defined.
Global Instance live_edge_dec s n : Decision (live_edge s n).
Proof. unfold live_edge. apply _. Defined.
Lemma labelled_iff (N : gmap nat snode) n ord :
  match N !! n with Some x => order_of (sn_labels x) ord | None => False end <->
  exists x, N !! n = Some x /\ order_of (sn_labels x) ord.
Proof.
  destruct (N !! n) as [x|].
  - split; [intros H; by exists x|]. by intros (y & [= <-] & H).
  - split; [done|]. by intros (y & ? & _).
Qed.
Global Instance match_order_dec (N : gmap nat snode) n ord :
  Decision (match N !! n with Some x => order_of (sn_labels x) ord | None => False end).
Proof. destruct (N !! n); apply _. Defined.
Global Instance labelled_dec (N : gmap nat snode) n ord :
  Decision (exists x, N !! n = Some x /\ order_of (sn_labels x) ord).
Proof.
  pose proof (labelled_iff N n ord) as H.
  destruct (decide (match N !! n with Some x => order_of (sn_labels x) ord | None => False end)) as [d|d].
  - left. abstract (by apply H).
  - right. abstract (by intros x; apply d, H).
Defined.
Global Instance valid_dec s o : Decision (valid s o).
Proof. destruct o; simpl; apply _. Defined.
Global Instance valid_from_dec s ops : Decision (valid_from s ops).
Proof. revert s; induction ops; intros s; simpl; apply _. Defined.
Global Instance valid_history_dec ops : Decision (valid_history ops).
Proof. unfold valid_history. apply _. Defined.

(** [removes] and the edge list guard *)
Global Instance filed_ok_dec F s e : Decision (filed_ok F s e).
Proof. unfold filed_ok. destruct (s_edges s !! e); apply _. Defined.
Lemma removes_iff F s o :
  (forall e, removes s o e -> filed_ok F s e) <->
  map_Forall (fun e _ => s_edges (sstep s o) !! e = None -> filed_ok F s e) (s_edges s).
Proof.
  split.
  - intros H e x He Hn. apply H. split; [by exists x|]. unfold live_edge. rewrite Hn. by intros [? ?].
  - intros H e [[x He] Hn]. eapply H; [exact He|]. by apply eq_None_not_Some.
Qed.
Global Instance removes_dec F s o : Decision (forall e, removes s o e -> filed_ok F s e).
Proof.
  destruct (decide (map_Forall (fun e _ => s_edges (sstep s o) !! e = None -> filed_ok F s e) (s_edges s))) as [d|d].
  - left. abstract (by apply removes_iff).
  - right. abstract (by intros x; apply d, removes_iff).
Defined.
Global Instance edge_list_safe_from_dec F s ops : Decision (edge_list_safe_from F s ops).
Proof. revert F s; induction ops; intros F s; simpl; apply _. Defined.
Global Instance edge_list_safe_dec ops : Decision (edge_list_safe ops).
Proof. unfold edge_list_safe. apply _. Defined.

Global Instance edge_eq_dec : EqDecision edge.
Proof. solve_decision. Defined.
Global Instance snode_eq_dec : EqDecision snode.
Proof. solve_decision. Defined.
(** outcomes *)
Global Instance res_eq_dec {A} `{EqDecision A} : EqDecision (res A).
Proof. solve_decision. Defined.
Global Instance ok_dec {A} (r : res A) : Decision (exists x, r = Ok x).
Proof. destruct r as [x| |]; [left; by exists x|right; abstract (by intros [? ?])..]. Defined.
Global Instance ok_and_dec {A} (r : res A) (P : A -> Prop) `{forall x, Decision (P x)} :
  Decision (exists x, r = Ok x /\ P x).
Proof.
  destruct r as [x| |]; [destruct (decide (P x)) as [d|d]|..]; [left; by exists x|right..].
  - abstract (by intros (? & [= <-] & ?)).
  - abstract (by intros (? & ? & ?)).
  - abstract (by intros (? & ? & ?)).
Defined.
Global Instance ok_pair_dec {A B} `{EqDecision B} (r : res (A * B)) (b : B) :
  Decision (exists x, r = Ok (x, b)).
Proof.
  destruct r as [[x b']| |]; [destruct (decide (b' = b)) as [d|d]|..]; [left; exists x; abstract (by rewrite d)|right..].
  - abstract (intros (? & [= _ ?]); done).
  - abstract (by intros (? & ?)).
  - abstract (by intros (? & ?)).
Defined.
Global Instance panic_dec {A} (r : res A) : Decision (r = Panic).
Proof. destruct r; [right|left|right]; abstract done. Defined.
Ltac by_compute := apply (bool_decide_unpack _); vm_compute; exact I.

(** four nodes 0,1,2,3; edges 4: 0 -A-> 1, 5: 1 -B-> 2, 6: 0 -A-> 0 (a loop), 7: 2 -A-> 0;
    then 4 is removed, 6 relabelled to B, node 1 gets a label and a property, node 3 is removed *)
Definition ex_ops : list op :=
  [ ONewNode {["P"; "Q"]} {["k" := VInt 1]} ["Q"; "P"]%string;
    ONewNode ∅ ∅ [];
    ONewNode {["P"]} ∅ ["P"]%string;
    ONewNode {["Q"]} ∅ ["Q"]%string;
    ONewEdge 0 1 "A" ∅; ONewEdge 1 2 "B" {["w" := VStr "x"]}; ONewEdge 0 0 "A" ∅; ONewEdge 2 0 "A" ∅;
    ORemoveEdge 4; OSetEdgeLabel 6 "B";
    OSetLabels 1 {["P"]} [] ["P"]%string; OSetNodeProp 1 "k" (VInt 7);
    ODetachRemove 3 ["Q"]%string ].
Definition result (ops : list op) : graph := match run ops with Ok g => g | _ => new_graph end.
Lemma run_result ops : match run ops with Ok _ => true | _ => false end = true -> run ops = Ok (result ops).
Proof. unfold result. by destruct (run ops). Qed.
Definition returns (ops : list op) : bool := match run ops with Ok _ => true | _ => false end.
Lemma result_step ops o : returns ops = true -> returns (ops ++ [o]) = true -> step (result ops) o = Ok (result (ops ++ [o])).
Proof.
  unfold returns, result. rewrite run_snoc. destruct (run ops) as [g| |]; simpl; try done. by destruct (step g o).
Qed.
Definition ex_graph : graph := result ex_ops.
Example ex_valid : valid_history ex_ops.
Proof. by_compute. Qed.
Example ex_run : run ex_ops = Ok ex_graph.
Proof. apply run_result. vm_compute. reflexivity. Qed.
Example ex_nsafe : node_list_safe ex_ops.
Proof. by_compute. Qed.
Example ex_esafe : edge_list_safe ex_ops.
Proof. by_compute. Qed.

(** proves [valid_history ops /\ run ops = Ok (result ops) /\ decidable facts] *)
Ltac by_witness :=
  split; [by_compute|]; split; [apply run_result; vm_compute; reflexivity|]; by_compute.
Lemma filed_ok_all F s : map_Forall (fun e _ => filed_ok F s e) (s_edges s) -> forall e, filed_ok F s e.
Proof.
  intros H e. unfold filed_ok. destruct (s_edges s !! e) as [x|] eqn:He; [|done].
  specialize (H e x He). unfold filed_ok in H. by rewrite He in H.
Qed.

(** the values written to a property *)
Definition node_writes (k : string) (o : op) : list value :=
  match o with
  | ONewNode _ p _ => match p !! k with Some v => [v] | None => [] end
  | OSetNodeProp _ k' w => if decide (k' = k) then [w] else []
  | _ => []
  end.
Definition edge_writes (k : string) (o : op) : list value :=
  match o with
  | ONewEdge _ _ _ p => match p !! k with Some v => [v] | None => [] end
  | OSetEdgeProp _ k' w => if decide (k' = k) then [w] else []
  | _ => []
  end.
Lemma node_filed_list ops k (D : value -> Prop) :
  Forall (fun o => Forall D (node_writes k o)) ops -> forall v, node_filed ops k v -> D v.
Proof.
  rewrite Forall_forall. intros H v (o & Ho & Hw)%node_filed_written. specialize (H o Ho). rewrite Forall_forall in H. apply H.
  destruct o; simpl in *; try done; [rewrite Hw; set_solver|]. destruct Hw as [-> ->]. rewrite decide_True by done. set_solver.
Qed.
Lemma edge_filed_list ops k (D : value -> Prop) :
  Forall (fun o => Forall D (edge_writes k o)) ops -> forall v, edge_filed ops k v -> D v.
Proof.
  rewrite Forall_forall. intros H v (o & Ho & Hw)%edge_filed_written. specialize (H o Ho). rewrite Forall_forall in H. apply H.
  destruct o; simpl in *; try done; [rewrite Hw; set_solver|]. destruct Hw as [-> ->]. rewrite decide_True by done. set_solver.
Qed.
Definition is_int (v : value) : Prop := match v with VInt _ => True | _ => False end.
Global Instance is_int_dec v : Decision (is_int v).
Proof. destruct v; apply _. Defined.
Lemma storable_int it (D : value -> Prop) : (forall v, D v -> is_int v) -> storable it D.
Proof.
  intros H. destruct it; simpl.
  - intros v w Hv%H Hw%H. by destruct v, w.
  - intros v Hv%H. by destruct v.
Qed.
Definition node_scans (k : string) (ops : list op) : Prop :=
  Forall (fun i => match ops !! i with
                   | Some (OAddNodeIndex k' _) => k' = k -> node_list_safe (take i ops)
                   | _ => True end) (seq 0 (length ops)).
Global Instance node_scans_dec k ops : Decision (node_scans k ops).
Proof. apply Forall_dec. intros i. destruct (ops !! i) as [[]|]; apply _. Defined.
Lemma node_scans_safe k ops : node_scans k ops -> node_scan_safe ops k.
Proof.
  unfold node_scans. rewrite Forall_forall. intros H ops1 ops2 it E. specialize (H (length ops1)).
  rewrite E in H at 2. rewrite E in H. rewrite list_lookup_middle in H by done. rewrite take_app in H.
  apply H; [|done]. apply elem_of_seq. rewrite app_length. simpl. lia.
Qed.
Definition edge_scans (k : string) (ops : list op) : Prop :=
  Forall (fun i => match ops !! i with
                   | Some (OAddEdgeIndex k' _) => k' = k -> edge_list_safe (take i ops)
                   | _ => True end) (seq 0 (length ops)).
Global Instance edge_scans_dec k ops : Decision (edge_scans k ops).
Proof. apply Forall_dec. intros i. destruct (ops !! i) as [[]|]; apply _. Defined.
Lemma edge_scans_safe k ops : edge_scans k ops -> edge_scan_safe ops k.
Proof.
  unfold edge_scans. rewrite Forall_forall. intros H ops1 ops2 it E. specialize (H (length ops1)).
  rewrite E in H. rewrite list_lookup_middle in H by done. rewrite take_app in H.
  apply H; [|done]. apply elem_of_seq. rewrite app_length. simpl. lia.
Qed.
Lemma node_query_int ops k : is_Some (node_index ops k) ->
  Forall (fun o => Forall is_int (node_writes k o)) ops -> node_scans k ops -> node_query_safe ops k.
Proof.
  intros [it Hi] Hw Hs. unfold node_query_safe. rewrite Hi. split; [|by apply node_scans_safe].
  apply storable_int. by apply node_filed_list.
Qed.
Lemma edge_query_int ops k : is_Some (edge_index ops k) ->
  Forall (fun o => Forall is_int (edge_writes k o)) ops -> edge_scans k ops -> edge_query_safe ops k.
Proof.
  intros [it Hi] Hw Hs. unfold edge_query_safe. rewrite Hi. split; [|by apply edge_scans_safe].
  apply storable_int. by apply edge_filed_list.
Qed.
Definition is_remove (o : op) : bool := match o with ORemoveEdge _ => true | _ => false end.
Lemma no_left_over ops k : Forall (fun o => is_remove o = false) ops -> forall v e, ~ left_over ops k v e.
Proof.
  rewrite Forall_forall. intros H v e (ops1 & ops2 & -> & _). specialize (H (ORemoveEdge e)). discriminate H. set_solver.
Qed.

Lemma askable_int it (D : value -> Prop) v : (forall w, D w -> is_int w) -> is_int v -> askable it D v.
Proof.
  intros HD Hv. split.
  - apply storable_int. by intros w [?%HD| ->].
  - intros _ w Hw%HD Ha. destruct v, w; try done. unfold answers in Ha. simpl in Ha.
    injection Ha as Ha. unfold cmp_int in Ha. simpl in *. f_equal. symmetry. by apply Z.compare_eq_iff.
Qed.
Lemma node_askable_int ops (p : props) :
  map_Forall (fun k v => is_int v /\ Forall (fun o => Forall is_int (node_writes k o)) ops /\ node_scans k ops) p ->
  node_askable ops p.
Proof.
  intros H k v it Hk Hi. destruct (H k v Hk) as (H1 & H2 & H3). split; [|by apply node_scans_safe].
  apply askable_int; [|done]. by apply node_filed_list.
Qed.
Lemma edge_askable_int ops (p : props) :
  map_Forall (fun k v => is_int v /\ Forall (fun o => Forall is_int (edge_writes k o)) ops /\ edge_scans k ops) p ->
  edge_askable ops p.
Proof.
  intros H k v it Hk Hi. destruct (H k v Hk) as (H1 & H2 & H3). split; [|by apply edge_scans_safe].
  apply askable_int; [|done]. by apply edge_filed_list.
Qed.

(** the keys that get an index *)
Definition node_index_keys (ops : list op) : list string :=
  omap (fun o => match o with OAddNodeIndex k _ => Some k | _ => None end) ops.
Definition edge_index_keys (ops : list op) : list string :=
  omap (fun o => match o with OAddEdgeIndex k _ => Some k | _ => None end) ops.
Lemma node_index_key ops k it : node_index ops k = Some it -> k ∈ node_index_keys ops.
Proof.
  induction ops as [|o ops IH]; simpl; [done|]. destruct o; try exact IH. destruct (decide _) as [->|_].
  - intros _. csimpl. left.
  - intros H. csimpl. right. by apply IH.
Qed.
Lemma edge_index_key ops k it : edge_index ops k = Some it -> k ∈ edge_index_keys ops.
Proof.
  induction ops as [|o ops IH]; simpl; [done|]. destruct o; try exact IH. destruct (decide _) as [->|_].
  - intros _. csimpl. left.
  - intros H. csimpl. right. by apply IH.
Qed.
Lemma calls_safe_int ops :
  edge_list_safe ops ->
  Forall (fun k => Forall (fun o => Forall is_int (node_writes k o)) ops /\ node_scans k ops) (node_index_keys ops) ->
  Forall (fun k => Forall (fun o => Forall is_int (edge_writes k o)) ops) (edge_index_keys ops) ->
  calls_safe ops.
Proof.
  intros H1 H2 H3. rewrite Forall_forall in H2. rewrite Forall_forall in H3. split; [done|]. split.
  - intros k it [Hw Hs]%node_index_key%H2. split; [|by apply node_scans_safe].
    apply storable_int. by apply node_filed_list.
  - intros k it Hw%edge_index_key%H3. apply storable_int. by apply edge_filed_list.
Qed.
