(** The list of all edges (graph.go allEdges). *)
From Verif Require Import Base Assoc AssocProofs Value FastSet Links EdgeMap NodeMap Index Graph GraphSpec.
From Verif Require Import LinksProofs EdgeMapProofs CoreProofs CoreStep AdjProofs ReadProofs NodeListProofs.

(** removing several edges *)
Lemma em_removes_ok lb key es L em X :
  em_rep key L em X -> NoDup es -> (forall e, e ∈ es -> e ∈ X) ->
  (forall e, e ∈ es -> 2 <= size X -> key e = lb e) ->
  let r := fold_left (fun p e => em_remove lb p.1 p.2 e) es (em, L) in
  em_rep key r.2 r.1 (X ∖ list_to_set es).
Proof.
  revert L em X; induction es as [|e es IH]; intros L em X Hrep Hnd Hin Hk; simpl.
  - assert (X ∖ ∅ = X) as -> by set_solver. done.
  - apply NoDup_cons in Hnd as [Hni Hnd].
    destruct (em_remove lb em L e) as [em' L'] eqn:Hr.
    destruct (em_remove_ok _ _ _ _ _ _ _ _ Hr Hrep) as [Hrep' _].
    { apply Hin. set_solver. }
    { apply Hk. set_solver. }
    assert (X ∖ ({[e]} ∪ list_to_set es) = (X ∖ {[e]}) ∖ list_to_set es) as -> by set_solver.
    apply IH; [done|done| |].
    + intros x Hx. apply elem_of_difference. split; [apply Hin; set_solver|]. intros ->%elem_of_singleton. done.
    + intros x Hx Hsz. apply Hk; [set_solver|]. etrans; [exact Hsz|]. apply subseteq_size. set_solver.
Qed.

Lemma filed_run_snoc F s ops o :
  filed_run F s (ops ++ [o]) = filed_step (filed_run F s ops) (fold_left sstep ops s) o.
Proof. revert F s; induction ops as [|o' ops IH]; intros F s; simpl; [done|]. apply IH. Qed.
Lemma edge_list_safe_snoc F s ops o :
  edge_list_safe_from F s (ops ++ [o]) <->
  edge_list_safe_from F s ops /\
  forall e, removes (fold_left sstep ops s) o e -> filed_ok (filed_run F s ops) (fold_left sstep ops s) e.
Proof. revert F s; induction ops as [|o' ops IH]; intros F s; simpl; [tauto|]. rewrite IH. tauto. Qed.

Definition key_of (F : gmap nat string) (e : nat) : string := default EmptyString (F !! e).

Definition all_inv (F : gmap nat string) (g : graph) (s : sgraph) : Prop :=
  em_rep (key_of F) (g_l0 g) (g_all g) (dom (s_edges s)) /\
  (2 <= size (s_edges s) -> forall e, live_edge s e -> is_Some (F !! e)).

Lemma size_edges (E : gmap nat edge) : size (dom E) = size E.
Proof. apply size_dom. Qed.

Lemma all_inv_frame F g s g' s' :
  all_inv F g s -> g_l0 g' = g_l0 g -> g_all g' = g_all g -> dom (s_edges s') = dom (s_edges s) ->
  all_inv F g' s'.
Proof.
  intros [H1 H2] E1 E2 Ed. split; [by rewrite E1, E2, Ed|].
  rewrite <- size_edges, Ed, size_edges. intros Hsz e He. apply H2; [done|].
  unfold live_edge. apply elem_of_dom. rewrite <- Ed. by apply elem_of_dom.
Qed.
Lemma all_inv_remove F g s E' em L es lb :
  all_inv F g s -> NoDup es ->
  (em, L) = fold_left (fun p e => em_remove lb p.1 p.2 e) es (g_all g, g_l0 g) ->
  (forall e, e ∈ es -> exists x, s_edges s !! e = Some x /\ lb e = e_label x /\ filed_ok F s e) ->
  dom E' = dom (s_edges s) ∖ list_to_set es ->
  forall g' N i, g_all g' = em -> g_l0 g' = L -> all_inv F g' (SGraph N E' i).
Proof.
  intros [H1 H2] Hnd Hr Hes Hdom g' N i E1 E2.
  pose proof (em_removes_ok lb _ es _ _ _ H1 Hnd) as Hrem. simpl in Hrem. rewrite <- Hr in Hrem. simpl in Hrem.
  split; simpl.
  - rewrite E1, E2, Hdom. apply Hrem.
    + intros e He. destruct (Hes _ He) as (x & Hx & _). apply elem_of_dom. eauto.
    + intros e He Hsz. destruct (Hes _ He) as (x & Hx & -> & Hf). unfold filed_ok in Hf. rewrite Hx in Hf.
      unfold key_of. rewrite Hf; [done|]. by rewrite <- size_edges.
  - intros Hsz e He. apply H2.
    + rewrite <- size_edges. etrans; [exact Hsz|]. rewrite <- size_edges, Hdom. apply subseteq_size. set_solver.
    + unfold live_edge in *. simpl in He. apply elem_of_dom. apply elem_of_dom in He. rewrite Hdom in He. set_solver.
Qed.

Lemma detach_dom s n dropped :
  (forall e, e ∈ dropped <-> exists ed, s_edges s !! e = Some ed /\ (e_from ed = n \/ e_to ed = n)) ->
  dom (s_detach (s_edges s) n) = dom (s_edges s) ∖ list_to_set dropped.
Proof.
  intros Hd. apply set_eq. intros e. rewrite elem_of_difference, !elem_of_dom, elem_of_list_to_set, Hd. split.
  - intros [x Hx]. apply s_detach_lookup in Hx as (Hx & ? & ?). split; [by exists x|]. naive_solver.
  - intros [[x Hx] Hn]. exists x. apply s_detach_lookup. naive_solver.
Qed.

Lemma all_inv_step F g s o g' :
  core g s -> valid s o -> step g o = Ok g' -> all_inv F g s ->
  (forall e, removes s o e -> filed_ok F s e) -> all_inv (filed_step F s o) g' (sstep s o).
Proof.
  intros Hc Ho Hs Hi Hsafe. pose proof Hc as (_ & Hnext & _).
  pose proof (core_step _ _ _ _ Hs Ho Hc) as Hc'.
  destruct o; simpl in Hs, Ho.
  - inv_ok Hs. destruct a as [g1 n]. injection Hs as <-.
    apply new_node_shape in Ha as (->&_&_&E0&_&_&_&Ea&_). by eapply all_inv_frame.
  - inv_ok Hs. destruct a as [g1 e]. injection Hs as <-. cbn [fst] in *.
    apply new_edge_shape in Ha as (->&_&HE&_&_&_&_&Hadd&_).
    destruct Hi as [H1 H2]. simpl.
    assert (s_edges s !! g_next g = None) as Hfr.
    { destruct (s_edges s !! g_next g) eqn:Hx; [|done].
      assert (g_next g < s_next s); [|lia]. eapply core_live_edge_lt; [done|]. by eexists. }
    set (F' := <[s_next s:=label]> _).
    destruct (em_add_ok (lbl g1) (key_of F) (key_of F') (g_l0 g) (g_all g) (dom (s_edges s)) (g_next g))
      as (em & L & Hadd' & Hrep & _).
    + done.
    + by rewrite not_elem_of_dom.
    + unfold key_of, F', lbl. rewrite HE. rewrite <- Hnext, !lookup_insert. done.
    + intros x Hx. unfold F', key_of. rewrite <- Hnext.
      assert (x <> g_next g) by (intros ->; apply elem_of_dom in Hx; rewrite Hfr in Hx; by destruct Hx).
      rewrite lookup_insert_ne by done. rewrite size_edges.
      destruct (decide (2 <= size (s_edges s))); [done|].
      apply elem_of_dom in Hx as [ed Hed]. rewrite lookup_fmap, Hed. simpl. unfold lbl. rewrite HE.
      rewrite lookup_insert_ne by done. by destruct (core_edge _ _ _ _ Hc Hed) as (-> & _).
    + rewrite Hadd' in Hadd. injection Hadd as -> ->. split.
      * simpl. rewrite dom_insert_L, <- Hnext. done.
      * simpl. intros Hsz e He. unfold F'. destruct (decide (e = s_next s)) as [->|].
        -- rewrite lookup_insert. eauto.
        -- rewrite lookup_insert_ne by done. unfold live_edge in He. simpl in He. rewrite lookup_insert_ne in He by done.
           destruct (decide (2 <= size (s_edges s))); [by apply H2|]. rewrite lookup_fmap.
           destruct He as [ed ->]. simpl. eauto.
  - unfold set_labels in Hs. inv_ok Hs. injection Hs as <-. by eapply all_inv_frame.
  - unfold set_node_prop in Hs. inv_ok Hs. injection Hs as <-. by eapply all_inv_frame.
  - unfold rem_node_prop in Hs. inv_ok Hs. destruct (n_props _ !! _); [inv_ok Hs|]; injection Hs as <-; by eapply all_inv_frame.
  - destruct (core_detach _ _ _ _ Hs Ho Hc) as [_ (dr & _ & Hall & _ & Hnd & Hdr)].
    eapply (all_inv_remove _ g s _ _ _ dr (lbl g)); [done|done|exact Hall| |by apply detach_dom|done|done].
    intros e He. apply Hdr in He as (ed & Hed & Hor). exists ed. split; [done|].
    split; [unfold lbl; by destruct (core_edge _ _ _ _ Hc Hed) as (-> & _)|].
    apply Hsafe. split; [by exists ed|]. unfold live_edge. simpl. intros [x Hx]. apply s_detach_lookup in Hx. naive_solver.
  - apply detach_remove_shape in Hs as (g1 & nd & Hd & _ & _ & _ & E0 & _ & _ & Ea & _).
    destruct Ho as (sn & Hsn & _).
    destruct (core_detach _ _ _ _ Hd (ex_intro _ sn Hsn) Hc) as [_ (dr & _ & Hall & _ & Hnd & Hdr)].
    eapply (all_inv_remove _ g s _ _ _ dr (lbl g)); [done|done|exact Hall| |by apply detach_dom|done|done].
    intros e He. apply Hdr in He as (ed & Hed & Hor). exists ed. split; [done|].
    split; [unfold lbl; by destruct (core_edge _ _ _ _ Hc Hed) as (-> & _)|].
    apply Hsafe. split; [by exists ed|]. unfold live_edge. simpl. intros [x Hx]. apply s_detach_lookup in Hx. naive_solver.
  - apply set_edge_label_shape in Hs as (?&_&_&_&_&E0&_&Ea&_). eapply all_inv_frame; [done..|].
    simpl. by rewrite dom_alter_L.
  - unfold set_edge_prop in Hs. inv_ok Hs. injection Hs as <-. eapply all_inv_frame; [done..|]. simpl. by rewrite dom_alter_L.
  - unfold rem_edge_prop in Hs. inv_ok Hs. destruct (e_props _ !! _); [inv_ok Hs|]; injection Hs as <-; (eapply all_inv_frame; [done..|]); simpl; by rewrite dom_alter_L.
  - apply remove_edge_shape in Hs as (_ & Hall & _).
    eapply (all_inv_remove _ g s _ _ _ [e] (lbl g)); [done|apply NoDup_singleton|exact Hall| | |done|done].
    + intros e' He'. apply elem_of_list_singleton in He' as ->. destruct Ho as [ed Hed]. exists ed. split; [done|].
      split; [unfold lbl; by destruct (core_edge _ _ _ _ Hc Hed) as (-> & _)|].
      apply Hsafe. split; [by exists ed|]. unfold live_edge. simpl. rewrite lookup_delete. by intros [? ?].
    + rewrite dom_delete_L. simpl. set_solver.
  - unfold add_node_index in Hs. destruct (_ !! _); [injection Hs as <-; by eapply all_inv_frame|].
    inv_ok Hs. injection Hs as <-. by eapply all_inv_frame.
  - unfold add_edge_index in Hs. destruct (_ !! _); [injection Hs as <-; by eapply all_inv_frame|].
    inv_ok Hs. injection Hs as <-. by eapply all_inv_frame.
Qed.

Lemma all_inv_run ops g :
  valid_history ops -> run ops = Ok g -> edge_list_safe ops -> all_inv (filed ops) g (srun ops).
Proof.
  revert ops g. apply (history_ind (fun ops g => edge_list_safe ops -> all_inv (filed ops) g (srun ops))).
  { intros _. split.
    - change (s_edges (srun [])) with (∅ : gmap nat edge). rewrite dom_empty_L. apply em_rep_empty.
    - change (s_edges (srun [])) with (∅ : gmap nat edge). rewrite map_size_empty. lia. }
  intros ops g o g' Hv Hr IH Ho Hs Hsafe. apply edge_list_safe_snoc in Hsafe as [Hsafe Hok].
  unfold filed. rewrite srun_snoc, filed_run_snoc. eapply all_inv_step; eauto using core_run.
Qed.

Lemma edges_fuel g s : core g s -> size (dom (s_edges s)) <= fuel g.
Proof. intros Hc. eapply core_edges_size; [done|]. intros e He. by apply elem_of_dom. Qed.

Lemma get_edges_ok ops g :
  valid_history ops -> run ops = Ok g -> edge_list_safe ops ->
  (exists xs, get_edges g = Ok xs /\ lists (live_edge (srun ops)) xs) /\
  num_edges g = Z.of_nat (size (s_edges (srun ops))).
Proof.
  intros Hv Hr Hs. destruct (all_inv_run _ _ Hv Hr Hs) as [H1 _]. pose proof (core_run _ _ Hv Hr) as Hc.
  split.
  - destruct (em_iter_ok _ _ _ _ (fuel g) H1 (edges_fuel _ _ Hc)) as (xs & Hx & Hnd & Hin).
    exists xs. split; [done|]. split; [done|]. intros e. rewrite Hin. apply elem_of_dom.
  - unfold num_edges. destruct H1 as [-> _]. by rewrite size_edges.
Qed.

Lemma get_edges_any_label_ok ops g S ord :
  valid_history ops -> run ops = Ok g -> edge_list_safe ops -> order_of S ord ->
  exists xs, get_edges_any_label g ord = Ok xs /\
    lists (fun e => if decide (2 <= size (s_edges (srun ops)))
                    then live_edge (srun ops) e /\ exists l, filed ops !! e = Some l /\ l ∈ S
                    else label_in (srun ops) S e) xs.
Proof.
  intros Hv Hr Hs [Hnd Ho]. destruct (all_inv_run _ _ Hv Hr Hs) as [H1 H2]. pose proof (core_run _ _ Hv Hr) as Hc.
  destruct (em_iter_any_ok (lbl g) _ _ _ _ (fuel g) ord H1 (edges_fuel _ _ Hc) Hnd) as (xs & Hx & Hndx & Hin).
  exists xs. split; [done|]. split; [done|]. intros e. rewrite Hin, Ho, elem_of_dom, size_edges.
  destruct (decide (2 <= size (s_edges (srun ops)))) as [Hsz|Hsz].
  - rewrite decide_False by lia. unfold key_of. split.
    + intros [He Hl]. split; [done|]. destruct (H2 Hsz e He) as [l Hl']. exists l. rewrite Hl' in Hl. done.
    + intros [He (l & -> & Hl)]. done.
  - unfold label_in, live_edge. destruct (s_edges (srun ops) !! e) as [ed|] eqn:Hed.
    + assert (size (s_edges (srun ops)) = 1) as ->.
      { assert (size (s_edges (srun ops)) <> 0); [|lia]. intros H0%map_size_empty_inv.
        rewrite H0, lookup_empty in Hed. done. }
      simpl. rewrite (core_lbl _ _ Hc _ _ Hed). split; [by intros [_ ?]|]. eauto.
    + split; [by intros [[? ?] _]|done].
Qed.
Lemma get_edges_any_label_exact ops g S ord :
  valid_history ops -> run ops = Ok g -> edge_list_safe ops -> order_of S ord ->
  (forall e, filed_ok (filed ops) (srun ops) e) ->
  exists xs, get_edges_any_label g ord = Ok xs /\ lists (label_in (srun ops) S) xs.
Proof.
  intros Hv Hr Hs Ho Hf. destruct (get_edges_any_label_ok _ _ _ _ Hv Hr Hs Ho) as (xs & Hx & Hl).
  exists xs. split; [done|]. eapply lists_ext; [|exact Hl]. intros e. simpl.
  destruct (decide (2 <= size (s_edges (srun ops)))) as [Hsz|]; [|done].
  specialize (Hf e). unfold filed_ok, label_in, live_edge in *.
  destruct (s_edges (srun ops) !! e) as [ed|].
  - rewrite Hf by done. split; [naive_solver|]. eauto.
  - split; [|done]. intros [[? ?] _]. done.
Qed.

(** under the guard NewEdge on live nodes succeeds (unless an index rejects a property) *)
Lemma new_edge_parts ops g from to label p :
  valid_history ops -> run ops = Ok g -> edge_list_safe ops ->
  live_node (srun ops) from -> live_node (srun ops) to ->
  exists g3, new_edge g from to label p = let! eix := ixs_add (g_eix g) p (g_next g) in Ok (set_eix g3 eix, g_next g).
Proof.
  intros Hv Hr Hs Hf Ht. destruct (all_inv_run _ _ Hv Hr Hs) as [H1 H2].
  pose proof (core_run _ _ Hv Hr) as Hc. pose proof Hc as (Hadj & Hnext & Hdata & Hlt & Hlte & Hdis).
  assert (s_edges (srun ops) !! g_next g = None) as Hfr.
  { destruct (s_edges (srun ops) !! g_next g) eqn:Hx; [|done].
    assert (g_next g < s_next (srun ops)); [|lia]. eapply core_live_edge_lt; [done|]. by eexists. }
  unfold new_edge. destruct Hf as [fn Hfn], Ht as [tn Htn].
  destruct (core_node _ _ _ _ Hc Hfn) as (fnd & Hfnd & _), (core_node _ _ _ _ Hc Htn) as (tnd & Htnd & _).
  unfold deref_node at 1 2. rewrite Hfnd, Htnd. cbn [rbind].
  set (g1 := bump _). unfold all_add.
  destruct (em_add_ok (lbl g1) (key_of (filed ops))
    (fun x => if decide (x = g_next g) then lbl g1 x else if decide (2 <= size (dom (s_edges (srun ops)))) then key_of (filed ops) x else lbl g1 x)
    (g_l0 g) (g_all g) (dom (s_edges (srun ops))) (g_next g)) as (em & L & Hadd & _).
  { done. } { by rewrite not_elem_of_dom. } { by rewrite decide_True. }
  { intros x Hx. rewrite decide_False; [done|]. intros ->. apply elem_of_dom in Hx. rewrite Hfr in Hx. by destruct Hx. }
  change (g_all g1) with (g_all g). change (g_l0 g1) with (g_l0 g). rewrite Hadd. cbn [rbind fst snd].
  assert (adj (set_all g1 em L) (dom (s_nodes (srun ops))) (s_edges (srun ops))) as Hadj3.
  { eapply adj_frame; [exact Hadj| |done|done|]; simpl; eauto.
    intros e ed He. rewrite lookup_insert_ne; [done|]. intros <-. congruence. }
  destruct (connect_ok _ _ _ (g_next g) (Edge from to label p) Hadj3) as (g3 & Hg3 & _); [done| | | |].
  { simpl. by rewrite lookup_insert. }
  { simpl. apply elem_of_dom. eauto. }
  { simpl. apply elem_of_dom. eauto. }
  rewrite Hg3. cbn [rbind]. apply connect_shape in Hg3 as (_&_&_&_&_&_&_&E8&_). rewrite E8.
  change (g_eix (set_all g1 em L)) with (g_eix g).
  by exists g3.
Qed.
Lemma new_edge_progress_ix ops g from to label p :
  valid_history ops -> run ops = Ok g -> edge_list_safe ops ->
  live_node (srun ops) from -> live_node (srun ops) to ->
  (exists ixs', ixs_add (g_eix g) p (g_next g) = Ok ixs') ->
  exists g' e, new_edge g from to label p = Ok (g', e).
Proof.
  intros Hv Hr Hs Hf Ht [ixs' Hp]. destruct (new_edge_parts ops g from to label p) as [g3 ->]; try done.
  rewrite Hp. cbn [rbind]. eauto.
Qed.
Lemma new_edge_progress ops g from to label p :
  valid_history ops -> run ops = Ok g -> edge_list_safe ops ->
  live_node (srun ops) from -> live_node (srun ops) to ->
  (forall k, k ∈ dom (g_eix g) -> p !! k = None) ->
  exists g' e, new_edge g from to label p = Ok (g', e).
Proof.
  intros Hv Hr Hs Hf Ht Hp. eapply new_edge_progress_ix; [done..|]. exists (g_eix g).
   unfold ixs_add. assert (forall kv, kv ∈ map_to_list p -> g_eix g !! kv.1 = None) as Hnone.
    { intros [k v] Hkv. apply elem_of_map_to_list in Hkv. simpl. destruct (g_eix g !! k) eqn:Hk; [|done].
      rewrite Hp in Hkv; [done|]. apply elem_of_dom. eauto. }
    revert Hnone. generalize (map_to_list p). induction l as [|kv l IH]; intros Hnone; simpl; [done|].
    rewrite Hnone by set_solver. simpl. apply IH. intros kv' Hkv'. apply Hnone. set_solver.
Qed.

Lemma new_edge_foreign g from to label p :
  g_nodes g !! from = None \/ g_nodes g !! to = None -> new_edge g from to label p = Panic.
Proof.
  unfold new_edge, deref_node at 1 2. intros [->| ->]; [done|]. by destruct (g_nodes g !! from).
Qed.

Lemma lists_cons (P Q : nat -> Prop) xs ys e :
  lists P xs -> lists Q ys -> (forall x, Q x <-> x = e \/ P x) -> ~ P e -> ys ≡ₚ e :: xs.
Proof.
  intros [H1 H2] HQ Hiff Hn. eapply lists_perm; [exact HQ|]. split.
  - constructor; [by rewrite H2|done].
  - intros x. rewrite elem_of_cons, H2, Hiff. done.
Qed.

Lemma new_edge_effect ops g from to label p g' e :
  valid_history ops -> run ops = Ok g -> live_node (srun ops) from -> live_node (srun ops) to ->
  new_edge g from to label p = Ok (g', e) ->
  ~ live_edge (srun ops) e /\ g_edges g' !! e = Some (Edge from to label p) /\
  (forall x, live_edge (srun ops) x -> g_edges g' !! x = g_edges g !! x) /\
  (forall m, live_node (srun ops) m -> exists xs ys,
     node_edges g m Outgoing = Ok xs /\ node_edges g' m Outgoing = Ok ys /\
     ys ≡ₚ (if decide (m = from) then [e] else []) ++ xs) /\
  (forall m, live_node (srun ops) m -> exists xs ys,
     node_edges g m Incoming = Ok xs /\ node_edges g' m Incoming = Ok ys /\
     ys ≡ₚ (if decide (m = to) then [e] else []) ++ xs).
Proof.
  intros Hv Hr Hf Ht Hs. pose proof (core_run _ _ Hv Hr) as Hc.
  assert (step g (ONewEdge from to label p) = Ok g') as Hstep by (simpl; by rewrite Hs).
  assert (core g' (sstep (srun ops) (ONewEdge from to label p))) as Hc' by (eapply core_step; [exact Hstep|done|done]).
  pose proof Hc as (_ & Hnext & _).
  destruct (new_edge_shape _ _ _ _ _ _ _ Hs) as (-> & _ & HE & _).
  assert (~ live_edge (srun ops) (g_next g)) as Hfr.
  { intros Hx. pose proof (core_live_edge_lt _ _ _ Hc Hx). lia. }
  split; [done|]. split; [rewrite HE; by rewrite lookup_insert|]. split.
  { intros x Hx. rewrite HE, lookup_insert_ne; [done|]. intros <-. done. }
  split; intros m Hm.
  - destruct (node_edges_out _ _ Hc m Hm) as (xs & Hxs & Lx), (node_edges_out _ _ Hc' m Hm) as (ys & Hys & Ly).
    exists xs, ys. split; [done|]. split; [done|]. destruct (decide (m = from)) as [->|Hne]; simpl.
    + eapply lists_cons; [exact Lx|exact Ly| |].
      * intros x. unfold is_out. simpl. rewrite <- Hnext. destruct (decide (x = g_next g)) as [->|].
        -- rewrite lookup_insert. naive_solver.
        -- rewrite lookup_insert_ne by done. naive_solver.
      * intros (x & Hx & _). apply Hfr. by exists x.
    + eapply lists_perm; [exact Ly|]. eapply lists_ext; [|exact Lx].
      intros x. unfold is_out. simpl. rewrite <- Hnext. destruct (decide (x = g_next g)) as [->|].
      * rewrite lookup_insert. split; [|naive_solver]. intros (y & Hy & _). destruct Hfr. by exists y.
      * by rewrite lookup_insert_ne.
  - destruct (node_edges_in _ _ Hc m Hm) as (xs & Hxs & Lx), (node_edges_in _ _ Hc' m Hm) as (ys & Hys & Ly).
    exists xs, ys. split; [done|]. split; [done|]. destruct (decide (m = to)) as [->|Hne]; simpl.
    + eapply lists_cons; [exact Lx|exact Ly| |].
      * intros x. unfold is_in. simpl. rewrite <- Hnext. destruct (decide (x = g_next g)) as [->|].
        -- rewrite lookup_insert. naive_solver.
        -- rewrite lookup_insert_ne by done. naive_solver.
      * intros (x & Hx & _). apply Hfr. by exists x.
    + eapply lists_perm; [exact Ly|]. eapply lists_ext; [|exact Lx].
      intros x. unfold is_in. simpl. rewrite <- Hnext. destruct (decide (x = g_next g)) as [->|].
      * rewrite lookup_insert. split; [|naive_solver]. intros (y & Hy & _). destruct Hfr. by exists y.
      * by rewrite lookup_insert_ne.
Qed.
