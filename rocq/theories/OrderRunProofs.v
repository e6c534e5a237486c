(** Enumeration orders after histories. *)
From Verif Require Import Base Assoc Value FastSet Links EdgeMap NodeMap Index Graph GraphSpec OrderSpec.
From Verif Require Import AssocProofs LinksProofs EdgeMapProofs CoreProofs CoreStep AdjProofs ReadProofs EdgeListProofs OrderProofs OrderGraphProofs.

(** ** Edges of nodes *)
Lemma order_run_snoc side ops o :
  order_run side (ops ++ [o]) = (sstep (order_run side ops).1 o, order_step side (order_run side ops).1 o (order_run side ops).2).
Proof. unfold order_run. by rewrite fold_left_app. Qed.
Lemma order_run_fst side ops : (order_run side ops).1 = srun ops.
Proof.
  induction ops as [|o ops IH] using rev_ind; [done|]. rewrite order_run_snoc, srun_snoc. simpl. by rewrite IH.
Qed.
Lemma edge_order_snoc side ops o n :
  edge_order side (ops ++ [o]) n = order_step side (srun ops) o (edge_order side ops) n.
Proof. unfold edge_order at 1. rewrite order_run_snoc, order_run_fst. done. Qed.

Lemma order_inv_ext g s I O I' O' : order_inv g s I O -> (forall n, I' n = I n /\ O' n = O n) -> order_inv g s I' O'.
Proof.
  intros [H1 H2] E. split; [by eapply seqs_ext|]. intros n Hn. destruct (E n) as [-> ->]. by apply H2.
Qed.
Lemma order_inv_run ops g : valid_history ops -> run ops = Ok g ->
  order_inv g (srun ops) (edge_order e_to ops) (edge_order e_from ops).
Proof.
  revert ops g. apply (history_ind (fun ops g => order_inv g (srun ops) (edge_order e_to ops) (edge_order e_from ops))).
  - split; [|done]. intros n Hn. change (s_nodes (srun [])) with (∅ : gmap nat snode) in Hn. set_solver.
  - intros ops g o g' Hv Hr Hi Ho Hs. rewrite srun_snoc.
    eapply order_inv_ext; [exact (order_step_ok g (srun ops) o g' _ _ Hs Ho (core_run _ _ Hv Hr) Hi)|].
    intros n. split; apply edge_order_snoc.
Qed.

Lemma live_seq ops g n : valid_history ops -> run ops = Ok g -> live_node (srun ops) n ->
  exists nd, g_nodes g !! n = Some nd /\
    em_rep (lbl g) (g_l2 g) (n_in nd) (ins (s_edges (srun ops)) n) /\
    em_rep (lbl g) (g_l1 g) (n_out nd) (outs (s_edges (srun ops)) n) /\
    em_seq (g_l2 g) (n_in nd) (edge_order e_to ops n) /\ em_seq (g_l1 g) (n_out nd) (edge_order e_from ops n) /\
    size (ins (s_edges (srun ops)) n) <= fuel g /\ size (outs (s_edges (srun ops)) n) <= fuel g.
Proof.
  intros Hv Hr Hn. pose proof (core_run _ _ Hv Hr) as Hc. pose proof (order_inv_run _ _ Hv Hr) as [Hs _].
  apply elem_of_dom in Hn. destruct (proj1 (proj1 Hc) n Hn) as (nd & Hnd & Hi & Ho), (Hs n Hn) as (nd' & Hnd' & Si & So).
  assert (nd' = nd) as -> by congruence. exists nd. do 5 (split; [done|]). split.
  - eapply core_edges_size; [done|]. intros e He. apply elem_of_ins in He as (x & ? & _). by exists x.
  - eapply core_edges_size; [done|]. intros e He. apply elem_of_outs in He as (x & ? & _). by exists x.
Qed.
Lemma live_label ops g e : valid_history ops -> run ops = Ok g -> live_edge (srun ops) e ->
  s_label (srun ops) e = lbl g e.
Proof.
  intros Hv Hr [ed He]. pose proof (core_run _ _ Hv Hr) as Hc. unfold s_label, lbl. rewrite He.
  by destruct (core_edge _ _ _ _ Hc He) as (-> & _).
Qed.

Theorem node_edges_order ops g n d : valid_history ops -> run ops = Ok g -> live_node (srun ops) n ->
  node_edges g n d = Ok (node_order ops n d).
Proof.
  intros Hv Hr Hn. destruct (live_seq _ _ _ Hv Hr Hn) as (nd & Hnd & Hi & Ho & Si & So & Fi & Fo).
  unfold node_edges, deref_node. rewrite Hnd. simpl.
  rewrite (em_seq_iter _ _ _ _ _ _ Hi Si Fi), (em_seq_iter _ _ _ _ _ _ Ho So Fo). by destruct d.
Qed.
Theorem node_edges_label_order ops g n d l : valid_history ops -> run ops = Ok g -> live_node (srun ops) n ->
  node_edges_label g n d l = Ok (with_label (srun ops) l (node_order ops n d)).
Proof.
  intros Hv Hr Hn. destruct (live_seq _ _ _ Hv Hr Hn) as (nd & Hnd & Hi & Ho & Si & So & Fi & Fo).
  unfold node_edges_label, deref_node. rewrite Hnd. simpl.
  rewrite (em_seq_label (lbl g) _ (s_label (srun ops)) _ _ _ _ _ l Hi Si Fi).
  2: { intros x Hx. assert (s_label (srun ops) x = lbl g x) as ->; [|by case_decide].
       eapply live_label; [done..|]. apply elem_of_ins in Hx as (xd & ? & _). by exists xd. }
  rewrite (em_seq_label (lbl g) _ (s_label (srun ops)) _ _ _ _ _ l Ho So Fo).
  2: { intros x Hx. assert (s_label (srun ops) x = lbl g x) as ->; [|by case_decide].
       eapply live_label; [done..|]. apply elem_of_outs in Hx as (xd & ? & _). by exists xd. }
  unfold with_label, node_order. destruct d; simpl; [done| |done]. by rewrite filter_app.
Qed.
Theorem node_edges_any_order ops g n d S ord1 ord2 : valid_history ops -> run ops = Ok g -> live_node (srun ops) n ->
  order_of S ord1 -> order_of S ord2 ->
  node_edges_any g n d ord1 ord2 = Ok match d with
    | Incoming => chosen (srun ops) ord1 (edge_order e_to ops n)
    | Outgoing => chosen (srun ops) ord2 (edge_order e_from ops n)
    | AnyDir => chosen (srun ops) ord1 (edge_order e_to ops n) ++ chosen (srun ops) ord2 (edge_order e_from ops n)
    end.
Proof.
  intros Hv Hr Hn [N1 _] [N2 _]. destruct (live_seq _ _ _ Hv Hr Hn) as (nd & Hnd & Hi & Ho & Si & So & Fi & Fo).
  unfold node_edges_any, deref_node. rewrite Hnd. simpl.
  assert (forall ord, NoDup ord -> em_any_or_all g (g_l2 g) (n_in nd) ord = Ok (chosen (srun ops) ord (edge_order e_to ops n))) as Ei.
  { intros ord Hord. unfold em_any_or_all, chosen. case_decide; [by apply (em_seq_iter _ _ _ _ _ _ Hi Si Fi)|].
    apply (em_seq_any (lbl g) _ (s_label (srun ops)) _ _ _ _ _ ord Hi Si Fi Hord).
    intros x Hx. assert (s_label (srun ops) x = lbl g x) as ->; [|by case_decide].
    eapply live_label; [done..|]. apply elem_of_ins in Hx as (xd & ? & _). by exists xd. }
  assert (forall ord, NoDup ord -> em_any_or_all g (g_l1 g) (n_out nd) ord = Ok (chosen (srun ops) ord (edge_order e_from ops n))) as Eo.
  { intros ord Hord. unfold em_any_or_all, chosen. case_decide; [by apply (em_seq_iter _ _ _ _ _ _ Ho So Fo)|].
    apply (em_seq_any (lbl g) _ (s_label (srun ops)) _ _ _ _ _ ord Ho So Fo Hord).
    intros x Hx. assert (s_label (srun ops) x = lbl g x) as ->; [|by case_decide].
    eapply live_label; [done..|]. apply elem_of_outs in Hx as (xd & ? & _). by exists xd. }
  destruct d; rewrite ?Ei, ?Eo by done; simpl; rewrite ?Eo by done; done.
Qed.

(** ** Label after label *)
Lemma em_seq_blocks key L em X xs : em_rep key L em X -> em_seq L em xs ->
  exists ls, NoDup ls /\ xs = concat (map (fun l => filter (fun x => key x = l) xs) ls).
Proof.
  intros Hr Hs. pose proof Hr as (Hn & H1 & H2 & H3). pose proof Hs as (S0 & S1 & S2).
  destruct (decide (em_n em = 0)%Z) as [E0|E0].
  { exists []. split; [constructor|]. by rewrite S0. }
  destruct (decide (em_n em = 1)%Z) as [E1|E1].
  { destruct S1 as (e & Ho & ->); [done|]. exists [key e]. split; [apply NoDup_singleton|]. simpl.
    rewrite filter_cons_True by done. done. }
  exists (em_bkts em).*1. assert (bk_wf key L (em_bkts em) X) as Hwf by (apply H3; lia). pose proof Hwf as (Hnd & _).
  split; [done|]. destruct S2 as (yss & Hb & E); [lia|]. rewrite E at 1. f_equal.
  assert (forall i p ys, em_bkts em !! i = Some p -> yss !! i = Some ys -> filter (fun x => key x = p.1) xs = ys) as Hi.
  { intros i [l ll] ys Hp Hy.
    pose proof (em_seq_label key key key L em X xs (size X) l Hr Hs ltac:(lia) ltac:(intros; by case_decide)) as Hl.
    unfold em_iter_label in Hl. rewrite !decide_False in Hl by done.
    assert (bk_get (em_bkts em) l = Some ll) as Hg by (apply bk_get_elem; [done|]; by eapply elem_of_list_lookup_2).
    rewrite Hg in Hl. pose proof (Forall2_lookup_lr _ _ _ _ _ _ Hb Hp Hy) as Hd. simpl in Hd.
    rewrite (walk_ok _ _ _ _ Hd) in Hl; [by injection Hl|].
    apply NoDup_length_le; [by destruct Hd|]. intros x Hx.
    eapply (bks_elem key L (em_bkts em) X yss (l, ll) ys Hwf Hb) in Hx; [naive_solver|eauto]. }
  clear - Hi Hb. revert Hb Hi. generalize (em_bkts em). intros b Hb. induction Hb as [|p ys b yss Hd Hb IH]; intros Hi; [done|].
  simpl. f_equal; [symmetry; by apply (Hi 0)|]. apply IH. intros i q zs Hq Hz. by apply (Hi (S i)).
Qed.
Lemma filter_key_ext (k k' : nat -> string) (xs : list nat) l : (forall x, x ∈ xs -> k x = k' x) ->
  filter (fun x => k x = l) xs = filter (fun x => k' x = l) xs.
Proof.
  intros H. induction xs as [|x xs IH]; [done|]. rewrite !filter_cons, IH by set_solver.
  rewrite (H x) by set_solver. done.
Qed.
Theorem node_order_by_label ops g n d : valid_history ops -> run ops = Ok g -> live_node (srun ops) n ->
  d <> AnyDir -> by_label (srun ops) (node_order ops n d).
Proof.
  intros Hv Hr Hn Hd. destruct (live_seq _ _ _ Hv Hr Hn) as (nd & Hnd & Hi & Ho & Si & So & Fi & Fo).
  destruct d; [|done|]; simpl.
  - destruct (em_seq_blocks _ _ _ _ _ Hi Si) as (ls & Hls & E). exists ls. split; [done|]. rewrite E at 1.
    unfold with_labels, with_label. f_equal. apply map_ext. intros l. apply filter_key_ext. intros x Hx. symmetry.
    eapply live_label; [done..|]. apply (em_seq_in _ _ _ _ _ x Hi Si) in Hx. apply elem_of_ins in Hx as (xd & ? & _). by exists xd.
  - destruct (em_seq_blocks _ _ _ _ _ Ho So) as (ls & Hls & E). exists ls. split; [done|]. rewrite E at 1.
    unfold with_labels, with_label. f_equal. apply map_ext. intros l. apply filter_key_ext. intros x Hx. symmetry.
    eapply live_label; [done..|]. apply (em_seq_in _ _ _ _ _ x Ho So) in Hx. apply elem_of_outs in Hx as (xd & ? & _). by exists xd.
Qed.

(** ** A new or relabelled edge is the last one with its label *)
Lemma filter_file (lb : nat -> string) e (xs : list nat) l :
  filter (fun x => lb x = l) (file lb e xs) = filter (fun x => lb x = l) xs ++ (if decide (lb e = l) then [e] else []).
Proof.
  induction xs as [|x xs IH]; simpl.
  - rewrite filter_cons. by destruct (decide (lb e = l)).
  - destruct (decide (lb x = lb e /\ Forall (fun y => lb y <> lb e) xs)) as [[Hx Hr]|Hd].
    + rewrite !filter_cons. destruct (decide (lb e = l)) as [El|El].
      * rewrite !(decide_True (P := lb x = l)) by congruence. rewrite (filter_none (fun y => lb y = l) xs); [done|].
        rewrite <- El. done.
      * rewrite !(decide_False (P := lb x = l)) by congruence. by rewrite app_nil_r.
    + rewrite !filter_cons, IH. by destruct (decide (lb x = l)).
Qed.
Theorem new_edge_last ops from to l p g g' :
  let s' := srun (ops ++ [ONewEdge from to l p]) in
  valid_history (ops ++ [ONewEdge from to l p]) -> run ops = Ok g -> run (ops ++ [ONewEdge from to l p]) = Ok g' ->
  (exists xs, node_edges_label g from Outgoing l = Ok xs /\ node_edges_label g' from Outgoing l = Ok (xs ++ [s_next (srun ops)])) /\
  (exists xs, node_edges_label g to Incoming l = Ok xs /\ node_edges_label g' to Incoming l = Ok (xs ++ [s_next (srun ops)])).
Proof.
  intros s' Hv' Hr Hr'. pose proof Hv' as Hv. apply valid_history_snoc in Hv as [Hv [Hf Ht]].
  pose proof (core_run _ _ Hv Hr) as Hc.
  assert (forall m, live_node (srun ops) m -> live_node s' m) as Hl by (unfold s'; rewrite srun_snoc; done).
  assert (forall n d, live_node (srun ops) n -> d <> AnyDir -> forall x, x ∈ node_order ops n d -> s_label s' x = s_label (srun ops) x) as Hlab.
  { intros n d Hn Hd x Hx. unfold s', s_label. rewrite srun_snoc. simpl.
    assert (live_edge (srun ops) x) as [xd Hxd].
    { pose proof (order_inv_run _ _ Hv Hr) as [Hs _]. apply elem_of_dom in Hn.
      pose proof (seqs_live g (srun ops) _ _ n x Hc Hs Hn) as [E1 E2]. destruct d; [by apply E1|done|by apply E2]. }
    rewrite lookup_insert_ne; [done|]. intros E. destruct (core_edge _ _ _ _ Hc Hxd) as (_ & _ & _ & Hlt).
    pose proof (proj1 (proj2 Hc)). lia. }
  assert (s_label s' (s_next (srun ops)) = l) as Hle.
  { unfold s', s_label. rewrite srun_snoc. simpl. by rewrite lookup_insert. }
  split; eexists; (split; [by apply (node_edges_label_order ops)|]);
    (rewrite (node_edges_label_order (ops ++ [ONewEdge from to l p]) g'); [|done|done|by apply Hl]); f_equal; simpl.
  - rewrite edge_order_snoc. cbn [order_step e_from]. rewrite decide_True by done.
    unfold with_label. rewrite <- srun_snoc. fold s'. rewrite filter_file, decide_True by done. f_equal.
    apply filter_key_ext. by apply (Hlab from Outgoing).
  - rewrite edge_order_snoc. cbn [order_step e_to]. rewrite decide_True by done.
    unfold with_label. rewrite <- srun_snoc. fold s'. rewrite filter_file, decide_True by done. f_equal.
    apply filter_key_ext. by apply (Hlab to Incoming).
Qed.
Lemma unfile_filter e (k : nat -> string) (xs : list nat) l : filter (fun x : nat => k x = l) (unfile e xs) = unfile e (filter (fun x => k x = l) xs).
Proof. unfold unfile. rewrite !list_filter_filter. apply list_filter_iff. tauto. Qed.
Theorem set_label_last ops e l x g g' :
  let s' := srun (ops ++ [OSetEdgeLabel e l]) in
  valid_history (ops ++ [OSetEdgeLabel e l]) -> run ops = Ok g -> run (ops ++ [OSetEdgeLabel e l]) = Ok g' ->
  s_edges (srun ops) !! e = Some x -> e_label x <> l ->
  forall n d, (d = Outgoing /\ n = e_from x) \/ (d = Incoming /\ n = e_to x) ->
  (exists xs, node_edges_label g n d l = Ok xs /\ node_edges_label g' n d l = Ok (xs ++ [e])) /\
  (forall l', l' <> l -> exists xs, node_edges_label g n d l' = Ok xs /\ node_edges_label g' n d l' = Ok (unfile e xs)).
Proof.
  intros s' Hv' Hr Hr' Hx Hne n d Hd. pose proof Hv' as Hv. apply valid_history_snoc in Hv as [Hv _].
  pose proof (core_run _ _ Hv Hr) as Hc.
  assert (live_node (srun ops) n) as Hn.
  { destruct (core_edge _ _ _ _ Hc Hx) as (_ & Hf & Ht & _). by destruct Hd as [[_ ->]|[_ ->]]. }
  assert (live_node s' n) as Hn' by (unfold s'; by rewrite srun_snoc).
  assert (node_order (ops ++ [OSetEdgeLabel e l]) n d = file (s_label s') e (unfile e (node_order ops n d))) as Eo.
  { unfold s'. rewrite srun_snoc. destruct Hd as [[-> ->]|[-> ->]]; simpl; rewrite edge_order_snoc; cbn [order_step];
      rewrite Hx, decide_True by (split; [done|congruence]); done. }
  assert (s_label s' e = l) as Hle.
  { unfold s', s_label. rewrite srun_snoc. simpl. by rewrite lookup_alter, Hx. }
  assert (forall y, y <> e -> s_label s' y = s_label (srun ops) y) as Hlab.
  { intros y Hy. unfold s', s_label. rewrite srun_snoc. simpl. by rewrite lookup_alter_ne. }
  assert (forall l', filter (fun y => s_label s' y = l') (unfile e (node_order ops n d)) =
    unfile e (with_label (srun ops) l' (node_order ops n d))) as Ef.
  { intros l'. unfold with_label. rewrite <- unfile_filter. apply filter_key_ext. intros y Hy. apply Hlab.
    by apply elem_of_list_filter in Hy as [? _]. }
  split.
  - eexists. split; [by apply (node_edges_label_order ops)|].
    rewrite (node_edges_label_order (ops ++ [OSetEdgeLabel e l]) g') by done. f_equal. rewrite Eo. fold s'.
    unfold with_label at 1. rewrite filter_file, Ef, decide_True by done. f_equal. apply unfile_none.
    unfold with_label. rewrite elem_of_list_filter. unfold s_label. rewrite Hx. naive_solver.
  - intros l' Hl'. eexists. split; [by apply (node_edges_label_order ops)|].
    rewrite (node_edges_label_order (ops ++ [OSetEdgeLabel e l]) g') by done. f_equal. rewrite Eo. fold s'.
    unfold with_label at 1. rewrite filter_file, Ef, decide_False by congruence. apply app_nil_r.
Qed.

(** ** All edges *)
Lemma all_order_from_snoc F s xs ops o : all_order_from F s xs (ops ++ [o]) =
  all_order_step (filed_run F s ops) (fold_left sstep ops s) o (all_order_from F s xs ops).
Proof. revert F s xs; induction ops as [|o' ops IH]; intros F s xs; simpl; [done|]. apply IH. Qed.
Lemma all_order_snoc ops o : all_order (ops ++ [o]) = all_order_step (filed ops) (srun ops) o (all_order ops).
Proof. apply all_order_from_snoc. Qed.

Lemma em_removes_seq lb key es em L X xs :
  em_rep key L em X -> em_seq L em xs -> NoDup es -> (forall e, e ∈ es -> e ∈ X) ->
  (forall e, e ∈ es -> 2 <= size X -> key e = lb e) ->
  let r := fold_left (fun p e => em_remove lb p.1 p.2 e) es (em, L) in em_seq r.2 r.1 (without es xs).
Proof.
  revert em L X xs. induction es as [|e es IH]; intros em L X xs Hr Hs Hnd Hin Hk; simpl.
  - unfold without. rewrite filter_all; [done|]. apply Forall_forall. set_solver.
  - apply NoDup_cons in Hnd as [Hni Hnd]. destruct (em_remove lb em L e) as [em' L'] eqn:Hrem.
    destruct (em_remove_ok lb key L em X e em' L' Hrem Hr) as [Hr' _]; [set_solver|apply Hk; set_solver|].
    pose proof (em_remove_seq lb key L em X xs e em' L' Hrem Hr Hs ltac:(set_solver) ltac:(apply Hk; set_solver)) as Hs'.
    rewrite without_cons. apply (IH em' L' (X ∖ {[e]})); [done|done|done| |].
    + intros x Hx. assert (x <> e) by (by intros ->). set_solver.
    + intros x Hx Hsz. apply Hk; [set_solver|]. etrans; [exact Hsz|]. apply subseteq_size. set_solver.
Qed.

Definition all_seq (g : graph) (xs : list nat) : Prop := em_seq (g_l0 g) (g_all g) xs.
Lemma all_seq_remove F g s em L es lb xs s' g' :
  all_inv F g s -> all_seq g xs -> NoDup es ->
  (em, L) = fold_left (fun p e => em_remove lb p.1 p.2 e) es (g_all g, g_l0 g) ->
  (forall e, e ∈ es -> exists x, s_edges s !! e = Some x /\ lb e = e_label x /\ filed_ok F s e) ->
  (forall e, live_edge s e -> live_edge s' e <-> e ∉ es) ->
  g_all g' = em -> g_l0 g' = L -> all_seq g' (filter (live_edge s') xs).
Proof.
  intros [H1 H2] Hs Hnd Hr Hes Hl E1 E2.
  pose proof (em_removes_seq lb _ es _ _ _ xs H1 Hs Hnd) as Hrem. simpl in Hrem. rewrite <- Hr in Hrem. simpl in Hrem.
  unfold all_seq. rewrite E1, E2.
  assert (filter (live_edge s') xs = without es xs) as ->.
  { assert (forall x, x ∈ xs -> live_edge s x) as Hx.
    { intros x Hx. apply (em_seq_in _ _ _ _ _ x H1 Hs) in Hx. by apply elem_of_dom. }
    clear - Hl Hx. unfold without. induction xs as [|x xs IH]; [done|]. rewrite !filter_cons, IH by set_solver.
    pose proof (Hl x ltac:(apply Hx; set_solver)). destruct (decide (live_edge s' x)), (decide (x ∉ es)); tauto || done. }
  apply Hrem.
  - intros e He. destruct (Hes _ He) as (x & Hx & _). apply elem_of_dom. eauto.
  - intros e He Hsz. destruct (Hes _ He) as (x & Hx & -> & Hf). unfold filed_ok in Hf. rewrite Hx in Hf.
    unfold key_of. rewrite Hf; [done|]. by rewrite <- size_edges.
Qed.
Lemma all_seq_same F g s g' s' xs : all_inv F g s -> all_seq g xs -> g_l0 g' = g_l0 g -> g_all g' = g_all g ->
  (forall e, live_edge s e -> live_edge s' e) -> all_seq g' (filter (live_edge s') xs).
Proof.
  intros [H1 H2] Hs E1 E2 Hl. unfold all_seq. rewrite E1, E2, filter_all; [done|]. apply Forall_forall. intros x Hx.
  apply (em_seq_in _ _ _ _ _ x H1 Hs) in Hx. apply Hl. by apply elem_of_dom.
Qed.
Lemma all_seq_step F g s o g' xs :
  core g s -> valid s o -> step g o = Ok g' -> all_inv F g s ->
  (forall e, removes s o e -> filed_ok F s e) -> all_seq g xs -> all_seq g' (all_order_step F s o xs).
Proof.
  intros Hc Ho Hs Hi Hsafe Hq. pose proof Hc as (_ & Hnext & _).
  assert (forall n, live_node s n -> forall g1, detach_node g n = Ok g1 ->
    forall s', s_edges s' = s_detach (s_edges s) n -> (forall e, removes s o e <-> live_edge s e /\ ~ live_edge s' e) ->
    forall g2, g_all g2 = g_all g1 -> g_l0 g2 = g_l0 g1 -> all_seq g2 (filter (live_edge s') xs)) as Hdet.
  { intros n Hn g1 Hd s' Es' Hrm g2 E1 E2. destruct (core_detach _ _ _ _ Hd Hn Hc) as [_ (dr & _ & Hall & _ & Hnd & Hdr)].
    assert (forall e, live_edge s e -> live_edge s' e <-> e ∉ dr) as Hl.
    { intros e [ed Hed]. unfold live_edge. rewrite Es', Hdr. split.
      - intros [y Hy]. apply s_detach_lookup in Hy as (? & ? & ?). intros (z & Hz & ?). naive_solver.
      - intros Hno. exists ed. apply s_detach_lookup. naive_solver. }
    eapply (all_seq_remove F g s _ _ dr (lbl g) xs s' g2); [done|done|done|exact Hall| |done|done|done].
    intros e He. pose proof He as He'. apply Hdr in He as (ed & Hed & Hor). exists ed. split; [done|].
    split; [unfold lbl; by destruct (core_edge _ _ _ _ Hc Hed) as (-> & _)|].
    apply Hsafe, Hrm. split; [by exists ed|]. rewrite Hl by (by exists ed). tauto. }
  destruct o; cbv beta iota delta [all_order_step].
  - simpl in Hs. inv_ok Hs. destruct a as [g1 n]. injection Hs as <-.
    apply new_node_shape in Ha as (->&_&_&E0&_&_&_&Ea&_). by eapply all_seq_same.
  - simpl in Hs. inv_ok Hs. destruct a as [g1 e]. injection Hs as <-. cbn [fst] in *.
    apply new_edge_shape in Ha as (->&_&HE&_&_&_&_&Hadd&_).
    destruct Hi as [H1 H2]. cbn [filed_step].
    assert (s_edges s !! g_next g = None) as Hfr.
    { destruct (s_edges s !! g_next g) eqn:Hx; [|done].
      assert (g_next g < s_next s); [|lia]. eapply core_live_edge_lt; [done|]. by eexists. }
    rewrite <- Hnext in *. set (F' := <[g_next g:=label]> _).
    eapply (em_add_seq (lbl g1) (key_of F) (key_of F')); [exact H1|exact Hq| | | |exact Hadd].
    + by rewrite not_elem_of_dom.
    + unfold key_of, F', lbl. rewrite HE. rewrite !lookup_insert. done.
    + intros x Hx. unfold F', key_of.
      assert (x <> g_next g) by (intros ->; apply elem_of_dom in Hx; rewrite Hfr in Hx; by destruct Hx).
      rewrite lookup_insert_ne by done. rewrite size_edges.
      destruct (decide (2 <= size (s_edges s))); [done|].
      apply elem_of_dom in Hx as [ed Hed]. rewrite lookup_fmap, Hed. simpl. unfold lbl. rewrite HE.
      rewrite lookup_insert_ne by done. by destruct (core_edge _ _ _ _ Hc Hed) as (-> & _).
  - simpl in Hs. unfold set_labels in Hs. inv_ok Hs. injection Hs as <-. by eapply all_seq_same.
  - simpl in Hs. unfold set_node_prop in Hs. inv_ok Hs. injection Hs as <-. by eapply all_seq_same.
  - simpl in Hs. unfold rem_node_prop in Hs. inv_ok Hs. destruct (n_props _ !! _); [inv_ok Hs|]; injection Hs as <-; by eapply all_seq_same.
  - simpl in Hs. by eapply (Hdet n Ho g' Hs).
  - apply detach_remove_shape in Hs as (g1 & nd & Hd & _ & _ & _ & E0 & _ & _ & Ea & _).
    destruct Ho as (sn & Hsn & _). by eapply (Hdet n (ex_intro _ sn Hsn) g1 Hd).
  - apply set_edge_label_shape in Hs as (?&_&_&_&_&E0&_&Ea&_). eapply all_seq_same; [done..|].
    intros y. unfold live_edge. cbn [s_edges sstep]. by rewrite lookup_alter_is_Some.
  - simpl in Hs. unfold set_edge_prop in Hs. inv_ok Hs. injection Hs as <-. eapply all_seq_same; [done..|].
    intros y. unfold live_edge. cbn [s_edges sstep]. by rewrite lookup_alter_is_Some.
  - simpl in Hs. unfold rem_edge_prop in Hs. inv_ok Hs. destruct (e_props _ !! _); [inv_ok Hs|]; injection Hs as <-; (eapply all_seq_same; [done..|]);
    intros y; unfold live_edge; cbn [s_edges sstep]; by rewrite lookup_alter_is_Some.
  - apply remove_edge_shape in Hs as (_ & Hall & _). destruct Ho as [ed Hed].
    eapply (all_seq_remove _ g s _ _ [e] (lbl g)); [done|done|apply NoDup_singleton|exact Hall| | |done|done].
    + intros e' He'. apply elem_of_list_singleton in He' as ->. exists ed. split; [done|].
      split; [unfold lbl; by destruct (core_edge _ _ _ _ Hc Hed) as (-> & _)|].
      apply Hsafe. split; [by exists ed|]. unfold live_edge. simpl. rewrite lookup_delete. by intros [? ?].
    + intros x Hx. unfold live_edge in *. cbn [s_edges sstep]. rewrite elem_of_list_singleton.
      destruct (decide (x = e)) as [->|]; [rewrite lookup_delete|by rewrite lookup_delete_ne].
      split; [by intros [? ?]|done].
  - simpl in Hs. unfold add_node_index in Hs. destruct (_ !! _); [injection Hs as <-; by eapply all_seq_same|].
    inv_ok Hs. injection Hs as <-. by eapply all_seq_same.
  - simpl in Hs. unfold add_edge_index in Hs. destruct (_ !! _); [injection Hs as <-; by eapply all_seq_same|].
    inv_ok Hs. injection Hs as <-. by eapply all_seq_same.
Qed.
Lemma all_seq_run ops g : valid_history ops -> run ops = Ok g -> edge_list_safe ops -> all_seq g (all_order ops).
Proof.
  revert ops g. apply (history_ind (fun ops g => edge_list_safe ops -> all_seq g (all_order ops))).
  { intros _. apply em_seq_empty. }
  intros ops g o g' Hv Hr IH Ho Hs Hsafe. apply edge_list_safe_snoc in Hsafe as [Hsafe Hok].
  rewrite all_order_snoc. eapply all_seq_step; eauto using core_run, all_inv_run.
Qed.
Theorem get_edges_order ops g : valid_history ops -> run ops = Ok g -> edge_list_safe ops ->
  get_edges g = Ok (all_order ops).
Proof.
  intros Hv Hr Hs. destruct (all_inv_run _ _ Hv Hr Hs) as [H1 _]. pose proof (core_run _ _ Hv Hr) as Hc.
  apply (em_seq_iter _ _ _ _ _ _ H1 (all_seq_run _ _ Hv Hr Hs) (edges_fuel _ _ Hc)).
Qed.
Theorem get_edges_any_order ops g S ord : valid_history ops -> run ops = Ok g -> edge_list_safe ops -> order_of S ord ->
  get_edges_any_label g ord = Ok (concat (map (fun l => filter (fun e => found_by ops e = l) (all_order ops)) ord)).
Proof.
  intros Hv Hr Hs [Hnd _]. destruct (all_inv_run _ _ Hv Hr Hs) as [H1 _]. pose proof (core_run _ _ Hv Hr) as Hc.
  apply (em_seq_any _ _ (found_by ops) _ _ _ _ _ ord H1 (all_seq_run _ _ Hv Hr Hs) (edges_fuel _ _ Hc) Hnd).
  intros x Hx. unfold found_by. rewrite size_edges. apply elem_of_dom in Hx.
  assert (size (s_edges (srun ops)) <> 0) as Hsz.
  { intros H0%map_size_empty_inv. rewrite H0, lookup_empty in Hx. by destruct Hx. }
  destruct (decide (2 <= size (s_edges (srun ops)))).
  - rewrite decide_False by lia. done.
  - rewrite decide_True by lia. by apply live_label.
Qed.
