From Verif Require Import Base Value Assoc Links EdgeMap Index Graph GraphSpec Itr ItrSpec ItrProofs Sizes.
From Verif Require Import LinksProofs EdgeMapProofs CoreProofs CoreStep AdjProofs NodeListProofs EdgeListProofs IndexGraphProofs FindProofs.

Lemma rep_iter_size key L em X f xs : em_rep key L em X -> size X <= f ->
  em_iter f L em = Ok xs -> em_iter_size em = Z.of_nat (length xs).
Proof.
  intros Hr Hf Hi. destruct (em_iter_ok _ _ _ _ f Hr Hf) as (ys & Hy & Hnd & Hin).
  assert (ys = xs) as -> by congruence. destruct Hr as (Hn & _).
  assert (length xs = size X) as ->.
  { rewrite <- (size_list_to_set (C := gset nat)) by done. f_equal. apply set_eq. intros x. by rewrite elem_of_list_to_set. }
  unfold em_iter_size. rewrite Hn. repeat case_decide; lia.
Qed.
Lemma rep_label_size lb key L em X f l xs : em_rep key L em X -> size X <= f ->
  em_iter_label lb f L em l = Ok xs -> em_iter_label_size lb em l = Z.of_nat (length xs).
Proof.
  intros (Hn & H1 & H2 & H3) Hf. unfold em_iter_label, em_iter_label_size. rewrite Hn.
  destruct (decide (Z.of_nat (size X) = 0)%Z) as [H0|H0]; [by intros [= <-]|].
  destruct (decide (Z.of_nat (size X) = 1)%Z) as [Hx1|Hx1].
  - destruct (H2 ltac:(lia)) as (e & -> & ->). rewrite H1 by lia. simpl. destruct (decide (l = lb e)); by intros [= <-].
  - assert (2 <= size X) as H4 by lia. specialize (H3 H4). destruct H3 as (Hnd & Hb & Hall).
    destruct (bk_get (em_bkts em) l) as [ll|] eqn:Hg; [|by intros [= <-]].
    destruct (Hb _ _ Hg) as (ys & Hd & _ & Hys). intros Hw.
    assert (walk f L (ll_head ll) = Ok ys) as Hw'.
    { eapply walk_ok; [done|]. etrans; [|exact Hf]. apply NoDup_length_le; [apply Hd|naive_solver]. }
    assert (ys = xs) as -> by congruence. by destruct Hd as (_&_&_&->&_).
Qed.
Lemma any_bound lb fl L em ord xs : em_iter_any lb fl L em ord = Ok xs -> bounds (em_iter_any_size lb em ord) xs.
Proof. intros [(_&_&->)|[_ H]]%any_size; [by left|by right]. Qed.

Section node.
  Context (g : graph) (s : sgraph) (Hc : core g s).
  Lemma node_edges_size_ok n d xs : live_node s n -> node_edges g n d = Ok xs ->
    node_edges_size g n d = Ok (Z.of_nat (length xs)).
  Proof.
    intros (nd & Hnd & Hi & Ho)%(core_node_adj _ _ Hc). pose proof (ins_fuel _ _ Hc n) as Fi. pose proof (outs_fuel _ _ Hc n) as Fo.
    unfold node_edges, node_edges_size, deref_node. rewrite Hnd. cbn [rbind]. destruct d.
    - intros H. by rewrite (rep_iter_size _ _ _ _ _ _ Hi Fi H).
    - intros (i & H1 & (o & H2 & [= <-])%rbind_Ok_inv)%rbind_Ok_inv.
      rewrite (rep_iter_size _ _ _ _ _ _ Hi Fi H1), (rep_iter_size _ _ _ _ _ _ Ho Fo H2), app_length. f_equal. lia.
    - intros H. by rewrite (rep_iter_size _ _ _ _ _ _ Ho Fo H).
  Qed.
  Lemma node_edges_label_size_ok n d l xs : live_node s n -> node_edges_label g n d l = Ok xs ->
    node_edges_label_size g n d l = Ok (Z.of_nat (length xs)).
  Proof.
    intros (nd & Hnd & Hi & Ho)%(core_node_adj _ _ Hc). pose proof (ins_fuel _ _ Hc n) as Fi. pose proof (outs_fuel _ _ Hc n) as Fo.
    unfold node_edges_label, node_edges_label_size, deref_node. rewrite Hnd. cbn [rbind]. destruct d.
    - intros H. by rewrite (rep_label_size _ _ _ _ _ _ _ _ Hi Fi H).
    - intros (i & H1 & (o & H2 & [= <-])%rbind_Ok_inv)%rbind_Ok_inv.
      rewrite (rep_label_size _ _ _ _ _ _ _ _ Hi Fi H1), (rep_label_size _ _ _ _ _ _ _ _ Ho Fo H2), app_length. f_equal. lia.
    - intros H. by rewrite (rep_label_size _ _ _ _ _ _ _ _ Ho Fo H).
  Qed.
  Lemma node_edges_any_size_ok n d ord1 ord2 xs : live_node s n -> d <> AnyDir -> node_edges_any g n d ord1 ord2 = Ok xs ->
    exists m, node_edges_any_size g n d ord1 ord2 = Ok m /\ bounds m xs.
  Proof.
    intros (nd & Hnd & Hi & Ho)%(core_node_adj _ _ Hc) Hd. pose proof (ins_fuel _ _ Hc n) as Fi. pose proof (outs_fuel _ _ Hc n) as Fo.
    unfold node_edges_any, node_edges_any_size, deref_node, em_any_or_all, em_any_or_all_size. rewrite Hnd. cbn [rbind]. destruct d; [|done|].
    - destruct (decide (ord1 = [])); intros H; eexists; (split; [done|]).
      + right. by rewrite (rep_iter_size _ _ _ _ _ _ Hi Fi H).
      + by eapply any_bound.
    - destruct (decide (ord2 = [])); intros H; eexists; (split; [done|]).
      + right. by rewrite (rep_iter_size _ _ _ _ _ _ Ho Fo H).
      + by eapply any_bound.
  Qed.
End node.

Lemma get_edges_size_ok ops g xs : valid_history ops -> run ops = Ok g -> edge_list_safe ops ->
  get_edges g = Ok xs -> get_edges_size g = Z.of_nat (length xs).
Proof.
  intros Hv Hr Hs Hx. destruct (all_inv_run _ _ Hv Hr Hs) as [H1 _]. pose proof (core_run _ _ Hv Hr) as Hc.
  eapply rep_iter_size; [exact H1|by apply edges_fuel|exact Hx].
Qed.
Lemma get_nodes_size_ok ops g xs : valid_history ops -> run ops = Ok g -> node_list_safe ops ->
  get_nodes g = Ok xs -> get_nodes_size g = Z.of_nat (length xs).
Proof.
  intros Hv Hr Hs Hx. destruct (get_nodes_ok _ _ Hv Hr Hs) as (ys & Hy & [[Hnd Hin] _]). assert (ys = xs) as -> by congruence.
  unfold get_nodes_size. change (ll_n (g_list g)) with (num_nodes g). rewrite (num_nodes_ok _ _ Hv Hr). f_equal.
  rewrite <- (size_list_to_set (C := gset nat)) by done. rewrite <- size_dom. f_equal. apply set_eq. intros n.
  rewrite elem_of_list_to_set, Hin. apply elem_of_dom.
Qed.
Lemma ix_values_bound ix : bounds (ix_values ix).2 (ix_values ix).1.
Proof.
  destruct ix as [[t|]|v e f]; simpl; [by left|by right|]. right. by rewrite fmap_length.
Qed.
Lemma nodes_with_property_size_ok ops g k xs : valid_history ops -> run ops = Ok g -> node_list_safe ops \/ is_Some (g_nix g !! k) ->
  get_nodes_with_property g k = Ok xs -> bounds (get_nodes_with_property_size g k) xs.
Proof.
  intros Hv Hr Hs. unfold get_nodes_with_property, get_nodes_with_property_size. destruct (g_nix g !! k) as [ix|].
  - intros [= <-]. apply ix_values_bound.
  - destruct Hs as [Hs|[? ?]]; [|done]. intros (ns & Hns & [= <-])%rbind_Ok_inv. right.
    rewrite (get_nodes_size_ok _ _ _ Hv Hr Hs Hns). apply inj_le, filter_length.
Qed.
Lemma edges_with_property_size_ok ops g k xs : valid_history ops -> run ops = Ok g -> edge_list_safe ops \/ is_Some (g_eix g !! k) ->
  get_edges_with_property g k = Ok xs -> bounds (get_edges_with_property_size g k) xs.
Proof.
  intros Hv Hr Hs. unfold get_edges_with_property, get_edges_with_property_size. destruct (g_eix g !! k) as [ix|].
  - intros [= <-]. apply ix_values_bound.
  - destruct Hs as [Hs|[? ?]]; [|done]. intros (ns & Hns & [= <-])%rbind_Ok_inv. right.
    rewrite (get_edges_size_ok _ _ _ Hv Hr Hs Hns). apply inj_le, filter_length.
Qed.

(** ** NextNodesWith, PrevNodesWith *)
Lemma dir_nodes_ok key L em X f lb (h : nat -> nat) l :
  em_rep key L em X -> size X <= f ->
  exists xs, em_iter_label lb f L em l = Ok xs /\
  exists s, label_start lb em l = Ok s /\ node_set_loop (label_machine L) h (S f) (S f) s ∅ = Ok (list_to_set (h <$> xs)).
Proof.
  intros Hr Hf. destruct (em_iter_label_ok lb _ _ _ _ f l Hr Hf) as (xs & Hx & Hnd & Hin). exists xs. split; [done|].
  destruct (label_yields lb f L em l xs (S f) Hx) as (s & Hs & Hy). exists s. split; [done|].
  rewrite (node_set_loop_ok _ h _ _ _ Hy); [f_equal; clear; set_solver|].
  assert (length xs <= size X); [|lia]. apply NoDup_length_le; [done|]. naive_solver.
Qed.
Lemma next_nodes_with_ok g s n l : core g s -> live_node s n ->
  exists X, next_nodes_with g n l = Ok X /\
    forall m, m ∈ X <-> exists e x, s_edges s !! e = Some x /\ e_from x = n /\ e_label x = l /\ e_to x = m.
Proof.
  intros Hc Hn. destruct (core_node_adj _ _ Hc n Hn) as (nd & Hnd & Ri & Ro).
  destruct (dir_nodes_ok _ _ _ _ _ (lbl g) (edge_to g) l Ro (outs_fuel _ _ Hc n)) as (xs & Hxs & st & Hst & Hset).
  destruct (em_iter_label_ok (lbl g) _ _ _ _ (fuel g) l Ro (outs_fuel _ _ Hc n)) as (xs' & Hxs' & _ & Hin).
  assert (xs' = xs) as -> by congruence.
  unfold next_nodes_with, deref_node. rewrite Hnd. cbn [rbind]. rewrite Hst. cbn [rbind]. rewrite Hset. eexists. split; [done|].
  intros m. rewrite elem_of_list_to_set, elem_of_list_fmap. split.
  - intros (e & -> & He). apply Hin in He as [He Hl]. apply elem_of_outs in He as (x & Hx & Hfr). exists e, x.
    destruct (core_edge _ _ _ _ Hc Hx) as (Hge & _). unfold edge_to. rewrite Hge. split; [done|]. split; [done|]. split; [|done].
    rewrite <- (core_lbl _ _ Hc _ _ Hx). by destruct (decide _).
  - intros (e & x & Hx & Hf & Hl & <-). exists e. destruct (core_edge _ _ _ _ Hc Hx) as (Hge & _). unfold edge_to. rewrite Hge. split; [done|].
    apply Hin. split; [apply elem_of_outs; eauto|]. rewrite <- Hl, <- (core_lbl _ _ Hc _ _ Hx). by destruct (decide _).
Qed.
Lemma prev_nodes_with_ok g s n l : core g s -> live_node s n ->
  exists X, prev_nodes_with g n l = Ok X /\
    forall m, m ∈ X <-> exists e x, s_edges s !! e = Some x /\ e_to x = n /\ e_label x = l /\ e_from x = m.
Proof.
  intros Hc Hn. destruct (core_node_adj _ _ Hc n Hn) as (nd & Hnd & Ri & Ro).
  destruct (dir_nodes_ok _ _ _ _ _ (lbl g) (edge_from g) l Ri (ins_fuel _ _ Hc n)) as (xs & Hxs & st & Hst & Hset).
  destruct (em_iter_label_ok (lbl g) _ _ _ _ (fuel g) l Ri (ins_fuel _ _ Hc n)) as (xs' & Hxs' & _ & Hin).
  assert (xs' = xs) as -> by congruence.
  unfold prev_nodes_with, deref_node. rewrite Hnd. cbn [rbind]. rewrite Hst. cbn [rbind]. rewrite Hset. eexists. split; [done|].
  intros m. rewrite elem_of_list_to_set, elem_of_list_fmap. split.
  - intros (e & -> & He). apply Hin in He as [He Hl]. apply elem_of_ins in He as (x & Hx & Hfr). exists e, x.
    destruct (core_edge _ _ _ _ Hc Hx) as (Hge & _). unfold edge_from. rewrite Hge. split; [done|]. split; [done|]. split; [|done].
    rewrite <- (core_lbl _ _ Hc _ _ Hx). by destruct (decide _).
  - intros (e & x & Hx & Hf & Hl & <-). exists e. destruct (core_edge _ _ _ _ Hc Hx) as (Hge & _). unfold edge_from. rewrite Hge. split; [done|].
    apply Hin. split; [apply elem_of_ins; eauto|]. rewrite <- Hl, <- (core_lbl _ _ Hc _ _ Hx). by destruct (decide _).
Qed.
Lemma node_set_yields {S} (m : machine S nat) h k s l : yields m k s l -> length l < k ->
  exists X, node_set_loop m h k k s ∅ = Ok X /\ forall x, x ∈ X <-> exists e, e ∈ l /\ h e = x.
Proof.
  intros Hy Hk. eexists. split; [by apply (node_set_loop_ok _ h _ _ _ Hy)|]. intros x.
  rewrite elem_of_union, elem_of_list_to_set, elem_of_list_fmap. split.
  - intros [(e & -> & He)|He]; [eauto|]. by apply not_elem_of_empty in He.
  - intros (e & He & <-). left. eauto.
Qed.

(** ** calls on removed objects *)
Lemma em_remove_absent lb key L em X e :
  em_rep key L em X -> e ∉ X -> (forall x, x ∈ X -> key x <> lb e) -> em_remove lb em L e = (em, L).
Proof.
  intros (Hn & H1 & H2 & H3) He Hk. unfold em_remove. destruct (decide (em_n em = 0)%Z); [done|].
  destruct (decide (em_n em = 1)%Z).
  - rewrite decide_False; [done|]. destruct (H2 ltac:(lia)) as (x & -> & ->). set_solver.
  - destruct (bk_get (em_bkts em) (lb e)) as [ll|] eqn:Hg; [|done].
    destruct (H3 ltac:(lia)) as (Hnd & Hb & _). destruct (Hb _ _ Hg) as (ys & _ & Hne & Hys).
    destruct ys as [|y ys]; [done|]. destruct (Hk y); apply Hys; left.
Qed.
Lemma remove_twice ops g e ed :
  valid_history ops -> run ops = Ok g -> edge_list_safe ops -> (forall x, filed_ok (filed ops) (srun ops) x) ->
  g_edges g !! e = Some ed -> ~ live_edge (srun ops) e ->
  live_node (srun ops) (e_from ed) -> live_node (srun ops) (e_to ed) ->
  (forall x, ~ has_label (srun ops) (e_label ed) x) ->
  remove_edge g e = Ok g.
Proof.
  intros Hv Hr Hs Hfl He Hd Hf Ht Hl. pose proof (core_run _ _ Hv Hr) as Hc.
  destruct (core_node_adj _ _ Hc _ Ht) as (tn & Htn & Ri & _). destruct (core_node_adj _ _ Hc _ Hf) as (fn & Hfn & _ & Ro).
  destruct (all_inv_run _ _ Hv Hr Hs) as [Ra Hfd].
  assert (lbl g e = e_label ed) as Hle by (unfold lbl; by rewrite He).
  unfold remove_edge, disconnect, deref_edge, deref_node. rewrite He. cbn [rbind]. rewrite Htn. cbn [rbind].
  rewrite (em_remove_absent _ _ _ _ _ e Ri).
  2: { intros (x & ? & _)%elem_of_ins. apply Hd. by exists x. }
  2: { intros x (y & Hy & _)%elem_of_ins. rewrite Hle, (core_lbl _ _ Hc _ _ Hy). intros E. apply (Hl x). by exists y. }
  assert (<[e_to ed:=Node (n_labels tn) (n_props tn) (n_in tn) (n_out tn)]> (g_nodes g) = g_nodes g) as ->.
  { rewrite insert_id; [done|]. by destruct tn. }
  assert (set_l2 (set_nodes g (g_nodes g)) (g_l2 g) = g) as -> by by destruct g.
  rewrite Hfn. cbn [rbind]. rewrite (em_remove_absent _ _ _ _ _ e Ro).
  2: { intros (x & ? & _)%elem_of_outs. apply Hd. by exists x. }
  2: { intros x (y & Hy & _)%elem_of_outs. rewrite Hle, (core_lbl _ _ Hc _ _ Hy). intros E. apply (Hl x). by exists y. }
  assert (<[e_from ed:=Node (n_labels fn) (n_props fn) (n_in fn) (n_out fn)]> (g_nodes g) = g_nodes g) as ->.
  { rewrite insert_id; [done|]. by destruct fn. }
  assert (set_l1 (set_nodes g (g_nodes g)) (g_l1 g) = g) as -> by by destruct g.
  cbn [rbind]. unfold all_remove.
  assert (em_remove (lbl g) (g_all g) (g_l0 g) e = (g_all g, g_l0 g)) as ->; [|by destruct g].
  destruct (decide (2 <= size (s_edges (srun ops)))) as [Hsz|Hsz].
  - eapply em_remove_absent; [exact Ra| |].
    + intros Hx. by apply elem_of_dom in Hx.
    + intros x Hx. apply elem_of_dom in Hx. rewrite Hle. destruct (Hfd Hsz x Hx) as [l Hlx]. destruct Hx as [y Hy].
      specialize (Hfl x). unfold filed_ok in Hfl. rewrite Hy in Hfl. unfold key_of. rewrite Hlx. simpl. intros ->.
      apply (Hl x). exists y. split; [done|]. specialize (Hfl Hsz). congruence.
  - destruct Ra as (Hn & _ & H2 & _). rewrite size_edges in *. unfold em_remove. destruct (decide _); [done|].
    rewrite decide_True by lia. rewrite decide_False; [done|]. destruct (H2 ltac:(lia)) as (x & -> & Hx). intros [= ->].
    apply Hd. apply elem_of_dom. rewrite Hx. set_solver.
Qed.
