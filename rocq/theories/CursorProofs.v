(** Proofs about cursors, RemoveLast and RemoveFirst. *)
From Verif Require Import Base Graph GraphSpec CoreProofs CoreStep AdjProofs Sizes Path PathSpec PathProofs
  ItrSpec ItrProofs VPath VPathSpec VPathProofs Cursor CursorSpec.

Section graph.
  Context (g : graph) (s : sgraph) (Hc : core g s).
  Notation from := (edge_from g).
  Notation to := (edge_to g).

  Lemma nodes_from_edges_lists d es (P : nat -> Prop) :
    (forall m, P m <-> exists e, e ∈ es /\ (match d with Incoming => from | _ => to end) e = m) ->
    lists P (nodes_from_edges g d es).
  Proof.
    intros HP. split; [apply firsts_NoDup|]. intros m. unfold nodes_from_edges. rewrite firsts_in, HP.
    split.
    - intros [(e & -> & He)%elem_of_list_fmap _]. eauto.
    - intros (e & He & <-). split; [|apply not_elem_of_nil]. apply elem_of_list_fmap. eauto.
  Qed.
  Lemma c_nodes_ok c n d : live_node s n -> c_node c = Some n -> d <> AnyDir ->
    exists xs, c_nodes g c d = Ok xs /\ lists (neighbour s d (fun _ => True) n) xs.
  Proof.
    intros Hn Hcn Hd. destruct (node_edges_at g s Hc n d Hn) as (es & Hes & Hin).
    unfold c_nodes. rewrite Hcn, Hes. eexists. split; [done|]. apply nodes_from_edges_lists. intros m.
    destruct d; [|done|]; simpl; unfold neighbour; setoid_rewrite Hin; simpl; unfold is_in, is_out; split.
    - intros (e & ed & Hed & _ & Hx & Hy). exists e. split; [eauto 7|]. by rewrite (proj1 (edge_ends g s Hc _ _ Hed)).
    - intros (e & (ed & Hed & Hx) & Hm). exists e, ed. rewrite (proj1 (edge_ends g s Hc _ _ Hed)) in Hm. done.
    - intros (e & ed & Hed & _ & Hx & Hy). exists e. split; [eauto 7|]. by rewrite (proj2 (edge_ends g s Hc _ _ Hed)).
    - intros (e & (ed & Hed & Hx) & Hm). exists e, ed. rewrite (proj2 (edge_ends g s Hc _ _ Hed)) in Hm. done.
  Qed.
  Lemma label_at n d l : live_node s n ->
    exists xs, node_edges_label g n d l = Ok xs /\ forall e, e ∈ xs <-> at_node s n d e /\ has_label s l e.
  Proof.
    intros Hn. destruct (node_edges_label_ok g s Hc n d l Hn) as (xs & ys & Hx & Hy & Hp).
    destruct (node_edges_at g s Hc n d Hn) as (xs' & Hx' & Hin). assert (xs' = xs) as -> by congruence.
    exists ys. split; [done|]. intros e. rewrite Hp, elem_of_list_filter, Hin. unfold label_in, has_label.
    destruct (s_edges s !! e) as [ed|]; [|naive_solver]. rewrite elem_of_singleton. naive_solver.
  Qed.
  Lemma c_nodes_with_ok c n d l : live_node s n -> c_node c = Some n -> d <> AnyDir ->
    exists xs, c_nodes_with g c d l = Ok xs /\ lists (neighbour s d (fun x => x = l) n) xs.
  Proof.
    intros Hn Hcn Hd. destruct (label_at n d l Hn) as (es & Hes & Hin).
    unfold c_nodes_with. rewrite Hcn, Hes. eexists. split; [done|]. apply nodes_from_edges_lists. intros m.
    destruct d; [|done|]; simpl; unfold neighbour; setoid_rewrite Hin; simpl; unfold is_in, is_out, has_label; split.
    - intros (e & ed & Hed & Hl & Hx & Hy). exists e. split; [eauto 7|]. by rewrite (proj1 (edge_ends g s Hc _ _ Hed)).
    - intros (e & [(ed & Hed & Hx) (ed' & Hed' & Hl)] & Hm). exists e, ed. rewrite (proj1 (edge_ends g s Hc _ _ Hed)) in Hm.
      assert (ed' = ed) as -> by congruence. done.
    - intros (e & ed & Hed & Hl & Hx & Hy). exists e. split; [eauto 7|]. by rewrite (proj2 (edge_ends g s Hc _ _ Hed)).
    - intros (e & [(ed & Hed & Hx) (ed' & Hed' & Hl)] & Hm). exists e, ed. rewrite (proj2 (edge_ends g s Hc _ _ Hed)) in Hm.
      assert (ed' = ed) as -> by congruence. done.
  Qed.
  (** AnyEdge: the targets of all edges at the node, whatever their direction *)
  Lemma c_nodes_any c n : live_node s n -> c_node c = Some n ->
    exists xs, c_nodes g c AnyDir = Ok xs /\
      lists (fun m => exists e ed, s_edges s !! e = Some ed /\ (e_from ed = n \/ e_to ed = n) /\ e_to ed = m) xs.
  Proof.
    intros Hn Hcn. destruct (node_edges_at g s Hc n AnyDir Hn) as (es & Hes & Hin).
    unfold c_nodes. rewrite Hcn, Hes. eexists. split; [done|]. apply nodes_from_edges_lists. intros m.
    setoid_rewrite Hin. simpl. unfold is_in, is_out. split.
    - intros (e & ed & Hed & Hx & Hy). exists e. rewrite (proj2 (edge_ends g s Hc _ _ Hed)). naive_solver.
    - intros (e & [(ed & Hed & Hx)|(ed & Hed & Hx)] & Hm); exists e, ed; rewrite (proj2 (edge_ends g s Hc _ _ Hed)) in Hm; naive_solver.
  Qed.

  (** ** the named directions *)
  Lemma c_edges_ok c n d : live_node s n -> c_node c = Some n -> d <> AnyDir ->
    exists xs, c_edges g c d = Ok xs /\ lists (at_node s n d) xs.
  Proof.
    intros Hn Hcn Hd. unfold c_edges. rewrite Hcn. destruct d; [|done|].
    - apply node_edges_in; done.
    - apply node_edges_out; done.
  Qed.
  Lemma c_edges_with_ok c n d l : live_node s n -> c_node c = Some n -> d <> AnyDir ->
    exists xs, c_edges_with g c d l = Ok xs /\ lists (fun e => at_node s n d e /\ has_label s l e) xs.
  Proof.
    intros Hn Hcn Hd. unfold c_edges_with. rewrite Hcn.
    destruct (label_at n d l Hn) as (ys & Hy & Hin). exists ys. split; [done|]. split; [|done].
    destruct (node_edges_label_ok g s Hc n d l Hn) as (xs & ys' & Hx & Hy' & Hp).
    assert (ys' = ys) as -> by congruence. rewrite Hp. apply NoDup_filter.
    destruct (c_edges_ok c n d Hn Hcn Hd) as (xs' & Hx' & Hnd & _). unfold c_edges in Hx'. rewrite Hcn in Hx'.
    assert (xs' = xs) as -> by congruence. done.
  Qed.
  Lemma c_named c n l : live_node s n -> c_node c = Some n ->
    exists fw bw fl bl nn pn nl pl,
      c_forward g c = Ok fw /\ lists (fun e => exists ed, s_edges s !! e = Some ed /\ e_from ed = n) fw /\
      c_backward g c = Ok bw /\ lists (fun e => exists ed, s_edges s !! e = Some ed /\ e_to ed = n) bw /\
      c_forward_with g c l = Ok fl /\ lists (fun e => exists ed, s_edges s !! e = Some ed /\ e_from ed = n /\ e_label ed = l) fl /\
      c_backward_with g c l = Ok bl /\ lists (fun e => exists ed, s_edges s !! e = Some ed /\ e_to ed = n /\ e_label ed = l) bl /\
      c_next_nodes g c = Ok nn /\ lists (fun m => exists e ed, s_edges s !! e = Some ed /\ e_from ed = n /\ e_to ed = m) nn /\
      c_prev_nodes g c = Ok pn /\ lists (fun m => exists e ed, s_edges s !! e = Some ed /\ e_to ed = n /\ e_from ed = m) pn /\
      c_next_nodes_with g c l = Ok nl /\
        lists (fun m => exists e ed, s_edges s !! e = Some ed /\ e_label ed = l /\ e_from ed = n /\ e_to ed = m) nl /\
      c_prev_nodes_with g c l = Ok pl /\
        lists (fun m => exists e ed, s_edges s !! e = Some ed /\ e_label ed = l /\ e_to ed = n /\ e_from ed = m) pl.
  Proof.
    intros Hn Hcn.
    destruct (c_edges_ok c n Outgoing Hn Hcn ltac:(done)) as (fw & H1 & L1).
    destruct (c_edges_ok c n Incoming Hn Hcn ltac:(done)) as (bw & H2 & L2).
    destruct (c_edges_with_ok c n Outgoing l Hn Hcn ltac:(done)) as (fl & H3 & D3 & L3).
    destruct (c_edges_with_ok c n Incoming l Hn Hcn ltac:(done)) as (bl & H4 & D4 & L4).
    destruct (c_nodes_ok c n Outgoing Hn Hcn ltac:(done)) as (nn & H5 & D5 & L5).
    destruct (c_nodes_ok c n Incoming Hn Hcn ltac:(done)) as (pn & H6 & D6 & L6).
    destruct (c_nodes_with_ok c n Outgoing l Hn Hcn ltac:(done)) as (nl & H7 & L7).
    destruct (c_nodes_with_ok c n Incoming l Hn Hcn ltac:(done)) as (pl & H8 & L8).
    exists fw, bw, fl, bl, nn, pn, nl, pl.
    split; [exact H1|]. split; [exact L1|]. split; [exact H2|]. split; [exact L2|].
    split; [exact H3|]. split.
    { split; [done|]. intros e. rewrite L3. unfold at_node, is_out, has_label. naive_solver. }
    split; [exact H4|]. split.
    { split; [done|]. intros e. rewrite L4. unfold at_node, is_in, has_label. naive_solver. }
    split; [exact H5|]. split.
    { split; [done|]. intros m. rewrite L5. unfold neighbour. naive_solver. }
    split; [exact H6|]. split.
    { split; [done|]. intros m. rewrite L6. unfold neighbour. naive_solver. }
    split; [exact H7|]. split; [exact L7|]. split; [exact H8|]. exact L8.
  Qed.

  (** ** the path of a cursor *)
  Lemma c_push_at c e c' : at_end from to c -> c_push g c e = Ok c' -> at_end from to c'.
  Proof.
    intros (p & w & Hp & Hw & Hnone & Hl) Hpush. unfold c_push in Hpush. rewrite Hp in Hpush.
    apply rbind_Ok_inv in Hpush as (p' & Hp' & Hpush). injection Hpush as <-. destruct w as [|n ss]; [done|].
    destruct (append_iff _ _ _ _ _ _ _ Hw Hp') as (ts & Ht & Hd).
    exists p', (WalkFrom n (ss ++ ts)). split; [done|]. split; [done|]. split; [done|]. cbn [c_node walk_nodes].
    apply takes_cons_inv in Ht as (us & -> & _ & Hu). inversion Hu; subst.
    rewrite map_app. cbn [map snd pe_edge]. change (n :: map snd ss ++ [pe_tgt from to (PE e false)]) with ((n :: map snd ss) ++ [pe_tgt from to (PE e false)]).
    by rewrite last_snoc.
  Qed.
  Lemma c_push_iff c n e p w : c_path c = Some p -> denotes from to p w -> w <> NoWalk -> c_node c = last (walk_nodes w) -> c_node c = Some n ->
    (from e = n -> exists p', c_push g c e = Ok (Cursor (Some (to e)) (Some p')) /\
       walk_edges w ++ [e] = map pe_edge (p_path p') /\ path_last from to p' = Some (to e)) /\
    (from e <> n -> c_push g c e = Panic).
  Proof.
    intros Hp Hw Hnone Hl Hn. destruct w as [|a ss]; [done|]. cbn [walk_nodes] in Hl. rewrite Hn in Hl.
    unfold c_push. rewrite Hp. split.
    - intros <-. destruct (append_ok _ _ p a ss [PE e false] [(e, to e)] Hw) as (p' & Hp' & Hd).
      { rewrite <-Hl. simpl. apply (takes_cons' from to (PE e false) [] []). constructor. }
      rewrite Hp'. exists p'. split; [done|]. split.
      + inversion Hd as [|? E1 E2|? x l ? Ht]; subst; [by destruct ss|]. cbn [p_path].
        rewrite <-(takes_edges _ _ _ _ _ Ht), map_app. done.
      + rewrite (den_last _ _ _ _ Hd). cbn [walk_nodes]. rewrite map_app.
        change (a :: map snd ss ++ map snd [(e, to e)]) with ((a :: map snd ss) ++ [to e]). by rewrite last_snoc.
    - intros Hne. rewrite (append_panics _ _ p a ss [PE e false] Hw); [done|]. intros ts Ht. rewrite <-Hl in Ht. simpl in Ht.
      apply Hne. apply takes_head in Ht. by rewrite Ht.
  Qed.
  Lemma c_start_at c c' : c_start_path c = Ok c' -> at_end from to c'.
  Proof.
    unfold c_start_path. destruct (c_node c) as [n|]; [|done]. intros [= <-].
    exists (path_from_node n), (WalkFrom n []). split_and!; try done. constructor.
  Qed.
End graph.

(** ** RemoveLast, RemoveFirst *)
Lemma remove_last_path g p g' p' n ss st : denotes (edge_from g) (edge_to g) p (WalkFrom n (ss ++ [st])) -> ss <> [] ->
  path_remove_last g p = Ok (g', p') ->
  denotes (edge_from g) (edge_to g) p' (WalkFrom n ss) /\ step g (ORemoveEdge st.1) = Ok g'.
Proof.
  intros Hp Hs Hr. inversion Hp as [|? H1 H2|a x l ts H]; subst; [by destruct ss|]. unfold path_remove_last in Hr. cbn [p_only p_path] in Hr.
  pose proof (takes_length _ _ _ _ _ H) as Hlen. rewrite app_length in Hlen. simpl in Hlen.
  assert (exists k y, x :: l = k ++ [y]) as (k & y & Hk).
  { destruct (exists_last (l := x :: l)) as (k & y & Hk); [done|]. eauto. }
  rewrite Hk in *. rewrite last_snoc in Hr. apply rbind_Ok_inv in Hr as (g1 & Hg1 & Hr). injection Hr as <- <-.
  assert (length k = length ss) as Hks by (apply (f_equal length) in Hk; rewrite app_length in Hk; simpl in Hk; lia).
  rewrite app_length. simpl. replace (length k + 1 - 1) with (length k) by lia. rewrite take_app.
  pose proof (takes_take _ _ _ _ _ (length k) H) as Ht. rewrite take_app in Ht. rewrite Hks, take_app in Ht.
  split.
  - destruct k as [|z k]; [by destruct ss|]. by constructor.
  - assert (pe_edge y = st.1) as <-; [|done].
    pose proof (takes_edges _ _ _ _ _ H) as He. rewrite !map_app in He. apply app_inj_2 in He as [_ He]; [|done]. by injection He.
Qed.
Lemma remove_first_path g p g' p' n st ss : denotes (edge_from g) (edge_to g) p (WalkFrom n (st :: ss)) -> ss <> [] ->
  path_remove_first g p = Ok (g', p') ->
  denotes (edge_from g) (edge_to g) p' (WalkFrom st.2 ss) /\ step g (ORemoveEdge st.1) = Ok g'.
Proof.
  intros Hp Hs Hr. inversion Hp as [|? H1 H2|a x l ts H]; subst. unfold path_remove_first in Hr. cbn [p_only p_path] in Hr.
  apply rbind_Ok_inv in Hr as (g1 & Hg1 & Hr). injection Hr as <- <-.
  apply takes_cons_inv in H as (ts & [= -> ->] & <- & H). split; [|done].
  destruct l as [|y l]; [by inversion H; subst|]. by constructor.
Qed.
Lemma remove_only g n : path_remove_last g (path_from_node n) = Ok (g, path_empty) /\
  path_remove_first g (path_from_node n) = Ok (g, path_empty).
Proof. done. Qed.
Lemma remove_one_edge g e rev g' : step g (ORemoveEdge e) = Ok g' ->
  path_remove_last g (Path None [PE e rev]) = Ok (g', path_empty) /\
  path_remove_first g (Path None [PE e rev]) = Ok (g', path_empty).
Proof.
  intros H. unfold path_remove_last, path_remove_first. simpl in *. rewrite H. done.
Qed.
