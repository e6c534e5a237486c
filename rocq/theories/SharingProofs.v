(** Programs whose writes go to maps that are not shared behave as with values. *)
From Verif Require Import Base Value Links EdgeMap NodeMap Index Graph Clone CoreProofs Sharing SharingSpec.

(** ** Labels and properties after a call *)
Definition nd_data (x : node) : gset string * props := (n_labels x, n_props x).
Definition ndata (g : graph) (n : nat) : option (gset string * props) := nd_data <$> g_nodes g !! n.
Definition edata (g : graph) (e : nat) : option props := e_props <$> g_edges g !! e.
Definition same_data (g g' : graph) : Prop := (forall n, ndata g' n = ndata g n) /\ (forall e, edata g' e = edata g e) /\ g_next g' = g_next g.
Lemma same_data_refl g : same_data g g.
Proof. done. Qed.
Lemma same_data_trans g1 g2 g3 : same_data g1 g2 -> same_data g2 g3 -> same_data g1 g3.
Proof. intros (A & B & C) (A' & B' & C'). split_and!; [intros; by rewrite A'|intros; by rewrite B'|congruence]. Qed.
Lemma ndata_insert g n x m : ndata (set_nodes g (<[n := x]> (g_nodes g))) m = if decide (m = n) then Some (nd_data x) else ndata g m.
Proof.
  unfold ndata. cbn. destruct (decide (m = n)) as [->|Hne]; [by rewrite lookup_insert|]. by rewrite lookup_insert_ne.
Qed.
Lemma node_same g n x nd : g_nodes g !! n = Some nd -> nd_data x = nd_data nd -> same_data g (set_nodes g (<[n := x]> (g_nodes g))).
Proof.
  intros Hn Hx. split_and!; try done. intros m. rewrite ndata_insert. destruct (decide (m = n)) as [->|]; [|done]. unfold ndata. rewrite Hn. cbn. by rewrite Hx.
Qed.
Lemma deref_node_ok g n x : deref_node g n = Ok x -> g_nodes g !! n = Some x.
Proof. unfold deref_node. destruct (g_nodes g !! n); [|done]. by intros [= ->]. Qed.
Lemma deref_edge_ok g n x : deref_edge g n = Ok x -> g_edges g !! n = Some x.
Proof. unfold deref_edge. destruct (g_edges g !! n); [|done]. by intros [= ->]. Qed.
Lemma edges_data g E : (forall e, e_props <$> E !! e = edata g e) -> same_data g (set_edges g E).
Proof. intros H. split_and!; try done. Qed.
Ltac same_step := first [apply same_data_refl | eapply node_same; [eassumption|reflexivity]].
Lemma connect_data g e g' : connect g e = Ok g' -> same_data g g'.
Proof.
  unfold connect. intros H. inv_ok H. injection H as <-. apply deref_node_ok in Ha0, Ha2.
  eapply same_data_trans; [eapply (node_same g); [exact Ha0|]|eapply (node_same _ _ _ _ Ha2)]; reflexivity.
Qed.
Lemma disconnect_data g e g' : disconnect g e = Ok g' -> same_data g g'.
Proof.
  unfold disconnect. intros H. inv_ok H. destruct (em_remove _ _ _ _) as [em L]. inv_ok H. destruct (em_remove _ _ _ _) as [em' L']. injection H as <-.
  apply deref_node_ok in Ha0, Ha1.
  eapply same_data_trans; [eapply (node_same g); [exact Ha0|]|eapply (node_same _ _ _ _ Ha1)]; reflexivity.
Qed.
Lemma all_remove_data g e : same_data g (all_remove g e).
Proof. unfold all_remove. by destruct (em_remove _ _ _ _). Qed.
Lemma drop_edge_data g e g' : drop_edge g e = Ok g' -> same_data g g'.
Proof.
  unfold drop_edge. intros H. inv_ok H. injection H as <-. apply disconnect_data in Ha.
  eapply same_data_trans; [exact Ha|]. eapply same_data_trans; [apply all_remove_data|]. done.
Qed.
Lemma rfold_data (f : graph -> nat -> res graph) l : (forall g x g', f g x = Ok g' -> same_data g g') ->
  forall g g', rfold f l g = Ok g' -> same_data g g'.
Proof.
  intros Hf. induction l as [|x l IH]; intros g g' H; cbn [rfold] in H; [by injection H as <-|]. inv_ok H.
  eapply same_data_trans; [by eapply Hf|by apply IH].
Qed.
Lemma detach_data g n g' : detach_node g n = Ok g' -> same_data g g'.
Proof.
  unfold detach_node. intros H. inv_ok H. injection H as <-. apply deref_node_ok in Ha2, Ha6.
  apply (rfold_data drop_edge) in Ha1, Ha5; try apply drop_edge_data.
  eapply same_data_trans; [exact Ha1|]. eapply same_data_trans; [|eapply same_data_trans; [exact Ha5|]].
  { eapply node_same; [exact Ha2|reflexivity]. }
  eapply node_same; [exact Ha6|reflexivity].
Qed.

Definition ndata_after (g : graph) (o : op) (n : nat) : option (gset string * props) :=
  match o with
  | ONewNode ls ps _ => if decide (n = g_next g) then Some (ls, ps) else ndata g n
  | OSetLabels m ls _ _ => if decide (n = m) then (fun d => (ls, d.2)) <$> ndata g n else ndata g n
  | OSetNodeProp m k x => if decide (n = m) then (fun d => (d.1, <[k := x]> d.2)) <$> ndata g n else ndata g n
  | ORemNodeProp m k => if decide (n = m) then (fun d => (d.1, delete k d.2)) <$> ndata g n else ndata g n
  | _ => ndata g n
  end.
Definition edata_after (g : graph) (o : op) (e : nat) : option props :=
  match o with
  | ONewEdge _ _ _ ps => if decide (e = g_next g) then Some ps else edata g e
  | OSetEdgeProp f k x => if decide (e = f) then (fun d => <[k := x]> d) <$> edata g e else edata g e
  | ORemEdgeProp f k => if decide (e = f) then (fun d => delete k d) <$> edata g e else edata g e
  | _ => edata g e
  end.
Lemma step_data g o g' : step g o = Ok g' ->
  (forall n, ndata g' n = ndata_after g o n) /\ (forall e, edata g' e = edata_after g o e) /\
  g_next g' = match o with ONewNode _ _ _ | ONewEdge _ _ _ _ => S (g_next g) | _ => g_next g end.
Proof.
  destruct o as [ls ps ord|from to label ps|n ls ordo ordn|n k x|n k|n|n ord|e label|e k x|e k|e|k it|k it]; cbn [step ndata_after edata_after].
  - unfold new_node. intros H. inv_ok H. destruct (nl_add _ _ _) as [l L]. inv_ok Ha. injection Ha as <-. injection H as <-.
    split_and!; try done. intros n. unfold ndata. cbn. destruct (decide (n = g_next g)) as [->|]; [by rewrite lookup_insert|by rewrite lookup_insert_ne].
  - unfold new_edge. intros H. inv_ok H. inv_ok Ha. injection Ha as <-. injection H as <-. cbn [fst].
    unfold all_add in Ha2. inv_ok Ha2. injection Ha2 as <-. apply connect_data in Ha3 as (A & B & C). cbn in C.
    split_and!; [exact A| |exact C]. intros e. etransitivity; [exact (B e)|]. unfold edata. cbn.
    destruct (decide (e = g_next g)) as [->|]; [by rewrite lookup_insert|by rewrite lookup_insert_ne].
  - unfold set_labels. intros H. inv_ok H. injection H as <-. apply deref_node_ok in Ha. split_and!; try done. intros m. unfold ndata. cbn.
    destruct (decide (m = n)) as [->|]; [by rewrite lookup_insert, Ha|by rewrite lookup_insert_ne].
  - unfold set_node_prop. intros H. inv_ok H. injection H as <-. apply deref_node_ok in Ha. split_and!; try done. intros m. unfold ndata. cbn.
    destruct (decide (m = n)) as [->|]; [by rewrite lookup_insert, Ha|by rewrite lookup_insert_ne].
  - unfold rem_node_prop. intros H. inv_ok H. apply deref_node_ok in Ha. destruct (n_props a !! k) eqn:E.
    + inv_ok H. injection H as <-. split_and!; try done. intros m. unfold ndata. cbn.
      destruct (decide (m = n)) as [->|]; [by rewrite lookup_insert, Ha|by rewrite lookup_insert_ne].
    + injection H as <-. split_and!; try done. intros m. destruct (decide (m = n)) as [->|]; [|done]. unfold ndata. rewrite Ha. cbn. by rewrite delete_notin.
  - apply detach_data.
  - unfold detach_remove_node. intros H. inv_ok H. destruct (nl_remove _ _ _) as [l L]. inv_ok H. injection H as <-. apply detach_data in Ha. exact Ha.
  - unfold set_edge_label. intros H. inv_ok H. apply deref_edge_ok in Ha. destruct (decide _); [by injection H as <-|]. inv_ok H.
    pose proof (disconnect_data _ _ _ Ha0) as Hd. apply connect_data in H. destruct Hd as (A & B & C), H as (A' & B' & C').
    cbn in C'. split_and!; [intros; by rewrite A', <- A| |congruence]. intros f. rewrite B', <- B. unfold edata. cbn.
    destruct (decide (f = e)) as [->|]; [|by rewrite lookup_insert_ne]. rewrite lookup_insert. specialize (B e). unfold edata in B. rewrite Ha in B. by rewrite B.
  - unfold set_edge_prop. intros H. inv_ok H. injection H as <-. apply deref_edge_ok in Ha. split_and!; try done. intros m. unfold edata. cbn.
    destruct (decide (m = e)) as [->|]; [by rewrite lookup_insert, Ha|by rewrite lookup_insert_ne].
  - unfold rem_edge_prop. intros H. inv_ok H. apply deref_edge_ok in Ha. destruct (e_props a !! k) eqn:E.
    + inv_ok H. injection H as <-. split_and!; try done. intros m. unfold edata. cbn.
      destruct (decide (m = e)) as [->|]; [by rewrite lookup_insert, Ha|by rewrite lookup_insert_ne].
    + injection H as <-. split_and!; try done. intros m. destruct (decide (m = e)) as [->|]; [|done]. unfold edata. rewrite Ha. cbn. by rewrite delete_notin.
  - unfold remove_edge. intros H. inv_ok H. injection H as <-. eapply same_data_trans; [by eapply disconnect_data|apply all_remove_data].
  - unfold add_node_index. destruct (g_nix g !! k); [by intros [= <-]|]. intros H. inv_ok H. by injection H as <-.
  - unfold add_edge_index. destruct (g_eix g !! k); [by intros [= <-]|]. intros H. inv_ok H. by injection H as <-.
Qed.

(** ** The graph shows what is in memory *)
Record tidy (st : shared) : Prop := Tidy {
  t_node : forall n d, ndata (sh_g st) n = Some d -> d = (set_at st (sh_nset st !! n), map_at st (sh_nmap st !! n));
  t_edge : forall e d, edata (sh_g st) e = Some d -> d = map_at st (sh_emap st !! e);
  t_dom : forall n, ndata (sh_g st) n = None -> sh_nset st !! n = None;
  t_vset : forall v r, sh_vset st !! v = Some r -> r < sh_next st;
  t_nset : forall v r, sh_nset st !! v = Some r -> r < sh_next st;
  t_vmap : forall v r, sh_vmap st !! v = Some r -> r < sh_next st;
  t_nmap : forall v r, sh_nmap st !! v = Some r -> r < sh_next st;
  t_emap : forall v r, sh_emap st !! v = Some r -> r < sh_next st }.
Lemma refresh_tidy st : tidy st -> refresh st = st.
Proof.
  intros H. destruct st as [g S M vs vm ns nm em k]. unfold refresh. cbn. f_equal. destruct g as [N E ? ? ? ? ? ? ? ? ? ?]. unfold set_edges, set_nodes. cbn. f_equal.
  - apply map_eq. intros n. rewrite map_lookup_imap. destruct (N !! n) as [x|] eqn:Hx; [|done]. cbn. f_equal.
    pose proof (t_node _ H n (nd_data x)) as Hd. unfold ndata in Hd. cbn in Hd. rewrite Hx in Hd. specialize (Hd eq_refl). destruct x as [a b c d]. unfold nd_data in Hd. cbn in *. injection Hd as <- <-. done.
  - apply map_eq. intros e. rewrite map_lookup_imap. destruct (E !! e) as [x|] eqn:Hx; [|done]. cbn. f_equal.
    pose proof (t_edge _ H e (e_props x)) as Hd. unfold edata in Hd. cbn in Hd. rewrite Hx in Hd. specialize (Hd eq_refl). destruct x as [a b c d]. cbn in *. by rewrite <- Hd.
Qed.
Lemma refresh_keeps st : sh_vset (refresh st) = sh_vset st /\ sh_vmap (refresh st) = sh_vmap st.
Proof. done. Qed.

Lemma point_same {A} (m : gmap nat A) i r : point m i r !! i = r.
Proof. apply lookup_partial_alter. Qed.
Lemma point_other {A} (m : gmap nat A) i j r : i <> j -> point m i r !! j = m !! j.
Proof. apply lookup_partial_alter_ne. Qed.
Lemma point_lookup {A} (m : gmap nat A) i j r : point m i r !! j = if decide (j = i) then r else m !! j.
Proof. destruct (decide (j = i)) as [->|]; [apply point_same|by apply point_other]. Qed.
(** contents: old references are not affected by new maps, nor by writes elsewhere *)
Definition old (st : shared) (r : option nat) : Prop := forall i, r = Some i -> i < sh_next st.
Lemma set_at_new st ls r : old st r -> set_at (new_set st ls) r = set_at st r.
Proof. intros H. destruct r as [i|]; [|done]. unfold set_at. cbn. rewrite lookup_insert_ne; [done|]. specialize (H i eq_refl). lia. Qed.
Lemma map_at_new st ps r : old st r -> map_at (new_map st ps) r = map_at st r.
Proof. intros H. destruct r as [i|]; [|done]. unfold map_at. cbn. rewrite lookup_insert_ne; [done|]. specialize (H i eq_refl). lia. Qed.
Lemma set_at_write st i ls r : r <> Some i -> set_at (write_set st i ls) r = set_at st r.
Proof. intros H. destruct r as [j|]; [|done]. unfold set_at. cbn. rewrite lookup_insert_ne; [done|]. congruence. Qed.
Lemma map_at_write st i ps r : r <> Some i -> map_at (write_map st i ps) r = map_at st r.
Proof. intros H. destruct r as [j|]; [|done]. unfold map_at. cbn. rewrite lookup_insert_ne; [done|]. congruence. Qed.
Lemma set_at_here S M g vs vm ns nm em k i ls : set_at (Sh g (<[i := ls]> S) M vs vm ns nm em k) (Some i) = ls.
Proof. unfold set_at. cbn. by rewrite lookup_insert. Qed.
Lemma map_at_here S M g vs vm ns nm em k i ps : map_at (Sh g S (<[i := ps]> M) vs vm ns nm em k) (Some i) = ps.
Proof. unfold map_at. cbn. by rewrite lookup_insert. Qed.

Ltac tidy_old H := intros ? Hold; first [by apply (t_vset _ H) in Hold | by apply (t_nset _ H) in Hold | by apply (t_vmap _ H) in Hold | by apply (t_nmap _ H) in Hold | by apply (t_emap _ H) in Hold].
Lemma tidy_new_set st ls : tidy st -> tidy (new_set st ls).
Proof.
  intros H. split; cbn.
  - intros n d Hd. rewrite set_at_new by tidy_old H. by apply (t_node _ H).
  - intros e d Hd. by apply (t_edge _ H).
  - apply (t_dom _ H).
  - intros v r Hr. apply (t_vset _ H) in Hr. lia.
  - intros v r Hr. apply (t_nset _ H) in Hr. lia.
  - intros v r Hr. apply (t_vmap _ H) in Hr. lia.
  - intros v r Hr. apply (t_nmap _ H) in Hr. lia.
  - intros v r Hr. apply (t_emap _ H) in Hr. lia.
Qed.
Lemma tidy_new_map st ps : tidy st -> tidy (new_map st ps).
Proof.
  intros H. split; cbn.
  - intros n d Hd. rewrite map_at_new by tidy_old H. by apply (t_node _ H).
  - intros e d Hd. rewrite map_at_new by tidy_old H. by apply (t_edge _ H).
  - apply (t_dom _ H).
  - intros v r Hr. apply (t_vset _ H) in Hr. lia.
  - intros v r Hr. apply (t_nset _ H) in Hr. lia.
  - intros v r Hr. apply (t_vmap _ H) in Hr. lia.
  - intros v r Hr. apply (t_nmap _ H) in Hr. lia.
  - intros v r Hr. apply (t_emap _ H) in Hr. lia.
Qed.
Lemma point_old (m : gmap nat nat) k v r : (forall i j, m !! i = Some j -> j < k) -> (forall i, r = Some i -> i < k) ->
  forall i j, point m v r !! i = Some j -> j < k.
Proof. intros Hm Hr i j. rewrite point_lookup. destruct (decide _); [apply Hr|apply Hm]. Qed.
Lemma tidy_bind_set st v r : tidy st -> old st r -> tidy (bind_set st v r).
Proof. intros [] Hr. split; cbn; try done. by apply point_old. Qed.
Lemma tidy_bind_map st v r : tidy st -> old st r -> tidy (bind_map st v r).
Proof. intros [] Hr. split; cbn; try done. by apply point_old. Qed.
Lemma tidy_write_set st r ls : tidy st -> (forall n, sh_nset st !! n <> Some r) -> tidy (write_set st r ls).
Proof. intros [] Hr. split; cbn; try done. intros n d Hd. rewrite set_at_write by done. eauto. Qed.
Lemma tidy_write_map st r ps : tidy st -> (forall n, sh_nmap st !! n <> Some r) -> (forall e, sh_emap st !! e <> Some r) -> tidy (write_map st r ps).
Proof. intros [] Hr Hr'. split; cbn; try done; intros n d Hd; rewrite map_at_write by done; eauto. Qed.

Record in_step (st : shared) (w : vals) : Prop := InStep { s_tidy : tidy st; s_shows : shows_values st w }.
Definition step_agrees (a : res shared) (b : res vals) : Prop :=
  match a, b with Ok st, Ok w => in_step st w | Panic, Panic | Diverge, Diverge => True | _, _ => False end.
Lemma in_step_refresh st w : in_step st w -> in_step (refresh st) w.
Proof. intros H. rewrite refresh_tidy; [done|apply H]. Qed.
Lemma v_set_let w v ls u : v_set (let_set w v ls) u = if decide (u = v) then ls else v_set w u.
Proof. unfold v_set, let_set. cbn. destruct (decide (u = v)) as [->|]; [by rewrite lookup_insert|by rewrite lookup_insert_ne]. Qed.
Lemma v_map_let w v ls u : v_map (let_map w v ls) u = if decide (u = v) then ls else v_map w u.
Proof. unfold v_map, let_map. cbn. destruct (decide (u = v)) as [->|]; [by rewrite lookup_insert|by rewrite lookup_insert_ne]. Qed.
(** ** Calls that only change a variable *)
Lemma agree_rebind_set st w v ls : in_step st w -> in_step (rebind_set st v ls) (let_set w v ls).
Proof.
  intros [H (A & B & C)]. split.
  { apply tidy_bind_set; [by apply tidy_new_set|]. intros i [= <-]. cbn. lia. }
  split_and!; [exact A| |exact C]. intros u. rewrite v_set_let. cbn. rewrite point_lookup. destruct (decide (u = v)) as [->|].
  { apply set_at_here. }
  rewrite <- B. change (set_at (new_set st ls) (sh_vset st !! u) = set_at st (sh_vset st !! u)). apply set_at_new. tidy_old H.
Qed.
Lemma agree_bind_set st w v r : in_step st w -> old st r -> in_step (bind_set st v r) (let_set w v (set_at st r)).
Proof.
  intros [H (A & B & C)] Hr. split; [by apply tidy_bind_set|]. split_and!; [exact A| |exact C].
  intros u. rewrite v_set_let. cbn. rewrite point_lookup. destruct (decide (u = v)) as [->|]; [done|]. apply B.
Qed.
Lemma agree_bind_map st w v r : in_step st w -> old st r -> in_step (bind_map st v r) (let_map w v (map_at st r)).
Proof.
  intros [H (A & B & C)] Hr. split; [by apply tidy_bind_map|]. split_and!; [exact A|exact B|].
  intros u. rewrite v_map_let. cbn. rewrite point_lookup. destruct (decide (u = v)) as [->|]; [done|]. apply C.
Qed.
Lemma agree_new_map st w ps : in_step st w -> in_step (new_map st ps) w.
Proof.
  intros [H (A & B & C)]. split; [by apply tidy_new_map|]. split_and!; [exact A|exact B|]. intros p. rewrite <- C. apply map_at_new. tidy_old H.
Qed.
Lemma agree_write_set st w v r ls : in_step st w -> sh_vset st !! v = Some r -> variable_set st v r -> in_step (write_set st r ls) (let_set w v ls).
Proof.
  intros [H (A & B & C)] Hv [Hr Hn]. split; [by apply tidy_write_set|]. split_and!; [exact A| |exact C].
  intros u. rewrite v_set_let. cbn. destruct (decide (u = v)) as [->|Hu]; [rewrite Hv; apply set_at_here|]. rewrite <- B. apply set_at_write.
  intros E. by apply Hu, Hr.
Qed.
Lemma agree_write_map st w v r ps : in_step st w -> sh_vmap st !! v = Some r -> variable_map st v r -> in_step (write_map st r ps) (let_map w v ps).
Proof.
  intros [H (A & B & C)] Hv (Hr & Hn & He). split; [by apply tidy_write_map|]. split_and!; [exact A|exact B|].
  intros u. rewrite v_map_let. cbn. destruct (decide (u = v)) as [->|Hu]; [rewrite Hv; apply map_at_here|]. rewrite <- C. apply map_at_write.
  intros E. by apply Hu, Hr.
Qed.
Lemma let_set_same w v : forall u, v_set (let_set w v (v_set w v)) u = v_set w u.
Proof. intros u. rewrite v_set_let. by destruct (decide _) as [->|]. Qed.
Lemma let_map_same w v : forall u, v_map (let_map w v (v_map w v)) u = v_map w u.
Proof. intros u. rewrite v_map_let. by destruct (decide _) as [->|]. Qed.
Lemma tidy_labels st n : tidy st -> labels_of (sh_g st) n = set_at st (sh_nset st !! n).
Proof.
  intros H. unfold labels_of. pose proof (t_node _ H n) as A. pose proof (t_dom _ H n) as B. unfold ndata in A, B.
  destruct (g_nodes (sh_g st) !! n) as [x|]; cbn in *.
  - specialize (A _ eq_refl). unfold nd_data in A. by injection A as -> _.
  - by rewrite (B eq_refl).
Qed.

(** ** Calls that change the graph *)
Record bounded (st : shared) : Prop := Bounded {
  b_vset : forall v r, sh_vset st !! v = Some r -> r < sh_next st;
  b_nset : forall v r, sh_nset st !! v = Some r -> r < sh_next st;
  b_vmap : forall v r, sh_vmap st !! v = Some r -> r < sh_next st;
  b_nmap : forall v r, sh_nmap st !! v = Some r -> r < sh_next st;
  b_emap : forall v r, sh_emap st !! v = Some r -> r < sh_next st }.
Lemma tidy_bounded st : tidy st -> bounded st.
Proof. by intros []. Qed.
Lemma bounded_next st st' : bounded st -> sh_vset st' = sh_vset st -> sh_nset st' = sh_nset st -> sh_vmap st' = sh_vmap st -> sh_nmap st' = sh_nmap st ->
  sh_emap st' = sh_emap st -> sh_next st <= sh_next st' -> bounded st'.
Proof.
  intros [A B C D E] HA HB HC HD HE Hn. split; intros v r.
  - rewrite HA. intros H%A. lia.
  - rewrite HB. intros H%B. lia.
  - rewrite HC. intros H%C. lia.
  - rewrite HD. intros H%D. lia.
  - rewrite HE. intros H%E. lia.
Qed.
Lemma bounded_node_set st n r : bounded st -> old st r -> bounded (node_set st n r).
Proof. intros [] Hr. split; cbn; try done. by apply point_old. Qed.
Lemma bounded_node_map st n r : bounded st -> old st r -> bounded (node_map st n r).
Proof. intros [] Hr. split; cbn; try done. by apply point_old. Qed.
Lemma bounded_edge_map st n r : bounded st -> old st r -> bounded (edge_map st n r).
Proof. intros [] Hr. split; cbn; try done. by apply point_old. Qed.

(** what a change of one reference leaves as it is *)
Record keeps (st st' : shared) : Prop := Keeps {
  k_bounded : bounded st';
  k_vset : sh_vset st' = sh_vset st;
  k_vmap : sh_vmap st' = sh_vmap st;
  k_sets : forall r, old st r -> set_at st' r = set_at st r;
  k_maps : forall r, old st r -> map_at st' r = map_at st r;
  k_next : sh_next st <= sh_next st' }.
Lemma keeps_refl st : bounded st -> keeps st st.
Proof. intros H. by split. Qed.
Lemma keeps_trans st1 st2 st3 : keeps st1 st2 -> keeps st2 st3 -> keeps st1 st3.
Proof.
  intros [A B C D E F] [A' B' C' D' E' F']. split; [done|congruence|congruence| | |lia].
  - intros r Hr. rewrite D', D; try done. intros i Hi. specialize (Hr i Hi). lia.
  - intros r Hr. rewrite E', E; try done. intros i Hi. specialize (Hr i Hi). lia.
Qed.
Lemma keeps_fresh_node_set st n ls : bounded st -> keeps st (fresh_node_set st n ls) /\
  sh_nmap (fresh_node_set st n ls) = sh_nmap st /\ sh_emap (fresh_node_set st n ls) = sh_emap st /\
  (forall m, m <> n -> sh_nset (fresh_node_set st n ls) !! m = sh_nset st !! m) /\
  set_at (fresh_node_set st n ls) (sh_nset (fresh_node_set st n ls) !! n) = ls.
Proof.
  intros H. split_and!; try done.
  - split; try done; cbn; [|intros; by apply (set_at_new st ls)|lia].
    apply bounded_node_set; [|intros i [= <-]; cbn; lia]. apply (bounded_next st); try done. cbn. lia.
  - intros m Hm. cbn. by apply point_other.
  - cbn. rewrite point_same. apply set_at_here.
Qed.
Lemma keeps_fresh_node_map st n ps : bounded st -> keeps st (fresh_node_map st n ps) /\
  sh_nset (fresh_node_map st n ps) = sh_nset st /\ sh_emap (fresh_node_map st n ps) = sh_emap st /\
  (forall m, m <> n -> sh_nmap (fresh_node_map st n ps) !! m = sh_nmap st !! m) /\
  map_at (fresh_node_map st n ps) (sh_nmap (fresh_node_map st n ps) !! n) = ps.
Proof.
  intros H. unfold fresh_node_map. destruct (decide (ps = ∅)) as [->|Hne].
  - split_and!; try done.
    + split; try done. by apply bounded_node_map.
    + intros m Hm. cbn. by apply point_other.
    + cbn. by rewrite point_same.
  - split_and!; try done.
    + split; try done; cbn; [|intros; by apply (map_at_new st ps)|lia].
      apply bounded_node_map; [|intros i [= <-]; cbn; lia]. apply (bounded_next st); try done. cbn. lia.
    + intros m Hm. cbn. by apply point_other.
    + cbn. rewrite point_same. apply map_at_here.
Qed.
Lemma keeps_fresh_edge_map st n ps : bounded st -> keeps st (fresh_edge_map st n ps) /\
  sh_nset (fresh_edge_map st n ps) = sh_nset st /\ sh_nmap (fresh_edge_map st n ps) = sh_nmap st /\
  (forall m, m <> n -> sh_emap (fresh_edge_map st n ps) !! m = sh_emap st !! m) /\
  map_at (fresh_edge_map st n ps) (sh_emap (fresh_edge_map st n ps) !! n) = ps.
Proof.
  intros H. unfold fresh_edge_map. destruct (decide (ps = ∅)) as [->|Hne].
  - split_and!; try done.
    + split; try done. by apply bounded_edge_map.
    + intros m Hm. cbn. by apply point_other.
    + cbn. by rewrite point_same.
  - split_and!; try done.
    + split; try done; cbn; [|intros; by apply (map_at_new st ps)|lia].
      apply bounded_edge_map; [|intros i [= <-]; cbn; lia]. apply (bounded_next st); try done. cbn. lia.
    + intros m Hm. cbn. by apply point_other.
    + cbn. rewrite point_same. apply map_at_here.
Qed.

Lemma agree_graph st w st' o g' : in_step st w -> step (sh_g st) o = Ok g' -> bounded st' ->
  sh_vset st' = sh_vset st -> sh_vmap st' = sh_vmap st ->
  (forall v, set_at st' (sh_vset st !! v) = set_at st (sh_vset st !! v)) ->
  (forall v, map_at st' (sh_vmap st !! v) = map_at st (sh_vmap st !! v)) ->
  (forall n d, ndata_after (sh_g st) o n = Some d -> d = (set_at st' (sh_nset st' !! n), map_at st' (sh_nmap st' !! n))) ->
  (forall n d, edata_after (sh_g st) o n = Some d -> d = map_at st' (sh_emap st' !! n)) ->
  (forall n, ndata_after (sh_g st) o n = None -> sh_nset st' !! n = None) ->
  in_step (refresh (with_graph st' g')) (Vals g' (v_sets w) (v_maps w)).
Proof.
  intros [H (A & B & C)] Hs Hb Hvs Hvm Hset Hmap Hn He Hdom. destruct (step_data _ _ _ Hs) as (Dn & De & _).
  apply in_step_refresh. split.
  - destruct Hb. split; cbn; try done.
    + intros n d. rewrite Dn. apply Hn.
    + intros n d. rewrite De. apply He.
    + intros n. rewrite Dn. apply Hdom.
  - split_and!; [done| |]; intros v; cbn.
    + rewrite Hvs. etransitivity; [exact (Hset v)|]. apply B.
    + rewrite Hvm. etransitivity; [exact (Hmap v)|]. apply C.
Qed.
(** a call that keeps the labels and properties of old objects *)
Lemma agree_keeps st w st' o g' : in_step st w -> step (sh_g st) o = Ok g' -> keeps st st' ->
  (forall n, ndata_after (sh_g st) o n = ndata (sh_g st) n /\ sh_nset st' !! n = sh_nset st !! n /\ sh_nmap st' !! n = sh_nmap st !! n \/
    exists d, ndata_after (sh_g st) o n = Some d /\ d = (set_at st' (sh_nset st' !! n), map_at st' (sh_nmap st' !! n))) ->
  (forall e, edata_after (sh_g st) o e = edata (sh_g st) e /\ sh_emap st' !! e = sh_emap st !! e \/
    exists d, edata_after (sh_g st) o e = Some d /\ d = map_at st' (sh_emap st' !! e)) ->
  in_step (refresh (with_graph st' g')) (Vals g' (v_sets w) (v_maps w)).
Proof.
  intros Hin Hs [Hb Hvs Hvm Hset Hmap _] Hn He. pose proof (s_tidy _ _ Hin) as H. apply (agree_graph st w st' o); try done.
  - intros v. apply Hset. tidy_old H.
  - intros v. apply Hmap. tidy_old H.
  - intros n d Hd. destruct (Hn n) as [(E & -> & ->)|(d' & E & Hd')]; [|congruence]. rewrite Hset, Hmap by tidy_old H. apply (t_node _ H). congruence.
  - intros e d Hd. destruct (He e) as [(E & ->)|(d' & E & Hd')]; [|congruence]. rewrite Hmap by tidy_old H. apply (t_edge _ H). congruence.
  - intros n Hd. destruct (Hn n) as [(E & -> & _)|(d' & E & Hd')]; [|congruence]. apply (t_dom _ H). congruence.
Qed.

Lemma bounded_write st r ps : bounded st -> bounded (write_map st r ps).
Proof. by intros []. Qed.
Lemma agree_write_node st w n r o g' (f : props -> props) : in_step st w -> step (sh_g st) o = Ok g' -> sh_nmap st !! n = Some r -> node_only st n r ->
  (forall m, ndata_after (sh_g st) o m = if decide (m = n) then (fun d => (d.1, f d.2)) <$> ndata (sh_g st) m else ndata (sh_g st) m) ->
  (forall e, edata_after (sh_g st) o e = edata (sh_g st) e) ->
  in_step (refresh (with_graph (write_map st r (f (map_at st (Some r)))) g')) (Vals g' (v_sets w) (v_maps w)).
Proof.
  intros Hin Hs Hr (Hv & Hn & He) Dn De. pose proof (s_tidy _ _ Hin) as H. apply (agree_graph st w _ o); try done.
  - by apply bounded_write, tidy_bounded.
  - intros v. by apply map_at_write.
  - intros m d. rewrite Dn. destruct (decide (m = n)) as [->|Hm].
    + intros (d0 & Hd0 & Hd)%fmap_Some. apply (t_node _ H) in Hd0. rewrite Hr in Hd0. subst. cbn. rewrite Hr. f_equal. symmetry. apply map_at_here.
    + intros Hd. apply (t_node _ H) in Hd. subst. cbn. f_equal. symmetry. apply map_at_write. intros E. by apply Hm, Hn.
  - intros e d. rewrite De. intros Hd%(t_edge _ H). subst. symmetry. by apply map_at_write.
  - intros m. rewrite Dn. destruct (decide (m = n)) as [->|Hm]; [intros Hd%fmap_None|intros Hd]; by apply (t_dom _ H).
Qed.
Lemma agree_write_edge st w n r o g' (f : props -> props) : in_step st w -> step (sh_g st) o = Ok g' -> sh_emap st !! n = Some r -> edge_only st n r ->
  (forall m, edata_after (sh_g st) o m = if decide (m = n) then f <$> edata (sh_g st) m else edata (sh_g st) m) ->
  (forall e, ndata_after (sh_g st) o e = ndata (sh_g st) e) ->
  in_step (refresh (with_graph (write_map st r (f (map_at st (Some r)))) g')) (Vals g' (v_sets w) (v_maps w)).
Proof.
  intros Hin Hs Hr (Hv & Hn & He) De Dn. pose proof (s_tidy _ _ Hin) as H. apply (agree_graph st w _ o); try done.
  - by apply bounded_write, tidy_bounded.
  - intros v. by apply map_at_write.
  - intros m d. rewrite Dn. intros Hd%(t_node _ H). subst. f_equal. symmetry. by apply map_at_write.
  - intros m d. rewrite De. destruct (decide (m = n)) as [->|Hm].
    + intros (d0 & Hd0 & Hd)%fmap_Some. apply (t_edge _ H) in Hd0. rewrite Hr in Hd0. subst. cbn. rewrite Hr. symmetry. apply map_at_here.
    + intros Hd. apply (t_edge _ H) in Hd. subst. symmetry. apply map_at_write. intros E. by apply Hm, He.
  - intros m. rewrite Dn. intros Hd. by apply (t_dom _ H).
Qed.

(** the call [o] of a program with values, on the same graph *)
Lemma agree_call st w o (st' : graph -> shared) : in_step st w ->
  (forall g', step (sh_g st) o = Ok g' -> in_step (st' g') (Vals g' (v_sets w) (v_maps w))) ->
  step_agrees (let! g' := step (sh_g st) o in Ok (st' g')) (calls w o).
Proof.
  intros [_ (A & _)] H. unfold calls. rewrite <- A. by destruct (step (sh_g st) o) as [g'| |] eqn:E; cbn; [apply H| |].
Qed.
Lemma step_node g o g' n : step g o = Ok g' -> match o with OSetLabels m _ _ _ | OSetNodeProp m _ _ => m = n | _ => False end -> exists d, ndata g n = Some d.
Proof.
  intros H Hn. destruct o; try done; subst; cbn in H; unfold set_labels, set_node_prop in H; inv_ok H; apply deref_node_ok in Ha; unfold ndata; rewrite Ha; by eexists.
Qed.
Lemma step_edge g o g' n : step g o = Ok g' -> match o with OSetEdgeProp m _ _ => m = n | _ => False end -> exists d, edata g n = Some d.
Proof.
  intros H Hn. destruct o; try done; subst; cbn in H; unfold set_edge_prop in H; inv_ok H; apply deref_edge_ok in Ha; unfold edata; rewrite Ha; by eexists.
Qed.
Lemma agree_op st w o g' : in_step st w -> fine st (CCall o) -> step (sh_g st) o = Ok g' ->
  in_step (refresh (with_graph (retarget st (g_next (sh_g st)) o) g')) (Vals g' (v_sets w) (v_maps w)).
Proof.
  intros Hin Hf Hs. pose proof (s_tidy _ _ Hin) as H. pose proof (tidy_bounded _ H) as Hb.
  destruct o as [ls ps ord|from to label ps|n ls ordo ordn|n k x|n k|n|n ord|e label|e k x|e k|e|k it|k it]; cbn [retarget];
    try (apply (agree_keeps st w _ _ _ Hin Hs); [by apply keeps_refl|intros; by left|intros; by left]).
  - set (id := g_next (sh_g st)). set (st1 := fresh_node_set st id ls).
    destruct (keeps_fresh_node_set st id ls Hb) as (K1 & Hnm & Hem & Ho & Hn). fold st1 in K1, Hnm, Hem, Ho, Hn.
    destruct (keeps_fresh_node_map st1 id ps (k_bounded _ _ K1)) as (K2 & Hns & Hem' & Ho' & Hn').
    apply (agree_keeps st w _ _ _ Hin Hs).
    + by eapply keeps_trans.
    + intros m. cbn [ndata_after]. fold id. destruct (decide (m = id)) as [->|Hm].
      * right. eexists. split; [done|]. rewrite Hn'. f_equal. rewrite Hns, (k_sets _ _ K2); [by rewrite Hn|]. intros i Hi. by apply (b_nset _ (k_bounded _ _ K1)) in Hi.
      * left. by rewrite Ho', Hnm, Hns, Ho.
    + intros e. left. by rewrite Hem', Hem.
  - set (id := g_next (sh_g st)). destruct (keeps_fresh_edge_map st id ps Hb) as (K & Hns & Hnm & Ho & Hn).
    apply (agree_keeps st w _ _ _ Hin Hs); [done| |].
    + intros m. left. by rewrite Hns, Hnm.
    + intros e. cbn [edata_after]. fold id. destruct (decide (e = id)) as [->|He]; [|left; by rewrite Ho]. right. by eexists.
  - apply (agree_keeps st w _ _ _ Hin Hs).
    + by apply keeps_fresh_node_set.
    + destruct (keeps_fresh_node_set st n ls Hb) as ([? ? ? ? Km ?] & Hnm & Hem & Ho & Hn). intros m. cbn [ndata_after]. destruct (decide (m = n)) as [->|Hm].
      * destruct (step_node _ _ _ n Hs eq_refl) as [d Hd]. rewrite Hd. right. exists (ls, d.2). split; [done|]. rewrite Hn. apply (t_node _ H) in Hd. subst d. cbn [snd]. rewrite Hnm, Km by tidy_old H. done.
      * left. by rewrite (Ho m), Hnm.
    + intros e. by left.
  - destruct (sh_nmap st !! n) as [r|] eqn:Hr.
    + apply (agree_write_node st w n r _ _ (fun d => <[k := x]> d) Hin Hs Hr (Hf r Hr)); done.
    + destruct (keeps_fresh_node_map st n {[k := x]} Hb) as (K & Hns & Hem & Ho & Hn).
      apply (agree_keeps st w _ _ _ Hin Hs); [done| |intros e; left; by rewrite Hem].
      intros m. cbn [ndata_after]. destruct (decide (m = n)) as [->|Hm]; [|left; by rewrite Ho, Hns].
      destruct (step_node _ _ _ n Hs eq_refl) as [d Hd]. rewrite Hd. right. eexists. split; [done|]. rewrite Hn, Hns, (k_sets _ _ K) by tidy_old H.
      apply (t_node _ H) in Hd. subst d. cbn. rewrite Hr. done.
  - destruct (sh_nmap st !! n) as [r|] eqn:Hr.
    + apply (agree_write_node st w n r _ _ (delete k) Hin Hs Hr (Hf r Hr)); done.
    + apply (agree_keeps st w _ _ _ Hin Hs); [by apply keeps_refl| |intros; by left]. intros m. left. split; [|done]. cbn [ndata_after].
      destruct (decide (m = n)) as [->|Hm]; [|done]. destruct (ndata (sh_g st) n) as [d|] eqn:Hd; [|done]. apply (t_node _ H) in Hd. rewrite Hr in Hd. subst d. cbn. by rewrite delete_empty.
  - destruct (sh_emap st !! e) as [r|] eqn:Hr.
    + apply (agree_write_edge st w e r _ _ (fun d => <[k := x]> d) Hin Hs Hr (Hf r Hr)); done.
    + destruct (keeps_fresh_edge_map st e {[k := x]} Hb) as (K & Hns & Hem & Ho & Hn).
      apply (agree_keeps st w _ _ _ Hin Hs); [done|intros m; left; by rewrite Hns, Hem|].
      intros m. cbn [edata_after]. destruct (decide (m = e)) as [->|Hm]; [|left; by rewrite Ho].
      destruct (step_edge _ _ _ e Hs eq_refl) as [d Hd]. rewrite Hd. right. eexists. split; [done|]. rewrite Hn.
      apply (t_edge _ H) in Hd. subst d. cbn. rewrite Hr. done.
  - destruct (sh_emap st !! e) as [r|] eqn:Hr.
    + apply (agree_write_edge st w e r _ _ (delete k) Hin Hs Hr (Hf r Hr)); done.
    + apply (agree_keeps st w _ _ _ Hin Hs); [by apply keeps_refl|intros; by left|]. intros m. left. split; [|done]. cbn [edata_after].
      destruct (decide (m = e)) as [->|Hm]; [|done]. destruct (edata (sh_g st) e) as [d|] eqn:Hd; [|done]. apply (t_edge _ H) in Hd. rewrite Hr in Hd. subst d. cbn. by rewrite delete_empty.
Qed.
Lemma in_step_set_ext st w v : in_step st w -> in_step st (let_set w v (v_set w v)).
Proof. intros [H (A & B & C)]. split; [done|]. split_and!; [done| |done]. intros u. by rewrite let_set_same. Qed.
Lemma in_step_map_ext st w v : in_step st w -> in_step st (let_map w v (v_map w v)).
Proof. intros [H (A & B & C)]. split; [done|]. split_and!; [done|done|]. intros u. by rewrite let_map_same. Qed.
Lemma agree_step st w c : in_step st w -> fine st c -> step_agrees (sh_step st c) (v_step w c).
Proof.
  intros Hin Hf. pose proof (s_tidy _ _ Hin) as H. pose proof (tidy_bounded _ H) as Hb. destruct (s_shows _ _ Hin) as (A & B & C).
  destruct c as [v ls|v u|v ls|v u|v ls|v n|v x|v x|n v ordo ordn|p ps|p q|p k x|p k|v p ord|from to label p|n fp ord|o]; cbn [sh_step v_step step_agrees].
  - by apply agree_rebind_set.
  - rewrite <- B. apply agree_bind_set; [done|tidy_old H].
  - rewrite (union_comm_L ls), B. by apply agree_rebind_set.
  - rewrite !B. by apply agree_rebind_set.
  - rewrite !B. by apply agree_rebind_set.
  - rewrite <- A, (tidy_labels _ _ H). apply agree_bind_set; [done|tidy_old H].
  - destruct Hf as (r & Hr & Hv). rewrite Hr, <- B, Hr, (union_comm_L {[x]}). by apply in_step_refresh, agree_write_set.
  - destruct (sh_vset st !! v) as [r|] eqn:Hr.
    + rewrite <- B, Hr. apply in_step_refresh, agree_write_set; try done. by apply Hf.
    + replace (v_set w v ∖ {[x]}) with (v_set w v); [by apply in_step_set_ext|]. rewrite <- B, Hr. cbn. clear. set_solver.
  - rewrite B. apply agree_call; [done|]. intros g' Hs. apply (agree_keeps st w _ _ _ Hin Hs).
    + split; try done. apply bounded_node_set; [done|tidy_old H].
    + intros m. cbn [ndata_after]. destruct (decide (m = n)) as [->|Hm]; [|left; cbn; by rewrite point_other].
      destruct (step_node _ _ _ n Hs eq_refl) as [d Hd]. rewrite Hd. right. eexists. split; [done|]. apply (t_node _ H) in Hd. subst d. cbn. rewrite point_same, <- B. done.
    + intros; by left.
  - replace ps with (map_at (new_map st ps) (Some (sh_next st))) at 2 by apply map_at_here. apply agree_bind_map; [by apply agree_new_map|]. intros i [= <-]. cbn. lia.
  - rewrite <- C. apply agree_bind_map; [done|tidy_old H].
  - destruct Hf as (r & Hr & Hv). rewrite Hr, <- C, Hr. by apply in_step_refresh, agree_write_map.
  - destruct (sh_vmap st !! p) as [r|] eqn:Hr.
    + rewrite <- C, Hr. apply in_step_refresh, agree_write_map; try done. by apply Hf.
    + replace (delete k (v_map w p)) with (v_map w p); [by apply in_step_map_ext|]. rewrite <- C, Hr. cbn. by rewrite delete_empty.
  - rewrite B, C. apply agree_call; [done|]. intros g' Hs. apply (agree_keeps st w _ _ _ Hin Hs).
    + split; try done. apply bounded_node_map; [apply bounded_node_set; [done|]|]; tidy_old H.
    + intros m. cbn [ndata_after]. destruct (decide (m = g_next (sh_g st))) as [->|Hm]; [|left; cbn; by rewrite !point_other].
      right. eexists. split; [done|]. cbn. rewrite !point_same, <- B, <- C. done.
    + intros; by left.
  - rewrite C. apply agree_call; [done|]. intros g' Hs. apply (agree_keeps st w _ _ _ Hin Hs).
    + split; try done. apply bounded_edge_map; [done|]; tidy_old H.
    + intros; by left.
    + intros m. cbn [edata_after]. destruct (decide (m = g_next (sh_g st))) as [->|Hm]; [|left; cbn; by rewrite !point_other].
      right. eexists. split; [done|]. cbn. rewrite !point_same, <- C. done.
  - rewrite <- A. destruct (deref_node (sh_g st) n) as [nd| |] eqn:Hnd; cbn [rbind]; try done. apply deref_node_ok in Hnd.
    apply agree_call; [done|]. intros g' Hs. set (id := g_next (sh_g st)). set (ps := clone_props fp (n_props nd)). set (st1 := node_set st id (sh_nset st !! n)).
    assert (K1 : keeps st st1) by (split; try done; apply bounded_node_set; [done|tidy_old H]).
    destruct (keeps_fresh_node_map st1 id ps (k_bounded _ _ K1)) as (K2 & Hns & Hem' & Ho' & Hn').
    apply (agree_keeps st w _ _ _ Hin Hs).
    + by eapply keeps_trans.
    + intros m. cbn [ndata_after]. fold id. destruct (decide (m = id)) as [->|Hm].
      * right. eexists. split; [done|]. rewrite Hn'. f_equal. rewrite Hns, (k_sets _ _ K2).
        -- cbn. rewrite point_same. pose proof (t_node _ H n (nd_data nd)) as Hd. unfold ndata in Hd. rewrite Hnd in Hd. specialize (Hd eq_refl).
           unfold nd_data in Hd. by injection Hd as -> _.
        -- intros i Hi. by apply (b_nset _ (k_bounded _ _ K1)) in Hi.
      * left. rewrite Ho', Hns by done. cbn. by rewrite point_other.
    + intros e. left. by rewrite Hem'.
  - apply agree_call; [done|]. intros g' Hs. by apply agree_op.
Qed.
Lemma in_step_start : in_step sh_start v_start.
Proof. split; [split|]; done. Qed.
Lemma agree_run p : forall st w, in_step st w -> quiet st p -> step_agrees (sh_run_from st p) (rfold v_step p w).
Proof.
  induction p as [|c p IH]; intros st w Hin Hq; [done|]. destruct Hq as [Hf Hq]. unfold sh_run_from. cbn [rfold].
  pose proof (agree_step st w c Hin Hf) as Hs. destruct (sh_step st c) as [st'| |], (v_step w c) as [w'| |]; try done. cbn in Hs. cbn. apply IH; auto.
Qed.
Lemma quiet_as_values p : quiet sh_start p -> same_outcome (sh_run p) (v_run p).
Proof.
  intros Hq. pose proof (agree_run p _ _ in_step_start Hq) as H. unfold sh_run, v_run. destruct (sh_run_from sh_start p), (rfold v_step p v_start); try done. apply H.
Qed.

(** ** The graph is that of a history *)
Lemma made_step w c w' : v_step w c = Ok w' -> rfold step (made_by w c) (v_g w) = Ok (v_g w').
Proof.
  destruct c; cbn [v_step made_by]; try (intros [= <-]; done); unfold calls; intros H; inv_ok H.
  4: apply deref_node_ok in Ha; rewrite Ha; inv_ok H; rename Ha0 into Ha1; injection H as <-; cbn [rfold]; by rewrite Ha1.
  all: injection H as <-; cbn [rfold]; by rewrite Ha.
Qed.
Lemma made_run p : forall w w', rfold v_step p w = Ok w' -> rfold step (made_from w p) (v_g w) = Ok (v_g w').
Proof.
  induction p as [|c p IH]; intros w w' H; cbn [rfold] in H; [by injection H as <-|]. inv_ok H. cbn [made_from]. rewrite Ha.
  rewrite rfold_app, (made_step _ _ _ Ha). cbn. by apply IH.
Qed.
Lemma quiet_history p st : quiet sh_start p -> sh_run p = Ok st -> run (made p) = Ok (sh_g st).
Proof.
  intros Hq Hr. pose proof (quiet_as_values p Hq) as H. rewrite Hr in H. destruct (v_run p) as [w| |] eqn:Hw; try done.
  destruct H as (-> & _). by apply made_run.
Qed.

(** ** Programs that use methods only *)
Record apart (st : shared) : Prop := Apart {
  a_tidy : tidy st;
  a_vmap : forall p, sh_vmap st !! p = None;
  a_nmap : forall n m r, sh_nmap st !! n = Some r -> sh_nmap st !! m = Some r -> n = m;
  a_emap : forall n m r, sh_emap st !! n = Some r -> sh_emap st !! m = Some r -> n = m;
  a_both : forall n e r, sh_nmap st !! n = Some r -> sh_emap st !! e <> Some r }.
Lemma apart_fine st c : apart st -> uses_methods c -> fine st c.
Proof.
  intros [T V N E B] Hc. destruct c as [v ls|v u|v ls|v u|v ls|v n|v x|v x|n v ordo ordn|p ps|p q|p k x|p k|v p ord|from to label p|n fp ord|o]; try done.
  destruct o as [ls ps ord|from to label ps|n ls ordo ordn|n k x|n k|n|n ord|e label|e k x|e k|e|k it|k it]; try done; intros r Hr; split_and!.
  all: try (intros q; by rewrite V).
  all: try (intros m Hm; by eapply N).
  all: try (intros m Hm; by eapply E).
  all: try (intros m; by eapply B).
  all: intros m Hm; by eapply B.
Qed.
Definition moved (st : shared) (m m' : gmap nat nat) : Prop := exists n r, (forall i, r = Some i -> sh_next st <= i) /\ m' = point m n r.
Lemma apart_maps st st' : apart st -> tidy st' -> sh_vmap st' = sh_vmap st ->
  sh_nmap st' = sh_nmap st /\ sh_emap st' = sh_emap st \/ moved st (sh_nmap st) (sh_nmap st') /\ sh_emap st' = sh_emap st \/
  moved st (sh_emap st) (sh_emap st') /\ sh_nmap st' = sh_nmap st -> apart st'.
Proof.
  intros [T V N E B] T' HV H. pose proof (tidy_bounded _ T) as [_ _ _ Bn Be]. assert (V' : forall p, sh_vmap st' !! p = None) by (intros; by rewrite HV).
  destruct H as [[Hn He]|[((i & r & Hr & Hn) & He)|((i & r & Hr & He) & Hn)]]; split; rewrite ?Hn, ?He; try done.
  - intros n m j. rewrite !point_lookup. do 2 destruct (decide _); subst; eauto.
    + intros Hi%Hr H%Bn. lia.
    + intros H%Bn Hi%Hr. lia.
  - intros n e j. rewrite !point_lookup. destruct (decide _); subst; eauto. intros Hi%Hr H%Be. lia.
  - intros n m j. rewrite !point_lookup. do 2 destruct (decide _); subst; eauto.
    + intros Hi%Hr H%Be. lia.
    + intros H%Be Hi%Hr. lia.
  - intros n e j. rewrite !point_lookup. destruct (decide _); subst; eauto. intros H%Bn Hi%Hr. lia.
Qed.
Lemma retarget_maps st id o : sh_vmap (retarget st id o) = sh_vmap st /\
  (sh_nmap (retarget st id o) = sh_nmap st /\ sh_emap (retarget st id o) = sh_emap st \/
   moved st (sh_nmap st) (sh_nmap (retarget st id o)) /\ sh_emap (retarget st id o) = sh_emap st \/
   moved st (sh_emap st) (sh_emap (retarget st id o)) /\ sh_nmap (retarget st id o) = sh_nmap st).
Proof.
  destruct o as [ls ps ord|from to label ps|n ls ordo ordn|n k x|n k|n|n ord|e label|e k x|e k|e|k it|k it]; cbn [retarget]; unfold fresh_node_map, fresh_edge_map.
  all: try (split; [done|]; by left).
  all: try (destruct (_ !! _) eqn:?; [split; [done|]; by left|]).
  all: try (split; [done|]; by left).
  all: destruct (decide _); (split; [done|]); right.
  all: first [left; split; [|done]|right; split; [|done]]; eexists _, _; (split; [|done]); intros i [=]; cbn; lia.
Qed.
Lemma apart_step st c st' : apart st -> uses_methods c -> sh_step st c = Ok st' -> apart st'.
Proof.
  intros Ha Hc Hs. pose proof (a_tidy _ Ha) as T.
  assert (T' : tidy st').
  { set (w := Vals (sh_g st) ((fun r => set_at st (Some r)) <$> sh_vset st) ((fun r => map_at st (Some r)) <$> sh_vmap st)).
    assert (Hin : in_step st w).
    { split; [done|]. split_and!; [done| |]; intros v; unfold v_set, v_map; cbn; rewrite lookup_fmap; by destruct (_ !! v). }
    pose proof (agree_step st w c Hin (apart_fine _ _ Ha Hc)) as H. rewrite Hs in H. destruct (v_step w c); try done. apply H. }
  destruct c as [v ls|v u|v ls|v u|v ls|v n|v x|v x|n v ordo ordn|p ps|p q|p k x|p k|v p ord|from to label p|n fp ord|o]; try done; cbn [sh_step] in Hs.
  all: try (injection Hs as <-; apply (apart_maps st _ Ha T'); [done|by left]).
  - inv_ok Hs. injection Hs as <-. apply (apart_maps st _ Ha T'); [done|by left].
  - injection Hs as <-. destruct Ha as [_ V N E B]. split; try done. intros r. cbn. rewrite point_lookup. by destruct (decide _).
  - inv_ok Hs. injection Hs as <-. apply (apart_maps st _ Ha T'); [done|]. right. left. split; [|done]. eexists _, _. split; [|done]. by rewrite (a_vmap _ Ha).
  - inv_ok Hs. injection Hs as <-. apply (apart_maps st _ Ha T'); [done|]. right. right. split; [|done]. eexists _, _. split; [|done]. by rewrite (a_vmap _ Ha).
  - inv_ok Hs. inv_ok Hs. injection Hs as <-. apply (apart_maps st _ Ha T').
    + unfold fresh_node_map. by case_decide.
    + right. left. unfold fresh_node_map. case_decide; (split; [|done]); eexists _, _; (split; [|done]); intros i [=]; cbn; lia.
  - inv_ok Hs. injection Hs as <-. destruct (retarget_maps st (g_next (sh_g st)) o). by apply (apart_maps st _ Ha T').
Qed.
Lemma methods_quiet_from p : forall st, apart st -> Forall uses_methods p -> quiet st p.
Proof.
  induction p as [|c p IH]; intros st Ha Hp; [done|]. apply Forall_cons in Hp as [Hc Hp]. split; [by apply apart_fine|].
  intros st' Hs. apply IH; [by eapply apart_step|done].
Qed.
Lemma methods_quiet p : Forall uses_methods p -> quiet sh_start p.
Proof. apply methods_quiet_from. by split. Qed.
Lemma methods_as_values p : Forall uses_methods p -> same_outcome (sh_run p) (v_run p).
Proof. intros H. by apply quiet_as_values, methods_quiet. Qed.
