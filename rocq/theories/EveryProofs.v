(** Proofs for C94 and C95. *)
From Verif Require Import Base Value Index Graph GraphSpec CoreProofs CoreStep NodeListProofs EdgeListProofs ProgressProofs Sizes VPathProofs Clone CloneSpec CloneProofs
  ListedSpec ListedProofs HeldSpec GhostProofs EverySpec Dot DotSpec DotProofs.

Section copy.
  Context (src : graph) (s : sgraph) (Hc : core src s) (f : string -> value -> value) (ord : nat -> list string).
  Context (Hord : forall n x, s_nodes s !! n = Some x -> order_of (sn_labels x) (ord n)).
  Context (tops : list op) (m0 : gmap nat nat).
  (** as [copy_edges_ok], where nodes may be missing *)
  Lemma copy_edges_some es ops' tgt m h : good s f tops m0 ops' tgt m h -> NoDup es ->
    (forall e, e ∈ es -> live_edge s e /\ h !! e = None) ->
    sat s f tops (rfold (fun t e =>
      if decide (is_Some (m !! edge_from src e)) then
        if decide (is_Some (m !! edge_to src e)) then (let! r := copy_edge src t f m e in Ok r.1) else Ok t
      else Ok t) es tgt)
      (fun t => exists ops'' h', good s f tops m0 ops'' t m h' /\
        forall e, is_Some (h' !! e) <-> is_Some (h !! e) \/ e ∈ es /\ exists x, s_edges s !! e = Some x /\ is_Some (m !! e_from x) /\ is_Some (m !! e_to x)).
  Proof.
    intros Hg. revert ops' tgt h Hg. induction es as [|e es IH]; intros ops' tgt h Hg Hnd Hes; cbn [rfold].
    { apply sat_ok. exists ops', h. split; [done|]. intros e. rewrite elem_of_nil. tauto. }
    apply NoDup_cons in Hnd as [Hn Hnd]. destruct (Hes e (elem_of_list_here _ _)) as [[x Hx] He].
    destruct (edge_ends src s Hc _ _ Hx) as [Ef Et].
    assert (Hskip : ~ (is_Some (m !! e_from x) /\ is_Some (m !! e_to x)) -> 
      sat s f tops (rfold (fun t e =>
      if decide (is_Some (m !! edge_from src e)) then
        if decide (is_Some (m !! edge_to src e)) then (let! r := copy_edge src t f m e in Ok r.1) else Ok t
      else Ok t) es tgt)
      (fun t => exists ops'' h', good s f tops m0 ops'' t m h' /\
        forall e', is_Some (h' !! e') <-> is_Some (h !! e') \/ e' ∈ e :: es /\ exists x, s_edges s !! e' = Some x /\ is_Some (m !! e_from x) /\ is_Some (m !! e_to x))).
    { intros Hno. eapply sat_mono; [apply (IH ops' tgt h Hg Hnd)|].
      - intros y Hy. apply Hes. by right.
      - intros t2 (o2 & h2 & Hg2 & Hdom). exists o2, h2. split; [done|]. intros y. rewrite Hdom, elem_of_cons. split; [tauto|].
        intros [?|[[->|?] (x' & Hx' & ?)]]; [by left| |right; split; [done|]; by exists x']. assert (x' = x) as -> by congruence. tauto. }
    rewrite Ef, Et. destruct (decide (is_Some (m !! e_from x))) as [Lf|Hno]; [|cbn [rbind]; apply Hskip; tauto].
    destruct (decide (is_Some (m !! e_to x))) as [Lt|Hno]; [|cbn [rbind]; apply Hskip; tauto]. clear Hskip.
    eapply sat_bind; [eapply sat_bind; [exact (good_edge src s Hc f tops m0 _ _ _ _ e x Hg Hx Lf Lt He)|]|].
    - intros r Hr HP. apply sat_ok. instantiate (1 := fun t => exists e' ops'', good s f tops m0 ops'' t m (<[e := e']> h)).
      destruct HP as [ops'' ?]. by exists r.2, ops''.
    - intros t1 _ (e' & ops'' & Hg'). eapply sat_mono; [apply (IH ops'' t1 _ Hg' Hnd)|].
      + intros y Hy. destruct (Hes y) as [? ?]; [by right|]. split; [done|]. rewrite lookup_insert_ne; [done|]. intros <-. done.
      + intros t2 (o2 & h2 & Hg2 & Hdom). exists o2, h2. split; [done|]. intros y. rewrite Hdom, elem_of_cons.
        destruct (decide (y = e)) as [->|Hne]; [rewrite lookup_insert|rewrite lookup_insert_ne by done; tauto].
        split; [intros _; right; split; [by left|]; by exists x|]. intros _. left. by eexists.
  Qed.
End copy.

Section every.
  Context (sops tops : list op) (src tgt : graph) (f : string -> value -> value) (ord : nat -> list string).
  Context (Hsv : valid_history sops) (Hsr : run sops = Ok src) (Htv : valid_history tops) (Htr : run tops = Ok tgt).
  Notation s := (srun (ghosts sops)).
  Context (Hord : forall n x, s_nodes s !! n = Some x -> order_of (sn_labels x) (ord n)).
  Context (Hel : edge_list_safe sops).
  Lemma copy_every_sat :
    sat s f tops (copy_graph src tgt f ord) (fun mt => exists ops' h,
      valid_history (tops ++ ops') /\ run (tops ++ ops') = Ok mt.2 /\ Forall (clone_op f s) ops' /\
      extended f s (srun tops) (srun (tops ++ ops')) ∅ mt.1 h /\
      (forall n, is_Some (mt.1 !! n) <-> n ∈ listed sops) /\ (forall e, is_Some (h !! e) <-> between sops e)).
  Proof.
    pose proof (ghosts_core _ _ Hsv Hsr) as Hc. pose proof (get_nodes_listed _ _ Hsv Hsr) as En.
    destruct (get_edges_ok sops src Hsv Hsr Hel) as ((es & Ee & End & Ein) & _).
    destruct (listed_parts _ _ Hsv Hsr) as (Hnd & _). apply NoDup_app in Hnd as (Hnd & _ & _).
    destruct (ghosts_over sops) as (Eed & _). unfold copy_graph, copy_graphf. rewrite En, Ee. cbn [rbind].
    eapply sat_bind.
    - eapply (copy_nodes_ok src s Hc f ord Hord tops ∅ (listed sops) [] tgt ∅ ∅); [by apply good_init|done|].
      intros n Hn. split; [|done]. exact (listed_created _ _ Hsv Hsr n Hn).
    - intros [m t1] _ (ops1 & Hg & Hdom). cbn [fst snd] in *. eapply sat_bind.
      + eapply (copy_edges_some src s Hc f tops ∅ es ops1 t1 m ∅ Hg End). intros e He. split; [|done]. unfold live_edge. rewrite Eed. by apply Ein.
      + intros t2 _ (ops2 & h & Hg2 & Hdomh). apply sat_ok. cbn [fst snd]. destruct Hg2 as (V & R & F & X & _).
        assert (Hm : forall n, is_Some (m !! n) <-> n ∈ listed sops).
        { intros n. rewrite Hdom, lookup_empty. split; [|by right]. by intros [[? ?]|?]. }
        exists ops2, h. split; [done|]. split; [done|]. split; [done|]. split; [done|]. split; [done|].
        intros e. rewrite Hdomh, lookup_empty. unfold between. rewrite Eed. split.
        * intros [[? ?]|(_ & x & Hx & H1 & H2)]; [done|]. exists x. split; [done|]. split; by apply Hm.
        * intros (x & Hx & H1 & H2). right. split; [apply Ein; by exists x|]. exists x. split; [done|]. split; by apply Hm.
  Qed.
  Lemma copy_every m tgt' : copy_graph src tgt f ord = Ok (m, tgt') ->
    exists ops' h, valid_history (tops ++ ops') /\ run (tops ++ ops') = Ok tgt' /\ Forall (clone_op f s) ops' /\
      extended f s (srun tops) (srun (tops ++ ops')) ∅ m h /\
      (forall n, is_Some (m !! n) <-> n ∈ listed sops) /\ (forall e, is_Some (h !! e) <-> between sops e).
  Proof. intros Hcp. exact (proj1 copy_every_sat _ Hcp). Qed.
  Lemma copy_every_returns : calls_safe tops -> can_hold tops f s -> exists r, copy_graph src tgt f ord = Ok r.
  Proof. intros Hs Hh. exact (proj2 copy_every_sat (conj Hs Hh)). Qed.
  (** when it is a copy *)
  Lemma copy_every_right m tgt' : copy_graph src tgt f ord = Ok (m, tgt') ->
    ((exists ops' h, valid_history (tops ++ ops') /\ run (tops ++ ops') = Ok tgt' /\ copied f (srun sops) (srun tops) (srun (tops ++ ops')) m h) <->
     l_dead (rows_of sops) = [] /\ hidden sops = []).
  Proof.
    intros Hcp. destruct (copy_every m tgt' Hcp) as (ops' & h & V & R & _ & X & Hm & Hh). rewrite <- (listed_exact _ _ Hsv Hsr).
    destruct (listed_parts _ _ Hsv Hsr) as (Hnd & Hso & _). apply NoDup_app in Hnd as (Hnd & _ & _). split.
    - intros (_ & _ & _ & _ & _ & Hn & _). split; [|done]. split; [done|]. intros n. by rewrite <-Hm, Hn.
    - intros [[_ Hl] _]. exists ops', h. split; [done|]. split; [done|]. destruct (ghosts_over sops) as (Eed & _ & Hov). split; [|split].
      + destruct X as [X1 X2 X3 X4 X5 X6 X7 X8 X9]. split; try done.
        * intros n n' E1 E2. destruct (X4 n n' E1 E2) as (? & x & y & Hx & ?). split; [done|]. exists x, y. split; [|done].
          assert (live_node (srun sops) n) as [x' Hx'] by (apply Hl, Hm; by eexists). apply Hov in Hx' as Hx2. congruence.
        * intros e e' E1. destruct (X5 e e' E1) as (? & x & y & Hx & ?). split; [done|]. exists x, y. by rewrite <-Eed.
      + intros n. by rewrite Hm, Hl.
      + intros e. rewrite Hh. unfold between. split.
        * intros (x & Hx & _). by exists x.
        * intros [x Hx]. exists x. split; [done|]. destruct (core_edge _ _ _ _ (core_run _ _ Hsv Hsr) Hx) as (_ & ? & ? & _). split; by apply Hl.
  Qed.
End every.

(** ** Dot *)
Section text.
  Context {T : Type} (write : string -> T -> bool * T).
  Lemma writes_app l k t : writes write (l ++ k) t = (let (ok, t') := writes write l t in if ok then writes write k t' else (false, t')).
  Proof. revert t. induction l as [|w l IH]; intros t; simpl; [done|]. destruct (write w t) as [[] t1]; [apply IH|done]. Qed.
  Lemma nodes_written ns : forall dn m t, NoDup (dn ++ ns) -> (forall n id, m !! n = Some id <-> exists i, dn !! i = Some n /\ id = node_id i) ->
    exists m', (forall n id, m' !! n = Some id <-> exists i, (dn ++ ns) !! i = Some n /\ id = node_id i) /\
      render_nodes (default_node write) ns (length dn) m t =
        (let (ok, t') := writes write (map node_line (seq (length dn) (length ns))) t in (if ok then Some m' else None, t')).
  Proof.
    induction ns as [|n ns IH]; intros dn m t Hnd Hm; cbn [render_nodes length seq map writes].
    { exists m. rewrite app_nil_r. done. }
    unfold default_node at 1. assert (Happ : dn ++ n :: ns = (dn ++ [n]) ++ ns) by (by rewrite <-app_assoc). rewrite Happ in Hnd |- *.
    assert (Hn : n ∉ dn). { apply NoDup_app in Hnd as (Hnd & _). apply NoDup_app in Hnd as (_ & Hnd & _). intros Hin. apply (Hnd n Hin). left. }
    fold (node_line (length dn)). destruct (write (node_line (length dn)) t) as [ok t1].
    destruct (IH (dn ++ [n]) (<[n := node_id (length dn)]> m) t1 Hnd) as (m' & Hm' & E).
    { intros n' id. destruct (decide (n' = n)) as [->|Hne].
      - rewrite lookup_insert. split.
        + intros [= <-]. exists (length dn). split; [|done]. by rewrite lookup_app_r, Nat.sub_diag.
        + intros (i & Hi & ->). apply lookup_app_Some in Hi as [Hi|[Hl Hi]]; [by apply elem_of_list_lookup_2 in Hi|].
          apply list_lookup_singleton_Some in Hi as [Hi _]. do 2 f_equal. lia.
      - rewrite lookup_insert_ne by done. rewrite Hm. split; intros (i & Hi & ->); exists i; (split; [|done]).
        + rewrite lookup_app_l; [done|]. by apply lookup_lt_Some in Hi.
        + apply lookup_app_Some in Hi as [Hi|[Hl Hi]]; [done|]. apply list_lookup_singleton_Some in Hi as [_ Hi]. congruence. }
    rewrite app_length in E. cbn [length] in E. rewrite Nat.add_1_r in E. destruct ok; [|by exists m']. exists m'. split; [done|]. exact E.
  Qed.
End text.
  Lemma edges_written s g ns m es : core g s -> (forall n id, m !! n = Some id <-> exists i, ns !! i = Some n /\ id = node_id i) ->
    NoDup es -> (forall e, e ∈ es -> live_edge s e) ->
    exists es' lines, NoDup es' /\ (forall e, e ∈ es' <-> e ∈ es /\ exists x, s_edges s !! e = Some x /\ e_from x ∈ ns /\ e_to x ∈ ns) /\
      edge_lines s ns es' lines /\ forall T (write : string -> T -> bool * T) t, render_edges g (default_edge g write) m es t = writes write lines t.
  Proof.
    intros Hc Hm. induction es as [|e es IH]; intros Hnd Hes; cbn [render_edges].
    { exists [], []. split; [constructor|]. split; [|split; [constructor|done]]. intros e. rewrite elem_of_nil. tauto. }
    apply NoDup_cons in Hnd as [Hen Hnd]. destruct (Hes e) as [x Hx]; [left|]. destruct (core_edge _ _ _ _ Hc Hx) as (He & _).
    destruct IH as (es' & lines & Hsub & Hin & HL & E); [done|intros; apply Hes; by right|].
    assert (Hno : ~ (e_from x ∈ ns /\ e_to x ∈ ns) ->
      exists es' lines, NoDup es' /\ (forall y, y ∈ es' <-> y ∈ e :: es /\ exists x, s_edges s !! y = Some x /\ e_from x ∈ ns /\ e_to x ∈ ns) /\
      edge_lines s ns es' lines /\ forall T (write : string -> T -> bool * T) t, render_edges g (default_edge g write) m es t = writes write lines t).
    { intros Hno. exists es', lines. split; [done|]. split; [|done]. intros y. rewrite Hin, elem_of_cons. split; [tauto|].
      intros [[->|?] (x' & Hx' & ?)]; [|split; [done|]; by exists x']. assert (x' = x) as -> by congruence. tauto. }
    unfold edge_from, edge_to. rewrite He.
    assert (Hout : forall n, m !! n = None -> n ∉ ns). { intros n Hn [i Hi]%elem_of_list_lookup. assert (m !! n = Some (node_id i)); [apply Hm; eauto|congruence]. }
    destruct (m !! e_from x) as [a|] eqn:Ea; [|apply Hno; intros [H _]; by apply Hout in Ea].
    destruct (m !! e_to x) as [b|] eqn:Eb; [|apply Hno; intros [_ H]; by apply Hout in Eb]. clear Hno Hout.
    apply Hm in Ea as (i & Hi & ->), Eb as (j & Hj & ->).
    assert (Ed : forall T (write : string -> T -> bool * T) u, default_edge g write (node_id i) (node_id j) e u = (let (ok, t) := write (edge_line i j (e_label x)) u in (if ok then Some true else None, t))).
    { intros T write u. unfold default_edge. rewrite He. cbv zeta. unfold edge_line. destruct (decide (e_label x = "")%string).
      - rewrite ?sapp_assoc. done.
      - rewrite ?sapp_assoc. done. }
    exists (e :: es'), (edge_line i j (e_label x) :: lines). split; [constructor; [by rewrite Hin; intros [? _]|done]|]. split; [|split].
    - intros y. rewrite !elem_of_cons, Hin. split; [|tauto]. intros [->|[? ?]]; [|tauto]. split; [by left|]. exists x. split; [done|].
      split; by eapply elem_of_list_lookup_2.
    - constructor; [by exists x, i, j|done].
    - intros T write t. rewrite Ed. cbn [writes]. destruct (write (edge_line i j (e_label x)) t) as [[] t1]; [apply E|done].
  Qed.
Lemma text_every ops g : valid_history ops -> run ops = Ok g -> edge_list_safe ops ->
  exists es lines, lists (between ops) es /\ edge_lines (srun ops) (listed ops) es lines /\
    forall T (write : string -> T -> bool * T) name t, render g (default_node write) (default_edge g write) write name t =
      Ok (writes write (first_line name :: second_line :: map node_line (seq 0 (length (listed ops))) ++ lines ++ [last_line]) t).
Proof.
  intros Hv Hr Hel. pose proof (get_nodes_listed _ _ Hv Hr) as En.
  destruct (get_edges_ok ops g Hv Hr Hel) as ((es & Ee & End & Ein) & _).
  destruct (listed_parts _ _ Hv Hr) as (Hnd & _). apply NoDup_app in Hnd as (Hnd & _ & _).
  assert (exists m, (forall n id, m !! n = Some id <-> exists i, listed ops !! i = Some n /\ id = node_id i) /\
    forall T (write : string -> T -> bool * T) t, render_nodes (default_node write) (listed ops) 0 ∅ t =
        (let (ok, t') := writes write (map node_line (seq 0 (length (listed ops)))) t in (if ok then Some m else None, t'))) as (m & Hm & Rn).
  { destruct (nodes_written (fun _ (t : unit) => (true, t)) (listed ops) [] ∅ tt) as (m & Hm & _); [done| |].
    { intros n id. rewrite lookup_empty. split; [done|]. intros (i & Hi & _). by rewrite lookup_nil in Hi. }
    exists m. split; [exact Hm|]. intros T write t. destruct (nodes_written write (listed ops) [] ∅ t) as (m2 & Hm2 & E); [done| |].
    { intros n id. rewrite lookup_empty. split; [done|]. intros (i & Hi & _). by rewrite lookup_nil in Hi. }
    assert (m2 = m) as ->; [|exact E]. apply map_eq. intros n. apply option_eq. intros id. by rewrite (Hm2 n id), <-(Hm n id). }
  pose proof (core_run _ _ Hv Hr) as Hc.
  destruct (edges_written _ g (listed ops) m es Hc Hm End (fun e => proj1 (Ein e))) as (es' & lines & Hnd' & Hin & HL & Ew).
  exists es', lines. split; [|split; [done|]].
  { split; [done|]. intros e. rewrite Hin. unfold between. split; [tauto|]. intros H. split; [|done]. apply Ein. destruct H as (x & ? & _). by exists x. }
  intros T write name t. unfold render. fold (first_line name) second_line last_line. cbn [writes app].
  destruct (write (first_line name) t) as [[] t1]; [|done]. destruct (write second_line t1) as [[] t2]; [|done].
  unfold render_nodes_edges. rewrite En, Ee. cbn [rbind]. rewrite Rn, writes_app.
  destruct (writes write (map node_line (seq 0 (length (listed ops)))) t2) as [[] t3]; cbn [rbind]; [|done].
  rewrite Ew, writes_app. destruct (writes write lines t3) as [[] t4]; cbn [rbind fst snd]; [|done]. cbn [writes]. by destruct (write last_line t4) as [[] t5].
Qed.
