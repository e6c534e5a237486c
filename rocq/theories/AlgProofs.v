(** Proofs about alg.go. *)
From Verif Require Import Base Graph GraphSpec CoreProofs CoreStep AdjProofs NodeListProofs EdgeListProofs Sizes
  VPathProofs Alg AlgSpec.

Lemma rfilter_ok {A} (f : A -> res bool) (b : A -> bool) l :
  (forall a, a ∈ l -> f a = Ok (b a)) -> rfilter f l = Ok (filter (fun a => b a = true) l).
Proof.
  induction l as [|a l IH]; intros H; [done|]. cbn [rfilter]. rewrite (H a) by left. cbn [rbind].
  rewrite IH by (intros; apply H; by right). cbn [rbind]. rewrite filter_cons. by destruct (b a).
Qed.

Section graph.
  Context (g : graph) (s : sgraph) (Hc : core g s).
  Lemma no_edges_ok d n : live_node s n -> exists b, no_edges g d n = Ok b /\
    (b = true <-> forall e, ~ at_node s n d e).
  Proof.
    intros Hn. destruct (node_edges_at g s Hc n d Hn) as (xs & Hxs & Hin). unfold no_edges. rewrite Hxs. simpl.
    eexists. split; [done|]. destruct xs as [|x xs].
    - split; [|done]. intros _ e He%Hin. by apply elem_of_nil in He.
    - split; [done|]. intros H. exfalso. apply (H x), Hin. left.
  Qed.
  Lemma filter_nodes_ok d ns : (forall n, n ∈ ns -> live_node s n) -> NoDup ns ->
    exists xs, rfilter (no_edges g d) ns = Ok xs /\ lists (fun n => n ∈ ns /\ forall e, ~ at_node s n d e) xs.
  Proof.
    intros Hns Hnd.
    assert (exists b : nat -> bool, forall n, n ∈ ns -> no_edges g d n = Ok (b n) /\ (b n = true <-> forall e, ~ at_node s n d e)) as [b Hb].
    { exists (fun n => match no_edges g d n with Ok b => b | _ => false end). intros n Hn.
      destruct (no_edges_ok d n (Hns n Hn)) as (b & Hb & Hiff). by rewrite Hb. }
    rewrite (rfilter_ok _ b) by (intros a Ha; by apply Hb). eexists. split; [done|]. split.
    - by apply NoDup_filter.
    - intros n. rewrite elem_of_list_filter. split.
      + intros [H1 H2]. split; [done|]. by apply (Hb n H2).
      + intros [H1 H2]. split; [|done]. by apply (Hb n H1).
  Qed.
  Lemma edges_between_ok a b : live_node s a ->
    exists xs, edges_between g a b = Ok xs /\ lists (fun e => exists x, s_edges s !! e = Some x /\ e_from x = a /\ e_to x = b) xs.
  Proof.
    intros Ha. destruct (node_edges_out g s Hc a Ha) as (xs & Hxs & Hnd & Hin). unfold edges_between. rewrite Hxs. simpl.
    eexists. split; [done|]. split; [by apply NoDup_filter|]. intros e. rewrite elem_of_list_filter, Hin. unfold is_out. split.
    - intros [Ht (x & Hx & Hf)]. exists x. destruct (edge_ends g s Hc _ _ Hx) as [_ H]. rewrite H in Ht. done.
    - intros (x & Hx & Hf & Ht). destruct (edge_ends g s Hc _ _ Hx) as [_ H]. rewrite H. eauto.
  Qed.
End graph.

Lemma sources_ok ops g : valid_history ops -> run ops = Ok g -> node_list_safe ops ->
  exists xs, sources g = Ok xs /\ lists (fun n => live_node (srun ops) n /\ forall e, ~ is_in (srun ops) n e) xs.
Proof.
  intros Hv Hr Hs. pose proof (core_run _ _ Hv Hr) as Hc. destruct (get_nodes_ok ops g Hv Hr Hs) as (ns & Hns & [Hnd Hin] & _).
  unfold sources. rewrite Hns. simpl.
  destruct (filter_nodes_ok g _ Hc Incoming ns) as (xs & Hxs & Hl); [by intros n ?%Hin|done|].
  exists xs. split; [done|]. eapply lists_ext, Hl. intros n. simpl. by rewrite Hin.
Qed.
Lemma sinks_ok ops g : valid_history ops -> run ops = Ok g -> node_list_safe ops ->
  exists xs, sinks g = Ok xs /\ lists (fun n => live_node (srun ops) n /\ forall e, ~ is_out (srun ops) n e) xs.
Proof.
  intros Hv Hr Hs. pose proof (core_run _ _ Hv Hr) as Hc. destruct (get_nodes_ok ops g Hv Hr Hs) as (ns & Hns & [Hnd Hin] & _).
  unfold sinks. rewrite Hns. simpl.
  destruct (filter_nodes_ok g _ Hc Outgoing ns) as (xs & Hxs & Hl); [by intros n ?%Hin|done|].
  exists xs. split; [done|]. eapply lists_ext, Hl. intros n. simpl. by rewrite Hin.
Qed.

Lemma each_in_turn {T} (pred : nat -> T -> bool * T) ns : forall t, in_turn pred ns t (each_node pred ns t).
Proof.
  induction ns as [|n ns IH]; intros t; cbn [each_node].
  { left. split; [|done]. intros l n r E. by destruct l. }
  assert (Hgo : forall vs, (pred n t).1 = true -> goes_on pred vs (pred n t).2 -> goes_on pred (n :: vs) t).
  { intros vs Hn Hvs l m r E. destruct l as [|a l]; [by injection E as <- <-|]. injection E as <- E. by apply (Hvs l m r). }
  destruct (pred n t).1 eqn:E.
  - destruct (IH (pred n t).2) as [[Hg ->]|(l & m & r & -> & Hg & Hm & ->)].
    + left. split; [by apply Hgo|done].
    + right. exists (n :: l), m, r. split; [done|]. split; [by apply Hgo|]. done.
  - right. exists [], n, ns. split; [done|]. split; [|done]. intros l m r E'. by destruct l.
Qed.
Lemma for_each_ok {T} ops g (pred : nat -> T -> bool * T) t : valid_history ops -> run ops = Ok g -> node_list_safe ops ->
  exists ns x, lists_nodes (srun ops) ns /\ for_each_node g pred t = Ok x /\ in_turn pred ns t x.
Proof.
  intros Hv Hr Hs. destruct (get_nodes_ok ops g Hv Hr Hs) as (ns & Hns & Hl). exists ns, (each_node pred ns t). split; [done|].
  split; [|apply each_in_turn]. unfold for_each_node. by rewrite Hns.
Qed.

(** ** The odometer *)
Definition digits_ok (cs : list (list nat)) (ds : list nat) : Prop := Forall2 (fun c i => i < length c) cs ds.
Fixpoint val (cs : list (list nat)) (ds : list nat) : nat :=
  match cs, ds with c :: cs, i :: is => i + length c * val cs is | _, _ => 0 end.
Fixpoint total (cs : list (list nat)) : nat :=
  match cs with [] => 1 | c :: cs => length c * total cs end.
Lemma val_lt cs ds : digits_ok cs ds -> val cs ds < total cs.
Proof.
  induction 1 as [|c i cs is Hi H IH]; simpl; [lia|].
  assert (length c * S (val cs is) <= length c * total cs) by (apply Nat.mul_le_mono_l; lia). lia.
Qed.
Lemma val_inj cs ds ds' : digits_ok cs ds -> digits_ok cs ds' -> val cs ds = val cs ds' -> ds = ds'.
Proof.
  intros H. revert ds'. induction H as [|c i cs is Hi H IH]; intros ds' H'; inversion H' as [|? j ? js Hj Hjs]; subst; [done|].
  simpl. intros Hv. assert (val cs is = val cs js) as E.
  { destruct (lt_eq_lt_dec (val cs is) (val cs js)) as [[Hlt|Heq]|Hgt]; [exfalso|done|exfalso].
    - assert (length c * S (val cs is) <= length c * val cs js) by (apply Nat.mul_le_mono_l; lia). lia.
    - assert (length c * S (val cs js) <= length c * val cs is) by (apply Nat.mul_le_mono_l; lia). lia. }
  f_equal; [|by apply IH]. rewrite E in Hv. lia.
Qed.
Lemma next_true cs ds ds' : digits_ok cs ds -> odo_next cs ds = (true, ds') -> digits_ok cs ds' /\ val cs ds' = S (val cs ds).
Proof.
  intros H. revert ds'. induction H as [|c i cs is Hi H IH]; intros ds'; simpl; [done|].
  case_decide as Hd.
  - intros [= <-]. split; [by constructor|]. done.
  - destruct (odo_next cs is) as [b r] eqn:E. cbn [fst snd]. intros [= -> <-]. destruct (IH r eq_refl) as [H1 H2].
    split; [constructor; [lia|done]|]. simpl. rewrite H2. assert (i = length c - 1) as -> by lia.
    rewrite Nat.mul_succ_r. lia.
Qed.
Lemma next_false cs ds r : digits_ok cs ds -> odo_next cs ds = (false, r) -> S (val cs ds) = total cs.
Proof.
  intros H. revert r. induction H as [|c i cs is Hi H IH]; intros r; simpl; [done|].
  case_decide as Hd; [done|]. destruct (odo_next cs is) as [b r'] eqn:E. cbn [fst snd]. intros [= -> _].
  rewrite <-(IH _ eq_refl). rewrite Nat.mul_succ_r. lia.
Qed.
Lemma zeros_ok cs : Forall (fun c => c <> []) cs -> digits_ok cs (map (fun _ => 0) cs) /\ val cs (map (fun _ => 0) cs) = 0.
Proof.
  induction 1 as [|c cs Hc H [IH1 IH2]]; simpl; [by split; [constructor|]|]. split.
  - constructor; [|done]. destruct c; [done|]. simpl. lia.
  - rewrite IH2. lia.
Qed.

Section iso.
  Context (g1 g2 : graph) (s1 s2 : sgraph) (Hc1 : core g1 s1) (Hc2 : core g2 s2) (neq eeq : nat -> nat -> bool).
  Context (ord : gmap nat nat -> list nat) (Hord : forall m, ord m ≡ₚ (map_to_list m).*1).
  Context (ns1 ns2 : list nat) (Hns1 : lists (live_node s1) ns1) (Hns2 : lists (live_node s2) ns2).

  Lemma candidates_ok ns : 
    match candidates neq ns ns2 with
    | Some cs => Forall2 (fun n c => c <> [] /\ forall m, m ∈ c <-> m ∈ ns2 /\ neq n m = true) ns cs
    | None => exists n, n ∈ ns /\ forall m, m ∈ ns2 -> neq n m = false
    end.
  Proof.
    clear eeq. induction ns as [|n ns IH]; cbn [candidates]; [constructor|].
    destruct (filter (fun m => neq n m = true) ns2) as [|x c] eqn:E.
    - exists n. split; [left|]. intros m Hm. apply not_true_is_false. intros Ht.
      assert (m ∈ filter (fun m => neq n m = true) ns2) as Hf by (by apply elem_of_list_filter).
      rewrite E in Hf. by apply elem_of_nil in Hf.
    - destruct (candidates neq ns ns2) as [cs|].
      + constructor; [|done]. split; [done|]. intros m. rewrite <-E, elem_of_list_filter. naive_solver.
      + destruct IH as (n' & Hn' & H). exists n'. split; [by right|done].
  Qed.

  (** what one mapping is checked for *)
  Definition good_map (m : gmap nat nat) : Prop :=
    forall n n2, m !! n = Some n2 ->
      out_degree s1 n = out_degree s2 n2 /\
      forall e x, s_edges s1 !! e = Some x -> e_from x = n ->
        exists e' y, s_edges s2 !! e' = Some y /\ e_from y = n2 /\ m !! e_to x = Some (e_to y) /\ eeq e e' = true.
  Lemma out_degree_length (s : sgraph) n xs : lists (is_out s n) xs -> length xs = out_degree s n.
  Proof.
    intros [Hnd Hin]. unfold out_degree. rewrite <-(size_list_to_set (C := gset nat)) by done.
    rewrite <-(size_dom (D := gset nat)). f_equal. apply set_eq. intros e. rewrite elem_of_list_to_set, Hin, elem_of_dom.
    unfold is_out. split.
    - intros (x & Hx & Hf). exists x. by apply map_filter_lookup_Some.
    - intros [x Hx]. apply map_filter_lookup_Some in Hx as [? ?]. eauto.
  Qed.
  Lemma edge_found_ok m es2 n2 e x : lists (is_out s2 n2) es2 -> s_edges s1 !! e = Some x ->
    edge_found g1 g2 eeq m es2 e = true <->
    exists e' y, s_edges s2 !! e' = Some y /\ e_from y = n2 /\ m !! e_to x = Some (e_to y) /\ eeq e e' = true.
  Proof.
    intros [_ Hin] Hx. unfold edge_found. rewrite existsb_exists. destruct (edge_ends g1 s1 Hc1 _ _ Hx) as [_ ->]. split.
    - intros (e' & He'%elem_of_list_In & Hb). apply Hin in He' as (y & Hy & Hf).
      destruct (edge_ends g2 s2 Hc2 _ _ Hy) as [_ Ht]. rewrite Ht in Hb.
      apply andb_true_iff in Hb as [Hb%bool_decide_eq_true He]. eauto 8.
    - intros (e' & y & Hy & Hf & Hm & He). exists e'. split; [apply elem_of_list_In, Hin; by exists y|].
      destruct (edge_ends g2 s2 Hc2 _ _ Hy) as [_ ->]. by rewrite bool_decide_eq_true_2.
  Qed.
  Lemma iso_loop_ok m ns : (forall n n2, m !! n = Some n2 -> live_node s1 n /\ live_node s2 n2) ->
    exists b, iso_loop g1 g2 eeq m ns = Ok b /\
      (b = true <-> forall n n2, n ∈ ns -> m !! n = Some n2 ->
        out_degree s1 n = out_degree s2 n2 /\
        forall e x, s_edges s1 !! e = Some x -> e_from x = n ->
          exists e' y, s_edges s2 !! e' = Some y /\ e_from y = n2 /\ m !! e_to x = Some (e_to y) /\ eeq e e' = true).
  Proof.
    intros Hm. induction ns as [|n ns (b & Hb & IH)]; cbn [iso_loop].
    { exists true. split; [done|]. split; [|done]. intros _ n n2 Hn. by apply elem_of_nil in Hn. }
    destruct (m !! n) as [n2|] eqn:E.
    2:{ exists b. split; [done|]. rewrite IH. split.
        - intros H n' n2 [->|Hn]%elem_of_cons Hn'; [congruence|]. by apply H.
        - intros H n' n2 Hn. apply H. by right. }
    destruct (Hm _ _ E) as [L1 L2].
    destruct (node_edges_out g1 s1 Hc1 n L1) as (es1 & Hes1 & Ho1), (node_edges_out g2 s2 Hc2 n2 L2) as (es2 & Hes2 & Ho2).
    rewrite Hes1, Hes2. cbn [rbind]. case_decide as Hlen.
    - destruct (forallb (edge_found g1 g2 eeq m es2) es1) eqn:Ef.
      + exists b. split; [done|]. rewrite IH. split.
        * intros H n' n2' [->|Hn]%elem_of_cons Hn'; [|by apply H]. assert (n2' = n2) as -> by congruence. split.
          -- by rewrite <-(out_degree_length _ _ _ Ho1), <-(out_degree_length _ _ _ Ho2).
          -- intros e x Hx Hf. apply (edge_found_ok m es2 n2 e x Ho2 Hx). rewrite forallb_forall in Ef. apply Ef, elem_of_list_In, Ho1. by exists x.
        * intros H n' n2' Hn. apply H. by right.
      + exists false. split; [done|]. split; [done|]. intros H. exfalso.
        destruct (H n n2 (elem_of_list_here _ _) E) as [_ He].
        assert (forallb (edge_found g1 g2 eeq m es2) es1 = true) as Et; [|congruence].
        apply forallb_forall. intros e He'%elem_of_list_In. apply Ho1 in He' as (x & Hx & Hf).
        apply (edge_found_ok m es2 n2 e x Ho2 Hx). by apply (He e x).
    - exists false. split; [done|]. split; [done|]. intros H. exfalso. apply Hlen.
      rewrite (out_degree_length _ _ _ Ho1), (out_degree_length _ _ _ Ho2). by apply (H n n2 (elem_of_list_here _ _)).
  Qed.
  Lemma check_map_ok m : (forall n n2, m !! n = Some n2 -> live_node s1 n /\ live_node s2 n2) ->
    exists b, iso_loop g1 g2 eeq m (ord m) = Ok b /\ (b = true <-> good_map m).
  Proof.
    intros Hm. destruct (iso_loop_ok m (ord m) Hm) as (b & Hb & H). exists b. split; [done|]. rewrite H. unfold good_map. split.
    - intros Hx n n2 E. apply Hx; [|done]. rewrite Hord. apply elem_of_list_fmap. exists (n, n2). split; [done|]. by apply elem_of_map_to_list.
    - intros Hx n n2 _ E. by apply Hx.
  Qed.

  (** the mapping built from digits *)
  Lemma build_ok ns cs ds m0 : Forall2 (fun (n : nat) (c : list nat) => True) ns cs -> digits_ok cs ds -> NoDup ns ->
    exists m, build ns cs ds m0 = Ok m /\
      (forall n, n ∉ ns -> m !! n = m0 !! n) /\
      (forall i n, ns !! i = Some n -> exists c d x, cs !! i = Some c /\ ds !! i = Some d /\ c !! d = Some x /\ m !! n = Some x).
  Proof.
    intros H. revert ds m0. induction H as [|n c ns cs _ H IH]; intros ds m0 Hd Hnd.
    - inversion Hd; subst. exists m0. split; [done|]. split; [done|]. intros i n Hi. done.
    - inversion Hd as [|? d ? ds' Hdc Hds]; subst. apply NoDup_cons in Hnd as [Hn Hnd]. cbn [build].
      destruct (lookup_lt_is_Some_2 c d Hdc) as [x Hx]. rewrite Hx.
      destruct (IH ds' (<[n := x]> m0) Hds Hnd) as (m & Hm & H1 & H2). exists m. split; [done|]. split.
      + intros n' Hn'. rewrite H1 by (intros ?; apply Hn'; by right). rewrite lookup_insert_ne; [done|]. intros ->. apply Hn'. left.
      + intros [|i] n' Hi.
        * simpl in Hi. injection Hi as <-. exists c, d, x. split_and!; try done. rewrite H1 by done. by rewrite lookup_insert.
        * destruct (H2 i n' Hi) as (c' & d' & x' & ? & ? & ? & ?). eauto 8.
  Qed.
  Lemma digits_for cs (f : nat -> nat) ns : Forall2 (fun n c => f n ∈ c) ns cs -> exists ds, digits_ok cs ds /\
    forall i n c d, ns !! i = Some n -> cs !! i = Some c -> ds !! i = Some d -> c !! d = Some (f n).
  Proof.
    induction 1 as [|n c ns cs Hf H (ds & Hds & IH)].
    - exists []. split; [constructor|]. done.
    - apply elem_of_list_lookup_1 in Hf as [d Hd]. exists (d :: ds). split.
      + constructor; [|done]. by eapply lookup_lt_Some.
      + intros [|i] n' c' d' H1 H2 H3; [|by eapply IH].
        simpl in *. congruence.
  Qed.

  Definition map_ok (cs : list (list nat)) (ds : list nat) : Prop := exists m, build ns1 cs ds ∅ = Ok m /\ good_map m.
  Lemma rounds_ok cs : Forall2 (fun n c => c <> [] /\ forall m, m ∈ c <-> m ∈ ns2 /\ neq n m = true) ns1 cs ->
    forall k ds, digits_ok cs ds -> total cs - val cs ds <= k ->
    exists b, iso_rounds g1 g2 eeq ord k ns1 cs ds = Ok b /\
      (b = true <-> exists ds', digits_ok cs ds' /\ val cs ds <= val cs ds' /\ map_ok cs ds').
  Proof.
    intros Hcs. assert (Hlen : Forall2 (fun (n : nat) (c : list nat) => True) ns1 cs) by (eapply Forall2_impl; [done|]; done).
    induction k as [|k IH]; intros ds Hd Hk.
    { apply val_lt in Hd. lia. }
    cbn [iso_rounds]. destruct (build_ok ns1 cs ds ∅ Hlen Hd (proj1 Hns1)) as (m & Hm & Hout & Hin). rewrite Hm. cbn [rbind].
    assert (Hlive : forall n n2, m !! n = Some n2 -> live_node s1 n /\ live_node s2 n2).
    { intros n n2 E. destruct (decide (n ∈ ns1)) as [Hn|Hn]; [|by rewrite Hout in E].
      split; [by apply Hns1|]. apply elem_of_list_lookup_1 in Hn as [i Hi]. destruct (Hin i n Hi) as (c & d & x & Hc & _ & Hx & E').
      assert (x = n2) as -> by congruence. destruct (Forall2_lookup_lr _ _ _ _ _ _ Hcs Hi Hc) as [_ Hcc].
      apply Hns2, (Hcc n2). by eapply elem_of_list_lookup_2. }
    destruct (check_map_ok m Hlive) as (b & Hb & Hbiff). rewrite Hb. cbn [rbind]. destruct b.
    - exists true. split; [done|]. split; [|done]. intros _. exists ds. split; [done|]. split; [done|]. exists m. split; [done|]. by apply Hbiff.
    - assert (Hno : ~ map_ok cs ds).
      { intros (m' & Hm' & Hg). assert (m' = m) as -> by congruence. apply Hbiff in Hg. done. }
      destruct (odo_next cs ds) as [[] ds1] eqn:En; cbn [fst snd].
      + destruct (next_true _ _ _ Hd En) as [Hd1 Hv1]. destruct (IH ds1 Hd1) as (b & Hb' & Hiff); [lia|].
        exists b. split; [done|]. rewrite Hiff. split.
        * intros (ds' & ? & ? & ?). exists ds'. split; [done|]. split; [lia|done].
        * intros (ds' & Hd' & Hle & Hok). exists ds'. split; [done|]. split; [|done].
          destruct (decide (val cs ds = val cs ds')) as [E|E]; [|lia]. apply val_inj in E; [|done|done]. by subst.
      + exists false. split; [done|]. split; [done|]. intros (ds' & Hd' & Hle & Hok). exfalso.
        pose proof (next_false _ _ _ Hd En). pose proof (val_lt _ _ Hd').
        assert (val cs ds = val cs ds') as E by lia. apply val_inj in E; [|done|done]. by subst.
  Qed.
  Lemma edge_ends_live (g : graph) (s : sgraph) e x : core g s -> s_edges s !! e = Some x -> live_node s (e_from x) /\ live_node s (e_to x).
  Proof. intros Hc Hx. destruct (core_edge _ _ _ _ Hc Hx) as (_ & ? & ? & _). done. Qed.
  Lemma map_weak cs ds : Forall2 (fun n c => c <> [] /\ forall m, m ∈ c <-> m ∈ ns2 /\ neq n m = true) ns1 cs ->
    digits_ok cs ds -> map_ok cs ds -> exists f, weak_match s1 s2 neq eeq f.
  Proof.
    intros Hcs Hd (m & Hm & Hg). assert (Hlen : Forall2 (fun (n : nat) (c : list nat) => True) ns1 cs) by (eapply Forall2_impl; [done|]; done).
    destruct (build_ok ns1 cs ds ∅ Hlen Hd (proj1 Hns1)) as (m' & Hm' & Hout & Hin). assert (m' = m) as -> by congruence.
    exists (fun n => default 0 (m !! n)).
    assert (Hval : forall n, live_node s1 n -> exists x, m !! n = Some x /\ live_node s2 x /\ neq n x = true).
    { intros n Hn%Hns1. apply elem_of_list_lookup_1 in Hn as [i Hi]. destruct (Hin i n Hi) as (c & d & x & Hc & _ & Hx & E').
      destruct (Forall2_lookup_lr _ _ _ _ _ _ Hcs Hi Hc) as [_ Hcc].
      destruct (proj1 (Hcc x)) as [Hx2 Hneq]; [by eapply elem_of_list_lookup_2|]. exists x. split; [done|]. split; [by apply Hns2|done]. }
    split.
    - intros n Hn. destruct (Hval n Hn) as (x & Hx & Hl & Hq). rewrite Hx. simpl. split; [done|]. split; [done|]. by apply (Hg n x).
    - intros e x Hx. destruct (edge_ends_live g1 s1 e x Hc1 Hx) as [Lf Lt].
      destruct (Hval _ Lf) as (a & Ha & _). destruct (Hg _ _ Ha) as [_ He].
      destruct (He e x Hx eq_refl) as (e' & y & Hy & Hfy & Hty & Heq). exists e', y. rewrite Ha, Hty. done.
  Qed.
  Lemma weak_map cs f : Forall2 (fun n c => c <> [] /\ forall m, m ∈ c <-> m ∈ ns2 /\ neq n m = true) ns1 cs ->
    weak_match s1 s2 neq eeq f -> exists ds, digits_ok cs ds /\ map_ok cs ds.
  Proof.
    intros Hcs [Hf He]. assert (Hlen : Forall2 (fun (n : nat) (c : list nat) => True) ns1 cs) by (eapply Forall2_impl; [done|]; done).
    destruct (digits_for cs f ns1) as (ds & Hd & Hds).
    { apply Forall2_same_length_lookup_2; [by eapply Forall2_length|]. intros i n c Hi Hc.
      destruct (Forall2_lookup_lr _ _ _ _ _ _ Hcs Hi Hc) as [_ Hcc]. apply Hcc.
      assert (live_node s1 n) as Hn by (apply Hns1; by eapply elem_of_list_lookup_2).
      destruct (Hf n Hn) as (? & ? & _). split; [by apply Hns2|done]. }
    exists ds. split; [done|]. destruct (build_ok ns1 cs ds ∅ Hlen Hd (proj1 Hns1)) as (m & Hm & Hout & Hin).
    exists m. split; [done|].
    assert (Hval : forall n, live_node s1 n -> m !! n = Some (f n)).
    { intros n Hn%Hns1. apply elem_of_list_lookup_1 in Hn as [i Hi]. destruct (Hin i n Hi) as (c & d & x & Hc & Hdd & Hx & E').
      rewrite E', <-Hx. by eapply Hds. }
    intros n n2 E. assert (live_node s1 n) as Hn.
    { apply Hns1. destruct (decide (n ∈ ns1)); [done|]. by rewrite Hout in E. }
    rewrite (Hval n Hn) in E. injection E as <-. split; [by apply Hf|].
    intros e x Hx <-. destruct (edge_ends_live g1 s1 e x Hc1 Hx) as [Lf Lt].
    destruct (He e x Hx) as (e' & y & Hy & Hq & Hfy & Hty). exists e', y. rewrite (Hval _ Lt), Hty. done.
  Qed.
  Lemma total_bound cs : Forall2 (fun n c => c <> [] /\ forall m, m ∈ c <-> m ∈ ns2 /\ neq n m = true) ns1 cs ->
    candidates neq ns1 ns2 = Some cs -> total cs <= length ns2 ^ length ns1.
  Proof.
    intros _. generalize ns1 as ns. intros ns. revert cs. induction ns as [|n ns IH]; intros cs H; cbn [candidates] in H.
    - injection H as <-. simpl. lia.
    - destruct (filter (fun m => neq n m = true) ns2) as [|x c] eqn:E; [done|].
      destruct (candidates neq ns ns2) as [cs'|]; [|done]. injection H as <-. cbn [total length Nat.pow].
      apply Nat.mul_le_mono; [|by apply IH]. change (S (length c)) with (length (x :: c)). rewrite <-E. apply filter_length.
  Qed.
End iso.

(** ** Bijections between finite sets *)
Lemma NoDup_map {A B} (f : A -> B) l : NoDup l -> (forall x y, x ∈ l -> y ∈ l -> f x = f y -> x = y) -> NoDup (map f l).
Proof.
  induction 1 as [|x l Hx Hl IH]; intros Hinj; simpl; constructor.
  - intros (y & Hy & Hin)%elem_of_list_fmap. apply Hx. rewrite (Hinj x y); [done|left|by right|done].
  - apply IH. intros ? ? ? ?. apply Hinj; by right.
Qed.
Lemma bijection_length P Q h xs ys : bijection P Q h -> lists P xs -> lists Q ys -> length xs = length ys.
Proof.
  intros (H1 & H2 & H3) [Nx Ix] [Ny Iy]. rewrite <-(map_length h). apply Permutation_length, NoDup_Permutation; [|done|].
  - apply NoDup_map; [done|]. intros x y Hx%Ix Hy%Ix. by apply H2.
  - intros z. rewrite Iy. split.
    + intros (x & -> & Hx)%elem_of_list_fmap. by apply H1, Ix.
    + intros (x & Hx & <-)%H3. apply elem_of_list_fmap. exists x. split; [done|]. by apply Ix.
Qed.
Lemma injection_bijection (P Q : nat -> Prop) h xs ys : lists P xs -> lists Q ys -> length xs = length ys ->
  (forall x, P x -> Q (h x)) -> (forall x y, P x -> P y -> h x = h y -> x = y) -> bijection P Q h.
Proof.
  intros [Nx Ix] [Ny Iy] Hlen H1 H2. split; [done|]. split; [done|]. intros z Hz%Iy.
  assert (map h xs ≡ₚ ys) as Hp.
  { apply submseteq_Permutation_length_le; [by rewrite map_length, Hlen|]. apply NoDup_submseteq.
    - apply NoDup_map; [done|]. intros x y Hx%Ix Hy%Ix. by apply H2.
    - intros y (x & -> & Hx%Ix)%elem_of_list_fmap. by apply Iy, H1. }
  rewrite <-Hp in Hz. apply elem_of_list_fmap in Hz as (x & -> & Hx%Ix). eauto.
Qed.
Lemma lists_dom {A} (M : gmap nat A) : lists (fun n => is_Some (M !! n)) ((map_to_list M).*1) /\ length ((map_to_list M).*1) = size M.
Proof.
  split; [split|].
  - apply NoDup_fst_map_to_list.
  - intros n. split.
    + intros ([m a] & -> & H%elem_of_map_to_list)%elem_of_list_fmap. by exists a.
    + intros [a H]. apply elem_of_list_fmap. exists (n, a). split; [done|]. by apply elem_of_map_to_list.
  - by rewrite fmap_length.
Qed.
Lemma out_lists s n : exists xs, lists (is_out s n) xs.
Proof.
  exists ((map_to_list (filter (fun p => e_from p.2 = n) (s_edges s))).*1).
  eapply lists_ext, lists_dom. intros e. unfold is_out. split.
  - intros [x [H1 H2]%map_filter_lookup_Some]. eauto.
  - intros (x & H1 & H2). exists x. by apply map_filter_lookup_Some.
Qed.
Lemma iso_sizes s1 s2 neq eeq f h : isomorphism s1 s2 neq eeq f h ->
  size (s_nodes s1) = size (s_nodes s2) /\ size (s_edges s1) = size (s_edges s2).
Proof.
  intros (Hf & Hh & _). split.
  - rewrite <-(proj2 (lists_dom (s_nodes s1))), <-(proj2 (lists_dom (s_nodes s2))).
    eapply bijection_length; [exact Hf|apply lists_dom|apply lists_dom].
  - rewrite <-(proj2 (lists_dom (s_edges s1))), <-(proj2 (lists_dom (s_edges s2))).
    eapply bijection_length; [exact Hh|apply lists_dom|apply lists_dom].
Qed.
Lemma iso_weak g1 s1 s2 neq eeq f h : core g1 s1 -> isomorphism s1 s2 neq eeq f h -> weak_match s1 s2 neq eeq f.
Proof.
  intros Hc ((F1 & F2 & F3) & (G1 & G2 & G3) & Hn & He). split.
  - intros n Ln. split; [by apply F1|]. split; [by apply Hn|].
    destruct (out_lists s1 n) as [xs Hxs], (out_lists s2 (f n)) as [ys Hys].
    rewrite <-(out_degree_length _ _ _ Hxs), <-(out_degree_length _ _ _ Hys).
    apply (bijection_length (is_out s1 n) (is_out s2 (f n)) h); try done. split_and!.
    + intros e (x & Hx & <-). destruct (He e x Hx) as (_ & y & Hy & Hfy & _). by exists y.
    + intros e e' (x & Hx & _) (x' & Hx' & _). apply G2; by eexists.
    + intros e' (y & Hy & Hfy). destruct (G3 e') as (e & [x Hx] & <-); [by eexists|].
      destruct (He e x Hx) as (_ & y' & Hy' & Hfy' & _). assert (y' = y) as -> by congruence.
      exists e. split; [|done]. exists x. split; [done|]. apply F2; [by apply (edge_ends_live g1 s1 e x Hc)|done|congruence].
  - intros e x Hx. destruct (He e x Hx) as (Hq & y & Hy & Hfy & Hty). eauto 8.
Qed.
(** nodes and parallel edges can be told apart *)
Lemma weak_iso g1 s1 s2 neq eeq f : core g1 s1 -> weak_match s1 s2 neq eeq f ->
  size (s_nodes s1) = size (s_nodes s2) -> size (s_edges s1) = size (s_edges s2) ->
  (forall n n' m, live_node s1 n -> live_node s1 n' -> neq n m = true -> neq n' m = true -> n = n') ->
  (forall e e' x x' m, s_edges s1 !! e = Some x -> s_edges s1 !! e' = Some x' ->
     e_from x = e_from x' -> e_to x = e_to x' -> eeq e m = true -> eeq e' m = true -> e = e') ->
  exists h, isomorphism s1 s2 neq eeq f h.
Proof.
  intros Hc [Hn He] Sn Se In Ie.
  assert (Hinj : forall n n', live_node s1 n -> live_node s1 n' -> f n = f n' -> n = n').
  { intros n n' L L' E. destruct (Hn n L) as (_ & Q & _), (Hn n' L') as (_ & Q' & _).
    apply (In n n' (f n)); try done. by rewrite E. }
  set (fits := fun e (p : nat * edge) => eeq e p.1 = true /\ exists x, s_edges s1 !! e = Some x /\ e_from p.2 = f (e_from x) /\ e_to p.2 = f (e_to x)).
  assert (forall e p, Decision (fits e p)) as Hdec.
  { intros e p. unfold fits. apply and_dec; [apply _|]. destruct (s_edges s1 !! e) as [x|] eqn:E.
    - destruct (decide (e_from p.2 = f (e_from x) /\ e_to p.2 = f (e_to x))) as [H|H].
      + left. eauto.
      + right. intros (x' & E' & H'). apply H. by injection E' as ->.
    - right. intros (x & E' & _). done. }
  set (h := fun e => match list_find (fits e) (map_to_list (s_edges s2)) with Some p => p.2.1 | None => 0 end).
  assert (Hh : forall e x, s_edges s1 !! e = Some x -> eeq e (h e) = true /\
       exists y, s_edges s2 !! h e = Some y /\ e_from y = f (e_from x) /\ e_to y = f (e_to x)).
  { intros e x Hx. unfold h. destruct (list_find (fits e) (map_to_list (s_edges s2))) as [[i [e' y]]|] eqn:E.
    - apply list_find_Some in E as (Hi & (Hq & x' & Hx' & Hf & Ht) & _). simpl in *.
      assert (x' = x) as -> by congruence. split; [done|]. exists y.
      split; [|done]. apply elem_of_map_to_list. by eapply elem_of_list_lookup_2.
    - exfalso. apply list_find_None in E. rewrite Forall_forall in E. destruct (He e x Hx) as (e' & y & Hy & Hq & Hf & Ht).
      apply (E (e', y)); [by apply elem_of_map_to_list|]. split; [done|]. by exists x. }
  exists h. split_and!; [| |by intros n ?; apply Hn|exact Hh].
  - eapply injection_bijection; [apply lists_dom|apply lists_dom| |by intros n ?; apply Hn|done].
    rewrite !(proj2 (lists_dom _)). done.
  - eapply injection_bijection; [apply lists_dom|apply lists_dom| | |].
    + rewrite !(proj2 (lists_dom _)). done.
    + intros e [x Hx]. destruct (Hh e x Hx) as (_ & y & Hy & _). by exists y.
    + intros e e' [x Hx] [x' Hx'] E. destruct (Hh e x Hx) as (Q & y & Hy & Fy & Ty), (Hh e' x' Hx') as (Q' & y' & Hy' & Fy' & Ty').
      rewrite E in *. assert (y' = y) as -> by congruence.
      destruct (edge_ends_live g1 s1 e x Hc Hx), (edge_ends_live g1 s1 e' x' Hc Hx').
      apply (Ie e e' x x' (h e')); try done; apply Hinj; try done; congruence.
Qed.

Section check.
  Context (ops1 ops2 : list op) (g1 g2 : graph) (neq eeq : nat -> nat -> bool) (ord : gmap nat nat -> list nat).
  Lemma check_ok k :
    valid_history ops1 -> run ops1 = Ok g1 -> node_list_safe ops1 -> edge_list_safe ops1 ->
    valid_history ops2 -> run ops2 = Ok g2 -> node_list_safe ops2 -> edge_list_safe ops2 ->
    (forall m, ord m ≡ₚ (map_to_list m).*1) ->
    size (s_nodes (srun ops2)) ^ size (s_nodes (srun ops1)) <= k ->
    exists b, check_isomorphism g1 g2 neq eeq ord k = Ok b /\
      (b = true <-> size (s_nodes (srun ops1)) = size (s_nodes (srun ops2)) /\
        size (s_edges (srun ops1)) = size (s_edges (srun ops2)) /\
        exists f, weak_match (srun ops1) (srun ops2) neq eeq f).
  Proof.
    intros Hv1 Hr1 Hn1 He1 Hv2 Hr2 Hn2 He2 Hord Hk.
    pose proof (core_run _ _ Hv1 Hr1) as Hc1. pose proof (core_run _ _ Hv2 Hr2) as Hc2.
    destruct (get_nodes_ok _ _ Hv1 Hr1 Hn1) as (ns1 & G1 & L1 & _), (get_nodes_ok _ _ Hv2 Hr2 Hn2) as (ns2 & G2 & L2 & _).
    destruct (get_edges_ok _ _ Hv1 Hr1 He1) as [_ E1], (get_edges_ok _ _ Hv2 Hr2 He2) as [_ E2].
    pose proof (num_nodes_ok _ _ Hv1 Hr1) as N1. pose proof (num_nodes_ok _ _ Hv2 Hr2) as N2.
    unfold check_isomorphism. rewrite N1, N2, E1, E2. case_decide as Hd.
    2:{ exists false. split; [done|]. split; [done|]. intros (A & B & _). exfalso. apply Hd. lia. }
    destruct Hd as [Hdn Hde]. apply Nat2Z.inj in Hdn, Hde.
    assert (S1 : length ns1 = size (s_nodes (srun ops1))).
    { rewrite <-(proj2 (lists_dom (s_nodes (srun ops1)))). eapply Permutation_length, lists_perm; [exact L1|apply lists_dom]. }
    assert (S2 : length ns2 = size (s_nodes (srun ops2))).
    { rewrite <-(proj2 (lists_dom (s_nodes (srun ops2)))). eapply Permutation_length, lists_perm; [exact L2|apply lists_dom]. }
    rewrite G1, G2. cbn [rbind].
    assert (Hmain : exists b, match candidates neq ns1 ns2 with
      | None => Ok false
      | Some cs => iso_rounds g1 g2 eeq ord k ns1 cs (map (fun _ => 0) cs)
      end = Ok b /\ (b = true <-> exists f, weak_match (srun ops1) (srun ops2) neq eeq f)).
    { pose proof (candidates_ok neq ns2 ns1) as Hcand. destruct (candidates neq ns1 ns2) as [cs|] eqn:Ec.
      - assert (Forall (fun c => c <> []) cs) as Hne.
        { apply Forall_forall. intros c Hin. apply elem_of_list_lookup_1 in Hin as [i Hi].
          destruct (Forall2_lookup_r _ _ _ _ _ Hcand Hi) as (n & _ & ? & _). done. }
        destruct (zeros_ok cs Hne) as [Hz Hz0].
        destruct (rounds_ok g1 g2 _ _ Hc1 Hc2 neq eeq ord Hord ns1 ns2 L1 L2 cs Hcand k _ Hz) as (b & Hb & Hiff).
        { pose proof (total_bound neq ns1 ns2 cs Hcand Ec) as Ht. rewrite S1, S2 in Ht. lia. }
        exists b. split; [done|]. rewrite Hiff. split.
        + intros (ds & Hds & _ & Hok). by eapply (map_weak g1 _ _ Hc1 neq eeq ns1 ns2 L1 L2 cs ds).
        + intros [f Hf]. destruct (weak_map g1 _ _ Hc1 neq eeq ns1 ns2 L1 L2 cs f Hcand Hf) as (ds & Hds & Hok).
          exists ds. split; [done|]. split; [lia|done].
      - exists false. split; [done|]. split; [done|]. intros [f [Hf _]]. exfalso.
        destruct Hcand as (n & Hn & Hno). apply L1 in Hn. destruct (Hf n Hn) as (Lf & Q & _). apply L2 in Lf. rewrite (Hno _ Lf) in Q. done. }
    destruct Hmain as (b & Hb & Hiff). exists b. split; [|naive_solver].
    destruct ns1 as [|n ns1]; [exact Hb|]. exact Hb.
  Qed.
  Lemma check_complete k f h :
    valid_history ops1 -> run ops1 = Ok g1 -> node_list_safe ops1 -> edge_list_safe ops1 ->
    valid_history ops2 -> run ops2 = Ok g2 -> node_list_safe ops2 -> edge_list_safe ops2 ->
    (forall m, ord m ≡ₚ (map_to_list m).*1) ->
    size (s_nodes (srun ops2)) ^ size (s_nodes (srun ops1)) <= k ->
    isomorphism (srun ops1) (srun ops2) neq eeq f h ->
    check_isomorphism g1 g2 neq eeq ord k = Ok true.
  Proof.
    intros Hv1 Hr1 Hn1 He1 Hv2 Hr2 Hn2 He2 Hord Hk Hiso.
    destruct (check_ok k Hv1 Hr1 Hn1 He1 Hv2 Hr2 Hn2 He2 Hord Hk) as (b & -> & Hb). f_equal. apply Hb.
    destruct (iso_sizes _ _ _ _ _ _ Hiso) as [? ?]. split; [done|]. split; [done|]. exists f. eapply iso_weak; [by eapply core_run|done].
  Qed.
  Lemma check_sound k :
    valid_history ops1 -> run ops1 = Ok g1 -> node_list_safe ops1 -> edge_list_safe ops1 ->
    valid_history ops2 -> run ops2 = Ok g2 -> node_list_safe ops2 -> edge_list_safe ops2 ->
    (forall m, ord m ≡ₚ (map_to_list m).*1) ->
    size (s_nodes (srun ops2)) ^ size (s_nodes (srun ops1)) <= k ->
    (forall n n' m, live_node (srun ops1) n -> live_node (srun ops1) n' -> neq n m = true -> neq n' m = true -> n = n') ->
    (forall e e' x x' m, s_edges (srun ops1) !! e = Some x -> s_edges (srun ops1) !! e' = Some x' ->
       e_from x = e_from x' -> e_to x = e_to x' -> eeq e m = true -> eeq e' m = true -> e = e') ->
    check_isomorphism g1 g2 neq eeq ord k = Ok true ->
    exists f h, isomorphism (srun ops1) (srun ops2) neq eeq f h.
  Proof.
    intros Hv1 Hr1 Hn1 He1 Hv2 Hr2 Hn2 He2 Hord Hk In Ie Hchk.
    destruct (check_ok k Hv1 Hr1 Hn1 He1 Hv2 Hr2 Hn2 He2 Hord Hk) as (b & Hb' & Hb).
    assert (b = true) as -> by congruence. destruct (proj1 Hb eq_refl) as (Sn & Se & f & Hf). exists f.
    eapply weak_iso; try done. by eapply core_run.
  Qed.
End check.

(** a test for isomorphisms of concrete graphs *)
Definition iso_test (s1 s2 : sgraph) (neq eeq : nat -> nat -> bool) (f h : nat -> nat) : Prop :=
  (size (s_nodes s1) = size (s_nodes s2) /\ size (s_edges s1) = size (s_edges s2)) /\
  (NoDup (map f ((map_to_list (s_nodes s1)).*1)) /\ NoDup (map h ((map_to_list (s_edges s1)).*1))) /\
  map_Forall (fun n _ => is_Some (s_nodes s2 !! f n) /\ neq n (f n) = true) (s_nodes s1) /\
  map_Forall (fun e x => eeq e (h e) = true /\
    match s_edges s2 !! h e with Some y => e_from y = f (e_from x) /\ e_to y = f (e_to x) | None => False end) (s_edges s1).
Global Instance match_edge_dec (o : option edge) (a b : nat) :
  Decision (match o with Some y => e_from y = a /\ e_to y = b | None => False end).
Proof. destruct o; apply _. Defined.
Global Instance iso_test_dec s1 s2 neq eeq f h : Decision (iso_test s1 s2 neq eeq f h).
Proof. unfold iso_test. apply _. Defined.
Lemma NoDup_map_inj {A B} (f : A -> B) l x y : NoDup (map f l) -> x ∈ l -> y ∈ l -> f x = f y -> x = y.
Proof.
  induction l as [|a l IH]; intros Hnd Hx Hy E; [by apply elem_of_nil in Hx|]. cbn [map] in Hnd. apply NoDup_cons in Hnd as [Ha Hnd].
  apply elem_of_cons in Hx as [->|Hx], Hy as [->|Hy]; [done| | |by apply IH].
  - exfalso. apply Ha. rewrite E. by apply elem_of_list_fmap_1.
  - exfalso. apply Ha. rewrite <-E. by apply elem_of_list_fmap_1.
Qed.
Lemma iso_tested s1 s2 neq eeq f h : iso_test s1 s2 neq eeq f h -> isomorphism s1 s2 neq eeq f h.
Proof.
  intros ((Sn & Se) & (Nn & Ne) & Hn & He). split_and!.
  - eapply injection_bijection; [apply lists_dom|apply lists_dom| | |].
    + rewrite !(proj2 (lists_dom _)). done.
    + intros n [x Hx]. by apply (Hn n x Hx).
    + intros n m Ln Lm. eapply NoDup_map_inj; [exact Nn| |]; by apply lists_dom.
  - eapply injection_bijection; [apply lists_dom|apply lists_dom| | |].
    + rewrite !(proj2 (lists_dom _)). done.
    + intros e [x Hx]. destruct (He e x Hx) as [_ H]. destruct (s_edges s2 !! h e) eqn:E; [|done]. by eexists.
    + intros n m Ln Lm. eapply NoDup_map_inj; [exact Ne| |]; by apply lists_dom.
  - intros n [x Hx]. by apply (Hn n x Hx).
  - intros e x Hx. destruct (He e x Hx) as [Hq H]. split; [done|]. destruct (s_edges s2 !! h e) eqn:E; [|done]. eauto.
Qed.

(** ** CheckIsomorphism with a context *)
Section ctx.
  Context (g1 g2 : graph) (neq eeq : nat -> nat -> bool) (ord : gmap nat nat -> list nat) (err : nat -> bool).
  Lemma candidates_ctx_ok ns1 ns2 i :
    match candidates_ctx neq err i ns1 ns2 with
    | Cands cs => candidates neq ns1 ns2 = Some cs /\ forall j, i <= j < i + length ns1 -> err j = false
    | NoCand => candidates neq ns1 ns2 = None
    | Cancelled => exists j, err j = true
    end.
  Proof.
    revert i. induction ns1 as [|n r IH]; intros i; cbn [candidates_ctx candidates].
    { split; [done|]. simpl. lia. }
    destruct (filter _ ns2) as [|c0 c]; [done|]. destruct (err i) eqn:He; [by exists i|]. specialize (IH (S i)).
    destruct (candidates_ctx neq err (S i) r ns2) as [cs| |]; [|by rewrite IH|done].
    destruct IH as [-> IH]. split; [done|]. intros j Hj. simpl in Hj. destruct (decide (j = i)) as [->|]; [done|]. apply IH. lia.
  Qed.
  Lemma rounds_ctx_sound k i ns1 cs ds b e : iso_rounds_ctx g1 g2 eeq ord err k i ns1 cs ds = Ok (b, e) ->
    (e = false -> iso_rounds g1 g2 eeq ord k ns1 cs ds = Ok b) /\ (e = true -> b = false /\ exists j, err j = true).
  Proof.
    revert i ds. induction k as [|k IH]; intros i ds; cbn [iso_rounds_ctx iso_rounds]; [done|].
    destruct (build ns1 cs ds ∅) as [m| |]; [|done|done]. cbn [rbind].
    destruct (iso_loop g1 g2 eeq m (ord m)) as [[]| |]; [|cbn [rbind]|done|done].
    { cbn [rbind]. intros [= <- <-]. done. }
    destruct (odo_next cs ds) as [[] ds']; cbn [fst snd].
    - destruct (err i) eqn:He; [|apply IH]. intros [= <- <-]. split; [done|]. intros _. split; [done|]. by exists i.
    - intros [= <- <-]. done.
  Qed.
  Lemma check_ctx_sound k b e : check_isomorphism_ctx g1 g2 neq eeq ord err k = Ok (b, e) ->
    (e = false -> check_isomorphism g1 g2 neq eeq ord k = Ok b) /\ (e = true -> b = false /\ exists j, err j = true).
  Proof.
    unfold check_isomorphism_ctx, check_isomorphism. case_decide; [|by intros [= <- <-]].
    destruct (get_nodes g1) as [ns1| |]; [|done|done]. cbn [rbind]. destruct ns1 as [|n ns1]; [apply rounds_ctx_sound|].
    destruct (get_nodes g2) as [ns2| |]; [|done|done]. cbn [rbind].
    pose proof (candidates_ctx_ok (n :: ns1) ns2 0) as Hc. destruct (candidates_ctx neq err 0 (n :: ns1) ns2) as [cs| |].
    - destruct Hc as [-> _]. apply rounds_ctx_sound.
    - rewrite Hc. by intros [= <- <-].
    - by intros [= <- <-].
  Qed.
  (** no error: nothing changes *)
  Lemma rounds_ctx_same k i ns1 cs ds : (forall j, err j = false) ->
    iso_rounds_ctx g1 g2 eeq ord err k i ns1 cs ds = let! b := iso_rounds g1 g2 eeq ord k ns1 cs ds in Ok (b, false).
  Proof.
    intros He. revert i ds. induction k as [|k IH]; intros i ds; cbn [iso_rounds_ctx iso_rounds]; [done|].
    destruct (build ns1 cs ds ∅) as [m| |]; [|done|done]. cbn [rbind].
    destruct (iso_loop g1 g2 eeq m (ord m)) as [[]| |]; [done| |done|done]. cbn [rbind].
    rewrite He, IH. by destruct (odo_next cs ds) as [[] ds'].
  Qed.
  Lemma check_ctx_same k : (forall j, err j = false) ->
    check_isomorphism_ctx g1 g2 neq eeq ord err k = let! b := check_isomorphism g1 g2 neq eeq ord k in Ok (b, false).
  Proof.
    intros He. unfold check_isomorphism_ctx, check_isomorphism. case_decide; [|done].
    destruct (get_nodes g1) as [ns1| |]; [|done|done]. cbn [rbind]. destruct ns1 as [|n ns1]; [by apply rounds_ctx_same|].
    destruct (get_nodes g2) as [ns2| |]; [|done|done]. cbn [rbind].
    pose proof (candidates_ctx_ok (n :: ns1) ns2 0) as Hc. destruct (candidates_ctx neq err 0 (n :: ns1) ns2) as [cs| |].
    - destruct Hc as [-> _]. by apply rounds_ctx_same.
    - by rewrite Hc.
    - destruct Hc as [j Hj]. by rewrite He in Hj.
  Qed.
  (** once cancelled, no further mapping is tried *)
  Lemma rounds_ctx_stops j ns1 cs : err j = true -> forall k i ds K b, iso_rounds g1 g2 eeq ord K ns1 cs ds = Ok b -> i <= j < i + k ->
    exists r, iso_rounds_ctx g1 g2 eeq ord err k i ns1 cs ds = Ok r.
  Proof.
    intros He. induction k as [|k IH]; intros i ds K b HK Hj; [lia|]. destruct K as [|K]; [done|].
    cbn [iso_rounds_ctx]. cbn [iso_rounds] in HK.
    destruct (build ns1 cs ds ∅) as [m| |]; [|done|done]. cbn [rbind] in *.
    destruct (iso_loop g1 g2 eeq m (ord m)) as [[]| |]; [|cbn [rbind] in *|done|done]; [cbn [rbind]; eauto|].
    destruct (odo_next cs ds) as [[] ds']; cbn [fst snd] in *; [|eauto].
    destruct (err i) eqn:Hi; [eauto|]. eapply IH; [exact HK|]. assert (i <> j) by congruence. lia.
  Qed.
  Lemma check_ctx_stops j K b : check_isomorphism g1 g2 neq eeq ord K = Ok b -> err j = true ->
    exists r, check_isomorphism_ctx g1 g2 neq eeq ord err (S j) = Ok r.
  Proof.
    intros HK He. unfold check_isomorphism_ctx. unfold check_isomorphism in HK. case_decide; [|eauto].
    destruct (get_nodes g1) as [ns1| |]; [|done|done]. cbn [rbind] in *. destruct ns1 as [|n ns1].
    { eapply rounds_ctx_stops; [exact He|exact HK|lia]. }
    destruct (get_nodes g2) as [ns2| |]; [|done|done]. cbn [rbind] in *.
    pose proof (candidates_ctx_ok (n :: ns1) ns2 0) as Hc. destruct (candidates_ctx neq err 0 (n :: ns1) ns2) as [cs| |]; [|eauto|eauto].
    destruct Hc as [Ec Hlt]. rewrite Ec in HK. eapply rounds_ctx_stops; [exact He|exact HK|].
    destruct (decide (j < length (n :: ns1))) as [Hl|]; [|lia]. rewrite Hlt in He; [done|lia].
  Qed.
End ctx.
Lemma check_ctx_ends ops1 ops2 g1 g2 neq eeq ord err j :
  valid_history ops1 -> run ops1 = Ok g1 -> node_list_safe ops1 -> edge_list_safe ops1 ->
  valid_history ops2 -> run ops2 = Ok g2 -> node_list_safe ops2 -> edge_list_safe ops2 ->
  (forall m, ord m ≡ₚ (map_to_list m).*1) -> err j = true ->
  exists r, check_isomorphism_ctx g1 g2 neq eeq ord err (S j) = Ok r.
Proof.
  intros Hv1 Hr1 Hn1 He1 Hv2 Hr2 Hn2 He2 Hord Herr.
  destruct (check_ok ops1 ops2 g1 g2 neq eeq ord _ Hv1 Hr1 Hn1 He1 Hv2 Hr2 Hn2 He2 Hord (le_n _)) as (b & Hb & _).
  by eapply check_ctx_stops.
Qed.
