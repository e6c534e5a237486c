(** The list of all nodes (graph.go allNodes, list.go nodeList). *)
From Verif Require Import Base Assoc Value FastSet Links EdgeMap NodeMap Index Graph GraphSpec.
From Verif Require Import LinksProofs EdgeMapProofs CoreProofs CoreStep AdjProofs ReadProofs.

Lemma detach_shape g n g' : detach_node g n = Ok g' -> same_but_edges g g'.
Proof.
  unfold detach_node. intros H. inv_ok H. injection H as <-.
  apply drop_edges_shape in Ha1 as [Hs1 _]. apply drop_edges_shape in Ha5 as [Hs2 _].
  unfold deref_node in *. simpl in *.
  destruct (g_nodes a1 !! n) as [nd1|] eqn:E1; [|done]. injection Ha2 as <-.
  destruct (g_nodes a5 !! n) as [nd5|] eqn:E5; [|done]. injection Ha6 as <-.
  destruct Hs1 as (A1&A2&A3&A4&A5&A6&A7), Hs2 as (B1&B2&B3&B4&B5&B6&B7). simpl in *.
  split; [|split; [|split; [|split; [|split; [|split]]]]]; simpl; try congruence.
  intros m. rewrite <- A7. etrans; [|etrans; [apply B7|]].
  - unfold data. simpl. destruct (decide (m = n)) as [->|]; [by rewrite lookup_insert, E5|by rewrite lookup_insert_ne].
  - unfold data. simpl. destruct (decide (m = n)) as [->|]; [by rewrite lookup_insert, E1|by rewrite lookup_insert_ne].
Qed.

Lemma step_list g o g' : step g o = Ok g' ->
  (g_list g', g_nl g') =
    match o with
    | ONewNode _ _ _ => nl_add (g_list g) (g_nl g) (g_next g)
    | ODetachRemove n _ => nl_remove (g_list g) (g_nl g) n
    | _ => (g_list g, g_nl g)
    end.
Proof.
  intros H. destruct o; simpl in *.
  - inv_ok H. destruct a as [g1 n]. injection H as <-.
    apply new_node_shape in Ha as (->&_&_&_&_&_&?&_). done.
  - inv_ok H. destruct a as [g1 n]. injection H as <-.
    apply new_edge_shape in Ha as (->&_&_&E1&E2&_). simpl. by rewrite E1, E2.
  - unfold set_labels in H. inv_ok H. by injection H as <-.
  - unfold set_node_prop in H. inv_ok H. by injection H as <-.
  - unfold rem_node_prop in H. inv_ok H. destruct (_ !! _); [inv_ok H|]; by injection H as <-.
  - apply detach_shape in H as (_&->&->&_). done.
  - apply detach_remove_shape in H as (g1 & nd & Hd & _ & _ & _ & _ & _ & _ & _ & _ & _ & -> & _).
    apply detach_shape in Hd as (_&->&->&_). done.
  - apply set_edge_label_shape in H as (?&_&_&_&->&_&->&_). done.
  - unfold set_edge_prop in H. inv_ok H. by injection H as <-.
  - unfold rem_edge_prop in H. inv_ok H. destruct (_ !! _); [inv_ok H|]; by injection H as <-.
  - apply remove_edge_shape in H as ((_&->&->&_)&_). done.
  - unfold add_node_index in H. destruct (_ !! _); [by injection H as <-|]. inv_ok H. by injection H as <-.
  - unfold add_edge_index in H. destruct (_ !! _); [by injection H as <-|]. inv_ok H. by injection H as <-.
Qed.

(** ** The count *)
Lemma nl_add_n l L n : ll_n (nl_add l L n).1 = (ll_n l + 1)%Z.
Proof. done. Qed.
Lemma nl_remove_n l L n : ll_n (nl_remove l L n).1 = (ll_n l - 1)%Z.
Proof. unfold nl_remove. destruct (el_prev _); by destruct (el_next _). Qed.

Lemma size_alter {A} (f : A -> A) (n : nat) (m : gmap nat A) : size (alter f n m) = size m.
Proof. by rewrite <- !(size_dom (D := gset nat)), dom_alter_L. Qed.

Lemma num_nodes_ok ops g :
  valid_history ops -> run ops = Ok g -> num_nodes g = Z.of_nat (size (s_nodes (srun ops))).
Proof.
  revert ops g. apply history_ind; [done|].
  intros ops g o g' Hv Hr IH Ho Hs. pose proof (core_run _ _ Hv Hr) as Hc. rewrite srun_snoc.
  apply step_list in Hs. unfold num_nodes in *.
  assert (g_list g' = (g_list g', g_nl g').1) as -> by done. rewrite Hs. clear Hs.
  destruct o; simpl in Ho |- *; rewrite ?nl_remove_n, ?IH; try done.
  - rewrite map_size_insert_None; [lia|].
    destruct (s_nodes (srun ops) !! s_next (srun ops)) eqn:Hx; [|done].
    assert (s_next (srun ops) < s_next (srun ops)); [|lia]. eapply core_live_lt; [done|]. by eexists.
  - by rewrite size_alter.
  - by rewrite size_alter.
  - by rewrite size_alter.
  - destruct Ho as (sn & Hsn & _). 
    rewrite <- (insert_delete (s_nodes (srun ops)) n sn) at 1 by done.
    rewrite map_size_insert_None by apply lookup_delete. lia.
Qed.

(** ** The list *)
Definition nl_inv (l : llist) (L : links) (xs : list nat) (x : nguard) (next : nat) : Prop :=
  NoDup xs /\ ll_head l = head xs /\
  (forall a y b, xs = a ++ y :: b ->
     el_next (lk L y) = head b /\
     (a <> [] -> el_prev (lk L y) = last a) /\
     (a = [] -> ng_refill x <> Some y -> el_prev (lk L y) = None) /\
     (a = [] -> ng_refill x = Some y -> is_Some (el_prev (lk L y)))) /\
  (forall r, ng_refill x = Some r -> head xs = Some r) /\
  (if ng_stale x then exists t, ll_tail l = Some t /\ t ∉ xs /\ t < next else ll_tail l = last xs) /\
  (forall y, y ∈ xs -> y < next) /\
  (forall y, next <= y -> lk L y = Elem None None).

Lemma nl_inv_walk l L xs x next fuel :
  nl_inv l L xs x next -> length xs <= fuel -> walk fuel L (ll_head l) = Ok xs.
Proof.
  intros (_ & Hh & Hs & _) Hf. rewrite Hh. clear Hh l.
  assert (forall b a f, xs = a ++ b -> length b <= f -> walk f L (head b) = Ok b) as Hgen.
  { induction b as [|y b IH]; intros a f Hx Hl; [by destruct f|]. simpl in Hl.
    destruct f as [|f]; [lia|]. simpl. destruct (Hs _ _ _ Hx) as (-> & _).
    rewrite (IH (a ++ [y]) f); [done| |lia]. by rewrite <- app_assoc. }
  eapply (Hgen xs []); done.
Qed.

Lemma nl_inv_next l L xs x next : nl_inv l L xs x next -> nl_inv l L xs x (S next).
Proof.
  intros (?&?&?&?&Ht&?&?). split; [done|]. split; [done|]. split; [done|]. split; [done|]. split; [|split].
  - destruct (ng_stale x); [|done]. destruct Ht as (t&?&?&?). exists t. repeat split; try done. lia.
  - intros y Hy. apply H3 in Hy. lia.
  - intros y Hy. apply H4. lia.
Qed.

Lemma nl_add_clean l L xs x n l' L' :
  nl_add l L n = (l', L') -> nl_inv l L xs x n -> ng_stale x = false ->
  nl_inv l' L' (xs ++ [n]) x (S n).
Proof.
  intros Heq (Hnd & Hh & Hs & Hrf & Ht & Hlt & Hfr) Hst. rewrite Hst in Ht.
  unfold nl_add in Heq. injection Heq as <- <-.
  assert (n ∉ xs) as Hni by (intros H%Hlt; lia).
  assert (forall y, lk (match ll_tail l with Some t => set_next (set_prev L n (ll_tail l)) t (Some n)
                         | None => set_prev L n (ll_tail l) end) y =
          if decide (y = n) then Elem None (ll_tail l)
          else if decide (ll_tail l = Some y) then Elem (Some n) (el_prev (lk L y)) else lk L y) as Hlk.
  { intros y. destruct (ll_tail l) as [t|] eqn:Et.
    - assert (t <> n) by (intros ->; apply Hni, last_elem; congruence).
      rewrite lk_set_next, !lk_set_prev. rewrite (Hfr n) by lia. simpl.
      repeat case_decide; simplify_eq; done.
    - rewrite lk_set_prev. rewrite (Hfr n) by lia. simpl. repeat case_decide; simplify_eq; done. }
  split; [|split; [|split; [|split; [|split; [|split]]]]].
  - apply NoDup_app. split; [done|]. split; [|apply NoDup_singleton]. intros y Hy Hy'. set_solver.
  - simpl. rewrite Hh. by destruct xs.
  - intros a y b Hsp. cbn [ll_head ll_tail ll_n]. rewrite Hlk.
    apply split_snoc in Hsp as [(-> & -> & ->)|(b' & -> & ->)].
    + rewrite decide_True by done. simpl. split; [done|]. split; [by rewrite Ht|]. split.
      * intros ->. done.
      * intros -> Hr. apply Hrf in Hr. done.
    + rewrite decide_False by set_solver.
      destruct (Hs _ _ _ eq_refl) as (H1 & H2 & H3 & H4).
      destruct (decide (ll_tail l = Some y)) as [Hty|Hty]; simpl.
      * split; [|done]. assert (b' = []) as ->; [|done].
        destruct b' as [|z b' _] using rev_ind; [done|]. rewrite Ht in Hty.
        rewrite app_comm_cons, app_assoc, last_snoc in Hty. injection Hty as ->.
        apply NoDup_app in Hnd as (_ & _ & Hnd). apply NoDup_cons in Hnd as [Hnd _]. set_solver.
      * split; [|done]. rewrite H1. destruct b' as [|z b']; [|done].
        rewrite Ht, last_snoc in Hty. done.
  - intros r Hr. apply Hrf in Hr. by destruct xs.
  - rewrite Hst. simpl. by rewrite last_snoc.
  - intros y Hy. apply elem_of_app in Hy as [Hy|Hy]; [apply Hlt in Hy; lia|]. apply elem_of_list_singleton in Hy. lia.
  - intros y Hy. rewrite Hlk. rewrite decide_False by lia. rewrite decide_False; [apply Hfr; lia|].
    rewrite Ht. intros H%last_elem%Hlt. lia.
Qed.

Lemma nl_add_refill l L x n l' L' :
  nl_add l L n = (l', L') -> nl_inv l L [] x n -> ng_stale x = true ->
  nl_inv l' L' [n] (NG false (Some n)) (S n).
Proof.
  intros Heq (Hnd & Hh & Hs & Hrf & Ht & Hlt & Hfr) Hst. rewrite Hst in Ht.
  destruct Ht as (t & Ht & Htx & Htlt). unfold nl_add in Heq. rewrite Ht in Heq. injection Heq as <- <-.
  assert (forall y, lk (set_next (set_prev L n (Some t)) t (Some n)) y =
          if decide (y = n) then Elem None (Some t)
          else if decide (y = t) then Elem (Some n) (el_prev (lk L y)) else lk L y) as Hlk.
  { intros y. rewrite lk_set_next, !lk_set_prev. rewrite (Hfr n) by lia. simpl.
    repeat case_decide; simplify_eq; try done; lia. }
  split; [|split; [|split; [|split; [|split; [|split]]]]].
  - apply NoDup_singleton.
  - simpl. by rewrite Hh.
  - intros a y b Hsp. cbn [ll_head ll_tail ll_n]. rewrite Hlk.
    destruct a as [|z a]; [|simpl in Hsp; injection Hsp as -> Hsp; by destruct a].
    injection Hsp as <- <-. rewrite decide_True by done. simpl. split; [done|]. split; [done|]. split; [done|]. eauto.
  - simpl. naive_solver.
  - done.
  - set_solver by lia.
  - intros y Hy. rewrite Hlk. rewrite decide_False by lia. rewrite decide_False by lia. apply Hfr. lia.
Qed.

Lemma nl_add_stale l L xs x n l' L' :
  nl_add l L n = (l', L') -> nl_inv l L xs x n -> ng_stale x = true -> xs <> [] ->
  forall fuel, length xs <= fuel -> walk fuel L' (ll_head l') = Ok xs.
Proof.
  intros Heq (Hnd & Hh & Hs & Hrf & Ht & Hlt & Hfr) Hst Hne fuel Hfuel. rewrite Hst in Ht.
  destruct Ht as (t & Ht & Htx & Htlt). unfold nl_add in Heq. rewrite Ht in Heq. injection Heq as <- <-.
  simpl. rewrite Hh. destruct xs as [|x0 xs0] eqn:Ex; [done|]. change (Some x0) with (head (x0 :: xs0)).
  simpl (match head _ with _ => _ end). rewrite <- Ex in *.
  assert (forall b a f, xs = a ++ b -> length b <= f ->
    walk f (set_next (set_prev L n (Some t)) t (Some n)) (head b) = Ok b) as Hgen.
  { induction b as [|y b IH]; intros a f Hx Hl; [by destruct f|]. simpl in Hl.
    destruct f as [|f]; [lia|]. simpl. destruct (Hs _ _ _ Hx) as (Hn & _).
    assert (y ∈ xs) as Hy by (rewrite Hx; set_solver).
    rewrite lk_set_next, decide_False by (intros ->; done).
    rewrite lk_set_prev, decide_False by (apply Hlt in Hy; lia). rewrite Hn.
    rewrite (IH (a ++ [y]) f); [done| |lia]. by rewrite <- app_assoc. }
  specialize (Hgen xs [] fuel eq_refl Hfuel). rewrite Ex in *. done.
Qed.

Lemma nl_remove_inv l L a n b x l' L' next :
  nl_remove l L n = (l', L') -> nl_inv l L (a ++ n :: b) x next -> ng_refill x <> Some n ->
  nl_inv l' L' (a ++ b) (NG (ng_stale x || bool_decide (b = [])) (ng_refill x)) next.
Proof.
  intros Heq (Hnd & Hh & Hs & Hrf & Ht & Hlt & Hfr) Hrn.
  pose proof Hnd as Hnd'. rewrite <- Permutation_middle in Hnd'. apply NoDup_cons in Hnd' as [Hni Hnd'].
  destruct (Hs _ _ _ eq_refl) as (Hnx & Hp1 & Hp2 & _).
  assert (el_prev (lk L n) = last a) as Hpv.
  { destruct a; [by apply Hp2|]. by apply Hp1. }
  clear Hp1 Hp2.
  assert (n < next) as Hnn by (apply Hlt; set_solver).
  assert (last a <> Some n) as Hla by (intros H%last_elem; set_solver).
  assert (head b <> Some n) as Hhb by (intros H; destruct b; simplify_eq/=; set_solver).
  assert (a = [] -> ng_refill x = None) as Hanil.
  { intros ->. destruct (ng_refill x) as [r|] eqn:Er; [|done]. specialize (Hrf _ eq_refl). simpl in Hrf. congruence. }
  assert (l' = LL (match last a with Some _ => ll_head l | None => head b end)
                  (match head b with Some _ => ll_tail l | None => Some n end) (ll_n l - 1) /\
          forall y, lk L' y =
            Elem (if decide (last a = Some y) then head b else el_next (lk L y))
                 (if decide (head b = Some y) then last a else el_prev (lk L y))) as [Hl' Hlk].
  { unfold nl_remove in Heq. rewrite Hpv, Hnx in Heq. destruct (last a) as [p|] eqn:Ep.
    - assert (lk (set_next L p (head b)) n = lk L n) as He by (rewrite lk_set_next, decide_False by congruence; done).
      rewrite He, Hnx, Hpv in Heq. destruct (head b) as [q|] eqn:Eq; injection Heq as <- <-.
      + split; [done|]. intros y. rewrite lk_set_prev, !lk_set_next.
        repeat case_decide; simplify_eq; simpl; try done; by destruct (lk L y).
      + split; [done|]. intros y. rewrite !lk_set_next.
        repeat case_decide; simplify_eq; simpl; try done; by destruct (lk L y).
    - rewrite Hnx, Hpv in Heq. destruct (head b) as [q|] eqn:Eq; injection Heq as <- <-.
      + split; [done|]. intros y. rewrite lk_set_prev.
        repeat case_decide; simplify_eq; simpl; try done; by destruct (lk L y).
      + split; [done|]. intros y. repeat case_decide; simplify_eq; simpl; try done; by destruct (lk L y). }
  split; [done|]. split; [|split; [|split; [|split; [|split]]]].
  - rewrite Hl'. simpl. rewrite Hh. rewrite !head_app. destruct a as [|y a']; [done|].
    rewrite last_cons. by destruct (last a').
  - intros u y v Hsp. rewrite Hlk. cbn [el_next el_prev ng_refill].
    assert (y <> n) as Hyn by (intros ->; apply Hni; rewrite Hsp; set_solver).
    apply app_eq_inv in Hsp as [(k & Ha & Hk)|(k & -> & Hk)]. 2: {
      (* y in b: u = a ++ k, b = k ++ y :: v *)
      subst b. destruct (Hs (a ++ n :: k) y v) as (G1 & G2 & G3 & G4); [by rewrite <- app_assoc|].
      assert (last a <> Some y) as Hlay.
      { intros Hy%last_elem. apply NoDup_app in Hnd' as (_&Hd'&_). apply (Hd' _ Hy). set_solver. }
      rewrite decide_False by done. split; [done|].
      assert (a ++ n :: k <> []) as Hnn' by (by destruct a).
      specialize (G2 Hnn'). rewrite last_app', last_cons in G2.
      destruct k as [|z k']; cbn [head app].
      - rewrite decide_True by done. rewrite app_nil_r. split; [done|]. split.
        + intros ->. done.
        + intros -> Hr. rewrite Hanil in Hr; done.
      - rewrite decide_False.
        2: { intros [= ->]. apply NoDup_app in Hnd' as (_ & _ & Hnd'). simpl in Hnd'. apply NoDup_cons in Hnd' as [Hc _]. set_solver. }
        rewrite G2. rewrite last_app'. destruct (last (z :: k')) as [w|] eqn:El; [|by apply last_None in El].
        split; [done|]. split; intros Hemp; by destruct a. }
    destruct k as [|z k]; simpl in Hk.
    + (* y is the first of b *)
      rewrite app_nil_r in Ha. subst u. destruct b as [|y' b']; [done|]. injection Hk as <- <-.
      destruct (Hs (a ++ [n]) y v) as (G1 & G2 & G3 & G4); [by rewrite <- app_assoc|].
      assert (last a <> Some y) as Hlay.
      { intros Hy%last_elem. apply NoDup_app in Hnd' as (_&Hd'&_). apply (Hd' _ Hy). set_solver. }
      rewrite decide_False by done. split; [done|]. simpl. rewrite decide_True by done.
      split; [done|]. split; [by intros ->|]. intros -> Hr. rewrite Hanil in Hr; done.
    + (* y in a: a = u ++ y :: k *)
      injection Hk as <- Hk. subst a v.
      destruct (Hs u y (k ++ n :: b)) as (G1 & G2 & G3 & G4); [by rewrite <- app_assoc|].
      assert (head b <> Some y) as Hby.
      { intros Hy. apply NoDup_app in Hnd' as (_&Hd'&_). apply (Hd' y); [set_solver|]. destruct b; simplify_eq/=; set_solver. }
      rewrite (decide_False (P := head b = Some y)) by done. split; [|done].
      rewrite last_app'. destruct k as [|w k].
      * simpl. rewrite decide_True by done. done.
      * rewrite last_cons. destruct (last (w :: k)) as [v|] eqn:El; [|by apply last_None in El].
        rewrite decide_False; [done|]. intros [= ->]. apply last_elem in El.
        apply NoDup_app in Hnd' as (Hnd' & _ & _). apply NoDup_app in Hnd' as (_ & _ & Hnd').
        apply NoDup_cons in Hnd' as [Hc _]. set_solver.
  - simpl. intros r Hr. pose proof (Hrf _ Hr) as Hhd. destruct a as [|y a']; [|done].
    rewrite Hanil in Hr; done.
  - cbn [ng_stale ng_refill ll_tail head]. rewrite Hl'. cbn [ng_stale ng_refill ll_tail head]. destruct b as [|q b']; cbn [ng_stale ng_refill ll_tail head].
    + rewrite bool_decide_true by done. rewrite orb_true_r. exists n. split; [done|]. split; [set_solver|done].
    + rewrite bool_decide_false by done. rewrite orb_false_r. destruct (ng_stale x).
      * destruct Ht as (t & Ht1 & Ht2 & Ht3). exists t. split; [done|]. split; [set_solver|done].
      * rewrite Ht. rewrite !last_app', last_cons.
        destruct (last (q :: b')) as [w|] eqn:El; [done|by apply last_None in El].
  - intros y Hy. apply Hlt. set_solver.
  - intros y Hy. rewrite Hlk. rewrite (Hfr y Hy). simpl.
    rewrite decide_False, decide_False; [done| |].
    + intros H. assert (y < next); [|lia]. apply Hlt. destruct b; simplify_eq/=. set_solver.
    + intros H%last_elem. assert (y < next); [|lia]. apply Hlt. set_solver.
Qed.

Lemma nl_remove_refill l L a n b x l' L' next :
  nl_remove l L n = (l', L') -> nl_inv l L (a ++ n :: b) x next -> ng_refill x = Some n ->
  ll_head l' = Some n.
Proof.
  intros Heq (Hnd & Hh & Hs & Hrf & Ht & Hlt & Hfr) Hrn.
  assert (a = []) as ->.
  { specialize (Hrf _ Hrn). destruct a as [|y a]; [done|]. injection Hrf as ->.
    apply NoDup_app in Hnd as (_ & Hd & _). exfalso. apply (Hd n); set_solver. }
  destruct (Hs _ _ _ eq_refl) as (Hnx & _ & _ & Hp). destruct (Hp eq_refl Hrn) as [p Hpv].
  unfold nl_remove in Heq. rewrite Hpv in Heq. destruct (el_next _); injection Heq as <- <-; by rewrite Hh.
Qed.

(** ** Guards over histories *)
Fixpoint ng_run (x : nguard) (s : sgraph) (ops : list op) : nguard :=
  match ops with [] => x | o :: r => ng_run (ng_step x s o) (sstep s o) r end.
Lemma node_list_safe_snoc x s ops o :
  node_list_safe_from x s (ops ++ [o]) <->
  node_list_safe_from x s ops /\ ng_ok (ng_run x s ops) (fold_left sstep ops s) o.
Proof.
  revert x s; induction ops as [|o' ops IH]; intros x s; simpl; [tauto|]. rewrite IH. tauto.
Qed.
Lemma ng_run_snoc x s ops o :
  ng_run x s (ops ++ [o]) = ng_step (ng_run x s ops) (fold_left sstep ops s) o.
Proof. revert x s; induction ops as [|o' ops IH]; intros x s; simpl; [done|]. apply IH. Qed.

Lemma sorted_snoc xs n : StronglySorted lt xs -> (forall y, y ∈ xs -> y < n) -> StronglySorted lt (xs ++ [n]).
Proof.
  induction xs as [|x xs IH]; intros Hs Hlt; simpl; [repeat constructor|].
  apply StronglySorted_inv in Hs as [Hs Hf]. constructor.
  - apply IH; [done|]. intros y Hy. apply Hlt. set_solver.
  - apply Forall_app. split; [done|]. constructor; [|done]. apply Hlt. set_solver.
Qed.
Lemma sorted_del a n b : StronglySorted lt (a ++ n :: b) -> StronglySorted lt (a ++ b).
Proof.
  induction a as [|x a IH]; simpl; intros H; apply StronglySorted_inv in H as [H Hf]; [done|].
  constructor; [auto|]. apply Forall_app in Hf as [Hf1 Hf2]. inversion Hf2; subst. by apply Forall_app.
Qed.
Lemma sorted_after a n b y : StronglySorted lt (a ++ n :: b) -> y ∈ b -> n < y.
Proof.
  induction a as [|x a IH]; simpl; intros H Hy; apply StronglySorted_inv in H as [H Hf].
  - rewrite Forall_forall in Hf. auto.
  - auto.
Qed.
Lemma sorted_before a n b y : StronglySorted lt (a ++ n :: b) -> y ∈ a -> y < n.
Proof.
  induction a as [|x a IH]; simpl; intros H Hy; [set_solver|]. apply StronglySorted_inv in H as [H Hf].
  apply elem_of_cons in Hy as [->|Hy]; [|auto]. rewrite Forall_forall in Hf. apply Hf. set_solver.
Qed.
Lemma newest_split s a n b : lists_nodes s (a ++ n :: b) -> newest s n <-> b = [].
Proof.
  intros [[Hnd Hin] Hs]. split.
  - intros [_ Hm]. destruct b as [|y b]; [done|].
    assert (live_node s y) as [sy Hy] by (apply Hin; set_solver).
    apply Hm in Hy. assert (n < y); [|lia]. eapply sorted_after; [done|]. set_solver.
  - intros ->. split; [apply Hin; set_solver|]. intros y sy Hy.
    assert (y ∈ a ++ [n]) as Hy' by (apply Hin; by exists sy).
    apply elem_of_app in Hy' as [Hy'|Hy'].
    + apply Nat.lt_le_incl. by eapply sorted_before.
    + apply elem_of_list_singleton in Hy'. lia.
Qed.
Lemma lists_nodes_ext s s' xs : (forall n, live_node s n <-> live_node s' n) -> lists_nodes s xs -> lists_nodes s' xs.
Proof. intros H [H1 H2]. split; [|done]. by eapply lists_ext. Qed.
Lemma lists_nodes_add s xs x N E i :
  lists_nodes s xs -> (forall y, y ∈ xs -> y < s_next s) -> i = S (s_next s) -> N = <[s_next s := x]> (s_nodes s) ->
  lists_nodes (SGraph N E i) (xs ++ [s_next s]).
Proof.
  intros [[Hnd Hin] Hs] Hlt -> ->. split; [split|].
  - apply NoDup_app. split; [done|]. split; [|apply NoDup_singleton]. intros y Hy Hy'.
    apply elem_of_list_singleton in Hy'. apply Hlt in Hy. lia.
  - intros y. rewrite elem_of_app, elem_of_list_singleton, Hin. unfold live_node. simpl.
    destruct (decide (y = s_next s)) as [->|].
    + rewrite lookup_insert. split; eauto.
    + rewrite lookup_insert_ne by done. split; [|by left]. by intros [?|?].
  - by apply sorted_snoc.
Qed.
Lemma lists_nodes_del s a n b E i :
  lists_nodes s (a ++ n :: b) -> lists_nodes (SGraph (delete n (s_nodes s)) E i) (a ++ b).
Proof.
  intros [[Hnd Hin] Hs]. pose proof Hnd as Hnd'. rewrite <- Permutation_middle in Hnd'.
  apply NoDup_cons in Hnd' as [Hni Hnd']. split; [split|].
  - done.
  - intros y. unfold live_node. simpl. destruct (decide (y = n)) as [->|].
    + rewrite lookup_delete. split; [done|by intros [? ?]].
    + rewrite lookup_delete_ne by done. change (is_Some (s_nodes s !! y)) with (live_node s y).
      rewrite <- Hin. set_solver.
  - by eapply sorted_del.
Qed.

Lemma live_other s o n : match o with ONewNode _ _ _ | ODetachRemove _ _ => False | _ => True end ->
  live_node (sstep s o) n <-> live_node s n.
Proof.
  intros Ho. unfold live_node. destruct o; simpl; try done; by rewrite lookup_alter_is_Some.
Qed.

Definition nodes_inv (ops : list op) (g : graph) : Prop :=
  node_list_safe ops ->
  exists xs, lists_nodes (srun ops) xs /\
    nl_inv (g_list g) (g_nl g) xs (ng_run ng_init s_empty ops) (g_next g).

Lemma nodes_inv_run ops g : valid_history ops -> run ops = Ok g -> nodes_inv ops g.
Proof.
  revert ops g. apply history_ind.
  { intros _. exists []. split.
    - split; [|constructor]. split; [constructor|]. intros x. split; [set_solver|].
      unfold live_node. simpl. rewrite lookup_empty. by intros [? ?].
    - split; [constructor|]. split; [done|]. split; [by intros [|? ?] ? ?|]. split; [done|]. split; [done|].
      split; [set_solver|]. done. }
  intros ops g o g' Hv Hr IH Ho Hs Hsafe.
  apply node_list_safe_snoc in Hsafe as [Hsafe Hok]. destruct (IH Hsafe) as (xs & Hl & Hi).
  pose proof (core_run _ _ Hv Hr) as Hc. pose proof Hc as (_ & Hnext & _).
  rewrite srun_snoc. rewrite ng_run_snoc. fold (srun ops) in *.
  pose proof (step_list _ _ _ Hs) as Hgl. pose proof (step_next _ _ _ Hs) as (cr & Hcr & Hcase).
  set (x := ng_run ng_init s_empty ops) in *.
  assert (match o with ONewNode _ _ _ | ODetachRemove _ _ => False | _ => True end ->
    exists xs0, lists_nodes (sstep (srun ops) o) xs0 /\ nl_inv (g_list g') (g_nl g') xs0 (ng_step x (srun ops) o) (g_next g')) as Hother.
  { intros Hno. assert (g_list g' = g_list g) as -> by (by destruct o; try done; injection Hgl).
    assert (g_nl g' = g_nl g) as -> by (by destruct o; try done; injection Hgl).
    assert (ng_step x (srun ops) o = x) as -> by (by destruct o).
    exists xs. split.
    - eapply lists_nodes_ext; [|done]. intros n. symmetry. by apply live_other.
    - destruct Hcase as [[_ ->]|[_ ->]]; [done|]. by apply nl_inv_next. }
  destruct o; try (by apply Hother); clear Hother.
  - (* NewNode *)
    assert (g_next g' = S (g_next g)) as ->.
    { destruct Hcase as [[-> ?]|[_ ?]]; [|done]. simpl in Hcr. by inv_ok Hcr. }
    simpl in Hok |- *. symmetry in Hgl.
    destruct (ng_stale x) eqn:Hst.
    + assert (xs = []) as ->.
      { destruct xs as [|y xs]; [done|]. destruct Hl as [[_ Hin] _].
        assert (live_node (srun ops) y) as [? Hy] by (apply Hin; set_solver).
        fold (srun ops) in Hok. rewrite Hok in Hy by done. by rewrite lookup_empty in Hy. }
      exists [s_next (srun ops)]. split.
      * eapply (lists_nodes_add _ []); [done|set_solver|done|done].
      * rewrite <- Hnext. by eapply nl_add_refill.
    + exists (xs ++ [s_next (srun ops)]). split.
      * eapply (lists_nodes_add _ xs); [done| |done|done]. intros y Hy. rewrite <- Hnext.
        by destruct Hi as (_&_&_&_&_&Hlt&_); apply Hlt.
      * rewrite <- Hnext. assert (NG false (ng_refill x) = x) as -> by (destruct x; simpl in *; congruence).
        by eapply nl_add_clean.
  - (* DetachAndRemove *)
    assert (g_next g' = g_next g) as ->.
    { destruct Hcase as [[-> ?]|[-> ?]]; done. }
    destruct Ho as (sn & Hsn & _). assert (n ∈ xs) as Hin by (apply Hl; by exists sn).
    apply elem_of_list_split in Hin as (a & b & ->).
    simpl in Hok |- *. symmetry in Hgl. exists (a ++ b). split.
    + by apply lists_nodes_del.
    + assert (bool_decide (newest (srun ops) n) = bool_decide (b = [])) as ->.
      { apply bool_decide_ext. by eapply newest_split. }
      by eapply nl_remove_inv.
Qed.

Lemma nodes_fuel g s xs : core g s -> lists_nodes s xs -> length xs <= fuel g.
Proof.
  intros Hc [[Hnd Hin] _]. rewrite <- (size_set_seq (C := gset nat) 0 (fuel g)).
  apply NoDup_length_le; [done|]. intros x Hx. apply elem_of_set_seq. apply Hin in Hx.
  apply (core_live_lt _ _ _ Hc) in Hx. destruct Hc as (_ & Hn & _). unfold fuel. lia.
Qed.
Lemma get_nodes_ok ops g :
  valid_history ops -> run ops = Ok g -> node_list_safe ops ->
  exists xs, get_nodes g = Ok xs /\ lists_nodes (srun ops) xs.
Proof.
  intros Hv Hr Hs. destruct (nodes_inv_run _ _ Hv Hr Hs) as (xs & Hl & Hi). exists xs. split; [|done].
  eapply nl_inv_walk; [done|]. eapply nodes_fuel; [|done]. by apply core_run.
Qed.

(** The guard is exact: the first forbidden call gives a wrong enumeration. *)
Lemma node_list_unsafe ops o g g' :
  valid_history (ops ++ [o]) -> run ops = Ok g -> step g o = Ok g' -> node_list_safe ops ->
  ~ node_list_safe (ops ++ [o]) ->
  ~ exists xs, get_nodes g' = Ok xs /\ lists_nodes (srun (ops ++ [o])) xs.
Proof.
  intros Hv Hr Hs Hsafe Hunsafe (zs & Hg & Hz). apply valid_history_snoc in Hv as [Hv Ho].
  pose proof (core_run _ _ Hv Hr) as Hc. pose proof Hc as (_ & Hnext & _).
  pose proof (core_step _ _ _ _ Hs Ho Hc) as Hc'.
  destruct (nodes_inv_run _ _ Hv Hr Hsafe) as (xs & Hl & Hi).
  assert (~ ng_ok (ng_run ng_init s_empty ops) (srun ops) o) as Hnok.
  { intros Hok. apply Hunsafe. apply node_list_safe_snoc. done. }
  set (x := ng_run ng_init s_empty ops) in *. rewrite srun_snoc in Hz.
  pose proof (step_list _ _ _ Hs) as Hgl. symmetry in Hgl.
  pose proof (step_next _ _ _ Hs) as (cr & Hcr & Hcase).
  destruct o; simpl in Hnok; try (exfalso; apply Hnok; exact I).
  - assert (ng_stale x = true) as Hst by (destruct (ng_stale x); [done|]; exfalso; by apply Hnok).
    assert (xs <> []) as Hne.
    { intros ->. apply Hnok. intros _. apply map_eq. intros y. rewrite lookup_empty.
      destruct (s_nodes (srun ops) !! y) eqn:Hy; [|done].
      assert (y ∈ ([] : list nat)) as Hin by (apply Hl; by eexists). set_solver. }
    assert (walk (fuel g') (g_nl g') (ll_head (g_list g')) = Ok xs) as Hw.
    { eapply nl_add_stale; [exact Hgl|exact Hi|done|done|]. unfold fuel.
      apply (nodes_fuel _ _ _ Hc) in Hl. unfold fuel in Hl. destruct Hcase as [[_ ->]|[_ ->]]; lia. }
    unfold get_nodes in Hg. rewrite Hw in Hg. injection Hg as <-.
    assert (s_next (srun ops) ∈ xs) as Hin.
    { apply Hz. unfold live_node. simpl. rewrite lookup_insert. eauto. }
    destruct Hi as (_&_&_&_&_&Hlt&_). apply Hlt in Hin. lia.
  - assert (ng_refill x = Some n) as Hrf.
    { destruct (decide (ng_refill x = Some n)); [done|]. exfalso. by apply Hnok. }
    destruct Ho as (sn & Hsn & _). assert (n ∈ xs) as Hin by (apply Hl; by exists sn).
    apply elem_of_list_split in Hin as (a & b & ->).
    eapply nl_remove_refill in Hgl; [|exact Hi|done].
    unfold get_nodes in Hg. rewrite Hgl in Hg. destruct (fuel g'); simpl in Hg; [done|]. inv_ok Hg.
    injection Hg as <-. assert (live_node (sstep (srun ops) (ODetachRemove n ord)) n) as Hlive.
    { apply Hz. set_solver. }
    unfold live_node in Hlive. simpl in Hlive. rewrite lookup_delete in Hlive. by destruct Hlive.
Qed.

Global Instance ng_ok_dec x s o : Decision (ng_ok x s o).
Proof. destruct o; simpl; apply _. Defined.
Global Instance node_list_safe_from_dec x s ops : Decision (node_list_safe_from x s ops).
Proof.
  revert x s; induction ops as [|o ops IH]; intros x s; simpl; [apply _|].
  specialize (IH (ng_step x s o) (sstep s o)). apply _.
Defined.

Lemma node_list_safe_prefix ops1 ops2 : node_list_safe (ops1 ++ ops2) -> node_list_safe ops1.
Proof.
  induction ops2 as [|o ops2 IH] using rev_ind; [by rewrite app_nil_r|].
  rewrite app_assoc. intros H. apply node_list_safe_snoc in H as [H _]. auto.
Qed.
Lemma valid_history_prefix ops1 ops2 : valid_history (ops1 ++ ops2) -> valid_history ops1.
Proof.
  induction ops2 as [|o ops2 IH] using rev_ind; [by rewrite app_nil_r|].
  rewrite app_assoc. intros H. apply valid_history_snoc in H as [H _]. auto.
Qed.
Lemma get_nodes_characterised ops g :
  valid_history ops -> run ops = Ok g ->
  (forall ops1 ops2 g1, ops = ops1 ++ ops2 -> run ops1 = Ok g1 ->
     exists xs, get_nodes g1 = Ok xs /\ lists_nodes (srun ops1) xs)
  <-> node_list_safe ops.
Proof.
  intros Hv Hr. split.
  - revert g Hv Hr. induction ops as [|o ops IH] using rev_ind; intros g Hv Hr Hall; [exact I|].
    pose proof Hv as Hv'. apply valid_history_snoc in Hv' as [Hv' Ho].
    pose proof Hr as Hr'. apply run_snoc_inv in Hr' as (g0 & Hr0 & Hs).
    assert (node_list_safe ops) as Hsafe.
    { eapply IH; [done|exact Hr0|]. intros ops1 ops2 g1 -> Hr1. eapply (Hall ops1 (ops2 ++ [o])); [|done]. by rewrite app_assoc. }
    destruct (decide (node_list_safe (ops ++ [o]))) as [|Hn]; [done|]. exfalso.
    eapply node_list_unsafe; [exact Hv|exact Hr0|exact Hs|done|exact Hn|].
    eapply (Hall (ops ++ [o]) []); [by rewrite app_nil_r|done].
  - intros Hsafe ops1 ops2 g1 -> Hr1. eapply get_nodes_ok; [|done|].
    + by eapply valid_history_prefix.
    + by eapply node_list_safe_prefix.
Qed.
