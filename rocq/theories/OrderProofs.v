(** Enumeration orders of edge maps. *)
From Verif Require Import Base Assoc Value FastSet Links EdgeMap NodeMap Index Graph GraphSpec OrderSpec.
From Verif Require Import AssocProofs LinksProofs EdgeMapProofs CoreProofs CoreStep.

(** ** [file] *)
Lemma file_last lb e xs : Forall (fun y => lb y <> lb e) xs -> file lb e xs = xs ++ [e].
Proof.
  induction 1 as [|x xs Hx Hxs IH]; simpl; [done|]. rewrite decide_False by naive_solver. by rewrite IH.
Qed.
Lemma file_mid lb e a ys c : Forall (fun y => lb y = lb e) ys -> ys <> [] ->
  Forall (fun y => lb y <> lb e) c -> file lb e (a ++ ys ++ c) = a ++ ys ++ e :: c.
Proof.
  intros Hy Hne Hc. induction a as [|x a IH]; simpl.
  - induction Hy as [|y ys Hy Hys IH]; simpl; [done|].
    destruct ys as [|z ys]; simpl in *.
    + by rewrite decide_True.
    + rewrite decide_False.
      * f_equal. by apply IH.
      * intros [_ Hf]. apply Forall_cons in Hf as [Hf _]. apply Forall_cons in Hys as [Hz _]. done.
  - rewrite decide_False; [by rewrite IH|]. intros [_ Hf]. apply Forall_app in Hf as [_ Hf].
    apply Forall_app in Hf as [Hf _]. destruct ys; [done|]. apply Forall_cons in Hf as [? _].
    apply Forall_cons in Hy as [? _]. done.
Qed.
Lemma file_ext lb lb' e xs : (forall x, x ∈ xs -> lb' x = lb x) -> lb' e = lb e -> file lb' e xs = file lb e xs.
Proof.
  intros Hx He. induction xs as [|x xs IH]; simpl; [done|].
  assert (Forall (fun y => lb' y <> lb' e) xs <-> Forall (fun y => lb y <> lb e) xs) as Hf.
  { rewrite !Forall_forall. split; intros H y Hy; specialize (H y Hy); rewrite Hx, He in * by set_solver; done. }
  rewrite IH by set_solver. rewrite (Hx x) by set_solver. rewrite He in *.
  destruct (decide (lb x = lb e /\ Forall (fun y => lb y <> lb e) xs)) as [[E1 E2]|E].
  - rewrite decide_True; [done|]. split; [done|]. by apply Hf.
  - rewrite decide_False; [done|]. intros [E1 E2]. apply E. split; [done|]. by apply Hf.
Qed.

(** ** Sequences of edge maps *)
Definition bks (L : links) (b : list (string * llist)) (yss : list (list nat)) : Prop :=
  Forall2 (fun p ys => is_dll L p.2 ys) b yss.
Definition em_seq (L : links) (em : emap) (xs : list nat) : Prop :=
  (em_n em = 0%Z -> xs = []) /\
  (em_n em = 1%Z -> exists e, em_only em = Some e /\ xs = [e]) /\
  ((2 <= em_n em)%Z -> exists yss, bks L (em_bkts em) yss /\ xs = concat yss).

Lemma is_dll_unique L ll xs ys : is_dll L ll xs -> is_dll L ll ys -> xs = ys.
Proof.
  intros Hx Hy. pose proof (walk_ok L ll xs (length xs + length ys) Hx ltac:(lia)) as E1.
  pose proof (walk_ok L ll ys (length xs + length ys) Hy ltac:(lia)) as E2. congruence.
Qed.
Lemma bks_elem key L b X yss p ys : bk_wf key L b X -> bks L b yss ->
  (exists i, b !! i = Some p /\ yss !! i = Some ys) ->
  ys <> [] /\ forall x, x ∈ ys <-> x ∈ X /\ key x = p.1.
Proof.
  intros (Hnd & Hb & _) Hbk (i & Hi & Hy). destruct p as [l ll].
  assert (bk_get b l = Some ll) as Hg.
  { apply bk_get_elem; [done|]. by eapply elem_of_list_lookup_2. }
  destruct (Hb _ _ Hg) as (zs & Hz & Hne & Hin).
  pose proof (Forall2_lookup_lr _ _ _ _ _ _ Hbk Hi Hy) as Hd. simpl in Hd.
  rewrite (is_dll_unique _ _ _ _ Hd Hz). done.
Qed.
Lemma bks_in key L b X yss x : bk_wf key L b X -> bks L b yss -> x ∈ concat yss <-> x ∈ X.
Proof.
  intros Hwf Hbk. rewrite elem_of_list_In, in_concat. split.
  - intros (ys & Hys & Hx). apply elem_of_list_In in Hys, Hx.
    apply elem_of_list_lookup in Hys as [i Hi]. destruct (Forall2_lookup_r _ _ _ _ _ Hbk Hi) as (p & Hp & _).
    apply (bks_elem key L b X yss p ys Hwf Hbk) in Hx; [naive_solver|eauto].
  - intros Hx. pose proof Hwf as (Hnd & Hb & Hall). destruct (Hall x Hx) as [ll Hll].
    apply bk_get_Some_elem in Hll. apply elem_of_list_lookup in Hll as [i Hi].
    destruct (Forall2_lookup_l _ _ _ _ _ Hbk Hi) as (ys & Hys & _).
    exists ys. rewrite <- !elem_of_list_In. split; [by eapply elem_of_list_lookup_2|].
    eapply bks_elem; [exact Hwf|exact Hbk|eauto|]. simpl. done.
Qed.
Lemma bks_frame L L' b yss : (forall x, x ∈ concat yss -> lk L' x = lk L x) -> bks L b yss -> bks L' b yss.
Proof.
  intros Hf Hb. induction Hb as [|p ys b yss Hd Hb IH]; [constructor|]. simpl in Hf. constructor.
  - eapply is_dll_frame; [|done]. intros x Hx. apply Hf. set_solver.
  - apply IH. intros x Hx. apply Hf. set_solver.
Qed.

Lemma em_seq_in key L em X xs x : em_rep key L em X -> em_seq L em xs -> x ∈ xs <-> x ∈ X.
Proof.
  intros (Hn & H1 & H2 & H3) (S0 & S1 & S2).
  destruct (decide (size X = 0)) as [E|E].
  { rewrite S0 by lia. apply size_empty_inv in E. set_solver. }
  destruct (decide (size X = 1)) as [E1|E1].
  { destruct (H2 E1) as (e & Ho & HX). destruct S1 as (e' & Ho' & ->); [lia|]. set_solver. }
  destruct S2 as (yss & Hb & ->); [lia|]. eapply bks_in; [apply H3; lia|done].
Qed.
Lemma em_seq_frame key L L' em X xs : em_rep key L em X -> (forall x, x ∈ X -> lk L' x = lk L x) ->
  em_seq L em xs -> em_seq L' em xs.
Proof.
  intros Hr Hf Hs. pose proof Hs as (S0 & S1 & S2). split; [done|]. split; [done|]. intros H.
  destruct (S2 H) as (yss & Hb & E). exists yss. split; [|done]. eapply bks_frame; [|done].
  intros x Hx. apply Hf. apply (em_seq_in key L em X xs x Hr Hs). by rewrite E.
Qed.
Lemma em_seq_empty L : em_seq L em_empty [].
Proof. split; [done|]. split; simpl; lia. Qed.

Lemma em_seq_iter key L em X xs f : em_rep key L em X -> em_seq L em xs -> size X <= f ->
  em_iter f L em = Ok xs.
Proof.
  intros Hr Hs Hf. pose proof Hr as (Hn & H1 & H2 & H3). pose proof Hs as (S0 & S1 & S2). unfold em_iter.
  destruct (decide (em_n em = 0)%Z); [by rewrite S0|].
  destruct (decide (em_n em = 1)%Z); [by destruct S1 as (? & -> & ->)|].
  destruct S2 as (yss & Hb & E); [lia|].
  assert (rmap (fun b => walk f L (ll_head b.2)) (em_bkts em) = Ok yss) as ->; [|by rewrite E].
  assert (forall ys, ys ∈ yss -> length ys <= f) as Hlen.
  { intros ys Hys. apply elem_of_list_lookup in Hys as [i Hi].
    destruct (Forall2_lookup_r _ _ _ _ _ Hb Hi) as (p & Hp & Hd).
    etrans; [|exact Hf]. apply NoDup_length_le; [by destruct Hd|]. intros x Hx.
    eapply (bks_elem key) in Hx; [|apply H3; lia|exact Hb|eauto]. naive_solver. }
  clear - Hb Hlen. induction Hb as [|p ys b yss Hd Hb IH]; simpl; [done|].
  rewrite (walk_ok _ _ _ _ Hd) by (apply Hlen; set_solver). simpl.
  rewrite IH; [done|]. intros; apply Hlen; set_solver.
Qed.

(** ** One bucket among the others *)
Lemma bk_split (b : list (string * llist)) l ll : bk_get b l = Some ll ->
  exists b1 b2, b = b1 ++ (l, ll) :: b2 /\ l ∉ b1.*1.
Proof.
  induction b as [|[l' x] b IH]; simpl; [done|]. case_decide as E.
  - intros [= ->]. subst l'. exists [], b. split; [done|set_solver].
  - intros H. destruct (IH H) as (b1 & b2 & -> & Hn). exists ((l', x) :: b1), b2. split; [done|]. set_solver.
Qed.
Lemma bks_split L b1 p b2 yss : bks L (b1 ++ p :: b2) yss ->
  exists y1 ys y2, yss = y1 ++ ys :: y2 /\ bks L b1 y1 /\ is_dll L p.2 ys /\ bks L b2 y2.
Proof.
  intros H. apply Forall2_app_inv_l in H as (y1 & r & H1 & H2 & ->).
  apply Forall2_cons_inv_l in H2 as (ys & y2 & Hd & H2 & ->). eauto 10.
Qed.
Lemma bks_keys key L b1 l ll b2 X y1 ys y2 :
  bk_wf key L (b1 ++ (l, ll) :: b2) X -> bks L b1 y1 -> is_dll L ll ys -> bks L b2 y2 ->
  ys <> [] /\ Forall (fun x => key x = l) ys /\
  Forall (fun x => key x <> l) (concat y1) /\ Forall (fun x => key x <> l) (concat y2).
Proof.
  intros Hwf H1 Hd H2. pose proof Hwf as (Hnd & _).
  assert (bks L (b1 ++ (l, ll) :: b2) (y1 ++ ys :: y2)) as Hb by (by apply Forall2_app; [|constructor]).
  assert (length b1 = length y1) as Hlen by (by eapply Forall2_length).
  rewrite fmap_app in Hnd. simpl in Hnd. apply NoDup_app in Hnd as (_ & Hn1 & Hn2). apply NoDup_cons in Hn2 as [Hn2 _].
  assert (forall i q zs, (b1 ++ (l, ll) :: b2) !! i = Some q -> (y1 ++ ys :: y2) !! i = Some zs ->
    zs <> [] /\ forall x, x ∈ zs <-> x ∈ X /\ key x = q.1) as Hel by (intros; eapply bks_elem; eauto).
  assert (forall y b, bks L b y -> (forall q, q ∈ b -> q.1 <> l) ->
    (forall i q zs, b !! i = Some q -> y !! i = Some zs -> zs <> [] /\ forall x, x ∈ zs <-> x ∈ X /\ key x = q.1) ->
    Forall (fun x => key x <> l) (concat y)) as Hside.
  { intros y b Hby Hk Hq. apply Forall_forall. intros x Hx. apply elem_of_list_In, in_concat in Hx as (zs & Hzs & Hx).
    apply elem_of_list_In in Hzs, Hx. apply elem_of_list_lookup in Hzs as [i Hi].
    destruct (Forall2_lookup_r _ _ _ _ _ Hby Hi) as (q & Hqi & _). destruct (proj1 (proj2 (Hq i q zs Hqi Hi) x) Hx) as [_ E]. rewrite E.
    apply Hk. by eapply elem_of_list_lookup_2. }
  destruct (Hel (length b1) (l, ll) ys) as [Hne Hin].
  { by rewrite list_lookup_middle. }
  { by rewrite list_lookup_middle. }
  split; [done|]. split; [|split].
  - apply Forall_forall. intros x Hx. by apply Hin in Hx as [_ ?].
  - apply (Hside y1 b1); [done| |].
    + intros q Hq E. apply (Hn1 q.1); [by apply elem_of_list_fmap_1|]. rewrite E. set_solver.
    + intros i q zs Hq Hz. apply (Hel i); by apply lookup_app_l_Some.
  - apply (Hside y2 b2); [done| |].
    + intros q Hq E. apply Hn2. rewrite <- E. by apply elem_of_list_fmap_1.
    + intros i q zs Hq Hz. apply (Hel (length b1 + S i)).
      * by rewrite lookup_app_r, Nat.add_comm, Nat.add_sub by lia.
      * rewrite Hlen. by rewrite lookup_app_r, Nat.add_comm, Nat.add_sub by lia.
Qed.

Lemma filter_none (P : nat -> Prop) `{!forall x, Decision (P x)} xs : Forall (fun x => ~ P x) xs -> filter P xs = [].
Proof. induction 1 as [|x xs Hx _ IH]; [done|]. by rewrite filter_cons_False. Qed.
Lemma filter_all (P : nat -> Prop) `{!forall x, Decision (P x)} xs : Forall P xs -> filter P xs = xs.
Proof. induction 1 as [|x xs Hx _ IH]; [done|]. rewrite filter_cons_True by done. by rewrite IH. Qed.

Lemma em_seq_label lbl key k L em X xs f l : em_rep key L em X -> em_seq L em xs -> size X <= f ->
  (forall x, x ∈ X -> k x = if decide (size X = 1) then lbl x else key x) ->
  em_iter_label lbl f L em l = Ok (filter (fun x => k x = l) xs).
Proof.
  intros Hr Hs Hf Hk. pose proof Hr as (Hn & H1 & H2 & H3). pose proof Hs as (S0 & S1 & S2). unfold em_iter_label.
  destruct (decide (em_n em = 0)%Z); [by rewrite S0|].
  destruct (decide (em_n em = 1)%Z) as [E1|E1].
  { destruct S1 as (e & Ho & ->); [done|]. rewrite Ho.
    assert (k e = lbl e) as He.
    { rewrite Hk; [by rewrite decide_True by lia|]. apply (em_seq_in key L em X [e] e Hr Hs). set_solver. }
    rewrite H1 by lia. simpl. rewrite filter_cons. rewrite He. simpl.
    destruct (decide (l = lbl e)), (decide (lbl e = l)); first [congruence|done]. }
  destruct S2 as (yss & Hb & E); [lia|].
  assert (bk_wf key L (em_bkts em) X) as Hwf by (apply H3; lia).
  assert (forall x, x ∈ xs -> k x = key x) as Hkx.
  { intros x Hx. rewrite Hk; [by rewrite decide_False by lia|]. by apply (em_seq_in key L em X xs x Hr Hs). }
  destruct (bk_get (em_bkts em) l) as [ll|] eqn:Hg.
  - destruct (bk_split _ _ _ Hg) as (b1 & b2 & Eb & Hni). rewrite Eb in Hwf, Hb.
    destruct (bks_split _ _ _ _ _ Hb) as (y1 & ys & y2 & Ey & B1 & Hd & B2). simpl in Hd.
    destruct (bks_keys _ _ _ _ _ _ _ _ _ _ Hwf B1 Hd B2) as (Hne & K & K1 & K2).
    rewrite Forall_forall in K, K1, K2.
    assert (xs = concat y1 ++ ys ++ concat y2) as Exs by (by rewrite E, Ey, concat_app).
    rewrite Exs in Hkx |- *. rewrite !filter_app.
    rewrite (filter_none _ (concat y1)), (filter_none _ (concat y2)), filter_all.
    + simpl. rewrite app_nil_r. apply walk_ok; [done|]. etrans; [|exact Hf].
      apply NoDup_length_le; [by destruct Hd|]. intros x Hx. eapply bks_in; [exact Hwf|exact Hb|].
      rewrite Ey, concat_app. simpl. set_solver.
    + apply Forall_forall. intros x Hx. rewrite Hkx by set_solver. by apply K.
    + apply Forall_forall. intros x Hx. rewrite Hkx by set_solver. by apply K2.
    + apply Forall_forall. intros x Hx. rewrite Hkx by set_solver. by apply K1.
  - f_equal. symmetry. apply filter_none, Forall_forall. intros x Hx. rewrite Hkx by done. intros Hl.
    apply (em_seq_in key L em X) in Hx; [|done|done]. destruct Hwf as (_ & _ & Hall). destruct (Hall x Hx) as [? Hy]. congruence.
Qed.
Lemma em_seq_any lbl key k L em X xs f ord : em_rep key L em X -> em_seq L em xs -> size X <= f -> NoDup ord ->
  (forall x, x ∈ X -> k x = if decide (size X = 1) then lbl x else key x) ->
  em_iter_any lbl f L em ord = Ok (concat (map (fun l => filter (fun x => k x = l) xs) ord)).
Proof.
  intros Hr Hs Hf Hnd Hk. pose proof Hr as (Hn & H1 & H2 & H3). pose proof Hs as (S0 & S1 & S2). unfold em_iter_any.
  destruct (decide (em_n em = 0)%Z) as [E0|E0].
  { rewrite S0 by done. f_equal. clear. induction ord; simpl; [done|]. by rewrite <- IHord. }
  destruct (decide (em_n em = 1)%Z) as [E1|E1].
  { destruct S1 as (e & Ho & ->); [done|]. rewrite Ho.
    assert (k e = lbl e) as He.
    { rewrite Hk; [by rewrite decide_True by lia|]. apply (em_seq_in key L em X [e] e Hr Hs). set_solver. }
    rewrite <- He. clear - Hnd. induction Hnd as [|l ord Hni Hnd IH]; [by rewrite decide_False by set_solver|].
    cbn [map concat]. rewrite filter_cons. destruct (decide (k e = l)) as [<-|Hne].
    - rewrite decide_True by set_solver.
      rewrite decide_False in IH by done. injection IH as <-. done.
    - change (filter (fun x => k x = l) []) with (@nil nat). rewrite app_nil_l, <- IH.
      destruct (decide (k e ∈ l :: ord)), (decide (k e ∈ ord)); set_solver. }
  rewrite (rmap_Ok _ (fun l => filter (fun x => k x = l) xs)); [done|].
  intros l _. pose proof (em_seq_label lbl key k L em X xs f l Hr Hs Hf Hk) as Hl.
  destruct (bk_get (em_bkts em) l) eqn:Hg; [done|]. unfold em_iter_label in Hl.
  rewrite Hg in Hl. rewrite !decide_False in Hl by done. done.
Qed.

(** ** Adding *)
Lemma do_add_seq lbl key key' L b X e b' L' yss :
  do_add lbl b L e = (b', L') -> bk_wf key L b X -> e ∉ X -> bks L b yss ->
  key' e = lbl e -> (forall x, x ∈ X -> key' x = key x) ->
  exists yss', bks L' b' yss' /\ concat yss' = file key' e (concat yss).
Proof.
  intros Heq Hwf He Hb Hke Hk. pose proof Hwf as (Hnd & Hg & Hall). unfold do_add in Heq.
  assert (forall x, x ∈ concat yss -> x ∈ X) as HX by (intros x Hx; by eapply bks_in).
  destruct (bk_get b (lbl e)) as [ll|] eqn:Hge.
  - destruct (bk_split _ _ _ Hge) as (b1 & b2 & Eb & Hni). subst b.
    destruct (el_add ll L e) as [l' L1] eqn:Ha. injection Heq as <- <-.
    destruct (bks_split _ _ _ _ _ Hb) as (y1 & ys & y2 & Ey & B1 & Hd & B2). simpl in Hd. subst yss.
    destruct (bks_keys _ _ _ _ _ _ _ _ _ _ Hwf B1 Hd B2) as (Hne & K & K1 & K2).
    rewrite concat_app in HX. simpl in HX.
    assert (bk_set (b1 ++ (lbl e, ll) :: b2) (lbl e) l' = b1 ++ (lbl e, l') :: b2) as ->.
    { clear - Hni. induction b1 as [|[k x] b1 IH]; simpl; [by rewrite decide_True|].
      rewrite decide_False by set_solver. by rewrite IH by set_solver. }
    assert (forall y, y ∈ concat y1 ++ concat y2 -> lk L1 y = lk L y) as Hfr.
    { intros y Hy. eapply el_add_frame; [exact Ha| |].
      - intros ->. apply He, HX. set_solver.
      - destruct Hd as (_ & _ & -> & _). intros E. symmetry in E. apply last_elem in E.
        rewrite Forall_forall in K, K1, K2. apply elem_of_app in Hy as [Hy|Hy]; [apply (K1 y)|apply (K2 y)]; auto. }
    exists (y1 ++ (ys ++ [e]) :: y2). split.
    + apply Forall2_app; [eapply bks_frame; [|exact B1]; intros y Hy; apply Hfr; set_solver|].
      constructor; [|eapply bks_frame; [|exact B2]; intros y Hy; apply Hfr; set_solver]. simpl.
      eapply el_add_ok; [done|done|]. intros Hin. apply He, HX. set_solver.
    + rewrite !concat_app. simpl. rewrite file_mid.
      * by rewrite <- app_assoc.
      * rewrite Forall_forall in K |- *. intros y Hy. rewrite Hke, Hk by (apply HX; set_solver). by apply K.
      * done.
      * rewrite Forall_forall in K2 |- *. intros y Hy. rewrite Hke, Hk by (apply HX; set_solver). by apply K2.
  - destruct (el_add ll_empty L e) as [l' L1] eqn:Ha. injection Heq as <- <-.
    exists (yss ++ [[e]]). split.
    + apply Forall2_app.
      * eapply bks_frame; [|exact Hb]. intros x Hx. eapply el_add_frame; [done| |done]. intros ->. by apply He, HX.
      * constructor; [|constructor]. simpl. apply (el_add_ok _ _ _ _ _ [] Ha); [apply is_dll_empty|set_solver].
    + rewrite concat_app. simpl. symmetry. apply file_last, Forall_forall. intros y Hy. rewrite Hke, Hk by auto.
      destruct (Hall y) as [? Hy']; [auto|]. congruence.
Qed.
Lemma em_add_seq lbl key key' L em X xs e em' L' :
  em_rep key L em X -> em_seq L em xs -> e ∉ X -> key' e = lbl e ->
  (forall x, x ∈ X -> key' x = if decide (2 <= size X) then key x else lbl x) ->
  em_add lbl em L e = Ok (em', L') -> em_seq L' em' (file key' e xs).
Proof.
  intros Hr Hs He Hke Hk. pose proof Hr as (Hn & H1 & H2 & H3). pose proof Hs as (S0 & S1 & S2). unfold em_add.
  destruct (decide (em_n em = 0)%Z).
  { intros [= <- <-]. rewrite S0 by done. split; [done|]. split; simpl; [eauto|lia]. }
  destruct (decide (em_n em = 1)%Z) as [E1|E1].
  { destruct S1 as (o & -> & ->); [done|]. destruct (do_add lbl [] L o) as [b1 L1] eqn:A1.
    destruct (do_add lbl b1 L1 e) as [b2 L2] eqn:A2. intros [= <- <-].
    assert (o ∈ X) as Ho by (eapply em_seq_in; [done|done|set_solver]).
    assert (o <> e) as Hoe by (by intros ->).
    destruct (do_add_seq lbl lbl lbl L [] ∅ o b1 L1 [] A1) as (yss1 & B1 & C1);
      [apply bk_wf_nil|set_solver|constructor|done|done|].
    pose proof (do_add_ok lbl lbl lbl L [] ∅ o b1 L1 A1 (bk_wf_nil _ _) ltac:(set_solver) eq_refl ltac:(done)) as W1.
    destruct (do_add_seq lbl lbl key' L1 b1 ({[o]} ∪ ∅) e b2 L2 yss1 A2) as (yss2 & B2 & C2);
      [done|set_solver|done|done| |].
    { intros x Hx. assert (x = o) as -> by set_solver. rewrite Hk by done. rewrite decide_False; [done|lia]. }
    split; [done|]. split; [done|]. simpl. intros _. exists yss2. split; [done|]. by rewrite C2, C1. }
  destruct (do_add lbl (em_bkts em) L e) as [b1 L1] eqn:A1. intros [= <- <-].
  destruct S2 as (yss & B & ->); [lia|].
  destruct (do_add_seq lbl key key' L (em_bkts em) X e b1 L1 yss A1) as (yss' & B' & C'); [apply H3; lia|done|done|done| |].
  { intros x Hx. rewrite Hk by done. rewrite decide_True; [done|lia]. }
  split; simpl; [lia|]. split; [lia|]. intros _. exists yss'. by rewrite C'.
Qed.

(** ** Removing *)
Lemma unfile_none e xs : e ∉ xs -> unfile e xs = xs.
Proof. intros H. apply filter_all, Forall_forall. intros x Hx ->. done. Qed.
Lemma unfile_mid e a c : e ∉ a -> e ∉ c -> unfile e (a ++ e :: c) = a ++ c.
Proof.
  intros Ha Hc. unfold unfile. rewrite filter_app. rewrite filter_cons_False by (intros H; by apply H).
  f_equal; by apply unfile_none.
Qed.
Lemma em_remove_seq lbl key L em X xs e em' L' :
  em_remove lbl em L e = (em', L') -> em_rep key L em X -> em_seq L em xs -> e ∈ X ->
  (2 <= size X -> key e = lbl e) -> em_seq L' em' (unfile e xs).
Proof.
  intros Heq Hr Hs He Hke. pose proof (em_remove_ok _ _ _ _ _ _ _ _ Heq Hr He Hke) as [Hr' _]. pose proof Hr as (Hn & H1 & H2 & H3). pose proof Hs as (S0 & S1 & S2). unfold em_remove in Heq.
  destruct (decide (em_n em = 0)%Z) as [E0|E0].
  { assert (size X = 0) as E by lia. apply size_empty_inv in E. set_solver. }
  destruct (decide (em_n em = 1)%Z) as [E1|E1].
  { destruct S1 as (o & Ho & ->); [done|]. assert (e = o) as ->.
    { apply (em_seq_in key L em X [o] e) in He; [set_solver|done|]. split; [lia|]. split; [eauto|lia]. }
    rewrite decide_True in Heq by done. injection Heq as <- <-.
    assert (unfile o [o] = []) as -> by (apply (unfile_mid o [] []); set_solver).
    split; [done|]. split; simpl; lia. }
  destruct S2 as (yss & Hb & Exs); [lia|]. assert (2 <= size X) as Hsz by lia.
  specialize (H3 Hsz). pose proof H3 as (Hnd & Hbk & Hall). specialize (Hke Hsz).
  destruct (Hall e He) as [ll Hll]. rewrite Hke in Hll. rewrite Hll in Heq.
  destruct (el_remove ll L e) as [l' L1] eqn:Hel.
  destruct (bk_split _ _ _ Hll) as (b1 & b2 & Eb & Hni). rewrite Eb in *.
  destruct (bks_split _ _ _ _ _ Hb) as (y1 & ys & y2 & Ey & B1 & Hd & B2). simpl in Hd. subst yss.
  destruct (bks_keys _ _ _ _ _ _ _ _ _ _ H3 B1 Hd B2) as (Hne & K & K1 & K2).
  rewrite Forall_forall in K, K1, K2.
  assert (e ∈ ys) as Hey.
  { assert (e ∈ concat (y1 ++ ys :: y2)) as Hin by (by eapply bks_in). rewrite concat_app in Hin. simpl in Hin.
    apply elem_of_app in Hin as [Hin|Hin]; [by apply K1 in Hin|]. apply elem_of_app in Hin as [Hin|Hin]; [done|]. by apply K2 in Hin. }
  assert (e ∉ concat y1 /\ e ∉ concat y2) as [He1 He2].
  { split; intros Hin; [by apply K1 in Hin|by apply K2 in Hin]. }
  assert (forall y, y ∈ concat y1 ++ concat y2 -> lk L1 y = lk L y) as Hfr.
  { intros y Hy. eapply el_remove_frame; [done|done|done|]. intros Hy'. apply K in Hy'.
    apply elem_of_app in Hy as [Hy|Hy]; [by apply (K1 y)|by apply (K2 y)]. }
  destruct (elem_of_list_split _ _ Hey) as (a & c & Eys). subst ys.
  pose proof (el_remove_ok _ _ _ _ _ _ _ Hel Hd) as Hd'.
  assert (NoDup (a ++ e :: c)) as Hnda by (by destruct Hd).
  assert (e ∉ a /\ e ∉ c) as [Hea Hec].
  { rewrite <- Permutation_middle in Hnda. apply NoDup_cons in Hnda as [? _]. set_solver. }
  assert (unfile e xs = concat y1 ++ (a ++ c) ++ concat y2) as Eu.
  { rewrite Exs, concat_app. simpl. replace (concat y1 ++ (a ++ e :: c) ++ concat y2) with ((concat y1 ++ a) ++ e :: (c ++ concat y2)).
    - rewrite unfile_mid by set_solver. by rewrite <- !app_assoc.
    - by rewrite <- !app_assoc. }
  set (b := if decide (ll_n l' = 0)%Z then _ else _) in Heq.
  assert (exists yss', bks L1 b yss' /\ concat yss' = unfile e xs) as (yss' & B' & C').
  { assert (bks L1 b1 y1 /\ bks L1 b2 y2) as [B1' B2'].
    { split; (eapply bks_frame; [|eassumption]); intros y Hy; apply Hfr; set_solver. }
    subst b. destruct (decide (ll_n l' = 0)%Z) as [Hz|Hz].
    - assert (bk_del (b1 ++ (lbl e, ll) :: b2) (lbl e) = b1 ++ b2) as ->.
      { clear - Hni. induction b1 as [|[k x] b1 IH]; simpl; [by rewrite decide_True|].
        rewrite decide_False by set_solver. by rewrite IH by set_solver. }
      exists (y1 ++ y2). split; [by apply Forall2_app|]. rewrite Eu, concat_app.
      destruct Hd' as (_ & _ & _ & Hl & _). rewrite Hl in Hz. destruct (a ++ c); [done|]. simpl in Hz. lia.
    - assert (bk_set (b1 ++ (lbl e, ll) :: b2) (lbl e) l' = b1 ++ (lbl e, l') :: b2) as ->.
      { clear - Hni. induction b1 as [|[k x] b1 IH]; simpl; [by rewrite decide_True|].
        rewrite decide_False by set_solver. by rewrite IH by set_solver. }
      exists (y1 ++ (a ++ c) :: y2). split; [by apply Forall2_app; [|constructor]|]. by rewrite Eu, concat_app. }
  clearbody b. destruct (decide (em_n em - 1 = 1)%Z) as [E2|E2]; injection Heq as <- <-.
  - split; simpl; [lia|]. split; [|lia]. intros _. destruct Hr' as (Hn' & _ & H2' & _). simpl in Hn', H2'.
    destruct H2' as (e0 & Ho & HX); [lia|]. exists e0. split; [done|].
    destruct (em_iter_ok key L em X (size X) Hr ltac:(lia)) as (zs & Hz & Hzn & _).
    rewrite (em_seq_iter key L em X xs) in Hz by (done || lia). injection Hz as <-.
    assert (forall x, x ∈ unfile e xs <-> x = e0) as Hin.
    { intros x. unfold unfile. rewrite elem_of_list_filter. rewrite (em_seq_in key L em X xs) by done. clear - HX. set_solver. }
    assert (NoDup (unfile e xs)) as Hnu by (by apply NoDup_filter).
    destruct (unfile e xs) as [|z [|z' r]].
    + exfalso. specialize (Hin e0). set_solver.
    + f_equal. apply Hin. set_solver.
    + exfalso. assert (z = e0) as -> by (apply Hin; set_solver). assert (z' = e0) as -> by (apply Hin; set_solver).
      apply NoDup_cons in Hnu as [Hc _]. apply Hc. set_solver.
  - split; simpl; [lia|]. split; [lia|]. intros _. exists yss'. by rewrite C'.
Qed.
