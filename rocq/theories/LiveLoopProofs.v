(** Loops that change the graph while they iterate over edges or nodes (ItrLive.v). *)
From Verif Require Import Base Assoc Value Links EdgeMap Graph GraphSpec AssocProofs LinksProofs EdgeMapProofs CoreProofs CoreStep.
From Verif Require Import ReadProofs NodeListProofs EdgeListProofs ItrProofs EdgeMapPtr EdgeMapPtrProofs ItrLive ItrLiveSpec ItrLiveProofs StoreProofs.

(** ** New iterators *)
Lemma bk_get_elem (b : list (string * llist)) l ll : NoDup b.*1 -> (l, ll) ∈ b -> bk_get b l = Some ll.
Proof.
  intros Hnd (b1 & b2 & ->)%elem_of_list_split. apply bk_get_mid. rewrite fmap_app, fmap_cons in Hnd. cbn [fst] in Hnd.
  apply NoDup_app in Hnd as (_ & Hnd & _). intros Hx. apply (Hnd l Hx). left.
Qed.
Lemma succ_in_mid (e1 e2 : list nat) el : el ∉ e1 -> succ_in el (e1 ++ el :: e2) = head e2.
Proof.
  induction e1 as [|x e1 IH]; cbn; intros H; [by rewrite decide_True|]. rewrite decide_False by set_solver. apply IH. set_solver.
Qed.
Lemma elems_ok key J h L a els b X k : bk_wf key L b X -> xh_lists h !! a = Some els -> NoDup els -> a ∈ J -> (forall el, el ∈ els -> el ∈ J) ->
  forall e2 e1 b2 zss, els = e1 ++ e2 -> (forall p, p ∈ b2 -> p ∈ b) ->
    Forall2 (fun el p => xh_in h !! el = Some a /\ xh_ell h !! el = Some p.2) e2 b2 ->
    Forall2 (fun (p : string * llist) zs => walk k L (ll_head p.2) = Ok zs) b2 zss -> elems J h L (head e2) zss.
Proof.
  intros (Hnd & Hwf & _) Hl Hne Ha HJ. induction e2 as [|el e2 IH]; intros e1 b2 zss He Hb H1 H2.
  { apply Forall2_nil_inv_l in H1 as ->. by apply Forall2_nil_inv_l in H2 as ->. }
  apply Forall2_cons_inv_l in H1 as ([l ll] & b2' & (A & B) & H1 & ->). apply Forall2_cons_inv_l in H2 as (zs & zss' & W & H2 & ->).
  cbn [head fst snd] in *. exists el, a. split; [done|]. split; [apply HJ; subst els; clear; set_solver|]. split; [done|]. split; [done|].
  assert (elem_list h el = ll) as -> by (unfold elem_list; by rewrite B). apply chain_walk in W.
  destruct (Hwf l ll) as (ys & Hd & Hys & _). { apply bk_get_elem; [done|]. apply Hb. left. }
  assert (zs = ys) as -> by (eapply chain_fun; [exact W|by apply chain_dll]). split; [done|]. split; [done|].
  assert (elem_next h el = head e2) as ->.
  { unfold elem_next. rewrite A, Hl, He. apply succ_in_mid. rewrite He in Hne. apply NoDup_app in Hne as (_ & Hne & _). intros Hx. apply (Hne el Hx). left. }
  apply (IH (e1 ++ [el]) b2' zss'); [by rewrite <-app_assoc| |done|done]. intros p Hp. apply Hb. by right.
Qed.
Lemma small_length (els : list nat) (n : nat) : NoDup els -> (forall x, x ∈ els -> x < n) -> length els <= n.
Proof.
  intros Hnd Hlt. rewrite <-(seq_length n 0). apply submseteq_length, NoDup_submseteq; [done|]. intros x Hx. apply elem_of_seq. specialize (Hlt x Hx). lia.
Qed.
Lemma x_iter_ok key h m em F L X k es : xrel h m em F -> em_rep key L em X -> em_iter k L em = Ok es ->
  exists it, x_iter h m = Ok it /\ remains F h L it es.
Proof.
  intros [H1 H2 H3 H4 H5 H6 H7 H8] (Hn & _ & R2 & R3). unfold em_iter, x_iter. rewrite H1, H2.
  case_decide as D0; [intros [= <-]; exists XEmpty; split; [done|constructor]|].
  case_decide as D1. { destruct (em_only em) as [e|]; [|done]. intros [= <-]. eexists. split; [done|constructor]. }
  destruct H8 as [(?&?&?)|(a & c & els & mp & E1 & E2 & Hb)]; [lia|]. rewrite E1, (br_list _ _ _ _ _ _ _ Hb).
  change (default [] (Some els)) with els. intros (ls & Hls & [= <-])%rbind_Ok_inv. apply rmap_Forall2 in Hls.
  assert (bk_wf key L (em_bkts em) X) as Hwf by (apply R3; lia). pose proof Hb as [B1 B2 (Ba & Bc & Be) B4 B5 B6 B7].
  assert (length ls <= xh_next h) as Hlen.
  { apply Forall2_length in Hls. apply Forall2_length in B6. rewrite <-Hls, <-B6. apply small_length; [done|]. intros x Hx. by apply H7, Be. }
  assert (Forall2 (fun el p => xh_in h !! el = Some a /\ xh_ell h !! el = Some p.2) els (em_bkts em)) as B6'.
  { eapply Forall2_impl; [exact B6|]. naive_solver. }
  pose proof (elems_ok key F h L a els _ X k Hwf B1 B4 Ba Be els [] _ ls eq_refl (fun _ H => H) B6' Hls) as He.
  destruct els as [|el els]; cbn [head] in *.
  - destruct ls as [|zs ls]; [|by destruct He as (? & ? & ? & _)]. eexists. split; [done|]. apply (RemAll F h L None None [] []); [done|done|cbn; lia].
  - destruct ls as [|zs ls]; [done|]. destruct He as (el' & a' & [= <-] & _ & _ & _ & Hne & Hc & He). eexists. split; [done|].
    apply (RemAll F h L _ _ zs ls Hc He). cbn in Hlen. lia.
Qed.
Lemma lab_get_ok h a c F b els mp l : bkrel h a c F b els mp ->
  match lab_get h (Some c) l with
  | None => bk_get b l = None
  | Some el => el ∈ F /\ bk_get b l = Some (elem_list h el)
  end.
Proof.
  intros Hb. cbn [lab_get]. rewrite (br_map _ _ _ _ _ _ _ Hb). pose proof (bkrel_get _ _ _ _ _ _ _ l Hb) as Hg.
  destruct (mp !! l) as [el|]; [|by apply bk_get_none]. destruct Hg as (b1 & ll & b2 & e1 & e2 & -> & -> & _ & Hell & _ & Hl & _).
  split; [apply (br_in _ _ _ _ _ _ _ Hb); clear; set_solver|]. unfold elem_list. rewrite Hell. by apply bk_get_mid.
Qed.
Lemma x_iter_label_ok key lb h m em F L X k l es : xrel h m em F -> em_rep key L em X -> em_iter_label lb k L em l = Ok es ->
  exists it, x_iter_label lb h m l = Ok it /\ remains F h L it es.
Proof.
  intros [H1 H2 H3 H4 H5 H6 H7 H8] (Hn & _ & R2 & R3). unfold em_iter_label, x_iter_label. rewrite H1, H2.
  case_decide as D0; [intros [= <-]; exists XEmpty; split; [done|constructor]|]. cbv zeta.
  assert (forall es, match bk_get (em_bkts em) l with None => Ok [] | Some x => walk k L (ll_head x) end = Ok es ->
    remains F h L match lab_get h (xm_lab m) l with None => XEmpty | Some el => XList (ll_head (elem_list h el)) end es) as Hrest.
  { intros es' He. destruct H8 as [(?&Hlab&?)|(a & c & els & mp & E1 & E2 & Hb)].
    - rewrite Hlab. cbn. rewrite H5 in He by done. injection He as <-. constructor.
    - rewrite E2. pose proof (lab_get_ok _ _ _ _ _ _ _ l Hb) as Hg. destruct (lab_get h (Some c) l) as [el|].
      + destruct Hg as [_ Hg]. rewrite Hg in He. constructor. by eapply chain_walk.
      + rewrite Hg in He. injection He as <-. constructor. }
  case_decide as D1; [|intros He; eexists; split; [done|by apply Hrest]].
  destruct (em_only em) as [e|]; [|done]. case_decide; [intros [= <-]; eexists; split; [done|constructor]|].
  intros He. eexists. split; [done|by apply Hrest].
Qed.
Lemma x_iter_any_ok key lb h m em F L X k ord es : xrel h m em F -> em_rep key L em X -> em_iter_any lb k L em ord = Ok es ->
  exists it, x_iter_any lb h m ord = Ok it /\ remains F h L it es.
Proof.
  intros [H1 H2 H3 H4 H5 H6 H7 H8] (Hn & _ & R2 & R3). unfold em_iter_any, x_iter_any. rewrite H1, H2.
  case_decide as D0; [intros [= <-]; exists XEmpty; split; [done|constructor]|].
  case_decide as D1. { destruct (em_only em) as [e|]; [|done]. case_decide; intros [= <-]; (eexists; split; [done|constructor]). }
  intros (ls & Hls & [= <-])%rbind_Ok_inv. apply rmap_Forall2 in Hls.
  destruct H8 as [(?&Hlab&?)|(a & c & els & mp & E1 & E2 & Hb)]; [lia|]. rewrite E2. eexists. split; [done|].
  apply (RemAny F h L c ord None [] ls); [by destruct (br_in _ _ _ _ _ _ _ Hb) as (_ & ? & _)|done|]. eapply Forall2_impl; [exact Hls|]. intros l zs Hz. cbn beta in Hz.
  unfold labelled. pose proof (lab_get_ok _ _ _ _ _ _ _ l Hb) as Hg. destruct (lab_get h (Some c) l) as [el|].
  - destruct Hg as [Hel Hg]. rewrite Hg in Hz. unfold em_iter_label in Hz. rewrite decide_False, decide_False, Hg in Hz by done.
    split; [done|]. by eapply chain_walk.
  - rewrite Hg in Hz. by injection Hz as <-.
Qed.

(** ** Loops *)
Section yield.
Context (sel : string -> Prop).
(** the iterators [its] have still to yield [r] *)
Definition to_yield (F : owner -> gset nat) (a : store) (C : gmap nat edge) (its : xitrs) (r : list nat) : Prop :=
  exists rs, r = concat rs /\ Forall2 (fun p r => (picks sel p.2 /\ exists J, apart F J p.1 (st_h a) /\ remains J (st_h a) (st_links a p.1) p.2 r) /\
    forall x, x ∈ r -> selected sel C p.1 x) its rs.
Lemma xs_next_ok F a C its : forall r, to_yield F a C its r ->
  match r with
  | [] => exists its', xs_next a its = Ok (None, its')
  | x :: r' => exists its', xs_next a its = Ok (Some x, its') /\ to_yield F a C its' r' /\ forall o, o ∈ its'.*1 -> o ∈ its.*1
  end.
Proof.
  induction its as [|[o it] its IH]; intros r (rs & -> & H).
  { apply Forall2_nil_inv_l in H as ->. by eexists. }
  apply Forall2_cons_inv_l in H as (r & rs' & ((Hp & J & A & R) & Ho) & H & ->). cbn [concat fst snd xs_next] in *.
  pose proof (x_next_ok _ _ _ _ _ R) as Hn. destruct r as [|x r].
  - destruct Hn as [it' ->]. cbn [rbind fst app]. specialize (IH (concat rs') (ex_intro _ rs' (conj eq_refl H))).
    destruct (concat rs') as [|y r']; [done|]. destruct IH as (its' & E & L & Hi). exists its'. split; [done|]. split; [done|].
    intros o' Ho'. right. by apply Hi.
  - destruct Hn as (it' & E & R'). rewrite E. cbn [rbind fst snd app]. eexists. split; [done|]. split; [|done].
    exists (r :: rs'). split; [done|]. constructor; [|done]. split; [split; [|by exists J]|intros y Hy; apply Ho; by right].
    intros l Hl. eapply x_next_avoids; [exact E|]. by apply Hp.
Qed.
Lemma own_step g s c o x r : core g s -> x ∈ r -> own (s_edges s) o x -> owner_keeps sel o s r c -> own (s_edges (sstep s c)) o x.
Proof.
  intros Hc Hx Ho Hk. destruct o as [|n|n]; [done|..]; cbn in Ho |- *.
  all: rewrite ?elem_of_outs, ?elem_of_ins in *; destruct Ho as (xd & H1 & H2).
  all: destruct c as [labels p ord|from to label p|m labels ordo ordn|m k v|m k|m|m ord|e label|e k v|e k|e|k it|k it]; cbn in *; eauto.
  all: try (exists xd; split; [|done]; rewrite lookup_insert_ne; [done|]; intros <-;
    destruct Hc as ((_ & HC) & Hn & _ & _ & Hlt & _); apply HC in H1 as (H1 & _); specialize (Hlt _ (ex_intro _ _ H1)); lia).
  all: try (exists xd; split; [|done]; unfold s_detach; apply map_filter_lookup_Some; split; [done|]; cbn; destruct (Hk x xd Hx H1); naive_solver).
  all: try (exists xd; split; [|done]; rewrite lookup_delete_ne; [done|]; by intros ->).
  all: destruct (decide (x = e)) as [->|Hne]; [rewrite lookup_alter, H1; by eexists|rewrite lookup_alter_ne by done; by exists xd].
Qed.
Lemma selected_step g s c o x r : core g s -> x ∈ r -> selected sel (s_edges s) o x -> owner_keeps sel o s r c ->
  selected sel (s_edges (sstep s c)) o x.
Proof.
  intros Hc Hx [Ho Hs] Hk. split; [by eapply own_step|]. intros Hne yd Hy. specialize (Hs Hne).
  assert (exists xd, s_edges s !! x = Some xd /\ (o = OIn (e_to xd) \/ o = OOut (e_from xd))) as (xd & Hxd & Hox).
  { destruct o as [|n|n]; [done|..]; cbn in Ho; [apply elem_of_outs in Ho as (xd & ? & <-)|apply elem_of_ins in Ho as (xd & ? & <-)]; exists xd; auto. }
  specialize (Hs _ Hxd).
  destruct c as [labels p ord|from to label p|m labels ordo ordn|m k v|m k|m|m ord|e label|e k v|e k|e|k it|k it]; cbn in *; try (by assert (yd = xd) as -> by congruence).
  - rewrite lookup_insert_ne in Hy; [by assert (yd = xd) as -> by congruence|]. intros <-.
    destruct Hc as ((_ & HC) & Hn & _ & _ & Hlt & _). apply HC in Hxd as (H1 & _). specialize (Hlt _ (ex_intro _ _ H1)). lia.
  - unfold s_detach in Hy. apply map_filter_lookup_Some in Hy as [Hy _]. by assert (yd = xd) as -> by congruence.
  - unfold s_detach in Hy. apply map_filter_lookup_Some in Hy as [Hy _]. by assert (yd = xd) as -> by congruence.
  - destruct (decide (x = e)) as [->|Hxe].
    + rewrite lookup_alter, Hxd in Hy. injection Hy as <-. cbn. destruct (decide (label = e_label xd)) as [->|Hl]; [done|].
      by destruct (Hk _ Hxd Hl Hox).
    + rewrite lookup_alter_ne in Hy by done. by assert (yd = xd) as -> by congruence.
  - destruct (decide (x = e)) as [->|Hxe]; [rewrite lookup_alter, Hxd in Hy; by injection Hy as <-|].
    rewrite lookup_alter_ne in Hy by done. by assert (yd = xd) as -> by congruence.
  - destruct (decide (x = e)) as [->|Hxe]; [rewrite lookup_alter, Hxd in Hy; by injection Hy as <-|].
    rewrite lookup_alter_ne in Hy by done. by assert (yd = xd) as -> by congruence.
  - rewrite lookup_delete_ne in Hy by (intros ->; done). by assert (yd = xd) as -> by congruence.
Qed.
Lemma owner_keeps_mono o s r r' c : (forall x, x ∈ r' -> x ∈ r) -> owner_keeps sel o s r c -> owner_keeps sel o s r' c.
Proof.
  intros Hi. destruct c; cbn; try done; [intros H x ed Hx; by apply H, Hi..| |intros H Hx; by apply H, Hi].
  intros H ed Hed Hl Ho. destruct (H ed Hed Hl Ho) as [? Hr]. split; [done|]. intros Hx. by apply Hr, Hi.
Qed.
End yield.

Lemma Forall2_within {A B} (P : A -> B -> Prop) l k : Forall2 P l k -> Forall2 (fun x y => P x y /\ x ∈ l /\ y ∈ k) l k.
Proof.
  induction 1 as [|x y l k Hp H IH]; constructor; [split; [done|split; left]|]. eapply Forall2_impl; [exact IH|].
  intros q z (?&?&?). split; [done|]. split; by right.
Qed.
Section loops.
  Context (K : sgraph -> list nat -> op -> Prop) (sel : string -> Prop) (os : list owner).
  Hypothesis HK : forall s r c o, K s r c -> o ∈ os -> owner_keeps sel o s r c.

  Record state (F : owner -> gset nat) (Fl : gmap nat string) (g : graph) (a : store) (s : sgraph) (its : xitrs) (r : list nat) (ops : list op) : Prop := {
    st_sim : sim F g a;
    st_core : core g s;
    st_left : to_yield sel F a (s_edges s) its r;
    st_os : forall o, o ∈ its.*1 -> o ∈ os;
    st_valid : valid_from s ops;
    st_all : OAll ∈ os -> all_inv Fl g s /\ edge_list_safe_from Fl s ops
  }.
  Lemma state_step F Fl g a s its r c ops g' : state F Fl g a s its r (c :: ops) -> K s r c -> step g c = Ok g' ->
    exists F' a', x_step (XG g a) c = Ok (XG g' a') /\ state F' (filed_step Fl s c) g' a' (sstep s c) its r ops.
  Proof.
    intros [Hs Hc Hl Ho [Hv Hvs] Hall] Hk Hst. destruct (step_sim sel F g g' a s c Hs Hc Hv Hst) as (F' & a' & E & S & M).
    exists F', a'. split; [unfold x_step; cbn [x_g x_a]; rewrite Hst; cbn [rbind]; by rewrite E|]. split; try done.
    - by eapply core_step.
    - destruct Hl as (rs & -> & H). exists rs. split; [done|].
      apply Forall2_within in H. eapply Forall2_impl; [exact H|]. clear H. intros [o it] z (((Hpk & J & A & R) & Ho') & Hp & Hz). cbn [fst snd] in *.
      assert (o ∈ os) as Hos by (apply Ho; by apply (elem_of_list_fmap_1 fst _ (o, it))).
      assert (owner_keeps sel o s z c) as Hkz.
      { eapply owner_keeps_mono; [|by eapply HK]. intros x Hx. apply elem_of_list_In, in_concat. exists z. split; by apply elem_of_list_In. }
      split.
      + split; [done|]. exists J. apply (M o z); try done. intros ->. destruct (Hall Hos) as [[Ha1 Ha2] [Hsafe _]].
        exists (key_of Fl), (dom (s_edges s)). split; [done|]. intros e He. pose proof He as [[ed Hed] _]. split; [by apply elem_of_dom|].
        intros Hsz. specialize (Hsafe e He). unfold filed_ok in Hsafe. rewrite Hed in Hsafe. unfold key_of. rewrite Hsafe by (by rewrite <-size_edges).
        cbn. unfold lbl. destruct Hc as ((_ & HC) & _). apply HC in Hed as (Hed & _). by rewrite Hed.
      + intros x Hx. eapply selected_step; [exact Hc|exact Hx|by apply Ho'|done].
    - intros Hos. destruct (Hall Hos) as [Ha [Hr Hs2]]. split; [|done]. by eapply all_inv_step.
  Qed.
  Lemma state_calls calls : forall F Fl g a s its r ops g', state F Fl g a s its r (calls ++ ops) -> calls_keep K s r calls -> rfold step calls g = Ok g' ->
    exists F' Fl' a', rfold x_step calls (XG g a) = Ok (XG g' a') /\ state F' Fl' g' a' (fold_left sstep calls s) its r ops.
  Proof.
    induction calls as [|c calls IH]; intros F Fl g a s its r ops g' Hst Hk Hr; cbn [rfold fold_left app] in *.
    { injection Hr as <-. by exists F, Fl, a. }
    destruct Hk as [Hk Hks]. apply rbind_Ok_inv in Hr as (g1 & E & Hr). destruct (state_step _ _ _ _ _ _ _ _ _ _ Hst Hk E) as (F1 & a1 & -> & H1).
    cbn [rbind]. by apply (IH F1 (filed_step Fl s c)).
  Qed.
  Lemma loop_ok body es : forall F Fl g a s its vis g' k, state F Fl g a s its es (loop_calls body vis es) -> loop_keeps K body s vis es ->
    rfold step (loop_calls body vis es) g = Ok g' -> length es < k ->
    exists a', x_loop k body (XG g a) its vis = Ok (vis ++ es, XG g' a').
  Proof.
    induction es as [|e es IH]; intros F Fl g a s its vis g' k Hst Hk Hr Hlen; (destruct k as [|k]; [cbn in Hlen; lia|]); cbn [x_loop x_a].
    - destruct (xs_next_ok _ _ _ _ _ _ (st_left _ _ _ _ _ _ _ _ Hst)) as [its' ->]. cbn [rbind fst]. injection Hr as <-. exists a. by rewrite app_nil_r.
    - destruct (xs_next_ok _ _ _ _ _ _ (st_left _ _ _ _ _ _ _ _ Hst)) as (its' & -> & Hl & Hi). cbn [rbind fst snd].
      destruct Hk as [Hk1 Hk2]. cbn [loop_calls] in Hr, Hst. rewrite rfold_app in Hr. apply rbind_Ok_inv in Hr as (g1 & E1 & Hr).
      destruct Hst as [H1 H2 H3 H4 H5 H6].
      assert (state F Fl g a s its' es (body (vis ++ [e]) ++ loop_calls body (vis ++ [e]) es)) as Hst' by (split; try done; intros o Ho; by apply H4, Hi).
      destruct (state_calls _ _ _ _ _ _ _ _ _ _ Hst' Hk1 E1) as (F1 & Fl1 & a1 & -> & Hst1). cbn [rbind].
      destruct (IH F1 Fl1 g1 a1 _ its' (vis ++ [e]) g' k Hst1 Hk2 Hr) as [a' Ha']; [cbn in Hlen; lia|]. exists a'. rewrite Ha'. by rewrite <-app_assoc.
  Qed.
End loops.

(** ** Whole loops *)
(** what [x_iterator] yields if nothing changes *)
Definition owner_query (g : graph) (o : owner) (q : query) : res (list nat) :=
  match q with
  | QAll => em_iter (fuel g) (links_at g o) (em_at g o)
  | QLabel l => em_iter_label (lbl g) (fuel g) (links_at g o) (em_at g o) l
  | QAny ord1 ord2 =>
      match o with
      | OAll => em_iter_any (lbl g) (fuel g) (links_at g o) (em_at g o) ord1
      | OIn _ => em_any_or_all g (links_at g o) (em_at g o) ord1
      | OOut _ => em_any_or_all g (links_at g o) (em_at g o) ord2
      end
  end.
Lemma x_iterator_ok F g a o q key X es : sim F g a -> em_rep key (links_at g o) (em_at g o) X -> owner_query g o q = Ok es ->
  exists it, x_iterator (XG g a) o q = Ok it /\ apart F (F o) o (st_h a) /\ remains (F o) (st_h a) (st_links a o) it es.
Proof.
  intros (H1 & H2 & H3 & _) Hrep Hq. rewrite H3. specialize (H1 o).
  assert (apart F (F o) o (st_h a)) as Ha. { split; [apply (xr_lt _ _ _ _ H1)|]. intros o' x Hne Hx Hx'. apply Hne. by eapply H2. }
  assert (forall k, em_iter k (links_at g o) (em_at g o) = Ok es ->
    exists it, x_iter (st_h a) (st_map a o) = Ok it /\ remains (F o) (st_h a) (links_at g o) it es) as I1 by (intros k; by eapply x_iter_ok).
  assert (forall k ord, em_iter_any (lbl g) k (links_at g o) (em_at g o) ord = Ok es ->
    exists it, x_iter_any (lbl g) (st_h a) (st_map a o) ord = Ok it /\ remains (F o) (st_h a) (links_at g o) it es) as I2 by (intros k ord; by eapply x_iter_any_ok).
  cut (exists it, x_iterator (XG g a) o q = Ok it /\ remains (F o) (st_h a) (links_at g o) it es); [intros (it & ? & ?); by exists it|].
  unfold x_iterator, owner_query in *. cbn [x_a x_g].
  destruct q as [|l|ord1 ord2]; [by eapply I1|by eapply x_iter_label_ok|]. unfold em_any_or_all in Hq. destruct o as [|n|n]; [by eapply I2|..];
    (case_decide; [by eapply I1|by eapply I2]).
Qed.
(** a new iterator goes for labels that the query selects only *)
Lemma x_iterator_picks x o q it : x_iterator x o q = Ok it -> query_ok q -> o <> OAll -> picks (selects q) it.
Proof.
  intros H Hq Ho l Hl.
  unfold x_iterator in H. destruct q as [|l'|ord1 ord2]; [by destruct Hl|..].
  - unfold x_iter_label in H. case_decide; [by injection H as <-|]. cbv zeta in H.
    assert (forall p, avoids match lab_get (st_h (x_a x)) (xm_lab (st_map (x_a x) o)) l' with None => XEmpty | Some el => XList (p el) end l) as Hx
      by (intros p; by destruct (lab_get _ _ _)).
    case_decide; [|injection H as <-; apply (Hx (fun el => ll_head (elem_list (st_h (x_a x)) el)))].
    destruct (xm_only _); [|done]. case_decide; injection H as <-; [done|apply (Hx (fun el => ll_head (elem_list (st_h (x_a x)) el)))].
  - cbn in Hl. assert (forall ord, (l ∈ ord -> l ∈ ord1) -> x_iter_any (lbl (x_g x)) (st_h (x_a x)) (st_map (x_a x) o) ord = Ok it -> avoids it l) as Hx.
    { intros ord Hin E. unfold x_iter_any in E. case_decide; [by injection E as <-|]. case_decide.
      - destruct (xm_only _); [|done]. case_decide; by injection E as <-.
      - destruct (xm_lab _); injection E as <-; cbn; naive_solver. }
    destruct Hq as (S & [_ S1] & [_ S2]).
    destruct o as [|n|n]; [done|..]; (case_decide as D; [exfalso; apply Hl; left|eapply Hx; [|exact H]; rewrite S1, ?S2; naive_solver]).
    + subst ord2. destruct ord1 as [|y ord1]; [done|]. exfalso. assert (y ∈ []) as Hy by (apply S2, S1; left). by apply elem_of_nil in Hy.
    + done.
Qed.
(** the edges yielded are in the map *)
Lemma owner_query_in g o q key X es : owner_query g o q = Ok es -> query_ok q -> em_rep key (links_at g o) (em_at g o) X -> size X <= fuel g ->
  forall e, e ∈ es -> e ∈ X /\ (o <> OAll -> (forall x, x ∈ X -> key x = lbl g x) -> selects q (lbl g e)).
Proof.
  intros Hq Hok Hrep Hf.
  assert (em_iter (fuel g) (links_at g o) (em_at g o) = Ok es -> forall e, e ∈ es -> e ∈ X) as I1.
  { intros H e He. destruct (em_iter_ok _ _ _ _ _ Hrep Hf) as (xs & E & _ & Hx). assert (xs = es) as -> by congruence. by apply Hx. }
  assert (forall ord, NoDup ord -> em_iter_any (lbl g) (fuel g) (links_at g o) (em_at g o) ord = Ok es ->
    forall e, e ∈ es -> e ∈ X /\ ((forall x, x ∈ X -> key x = lbl g x) -> lbl g e ∈ ord)) as I2.
  { intros ord Hnd H e He. destruct (em_iter_any_ok (lbl g) _ _ _ _ _ ord Hrep Hf Hnd) as (xs & E & _ & Hx). assert (xs = es) as -> by congruence.
    apply Hx in He as [HX Hin]. split; [done|]. intros Hk. revert Hin. case_decide; [done|]. by rewrite Hk. }
  unfold owner_query in Hq. destruct q as [|l|ord1 ord2]; [intros e He; split; [by apply I1|done]| |].
  - intros e He. destruct (em_iter_label_ok (lbl g) _ _ _ _ _ l Hrep Hf) as (xs & E & _ & Hx). assert (xs = es) as -> by congruence.
    apply Hx in He as [HX Hl]. split; [done|]. intros _ Hk. cbn. revert Hl. case_decide; [done|]. by rewrite Hk.
  - destruct Hok as (S & [N1 S1] & [N2 S2]). unfold em_any_or_all in Hq. cbn [selects]. destruct o as [|n|n].
    + intros e He. destruct (I2 _ N1 Hq e He). by split.
    + case_decide as D.
      * intros e He. split; [by apply I1|]. intros _ _. left. destruct ord1 as [|y ord1]; [done|]. subst ord2.
        exfalso. assert (y ∈ []) as Hy by (apply S2, S1; left). by apply elem_of_nil in Hy.
      * intros e He. destruct (I2 _ N2 Hq e He) as [HX Hl]. split; [done|]. intros _ Hk. right. by apply S1, S2, Hl.
    + case_decide as D.
      * intros e He. split; [by apply I1|]. intros _ _. by left.
      * intros e He. destruct (I2 _ N1 Hq e He) as [HX Hl]. split; [done|]. intros _ Hk. right. by apply Hl.
Qed.
Definition owners (n : nat) (d : dir) : list owner :=
  match d with Incoming => [OIn n] | Outgoing => [OOut n] | AnyDir => [OIn n; OOut n] end.
Lemma node_query_owners g n d q es : is_Some (g_nodes g !! n) -> node_query g n d q = Ok es ->
  exists ess, rmap (fun o => owner_query g o q) (owners n d) = Ok ess /\ es = concat ess.
Proof.
  intros [nd Hn] H. unfold node_query, node_edges, node_edges_label, node_edges_any, deref_node in H. rewrite Hn in H. cbn [rbind] in H.
  unfold owner_query. destruct d; cbn [owners rmap em_at links_at]; rewrite Hn.
  1,3: destruct q; rewrite H; (eexists; split; [done|]; cbn; by rewrite app_nil_r).
  destruct q; apply rbind_Ok_inv in H as (i & Ei & H); apply rbind_Ok_inv in H as (o & Eo & [= <-]); rewrite Ei, Eo;
    (eexists; split; [done|]; cbn; by rewrite app_nil_r).
Qed.
Lemma node_keeps_owner n d q s r c o : node_keeps n d q s r c -> o ∈ owners n d -> owner_keeps (selects q) o s r c.
Proof.
  intros Hk Ho.
  assert (o = OIn n /\ d <> Outgoing \/ o = OOut n /\ d <> Incoming) as Ho'.
  { destruct d; cbn in Ho; rewrite ?elem_of_cons, elem_of_nil in Ho; naive_solver. } clear Ho.
  destruct c as [labels p ord|from to label p|m labels ordo ordn|m k v|m k|m|m ord|e label|e k v|e k|e|k it|k it]; cbn in *; try done.
  - split; [by destruct Ho' as [[-> _]|[-> _]]|]. intros Hx Hl. destruct (Hk Hl) as [K1 K2].
    destruct Ho' as [[-> Hd]|[-> Hd]]; destruct Hx as [[= ->]|[= ->]]; naive_solver.
  - intros x ed Hx He. specialize (Hk x Hx). unfold incident in Hk. rewrite He in Hk. naive_solver.
  - intros x ed Hx He. specialize (Hk x Hx). unfold incident in Hk. rewrite He in Hk. naive_solver.
  - intros ed He Hl Hx. assert (at_node s n d e) as Ha.
    { destruct Ho' as [[-> Hd]|[-> Hd]]; destruct Hx as [[= ->]|[= ->]].
      - assert (is_in s (e_to ed) e) as Hi by (by exists ed). destruct d; cbn; [done|by left|done].
      - assert (is_out s (e_from ed) e) as Hi by (by exists ed). destruct d; cbn; [done|by right|done]. }
    destruct (Hk Ha) as [(x & Hx1 & Hx2)|?]; [congruence|done].
Qed.
Lemma graph_keeps_owner s r c o : graph_keeps s r c -> o ∈ [OAll] -> owner_keeps (fun _ => True) o s r c.
Proof.
  intros Hk ->%elem_of_list_singleton. destruct c; cbn in *; try done; [..|by intros ? ? ? [?|?]].
  - intros x ed Hx He. specialize (Hk x Hx). unfold incident in Hk. rewrite He in Hk. naive_solver.
  - intros x ed Hx He. specialize (Hk x Hx). unfold incident in Hk. rewrite He in Hk. naive_solver.
Qed.
Lemma valid_from_app s ops1 ops2 : valid_from s (ops1 ++ ops2) <-> valid_from s ops1 /\ valid_from (fold_left sstep ops1 s) ops2.
Proof. revert s. induction ops1 as [|o ops1 IH]; intros s; cbn; [naive_solver|]. rewrite IH. naive_solver. Qed.
Lemma safe_from_app F s ops1 ops2 : edge_list_safe_from F s (ops1 ++ ops2) <->
  edge_list_safe_from F s ops1 /\ edge_list_safe_from (filed_run F s ops1) (fold_left sstep ops1 s) ops2.
Proof. revert F s. induction ops1 as [|o ops1 IH]; intros F s; cbn; [naive_solver|]. rewrite IH. naive_solver. Qed.

Lemma iterators_ok sel F g a C q os : forall ess, sim F g a -> query_ok q ->
  (forall o, o ∈ os -> exists key X, em_rep key (links_at g o) (em_at g o) X /\ size X <= fuel g /\
    (forall e, e ∈ X -> own C o e) /\ (o <> OAll -> forall x, x ∈ X -> key x = lbl g x)) ->
  (forall x xd, C !! x = Some xd -> lbl g x = e_label xd) -> 
  (forall o, o ∈ os -> o <> OAll /\ (forall l, sel l <-> selects q l) \/ o = OAll /\ forall l, sel l) ->
  rmap (fun o => owner_query g o q) os = Ok ess ->
  exists its, rmap (fun o => let! it := x_iterator (XG g a) o q in Ok (o, it)) os = Ok its /\ to_yield sel F a C its (concat ess) /\ its.*1 = os.
Proof.
  induction os as [|o os IH]; intros ess Hs Hq Hrep HC Hsel He; cbn [rmap] in *.
  { injection He as <-. exists []. split; [done|]. split; [|done]. exists []. split; [done|constructor]. }
  apply rbind_Ok_inv in He as (es & E1 & He). apply rbind_Ok_inv in He as (ess' & E2 & [= <-]).
  destruct (Hrep o) as (key & X & Hr & Hsz & Hown & Hkey); [left|].
  destruct (x_iterator_ok F g a o q key X es Hs Hr E1) as (it & Eit & A & R). rewrite Eit. cbn [rbind].
  destruct (IH ess' Hs Hq) as (its & -> & (rs & Hrs & Hl) & Hos); [intros; apply Hrep; by right|done|intros; apply Hsel; by right|done|]. cbn [rbind].
  eexists. split; [done|]. split; [|cbn; by rewrite Hos]. exists (es :: rs). split; [cbn; by rewrite Hrs|]. constructor; [|done]. cbn [fst snd].
  split; [split; [|by exists (F o)]|].
  - intros l Hnl. destruct (Hsel o ltac:(left)) as [[Hne Hx]|[_ Hx]]; [|by destruct Hnl]. eapply x_iterator_picks; try done. by rewrite <-Hx.
  - intros x Hx. destruct (owner_query_in _ _ _ _ _ _ E1 Hq Hr Hsz x Hx) as [HX HS]. split; [by apply Hown|]. intros Hne xd Hxd.
    destruct (Hsel o ltac:(left)) as [[_ Hs']|[? _]]; [|done]. apply Hs'. rewrite <-(HC _ _ Hxd). apply HS; [done|by apply Hkey].
Qed.
Theorem node_loop_ok ops body n d q g g' es k :
  valid_history (ops ++ loop_calls body [] es) -> run ops = Ok g -> run (ops ++ loop_calls body [] es) = Ok g' ->
  live_node (srun ops) n -> query_ok q -> node_query g n d q = Ok es ->
  loop_keeps (node_keeps n d q) body (srun ops) [] es -> length es < k ->
  exists a', (let! x := x_run ops in node_loop k body x n d q) = Ok (es, XG g' a').
Proof.
  intros Hv Hr Hr' Hn Hq Hes Hk Hlen. unfold valid_history in Hv. apply valid_from_app in Hv as [Hv Hv2].
  unfold run in Hr'. rewrite rfold_app in Hr'. change (rfold step ops new_graph) with (run ops) in Hr'. rewrite Hr in Hr'. cbn [rbind] in Hr'.
  destruct (x_run_sim ops g Hv Hr) as (F & a & -> & Hs). cbn [rbind]. pose proof (core_run _ _ Hv Hr) as Hc. pose proof Hc as ((Hadj & _) & _).
  destruct (Hadj n) as (nd & Hnd & Hi & Ho); [by apply elem_of_dom|].
  destruct (node_query_owners g n d q es (ex_intro _ _ Hnd) Hes) as (ess & Hq1 & Hq2).
  assert (forall x xd, s_edges (srun ops) !! x = Some xd -> lbl g x = e_label xd) as HC.
  { intros x xd Hx. destruct Hc as ((_ & HC) & _). apply HC in Hx as (Hx & _). unfold lbl. by rewrite Hx. }
  destruct (iterators_ok (selects q) F g a (s_edges (srun ops)) q (owners n d) ess Hs Hq) as (its & E & Hl & Hos); [|done| |done|].
  { assert (forall X, (forall e, e ∈ X -> live_edge (srun ops) e) -> size X <= fuel g) as Hsz by (intros; by eapply core_edges_size).
    intros o Hin. assert (o = OIn n \/ o = OOut n) as [-> | ->].
    { destruct d; cbn in Hin; rewrite ?elem_of_cons, elem_of_nil in Hin; naive_solver. }
    - exists (lbl g), (ins (s_edges (srun ops)) n). cbn [links_at em_at own]. rewrite Hnd. split; [done|]. split; [|done].
      apply Hsz. intros e He. apply elem_of_ins in He as (x & ? & _). by exists x.
    - exists (lbl g), (outs (s_edges (srun ops)) n). cbn [links_at em_at own]. rewrite Hnd. split; [done|]. split; [|done].
      apply Hsz. intros e He. apply elem_of_outs in He as (x & ? & _). by exists x. }
  { intros o Hin. left. split; [|done]. intros ->. revert Hin. destruct d; cbn; rewrite ?elem_of_cons, elem_of_nil; naive_solver. }
  unfold node_loop, x_node_edges. change (match d with Incoming => _ | AnyDir => _ | Outgoing => _ end) with (owners n d).
  rewrite E. cbn [rbind]. rewrite <-Hq2 in Hl.
  destruct (loop_ok (node_keeps n d q) (selects q) (owners n d) (fun s r c o => node_keeps_owner n d q s r c o) body es F ∅ g a (srun ops) its [] g' k) as [a' Ha]; try done.
  - split; try done; [by rewrite Hos|]. destruct d; cbn; rewrite ?elem_of_cons, elem_of_nil; naive_solver.
  - by exists a'.
Qed.
Theorem graph_loop_ok ops body q g g' es k :
  valid_history (ops ++ loop_calls body [] es) -> run ops = Ok g -> run (ops ++ loop_calls body [] es) = Ok g' ->
  edge_list_safe (ops ++ loop_calls body [] es) -> query_ok q -> (forall l, q <> QLabel l) -> graph_query g q = Ok es ->
  loop_keeps graph_keeps body (srun ops) [] es -> length es < k ->
  exists a', (let! x := x_run ops in graph_loop k body x q) = Ok (es, XG g' a').
Proof.
  intros Hv Hr Hr' Hsafe Hq Hnl Hes Hk Hlen. unfold valid_history in Hv. apply valid_from_app in Hv as [Hv Hv2].
  unfold edge_list_safe in Hsafe. apply safe_from_app in Hsafe as [Hsafe Hsafe2].
  unfold run in Hr'. rewrite rfold_app in Hr'. change (rfold step ops new_graph) with (run ops) in Hr'. rewrite Hr in Hr'. cbn [rbind] in Hr'.
  destruct (x_run_sim ops g Hv Hr) as (F & a & -> & Hs). cbn [rbind]. pose proof (core_run _ _ Hv Hr) as Hc.
  pose proof (all_inv_run _ _ Hv Hr Hsafe) as Hall.
  assert (owner_query g OAll q = Ok es) as Hoq by (destruct q; [done|by edestruct Hnl|done]).
  destruct (iterators_ok (fun _ => True) F g a (s_edges (srun ops)) q [OAll] [es] Hs Hq) as (its & E & Hl & Hos).
  { intros o ->%elem_of_list_singleton. exists (key_of (filed ops)), (dom (s_edges (srun ops))). split; [apply Hall|]. split; [|done].
    eapply core_edges_size; [done|]. intros e He. by apply elem_of_dom in He. }
  { intros x xd Hx. destruct Hc as ((_ & HC) & _). apply HC in Hx as (Hx & _). unfold lbl. by rewrite Hx. }
  { intros o ->%elem_of_list_singleton. by right. }
  { cbn [rmap]. rewrite Hoq. done. }
  cbn in Hl. rewrite app_nil_r in Hl. unfold graph_loop, x_graph_edges. cbn [rmap] in E.
  apply rbind_Ok_inv in E as (p & E & [= <-]). apply rbind_Ok_inv in E as (it & E & [= <-]). rewrite E. cbn [rbind].
  destruct (loop_ok graph_keeps (fun _ => True) [OAll] (fun s r c o => graph_keeps_owner s r c o) body es F (filed ops) g a (srun ops) [(OAll, it)] [] g' k) as [a' Ha]; try done.
  by exists a'.
Qed.

(** ** Removing what is visited *)
Lemma last_snoc {A} (l : list A) x : last (l ++ [x]) = Some x.
Proof. apply last_snoc. Qed.
Lemma removing_calls es : forall vis, loop_calls removing vis es = map ORemoveEdge es.
Proof. induction es as [|e es IH]; intros vis; [done|]. cbn [loop_calls map]. unfold removing at 1. rewrite last_snoc. cbn. by rewrite IH. Qed.
Lemma removing_keeps n d q es : NoDup es -> forall s vis, loop_keeps (node_keeps n d q) removing s vis es.
Proof.
  induction es as [|e es IH]; intros Hnd s vis; [done|]. apply NoDup_cons in Hnd as [Hni Hnd]. cbn [loop_keeps]. split; [|by apply IH].
  unfold removing. rewrite last_snoc. done.
Qed.
Lemma removing_keeps_all es : NoDup es -> forall s vis, loop_keeps graph_keeps removing s vis es.
Proof.
  induction es as [|e es IH]; intros Hnd s vis; [done|]. apply NoDup_cons in Hnd as [Hni Hnd]. cbn [loop_keeps]. split; [|by apply IH].
  unfold removing. rewrite last_snoc. done.
Qed.
Lemma removing_runs es : forall g s, core g s -> NoDup es -> (forall e, e ∈ es -> live_edge s e) ->
  valid_from s (map ORemoveEdge es) /\ exists g', rfold step (map ORemoveEdge es) g = Ok g'.
Proof.
  induction es as [|e es IH]; intros g s Hc Hnd Hl; cbn [map valid_from rfold]; [by eauto|]. apply NoDup_cons in Hnd as [Hni Hnd].
  pose proof (Hl e ltac:(left)) as [ed Hed]. pose proof Hc as (Hadj & _). destruct (disconnect_ok _ _ _ _ _ Hadj Hed) as (g1 & E1 & _).
  assert (step g (ORemoveEdge e) = Ok (all_remove g1 e)) as Hst by (cbn; unfold remove_edge; by rewrite E1).
  assert (valid s (ORemoveEdge e)) as Hv by (by exists ed). pose proof (core_step _ _ _ _ Hst Hv Hc) as Hc1.
  destruct (IH _ _ Hc1 Hnd) as [H1 H2].
  { intros x Hx. unfold live_edge. cbn. rewrite lookup_delete_ne by (intros ->; done). apply Hl. by right. }
  split; [done|]. by rewrite Hst.
Qed.
Lemma removed_edges es : forall s, s_edges (fold_left sstep (map ORemoveEdge es) s) = filter (fun p => p.1 ∉ es) (s_edges s).
Proof.
  induction es as [|e es IH]; intros s; cbn [map fold_left].
  - apply map_eq. intros x. apply option_eq. intros y. rewrite map_filter_lookup_Some. cbn. set_solver.
  - rewrite IH. apply map_eq. intros x. apply option_eq. intros y. rewrite !map_filter_lookup_Some. cbn. rewrite lookup_delete_Some. set_solver.
Qed.
Lemma node_query_live ops g n d q es : valid_history ops -> run ops = Ok g -> live_node (srun ops) n -> query_ok q ->
  node_query g n d q = Ok es -> forall e, e ∈ es -> live_edge (srun ops) e.
Proof.
  intros Hv Hr Hn Hq Hes. pose proof (core_run _ _ Hv Hr) as Hc. pose proof Hc as ((Hadj & _) & _).
  destruct (Hadj n) as (nd & Hnd & Hi & Ho); [by apply elem_of_dom|].
  destruct (node_query_owners g n d q es (ex_intro _ _ Hnd) Hes) as (ess & Hq1 & ->).
  apply rmap_Forall2 in Hq1. apply Forall2_within in Hq1. intros e He. apply elem_of_list_In, in_concat in He as (z & Hz & He). apply elem_of_list_In in Hz, He.
  apply elem_of_list_lookup in Hz as [i Hz]. destruct (Forall2_lookup_r _ _ _ _ _ Hq1 Hz) as (o & _ & Hoq & Ho' & _).
  assert (forall X, (forall e, e ∈ X -> live_edge (srun ops) e) -> size X <= fuel g) as Hsz by (intros; by eapply core_edges_size).
  assert (o = OIn n \/ o = OOut n) as [-> | ->].
  { destruct d; cbn in Ho'; rewrite ?elem_of_cons, elem_of_nil in Ho'; naive_solver. }
  - assert (forall e, e ∈ ins (s_edges (srun ops)) n -> live_edge (srun ops) e) as Hx by (intros x (xd & ? & _)%elem_of_ins; by exists xd).
    apply Hx. eapply owner_query_in; [exact Hoq|done| |by apply Hsz|done]. cbn [links_at em_at]. rewrite Hnd. exact Hi.
  - assert (forall e, e ∈ outs (s_edges (srun ops)) n -> live_edge (srun ops) e) as Hx by (intros x (xd & ? & _)%elem_of_outs; by exists xd).
    apply Hx. eapply owner_query_in; [exact Hoq|done| |by apply Hsz|done]. cbn [links_at em_at]. rewrite Hnd. exact Ho.
Qed.
Theorem removing_ok ops g n d q es k :
  valid_history ops -> run ops = Ok g -> live_node (srun ops) n -> query_ok q -> node_query g n d q = Ok es -> NoDup es -> length es < k ->
  exists g' a', (let! x := x_run ops in node_loop k removing x n d q) = Ok (es, XG g' a') /\
    valid_history (ops ++ map ORemoveEdge es) /\ run (ops ++ map ORemoveEdge es) = Ok g' /\
    forall e, live_edge (srun (ops ++ map ORemoveEdge es)) e <-> live_edge (srun ops) e /\ e ∉ es.
Proof.
  intros Hv Hr Hn Hq Hes Hnd Hk. pose proof (core_run _ _ Hv Hr) as Hc.
  destruct (removing_runs es g (srun ops) Hc Hnd) as [Hv2 [g' Hr2]]; [by eapply node_query_live|].
  assert (valid_history (ops ++ map ORemoveEdge es)) as Hv' by (unfold valid_history; by apply valid_from_app).
  assert (run (ops ++ map ORemoveEdge es) = Ok g') as Hr'.
  { unfold run. rewrite rfold_app. change (rfold step ops new_graph) with (run ops). by rewrite Hr. }
  destruct (node_loop_ok ops removing n d q g g' es k) as [a' Ha]; try done; try (by rewrite removing_calls).
  { by apply removing_keeps. }
  exists g', a'. split; [done|]. split; [done|]. split; [done|]. intros e. unfold live_edge, srun. rewrite fold_left_app. fold (srun ops).
  rewrite removed_edges. unfold is_Some. setoid_rewrite map_filter_lookup_Some. cbn. naive_solver.
Qed.

(** ** Nodes *)
Lemma nl_remove_next l L n l' L' y : nl_remove l L n = (l', L') -> el_prev (lk L n) <> Some y -> el_next (lk L' y) = el_next (lk L y).
Proof.
  unfold nl_remove. intros H Hy. destruct (el_prev (lk L n)) as [p|] eqn:Ep.
  - assert (y <> p) as Hne by congruence.
    destruct (el_next (lk (set_next L p (el_next (lk L n))) n)) as [q|]; injection H as <- <-.
    + rewrite lk_set_prev. case_decide as D; cbn; rewrite lk_set_next; case_decide; congruence.
    + rewrite lk_set_next. by rewrite decide_False.
  - destruct (el_next (lk L n)) as [q|]; injection H as <- <-; [|done]. rewrite lk_set_prev. case_decide; cbn; congruence.
Qed.
(** the list of nodes in the state of a history, and what a call does to it *)
Lemma n_step_chain ops g c g' p r : valid_history (ops ++ [c]) -> run ops = Ok g -> step g c = Ok g' -> node_list_safe (ops ++ [c]) ->
  nodes_keep (srun ops) r c -> chain (g_nl g) p r -> chain (g_nl g') p r.
Proof.
  intros Hv Hr Hs Hsafe Hk Hch. apply valid_history_snoc in Hv as [Hv Hc]. apply node_list_safe_snoc in Hsafe as [Hsafe Hok].
  pose proof (step_list _ _ _ Hs) as Hl. destruct (nodes_inv_run _ _ Hv Hr Hsafe) as (xs & [[_ Hin] _] & (_ & _ & Hi & _)).
  destruct c as [| | | | | |m ord| | | | | |]; cbn in Hk; try done; try (injection Hl as _ ->; exact Hch).
  eapply chain_frame; [|exact Hch]. intros y Hy. symmetry in Hl. eapply nl_remove_next; [exact Hl|]. intros Hp.
  destruct Hc as (sn & Hsn & _). assert (m ∈ xs) as Hm by (apply Hin; by exists sn). apply elem_of_list_split in Hm as (a & b & ->).
  destruct (Hi a m b eq_refl) as (_ & H1 & H2 & _). destruct (decide (a = [])) as [->|Ha].
  - rewrite H2 in Hp; [done|done|]. exact Hok.
  - rewrite H1 in Hp by done. destruct a as [|y' a _] using rev_ind; [done|]. rewrite list.last_snoc in Hp. injection Hp as ->.
    destruct (Hi a y (m :: b)) as (Hny & _); [by rewrite <-app_assoc|]. apply Hk. eapply chain_closed; [exact Hch|exact Hy|exact Hny].
Qed.
Lemma safe_nodes_app x s ops1 ops2 : node_list_safe_from x s (ops1 ++ ops2) -> node_list_safe_from x s ops1.
Proof. revert x s. induction ops1 as [|o ops1 IH]; intros x s; cbn; [done|]. intros [H1 H2]. split; [done|]. by apply IH. Qed.
Lemma n_calls_chain calls : forall ops g g' p r, valid_history (ops ++ calls) -> run ops = Ok g -> rfold step calls g = Ok g' -> node_list_safe (ops ++ calls) ->
  calls_keep nodes_keep (srun ops) r calls -> chain (g_nl g) p r -> chain (g_nl g') p r.
Proof.
  induction calls as [|c calls IH]; intros ops g g' p r Hv Hr Hs Hsafe Hk Hch; cbn [rfold] in Hs; [by injection Hs as <-|].
  apply rbind_Ok_inv in Hs as (g1 & Hc & Hs). destruct Hk as [Hk1 Hk2].
  assert (ops ++ c :: calls = (ops ++ [c]) ++ calls) as E by (by rewrite <-app_assoc). rewrite E in Hv, Hsafe.
  assert (valid_history (ops ++ [c])) as Hv1 by (unfold valid_history in Hv; by apply valid_from_app in Hv as [? _]).
  assert (node_list_safe (ops ++ [c])) as Hs1 by (by eapply safe_nodes_app).
  apply (IH (ops ++ [c]) g1); try done.
  - rewrite run_snoc, Hr. done.
  - by rewrite srun_snoc.
  - by eapply n_step_chain.
Qed.
Theorem nodes_loop_ok ops body g g' ns k :
  valid_history (ops ++ loop_calls body [] ns) -> run ops = Ok g -> run (ops ++ loop_calls body [] ns) = Ok g' ->
  node_list_safe (ops ++ loop_calls body [] ns) -> get_nodes g = Ok ns ->
  loop_keeps nodes_keep body (srun ops) [] ns -> length ns < k ->
  nodes_loop k body g = Ok (ns, g').
Proof.
  intros Hv Hr Hr' Hsafe Hns Hk Hlen. apply chain_walk in Hns. unfold nodes_loop.
  unfold run in Hr'. rewrite rfold_app in Hr'. change (rfold step ops new_graph) with (run ops) in Hr'. rewrite Hr in Hr'. cbn [rbind] in Hr'.
  assert (forall ns vis p ops g k, chain (g_nl g) p ns -> valid_history (ops ++ loop_calls body vis ns) -> run ops = Ok g ->
    rfold step (loop_calls body vis ns) g = Ok g' -> node_list_safe (ops ++ loop_calls body vis ns) -> loop_keeps nodes_keep body (srun ops) vis ns ->
    length ns < k -> n_loop k body g p vis = Ok (vis ++ ns, g')) as H; [|by eapply (H ns [] _ ops g)].
  clear. induction ns as [|n ns IH]; intros vis p ops g k Hch Hv Hr Hr' Hsafe Hk Hlen; (destruct k as [|k]; [cbn in Hlen; lia|]); cbn [n_loop].
  - cbn in Hch. subst p. injection Hr' as <-. by rewrite app_nil_r.
  - destruct Hch as [-> Hch]. cbn [loop_calls] in *. rewrite app_assoc in Hv, Hsafe. rewrite rfold_app in Hr'. apply rbind_Ok_inv in Hr' as (g1 & E1 & Hr').
    rewrite E1. cbn [rbind]. destruct Hk as [Hk1 Hk2]. rewrite (IH _ _ (ops ++ body (vis ++ [n])) g1).
    + by rewrite <-app_assoc.
    + eapply (n_calls_chain _ ops g); try done.
      * unfold valid_history in Hv. by apply valid_from_app in Hv as [? _].
      * by eapply safe_nodes_app.
    + done.
    + unfold run. rewrite rfold_app. change (rfold step ops new_graph) with (run ops). by rewrite Hr.
    + done.
    + done.
    + unfold srun. rewrite fold_left_app. done.
    + cbn in Hlen. lia.
Qed.
Lemma chain_snoc L L' zs t n : forall p, chain L p (zs ++ [t]) -> (forall y, y ∈ zs -> el_next (lk L' y) = el_next (lk L y)) ->
  el_next (lk L' t) = Some n -> el_next (lk L' n) = None -> chain L' p (zs ++ [t; n]).
Proof.
  induction zs as [|z zs IH]; intros p Hch Hz Ht Hn; cbn [app chain] in *.
  - destruct Hch as [-> _]. by rewrite Ht.
  - destruct Hch as [-> Hch]. split; [done|]. rewrite Hz by left. apply IH; try done. intros y Hy. apply Hz. by right.
Qed.
Lemma creating_never_ends k : forall g xs v t, chain (g_nl g) (Some v) (v :: xs ++ [t]) -> ll_tail (g_list g) = Some t ->
  (forall y, y ∈ v :: xs ++ [t] -> y < g_next g) -> (forall y, g_next g <= y -> lk (g_nl g) y = Elem None None) -> NoDup (v :: xs ++ [t]) ->
  forall vis, n_loop k creating g (Some v) vis = Diverge.
Proof.
  induction k as [|k IH]; intros g xs v t Hch Ht Hlt Hfr Hnd vis; [done|]. cbn [n_loop]. unfold creating at 1.
  destruct Hch as [_ Hch]. set (n := g_next g) in *.
  assert (exists g', step g (ONewNode ∅ ∅ []) = Ok g') as [g' Hs].
  { cbn [step]. unfold new_node, nl_add, ixs_add. rewrite map_to_list_empty. by eexists. }
  cbn [rfold]. rewrite Hs. cbn [rbind]. pose proof (step_list _ _ _ Hs) as Hl. cbn in Hl. fold n in Hl.
  assert (g_next g' = S n) as Hn. { apply step_next in Hs as (cr & Hcr & [[-> ?]|[_ ?]]); [|done]. simpl in Hcr. by inv_ok Hcr. }
  unfold nl_add in Hl. rewrite Ht in Hl. injection Hl as El EL. apply NoDup_cons in Hnd as [Hv Hnd].
  assert (t < n) as Htn by (apply Hlt; clear; set_solver).
  assert (forall y, y <> t -> y <> n -> lk (g_nl g') y = lk (g_nl g) y) as Hoth.
  { intros y H1 H2. rewrite EL, lk_set_next, decide_False, lk_set_prev, decide_False by done. done. }
  assert (chain (g_nl g') (el_next (lk (g_nl g) v)) (xs ++ [t; n])) as Hch'.
  { eapply chain_snoc; [exact Hch|..].
    - intros y Hy. rewrite Hoth; [done|..].
      + intros ->. apply NoDup_app in Hnd as (_ & Hd & _). apply (Hd t Hy). left.
      + assert (y < n) by (apply Hlt; clear -Hy; set_solver). lia.
    - by rewrite EL, lk_set_next, decide_True.
    - rewrite EL, lk_set_next, decide_False by lia. rewrite lk_set_prev, decide_True by done. cbn. by rewrite Hfr. }
  assert (xs ++ [t; n] = (xs ++ [t]) ++ [n]) as E by (by rewrite <-app_assoc). rewrite E in Hch'.
  assert (NoDup ((xs ++ [t]) ++ [n])) as Hnd'.
  { apply NoDup_app. split; [done|]. split; [|apply NoDup_singleton]. intros y Hy ->%elem_of_list_singleton.
    assert (n < n) by (apply Hlt; by right). lia. }
  assert (forall y, y ∈ (xs ++ [t]) ++ [n] -> y < g_next g') as Hlt'.
  { intros y [Hy|Hy%elem_of_list_singleton]%elem_of_app; [|subst y; lia]. assert (y < n) by (apply Hlt; by right). lia. }
  destruct (xs ++ [t]) as [|w ys] eqn:Exs; [by destruct xs|]. cbn [app] in *. destruct Hch' as [Hw Hch']. rewrite Hw.
  apply (IH g' ys w n); try done.
  - by rewrite El.
  - intros y Hy. rewrite Hn in Hy. rewrite Hoth by lia. apply Hfr. lia.
Qed.
Theorem creating_nodes ops g ns k : valid_history ops -> run ops = Ok g -> node_list_safe (ops ++ creating []) -> get_nodes g = Ok ns ->
  2 <= length ns -> nodes_loop k creating g = Diverge.
Proof.
  intros Hv Hr Hsafe Hns Hlen. apply node_list_safe_snoc in Hsafe as [Hsafe Hok]. destruct (nodes_inv_run _ _ Hv Hr Hsafe) as (xs & Hl & Hi).
  pose proof (nl_inv_walk _ _ _ _ _ (fuel g) Hi) as Hw. unfold get_nodes in Hns. rewrite Hw in Hns by (eapply nodes_fuel; [by eapply core_run|done]).
  injection Hns as <-. pose proof Hi as (Hnd & Hh & Hs & _ & Ht & Hlt & Hfr).
  destruct xs as [|v xs]; [cbn in Hlen; lia|]. destruct xs as [|t xs _] using rev_ind; [cbn in Hlen; lia|].
  unfold nodes_loop. rewrite Hh. cbn [head]. apply (creating_never_ends k g xs v t); try done.
  - apply chain_walk with (f := fuel g). change (Some v) with (head (v :: xs ++ [t])). rewrite <-Hh. apply Hw. eapply nodes_fuel; [by eapply core_run|done].
  - assert (ng_stale (ng_run ng_init s_empty ops) = false) as Hst.
    { destruct (ng_stale _) eqn:E; [|done]. cbn in Hok. specialize (Hok E). destruct Hl as [[_ Hin] _].
      assert (live_node (srun ops) v) as [x Hx] by (apply Hin; left). unfold srun in Hx. rewrite Hok in Hx. by rewrite lookup_empty in Hx. }
    rewrite Hst in Ht. rewrite Ht. change (v :: xs ++ [t]) with ((v :: xs) ++ [t]). apply list.last_snoc.
Qed.
