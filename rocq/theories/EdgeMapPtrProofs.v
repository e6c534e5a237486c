(** The edge maps of EdgeMapPtr.v behave as those of EdgeMap.v. *)
From Verif Require Import Base Assoc Value Links EdgeMap Graph AssocProofs LinksProofs EdgeMapPtr.

(** [h'] extends [h] and differs from it only at the addresses [F] *)
Definition within (F : gset nat) (h h' : xheap) : Prop :=
  xh_next h <= xh_next h' /\
  forall x, x ∉ F -> x < xh_next h ->
    xh_lists h' !! x = xh_lists h !! x /\ xh_in h' !! x = xh_in h !! x /\
    xh_ell h' !! x = xh_ell h !! x /\ xh_maps h' !! x = xh_maps h !! x.
Lemma within_refl F h : within F h h.
Proof. split; [done|]. done. Qed.
Lemma within_trans F F' h1 h2 h3 : within F h1 h2 -> within F' h2 h3 -> 
  (forall x, x ∈ F' -> x ∈ F \/ xh_next h1 <= x) -> within F h1 h3.
Proof.
  intros [N1 W1] [N2 W2] HF. split; [lia|]. intros x Hx Hl.
  destruct (W1 x Hx Hl) as (?&?&?&?). destruct (W2 x) as (?&?&?&?); [|lia|].
  - intros Hx'. destruct (HF x Hx'); [done|lia].
  - repeat split; congruence.
Qed.

(** the list object [a] and the map object [c] store the buckets [b], on the addresses [F] *)
Record bkrel (h : xheap) (a c : nat) (F : gset nat) (b : list (string * llist)) (els : list nat) (mp : gmap string nat) : Prop := BkRel {
  br_list : xh_lists h !! a = Some els;
  br_map : xh_maps h !! c = Some mp;
  br_in : a ∈ F /\ c ∈ F /\ forall el, el ∈ els -> el ∈ F;
  br_nd : NoDup els;
  br_keys : NoDup b.*1;
  br_elems : Forall2 (fun el p => xh_in h !! el = Some a /\ xh_ell h !! el = Some p.2 /\ mp !! p.1 = Some el) els b;
  br_dom : forall l el, mp !! l = Some el -> l ∈ b.*1
}.
Lemma bkrel_frame h h' a c F G b els mp : bkrel h a c F b els mp -> within G h h' -> (forall x, x ∈ F -> x ∉ G /\ x < xh_next h) ->
  bkrel h' a c F b els mp.
Proof.
  intros [H1 H2 (Ha & Hc & He) H4 H5 H6 H7] [_ W] HF.
  assert (forall x, x ∈ F -> xh_lists h' !! x = xh_lists h !! x /\ xh_in h' !! x = xh_in h !! x /\
    xh_ell h' !! x = xh_ell h !! x /\ xh_maps h' !! x = xh_maps h !! x) as W' by (intros x Hx; apply W; by apply HF).
  split; try done.
  - rewrite <-H1. by apply W'.
  - rewrite <-H2. by apply W'.
  - clear - H6 W' He. induction H6 as [|el p els b (A & B & C) H IH]; constructor.
    + destruct (W' el) as (_ & -> & -> & _); [apply He; left|]. done.
    + apply IH. intros x Hx. apply He. by right.
Qed.
Lemma bkrel_get h a c F b els mp l : bkrel h a c F b els mp ->
  match mp !! l with
  | Some el => exists b1 ll b2 e1 e2, b = b1 ++ (l, ll) :: b2 /\ els = e1 ++ el :: e2 /\ length e1 = length b1 /\
      xh_ell h !! el = Some ll /\ xh_in h !! el = Some a /\ l ∉ b1.*1 /\ l ∉ b2.*1 /\ el ∉ e1 /\ el ∉ e2
  | None => l ∉ b.*1
  end.
Proof.
  intros [H1 H2 _ H4 H5 H6 H7]. destruct (mp !! l) as [el|] eqn:E.
  - pose proof (H7 _ _ E) as Hin. apply elem_of_list_fmap in Hin as ([l' ll] & Hl & Hin). cbn [fst] in Hl. subst l'.
    apply elem_of_list_split in Hin as (b1 & b2 & ->).
    apply Forall2_app_inv_r in H6 as (e1 & e2' & F1 & F2 & ->).
    apply Forall2_cons_inv_r in F2 as (el' & e2 & (A & B & C) & F2 & ->). cbn [fst snd] in *.
    assert (el' = el) as -> by congruence.
    exists b1, ll, b2, e1, e2. split_and!; try done.
    + by apply Forall2_length in F1.
    + rewrite fmap_app, fmap_cons in H5. apply NoDup_app in H5 as (_ & H5 & _). intros Hx. apply (H5 l Hx). left.
    + rewrite fmap_app, fmap_cons in H5. apply NoDup_app in H5 as (_ & _ & H5). by apply NoDup_cons in H5 as [? _].
    + apply NoDup_app in H4 as (_ & H4 & _). intros Hx. apply (H4 el Hx). left.
    + apply NoDup_app in H4 as (_ & _ & H4). by apply NoDup_cons in H4 as [? _].
  - intros Hin. apply elem_of_list_fmap in Hin as ([l' ll] & Hl & Hin). cbn [fst] in Hl. subst l'.
    apply elem_of_list_split in Hin as (b1 & b2 & ->).
    apply Forall2_app_inv_r in H6 as (e1 & e2' & F1 & F2 & ->).
    apply Forall2_cons_inv_r in F2 as (el' & e2 & (A & B & C) & F2 & ->). cbn [fst snd] in *. congruence.
Qed.

Lemma bk_get_mid (b1 b2 : list (string * llist)) l ll : l ∉ b1.*1 -> bk_get (b1 ++ (l, ll) :: b2) l = Some ll.
Proof.
  induction b1 as [|[k y] b1 IH]; cbn; intros H; [by rewrite decide_True|].
  rewrite decide_False by set_solver. apply IH. set_solver.
Qed.
Lemma bk_set_mid (b1 b2 : list (string * llist)) l ll x : l ∉ b1.*1 -> bk_set (b1 ++ (l, ll) :: b2) l x = b1 ++ (l, x) :: b2.
Proof.
  induction b1 as [|[k y] b1 IH]; cbn; intros H; [by rewrite decide_True|].
  rewrite decide_False by set_solver. f_equal. apply IH. set_solver.
Qed.
Lemma bk_del_mid (b1 b2 : list (string * llist)) l ll : l ∉ b1.*1 -> bk_del (b1 ++ (l, ll) :: b2) l = b1 ++ b2.
Proof.
  induction b1 as [|[k y] b1 IH]; cbn; intros H; [by rewrite decide_True|].
  rewrite decide_False by set_solver. f_equal. apply IH. set_solver.
Qed.
Lemma bk_get_none (b : list (string * llist)) l : l ∉ b.*1 -> bk_get b l = None.
Proof.
  induction b as [|[k y] b IH]; cbn; intros H; [done|]. rewrite decide_False by set_solver. apply IH. set_solver.
Qed.
(** the elements other than [el] *)
Lemma elems_same (I I' : gmap nat nat) (E E' : gmap nat llist) (a : nat) els (b : list (string * llist)) (mp mp' : gmap string nat) :
  (forall el, el ∈ els -> I' !! el = I !! el /\ E' !! el = E !! el) ->
  (forall l, l ∈ b.*1 -> mp' !! l = mp !! l) ->
  Forall2 (fun el p => I !! el = Some a /\ E !! el = Some p.2 /\ mp !! p.1 = Some el) els b ->
  Forall2 (fun el p => I' !! el = Some a /\ E' !! el = Some p.2 /\ mp' !! p.1 = Some el) els b.
Proof.
  intros He Hl H. revert He Hl. induction H as [|el p els b (A & B & C) H IH]; intros He Hl; constructor.
  - destruct (He el) as [-> ->]; [left|]. rewrite Hl by left. done.
  - apply IH; intros x Hx; [apply He|apply Hl]; by right.
Qed.

Lemma set_elem_rel h a c F b1 l ll b2 els e1 el e2 mp ll' :
  bkrel h a c F (b1 ++ (l, ll) :: b2) els mp -> els = e1 ++ el :: e2 -> length e1 = length b1 -> el ∉ e1 -> el ∉ e2 ->
  bkrel (set_elem h el ll') a c F (b1 ++ (l, ll') :: b2) els mp /\ within F h (set_elem h el ll').
Proof.
  intros [H1 H2 H3 H4 H5 H6 H7] -> Hlen Hn1 Hn2. split; [split; try done|].
  - by rewrite !fmap_app, !fmap_cons in *.
  - apply Forall2_app_inv in H6 as [Fa Fb]; [|done]. inversion Fb as [|? ? ? ? (A & B & C) Fb']; subst. cbn [fst snd] in *.
    apply Forall2_app; [|constructor].
    + eapply elems_same; [|done|exact Fa]. intros x Hx. cbn. split; [done|]. rewrite lookup_insert_ne; [done|]. by intros <-.
    + cbn. rewrite lookup_insert. done.
    + eapply elems_same; [|done|exact Fb']. intros x Hx. cbn. split; [done|]. rewrite lookup_insert_ne; [done|]. by intros <-.
  - intros k x Hk. rewrite fmap_app, fmap_cons. specialize (H7 k x Hk). by rewrite fmap_app, fmap_cons in H7.
  - split; [done|]. intros x Hx _. cbn. split_and!; try done. rewrite lookup_insert_ne; [done|]. intros <-. apply Hx, H3. set_solver.
Qed.

Section with_labels.
  Variable lbl : nat -> string.
  Lemma x_do_add_sim h m a c F b els mp L e b' L' :
    xm_list m = Some a -> xm_lab m = Some c -> bkrel h a c F b els mp -> (forall x, x ∈ F -> x < xh_next h) ->
    do_add lbl b L e = (b', L') ->
    exists h' F' els' mp', x_do_add lbl h m L e = Ok (h', L') /\ bkrel h' a c F' b' els' mp' /\ within F h h' /\
      (forall x, x ∈ F' <-> x ∈ F \/ xh_next h <= x < xh_next h').
  Proof.
    intros Ha Hc Hb HF Hadd. unfold x_do_add, do_add in *. rewrite Hc. cbn [lab_get]. rewrite (br_map _ _ _ _ _ _ _ Hb).
    pose proof (bkrel_get _ _ _ _ _ _ _ (lbl e) Hb) as Hget. destruct (mp !! lbl e) as [el|] eqn:Emp.
    - destruct Hget as (b1 & ll & b2 & e1 & e2 & Eb & Ee & Hlen & Hell & Hin & Hl1 & Hl2 & Hn1 & Hn2).
      rewrite Eb, bk_get_mid in Hadd by done. unfold elem_list. rewrite Hell. change (default ll_empty (Some ll)) with ll.
      destruct (el_add ll L e) as [l1 L1]. injection Hadd as <- <-. rewrite bk_set_mid by done. rewrite Eb in Hb.
      destruct (set_elem_rel _ _ _ _ _ _ _ _ _ _ _ _ _ l1 Hb Ee Hlen Hn1 Hn2) as [A B].
      exists (set_elem h el l1), F, els, mp. split_and!; try done. intros x. cbn [set_elem xh_next]. split; [by left|]. intros [?|?]; [done|lia].
    - rewrite bk_get_none in Hadd by done. rewrite Ha. destruct (el_add ll_empty L e) as [l1 L1]. injection Hadd as <- <-.
      destruct Hb as [H1 H2 H3 H4 H5 H6 H7].
      assert (xh_next h ∉ F) as Hfresh by (intros Hx; apply HF in Hx; lia).
      eexists _, (F ∪ {[xh_next h]}), (els ++ [xh_next h]), (<[lbl e := xh_next h]> mp). split_and!; [done| | |].
      + split; cbn [xh_lists xh_maps xh_in xh_ell].
        * by rewrite lookup_alter, H1.
        * by rewrite lookup_alter, H2.
        * clear - H3. set_solver.
        * apply NoDup_app. split; [done|]. split; [|apply NoDup_singleton]. intros x Hx Hx'%elem_of_list_singleton. subst x. apply Hfresh. by apply H3.
        * rewrite fmap_app. apply NoDup_app. split; [done|]. split; [|apply NoDup_singleton]. intros x Hx Hx'%elem_of_list_singleton. cbn in Hx'. by subst x.
        * apply Forall2_app; [|constructor; [|constructor]].
          -- eapply elems_same; [| |exact H6].
             ++ intros x Hx. cbn. rewrite !lookup_insert_ne; [done|..]; intros Heq; apply Hfresh; rewrite Heq; by apply H3.
             ++ intros l Hl. rewrite lookup_insert_ne; [done|]. by intros <-.
          -- cbn. rewrite !lookup_insert. done.
        * intros l x. rewrite fmap_app, elem_of_app. destruct (decide (l = lbl e)) as [->|Hne].
          -- intros _. right. cbn. left.
          -- rewrite lookup_insert_ne by done. intros Hx. left. by eapply H7.
      + split; [cbn; lia|]. intros x Hx Hlt. cbn. destruct H3 as (Ha' & Hc' & _).
        rewrite lookup_alter_ne, !lookup_insert_ne, lookup_alter_ne; [done|..]; try lia; intros <-; done.
      + intros x. cbn [xh_next]. rewrite elem_of_union, elem_of_singleton. split.
        * intros [?| ->]; [by left|right; lia].
        * intros [?|?]; [by left|right; lia].
  Qed.

  Definition total (b : list (string * llist)) : Z := foldr (fun p z => (ll_n p.2 + z)%Z) 0%Z b.
  Definition counts (b : list (string * llist)) : Prop := Forall (fun p => 0 < ll_n p.2)%Z b.
  Arguments total : simpl never.
  Lemma total_app b1 b2 : total (b1 ++ b2) = (total b1 + total b2)%Z.
  Proof. induction b1 as [|p b1 IH]; [done|]. unfold total in *. cbn in *. rewrite IH. lia. Qed.
  Lemma total_cons p b : total (p :: b) = (ll_n p.2 + total b)%Z.
  Proof. done. Qed.
  Lemma total_nonneg b : counts b -> (Z.of_nat (length b) <= total b)%Z.
  Proof. induction 1 as [|p b H _ IH]; unfold total in *; cbn in *; lia. Qed.
  Lemma do_add_total b L e b' L' : do_add lbl b L e = (b', L') -> NoDup b.*1 -> counts b -> counts b' /\ total b' = (total b + 1)%Z.
  Proof.
    unfold do_add. intros Hadd Hnd Hc. destruct (bk_get b (lbl e)) as [ll|] eqn:Hg.
    - destruct (el_add ll L e) as [l1 L1] eqn:Ea. injection Hadd as <- <-. apply bk_get_Some_elem in Hg.
      apply elem_of_list_split in Hg as (b1 & b2 & ->). rewrite fmap_app, fmap_cons in Hnd.
      assert (lbl e ∉ b1.*1) as Hn1. { apply NoDup_app in Hnd as (_ & Hnd & _). intros Hx. apply (Hnd _ Hx). left. }
      rewrite bk_set_mid by done. apply Forall_app in Hc as [C1 C2]. inversion C2 as [|? ? Cl C3]; subst. cbn [snd] in Cl.
      assert (ll_n l1 = ll_n ll + 1)%Z as El by (unfold el_add in Ea; by injection Ea as <- _).
      split; [apply Forall_app; split; [done|constructor; [cbn; lia|done]]|]. rewrite !total_app, !total_cons. cbn [snd]. lia.
    - destruct (el_add ll_empty L e) as [l1 L1] eqn:Ea. injection Hadd as <- <-.
      assert (ll_n l1 = 1)%Z as El by (unfold el_add in Ea; by injection Ea as <- _).
      split; [apply Forall_app; split; [done|constructor; [cbn; lia|constructor]]|]. rewrite total_app, total_cons. cbn. unfold total at 2. cbn. lia.
  Qed.

  (** [m] on the heap [h] stores what the edge map [em] of EdgeMap.v stores, on the addresses [F] *)
  Record xrel (h : xheap) (m : xmap) (em : emap) (F : gset nat) : Prop := XRel {
    xr_n : xm_n m = em_n em;
    xr_only : xm_only m = em_only em;
    xr_counts : counts (em_bkts em);
    xr_total : (2 <= em_n em -> total (em_bkts em) = em_n em)%Z;
    xr_small : (em_n em <= 1)%Z -> em_bkts em = [];
    xr_ge : (0 <= em_n em)%Z;
    xr_lt : forall x, x ∈ F -> x < xh_next h;
    xr_obj : (xm_list m = None /\ xm_lab m = None /\ (em_n em <= 1)%Z) \/
      exists a c els mp, xm_list m = Some a /\ xm_lab m = Some c /\ bkrel h a c F (em_bkts em) els mp
  }.
  Lemma xrel_empty h : xrel h xm_empty em_empty ∅.
  Proof. split; cbn; try done; [constructor|]. by left. Qed.
  Lemma xrel_frame h h' m em F G : xrel h m em F -> within G h h' -> (forall x, x ∈ F -> x ∉ G) -> xrel h' m em F.
  Proof.
    intros [H1 H2 H3 H4 H5 H6 H7 H8] W Hd. split; try done.
    - intros x Hx. destruct W as [W _]. specialize (H7 x Hx). lia.
    - destruct H8 as [?|(a & c & els & mp & E1 & E2 & Hb)]; [by left|]. right. exists a, c, els, mp. split; [done|]. split; [done|].
      eapply bkrel_frame; [done|done|]. intros x Hx. split; [by apply Hd|by apply H7].
  Qed.
  Definition grown (F F' : gset nat) (h h' : xheap) : Prop := forall x, x ∈ F' <-> x ∈ F \/ xh_next h <= x < xh_next h'.
  Lemma grown_refl F h : grown F F h h.
  Proof. intros x. split; [by left|]. intros [?|?]; [done|lia]. Qed.
  Lemma grown_trans F1 F2 F3 h1 h2 h3 : xh_next h1 <= xh_next h2 -> xh_next h2 <= xh_next h3 ->
    grown F1 F2 h1 h2 -> grown F2 F3 h2 h3 -> grown F1 F3 h1 h3.
  Proof.
    intros N1 N2 G1 G2 x. rewrite (G2 x), (G1 x). split.
    - intros [[?|?]|?]; [by left|right; lia|right; lia].
    - intros [?|?]; [by left; left|]. destruct (decide (x < xh_next h2)); [left; right; lia|right; lia].
  Qed.

  Lemma lazy_init_rel h m F h1 m1 : x_lazy_init h m = (h1, m1) -> (forall x, x ∈ F -> x < xh_next h) ->
    exists F1, bkrel h1 (xh_next h) (S (xh_next h)) F1 [] [] ∅ /\ within F h h1 /\ grown F F1 h h1 /\ xh_next h1 = S (S (xh_next h)) /\
      m1 = XM (Some (xh_next h)) (Some (S (xh_next h))) (xm_only m) (xm_n m).
  Proof.
    unfold x_lazy_init. intros [= <- <-] HF. exists (F ∪ {[xh_next h; S (xh_next h)]}). split_and!; try done.
    - split; cbn; try constructor; try set_solver.
      + by rewrite lookup_insert.
      + by rewrite lookup_insert.
    - split; [cbn; lia|]. intros x Hx Hl. cbn. rewrite !lookup_insert_ne by lia. done.
    - intros x. cbn [xh_next]. rewrite elem_of_union, elem_of_union, !elem_of_singleton. split; [intros [?|[->| ->]]; [by left|right; lia..]|].
      intros [?|?]; [by left|right]. lia.
  Qed.

  Lemma x_add_sim h m em F L e em' L' : xrel h m em F -> em_add lbl em L e = Ok (em', L') ->
    exists h' m' F', x_add lbl h m L e = Ok (h', m', L') /\ xrel h' m' em' F' /\ within F h h' /\ grown F F' h h'.
  Proof.
    intros [H1 H2 H3 H4 H5 H6 H7 H8]. unfold em_add, x_add. rewrite H1. case_decide as D0.
    { intros [= <- <-]. eexists h, _, F. split; [done|]. split; [|split; [apply within_refl|apply grown_refl]].
      rewrite H5 in * by lia. split; cbn; try done; try lia. destruct H8 as [(?&?&?)|(a & c & els & mp & E1 & E2 & Hb)]; [by left|]. right. by exists a, c, els, mp. }
    case_decide as D1.
    - destruct (x_lazy_init h m) as [h1 m1] eqn:El. destruct (lazy_init_rel _ _ F _ _ El H7) as (F1 & Hb1 & W1 & G1 & Hn1 & ->).
      cbn [xm_only xm_list xm_lab xm_n]. rewrite H2. destruct (em_only em) as [o|]; [|done].
      destruct (do_add lbl [] L o) as [b1 L1] eqn:Ea. destruct (do_add lbl b1 L1 e) as [b2 L2] eqn:Eb. intros [= <- <-].
      assert (Hlt1 : forall x, x ∈ F1 -> x < xh_next h1). { intros x Hx%G1. destruct Hx as [Hx|Hx]; [specialize (H7 x Hx)|]; lia. }
      destruct (x_do_add_sim h1 (XM (Some (xh_next h)) (Some (S (xh_next h))) (Some o) (xm_n m)) (xh_next h) (S (xh_next h)) F1 [] [] ∅ L o b1 L1 eq_refl eq_refl Hb1 Hlt1 Ea)
        as (h2 & F2 & els2 & mp2 & E2 & Hb2 & W2 & G2).
      assert (Hlt2 : forall x, x ∈ F2 -> x < xh_next h2). { intros x Hx%G2. destruct W2 as [W2 _]. destruct Hx as [Hx|Hx]; [specialize (Hlt1 x Hx)|]; lia. }
      rewrite H1 in *.
      destruct (x_do_add_sim h2 (XM (Some (xh_next h)) (Some (S (xh_next h))) None (em_n em)) (xh_next h) (S (xh_next h)) F2 b1 els2 mp2 L1 e b2 L2 eq_refl eq_refl Hb2 Hlt2 Eb)
        as (h3 & F3 & els3 & mp3 & E3 & Hb3 & W3 & G3).
      cbn [rbind fst snd]. rewrite E2. cbn [rbind fst snd]. rewrite E3. cbn [rbind fst snd].
      eexists h3, _, F3. split; [done|].
      destruct (do_add_total _ _ _ _ _ Ea) as [C1 T1]; [constructor|constructor|].
      destruct (do_add_total _ _ _ _ _ Eb) as [C2 T2]; [apply Hb2|done|].
      pose proof (proj1 W1). pose proof (proj1 W2). pose proof (proj1 W3).
      split; [|split].
      + split; cbn; try done; try lia.
        * intros _. rewrite T2, T1. done.
        * intros x Hx%G3. destruct Hx as [Hx|Hx]; [specialize (Hlt2 x Hx)|]; lia.
        * right. by exists (xh_next h), (S (xh_next h)), els3, mp3.
      + eapply within_trans; [exact W1|eapply within_trans; [exact W2|exact W3|]|].
        * intros x Hx%G2. destruct Hx; [by left|right; lia].
        * intros x Hx%G1. destruct Hx; [by left|right; lia].
      + eapply grown_trans; [|..|exact G1|eapply grown_trans; [|..|exact G2|exact G3]]; lia.
    - destruct (do_add lbl (em_bkts em) L e) as [b1 L1] eqn:Ea. intros [= <- <-].
      destruct H8 as [(?&?&?)|(a & c & els & mp & E1 & E2 & Hb)]; [lia|].
      destruct (x_do_add_sim h m a c F _ els mp L e b1 L1 E1 E2 Hb H7 Ea) as (h' & F' & els' & mp' & E & Hb' & W & G).
      rewrite E. cbn [rbind fst snd]. eexists h', _, F'. split; [done|]. split; [|done].
      destruct (do_add_total _ _ _ _ _ Ea) as [C1 T1]; [apply Hb|done|]. pose proof (proj1 W).
      split; cbn; try done; try lia.
      + intros x Hx%G. destruct Hx as [Hx|Hx]; [specialize (H7 x Hx)|]; lia.
      + right. exists a, c, els', mp'. done.
  Qed.

  Lemma filter_ne_mid (e1 e2 : list nat) el : el ∉ e1 -> el ∉ e2 -> filter (fun x => x <> el) (e1 ++ el :: e2) = e1 ++ e2.
  Proof.
    intros A B. rewrite filter_app, filter_cons_False by naive_solver.
    assert (forall l : list nat, el ∉ l -> filter (fun x => x <> el) l = l) as Hf.
    { induction l as [|x l IH]; intros Hx; [done|]. rewrite filter_cons_True by set_solver. f_equal. apply IH. set_solver. }
    by rewrite !Hf.
  Qed.
  Lemma del_elem_rel h a c F b1 l ll b2 els e1 el e2 mp :
    bkrel h a c F (b1 ++ (l, ll) :: b2) els mp -> els = e1 ++ el :: e2 -> length e1 = length b1 -> el ∉ e1 -> el ∉ e2 ->
    bkrel (lab_delete (list_remove h a el) c l) a c F (b1 ++ b2) (e1 ++ e2) (delete l mp) /\ within F h (lab_delete (list_remove h a el) c l).
  Proof.
    intros [H1 H2 H3 H4 H5 H6 H7] -> Hlen Hn1 Hn2. rewrite fmap_app, fmap_cons in H5. cbn [fst] in H5.
    assert (l ∉ b1.*1 /\ l ∉ b2.*1) as [Hl1 Hl2].
    { apply NoDup_app in H5 as (_ & A & B). apply NoDup_cons in B as [B _]. split; [|done]. intros Hx. apply (A l Hx). left. }
    split; [split|]; cbn [lab_delete list_remove xh_lists xh_maps xh_in xh_ell].
    - rewrite lookup_alter, H1. cbn. by rewrite filter_ne_mid.
    - by rewrite lookup_alter, H2.
    - destruct H3 as (?&?&H3). split; [done|]. split; [done|]. intros x Hx. apply H3. clear - Hx. set_solver.
    - rewrite <-Permutation_middle in H4. by apply NoDup_cons in H4 as [_ ?].
    - rewrite fmap_app. apply NoDup_app in H5 as (A & B & C). apply NoDup_cons in C as [C D]. apply NoDup_app. split; [done|]. split; [|done].
      intros x Hx Hx'. apply (B x Hx). by right.
    - apply Forall2_app_inv in H6 as [Fa Fb]; [|done]. inversion Fb as [|? ? ? ? _ Fb']; subst.
      apply Forall2_app; (eapply elems_same; [| |eassumption]).
      + intros x Hx. cbn. rewrite lookup_delete_ne; [done|]. by intros <-.
      + intros k Hk. rewrite lookup_delete_ne; [done|]. by intros <-.
      + intros x Hx. cbn. rewrite lookup_delete_ne; [done|]. by intros <-.
      + intros k Hk. rewrite lookup_delete_ne; [done|]. by intros <-.
    - intros k x [Hne Hk]%lookup_delete_Some. apply H7 in Hk. rewrite fmap_app, fmap_cons in Hk. cbn [fst] in Hk. rewrite fmap_app. clear - Hk Hne. set_solver.
    - split; [done|]. intros x Hx _. cbn. destruct H3 as (Ha & Hc & He).
      rewrite !lookup_alter_ne, lookup_delete_ne; [done|..]; intros <-; apply Hx; try done. apply He. set_solver.
  Qed.

  Lemma x_remove_sim h m em F L e em' L' : xrel h m em F -> em_remove lbl em L e = (em', L') ->
    exists h' m' F', x_remove lbl h m L e = (h', m', L') /\ xrel h' m' em' F' /\ within F h h' /\ grown F F' h h'.
  Proof.
    intros HX. pose proof HX as [H1 H2 H3 H4 H5 H6 H7 H8]. unfold em_remove, x_remove. rewrite H1. case_decide as D0.
    { intros [= <- <-]. exists h, m, F. split; [done|]. split; [done|]. split; [apply within_refl|apply grown_refl]. }
    case_decide as D1.
    { rewrite H2. case_decide as Do; intros [= <- <-]; [eexists h, _, F|exists h, m, F]; (split; [done|]);
        (split; [|split; [apply within_refl|apply grown_refl]]); [|done].
      rewrite H5 in * by lia. split; cbn; try done; try lia.
      destruct H8 as [(?&?&?)|(a & c & els & mp & E1 & E2 & Hb)]; [left; split_and!; [done|done|lia]|]. right. by exists a, c, els, mp. }
    destruct H8 as [(?&?&?)|(a & c & els & mp & E1 & E2 & Hb)]; [lia|].
    rewrite E1, E2. cbn [lab_get]. rewrite (br_map _ _ _ _ _ _ _ Hb).
    pose proof (bkrel_get _ _ _ _ _ _ _ (lbl e) Hb) as Hget. destruct (mp !! lbl e) as [el|] eqn:Emp.
    2:{ rewrite bk_get_none by done. intros [= <- <-]. exists h, m, F. split; [done|]. split; [done|]. split; [apply within_refl|apply grown_refl]. }
    destruct Hget as (b1 & ll & b2 & e1 & e2 & Eb & Ee & Hlen & Hell & Hin & Hl1 & Hl2 & Hn1 & Hn2).
    rewrite Eb in *. rewrite bk_get_mid by done.
    unfold elem_list at 1. rewrite Hell. change (default ll_empty (Some ll)) with ll.
    pose proof (el_remove_n ll L e) as Hrn. destruct (el_remove ll L e) as [l1 L1]. cbn [fst] in Hrn. cbv zeta. rewrite bk_set_mid, bk_del_mid by done.
    destruct (set_elem_rel _ _ _ _ _ _ _ _ _ _ _ _ _ l1 Hb Ee Hlen Hn1 Hn2) as [Hb1 W1].
    apply Forall_app in H3 as [C1 C2]. inversion C2 as [|? ? Cl C3]; subst x l. cbn [snd] in Cl.
    rewrite total_app, total_cons in H4. cbn [snd] in H4.
    (* the buckets after removal, and the heap *)
    set (b := if decide (ll_n l1 = 0)%Z then b1 ++ b2 else b1 ++ (lbl e, l1) :: b2).
    set (h2 := if decide (ll_n l1 = 0)%Z then lab_delete (list_remove (set_elem h el l1) a el) c (lbl e) else set_elem h el l1).
    assert (exists els' mp', bkrel h2 a c F b els' mp' /\ within F h h2 /\ counts b /\ total b = (em_n em - 1)%Z /\ xh_next h2 = xh_next h)
      as (els' & mp' & Hb2 & W2 & C & T & Hn2').
    { unfold b, h2. destruct (decide (ll_n l1 = 0)%Z) as [Dz|Dz].
      - destruct (del_elem_rel _ _ _ _ _ _ _ _ _ _ _ _ _ Hb1 Ee Hlen Hn1 Hn2) as [Hb2 W2].
        exists (e1 ++ e2), (delete (lbl e) mp). split; [done|]. split; [eapply within_trans; [exact W1|exact W2|]; by left|].
        split; [by apply Forall_app|]. split; [|done]. rewrite total_app. lia.
      - exists els, mp. split; [done|]. split; [done|]. split; [apply Forall_app; split; [done|constructor; [cbn; lia|done]]|]. split; [|done].
        rewrite total_app, total_cons. cbn [snd]. lia. }
    clearbody b h2. case_decide as Dn.
    - intros [= <- <-]. destruct (x_lazy_init h2 m) as [h3 m3] eqn:El.
      assert (forall x, x ∈ F -> x < xh_next h2) as HF2 by (intros x Hx; rewrite Hn2'; by apply H7).
      destruct (lazy_init_rel _ _ F _ _ El HF2) as (F3 & Hb3 & W3 & G3 & Hn3 & ->). cbn [xm_list xm_lab].
      eexists h3, _, F3. split; [done|]. split; [|split].
      + (* exactly one bucket is left *)
        pose proof (total_nonneg b C) as Hlen'.
        assert (exists p, b = [p]) as [[k lk1] ->].
        { destruct b as [|p [|q b]]; [unfold total in T; cbn in T; lia|by exists p|cbn in Hlen'; lia]. }
        rewrite (br_map _ _ _ _ _ _ _ Hb2). change (default ∅ (Some mp')) with mp'.
        pose proof (br_elems _ _ _ _ _ _ _ Hb2) as Fe. apply Forall2_cons_inv_r in Fe as (el' & els'' & (A1 & A2 & A3) & Fe & ->).
        apply Forall2_nil_inv_r in Fe as ->. cbn [fst snd] in *.
        assert (mp' = {[k := el']}) as ->.
        { apply map_eq. intros l. destruct (decide (l = k)) as [->|Hne]; [by rewrite lookup_singleton|]. rewrite lookup_singleton_ne by done.
          destruct (mp' !! l) as [x|] eqn:Ex; [|done]. apply (br_dom _ _ _ _ _ _ _ Hb2) in Ex. cbn in Ex. set_solver. }
        rewrite map_to_list_singleton. cbn [fold_left snd]. unfold elem_list. rewrite A2. change (default ll_empty (Some lk1)) with lk1.
        split; cbn; try done; try lia; [constructor| |].
        * intros x Hx%G3. destruct Hx as [Hx|Hx]; [specialize (HF2 x Hx)|]; lia.
        * right. exists (xh_next h2), (S (xh_next h2)), [], ∅. done.
      + eapply within_trans; [exact W2|exact W3|]. by left.
      + intros x. rewrite (G3 x), Hn2'. done.
    - intros [= <- <-]. eexists h2, _, F. split; [done|]. split; [|split; [done|]].
      + split; cbn; try done; try lia.
        * intros x Hx. rewrite Hn2'. by apply H7.
        * right. by exists a, c, els', mp'.
      + intros x. rewrite Hn2'. split; [by left|]. intros [?|?]; [done|lia].
  Qed.
End with_labels.

Lemma x_slice_sim fuel h m em F L : xrel h m em F -> x_slice fuel h L m = em_iter fuel L em.
Proof.
  intros [H1 H2 H3 H4 H5 H6 H7 H8]. unfold x_slice, em_iter. rewrite H1, H2. case_decide; [done|]. case_decide; [done|].
  destruct H8 as [(?&?&?)|(a & c & els & mp & E1 & E2 & Hb)]; [lia|]. rewrite E1, (br_list _ _ _ _ _ _ _ Hb).
  change (default [] (Some els)) with els. f_equal. pose proof (br_elems _ _ _ _ _ _ _ Hb) as Fe.
  clear - Fe. induction Fe as [|el p els b (A & B & C) _ IH]; [done|]. cbn [rmap]. unfold elem_list at 1. rewrite B.
  change (default ll_empty (Some p.2)) with p.2. by rewrite IH.
Qed.
