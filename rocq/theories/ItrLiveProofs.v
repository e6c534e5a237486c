(** What is left of an iterator does not change when edges not left are removed. *)
From Verif Require Import Base Assoc Value Links EdgeMap Graph GraphSpec AssocProofs LinksProofs EdgeMapProofs CoreProofs.
From Verif Require Import EdgeMapPtr EdgeMapPtrProofs ItrLive.

(** following [next] from [p] visits [xs] *)
Fixpoint chain (L : links) (p : option nat) (xs : list nat) : Prop :=
  match xs with [] => p = None | x :: r => p = Some x /\ chain L (el_next (lk L x)) r end.
Lemma chain_fun L xs : forall p ys, chain L p xs -> chain L p ys -> xs = ys.
Proof.
  induction xs as [|x xs IH]; intros p [|y ys]; cbn; intros H1 H2; [done|destruct H2; congruence|destruct H1; congruence|].
  destruct H1 as [-> H1], H2 as [[= ->] H2]. f_equal. by eapply IH.
Qed.
Lemma chain_closed L xs x y : forall p, chain L p xs -> x ∈ xs -> el_next (lk L x) = Some y -> y ∈ xs.
Proof.
  induction xs as [|z xs IH]; intros p; [by intros _ ?%elem_of_nil|]. intros [-> H] Hx Hn.
  apply elem_of_cons in Hx as [->|Hx]; [|right; by eapply IH].
  destruct xs as [|w xs]; cbn in H; [congruence|]. destruct H as [H _]. assert (w = y) as -> by congruence. right. left.
Qed.
Lemma chain_frame L L' xs : forall p, (forall x, x ∈ xs -> el_next (lk L' x) = el_next (lk L x)) -> chain L p xs -> chain L' p xs.
Proof.
  induction xs as [|x xs IH]; intros p Hf; [done|]. intros [-> H]. split; [done|]. rewrite Hf by left. apply IH; [|done].
  intros y Hy. apply Hf. by right.
Qed.
Lemma chain_walk f L : forall p xs, walk f L p = Ok xs -> chain L p xs.
Proof.
  induction f as [|f IH]; intros [x|] xs; cbn [walk]; try done; try (by intros [= <-]).
  intros H. apply rbind_Ok_inv in H as (r & H & [= <-]). split; [done|]. by apply IH.
Qed.
Lemma chain_dll L l xs : is_dll L l xs -> chain L (ll_head l) xs.
Proof.
  intros (_ & -> & _ & _ & Hs). assert (forall b a, xs = a ++ b -> chain L (head b) b) as H; [|by apply (H xs [])].
  induction b as [|x b IH]; intros a Hx; [done|]. split; [done|]. rewrite (Hs _ _ _ Hx). cbn. apply (IH (a ++ [x])). by rewrite <-app_assoc.
Qed.

Section remains.
  Variable J : gset nat.
  (** the elements from [p] on hold the edges [zss]; all objects involved are in [J] *)
  Fixpoint elems (h : xheap) (L : links) (p : option nat) (zss : list (list nat)) : Prop :=
    match zss with
    | [] => p = None
    | zs :: r => exists el a, p = Some el /\ el ∈ J /\ xh_in h !! el = Some a /\ a ∈ J /\ zs <> [] /\
        chain L (ll_head (elem_list h el)) zs /\ elems h L (elem_next h el) r
    end.
  (** the edges with a label *)
  Definition labelled (h : xheap) (L : links) (lab : option nat) (s : string) (zs : list nat) : Prop :=
    match lab_get h lab s with None => zs = [] | Some el => el ∈ J /\ chain L (ll_head (elem_list h el)) zs end.
  Inductive remains (h : xheap) (L : links) : xitr -> list nat -> Prop :=
  | RemEmpty : remains h L XEmpty []
  | RemSingle e : remains h L (XSingle (Some e) false) [e]
  | RemOver e : remains h L (XSingle e true) []
  | RemList p xs : chain L p xs -> remains h L (XList p) xs
  | RemAll ln p xs zss : chain L p xs -> elems h L ln zss -> length zss <= xh_next h -> remains h L (XAll ln p) (xs ++ concat zss)
  | RemAny c strings cur xs zss : c ∈ J -> match cur with Some p => chain L p xs | None => xs = [] end ->
      Forall2 (labelled h L (Some c)) strings zss -> remains h L (XAny (Some c) strings cur) (xs ++ concat zss).

  Lemma all_next_ok h L zss : forall k ln p xs, chain L p xs -> elems h L ln zss -> length zss <= k -> length zss <= xh_next h ->
    match xs ++ concat zss with
    | [] => exists it, all_next k h L ln p = Ok (None, it)
    | x :: r => exists it, all_next k h L ln p = Ok (Some x, it) /\ remains h L it r
    end.
  Proof.
    induction zss as [|zs zss IH]; intros k ln p [|x xs] Hp He Hk Hn; cbn in Hp.
    - cbn in *. rewrite He, Hp. exists (XAll None None). by destruct k.
    - destruct Hp as [-> Hp]. cbn [app]. exists (XAll ln (el_next (lk L x))). split; [by destruct k|]. by constructor.
    - cbn in He. destruct He as (el & a & -> & _ & _ & _ & Hne & Hc & He). subst p. cbn in Hk, Hn. destruct k as [|k]; [lia|].
      cbn [all_next app concat]. specialize (IH k _ _ zs Hc He ltac:(lia) ltac:(lia)). done.
    - destruct Hp as [-> Hp]. cbn [app]. exists (XAll ln (el_next (lk L x))). split; [by destruct k|]. by constructor.
  Qed.
  Lemma any_next_ok h L c strings : forall zss, c ∈ J -> Forall2 (labelled h L (Some c)) strings zss ->
    match concat zss with
    | [] => exists it, any_next h L (Some c) strings = (None, it)
    | x :: r => exists it, any_next h L (Some c) strings = (Some x, it) /\ remains h L it r
    end.
  Proof.
    induction strings as [|s strings IH]; intros zss Hc H; [apply Forall2_nil_inv_l in H as ->; cbn; by eexists|].
    apply Forall2_cons_inv_l in H as (zs & zss' & Hs & H & ->). cbn [any_next concat]. specialize (IH zss' Hc H).
    unfold labelled in Hs. destruct (lab_get h (Some c) s) as [el|] eqn:El; [|by rewrite Hs].
    destruct Hs as [Hel Hs]. destruct zs as [|z zs]; cbn in Hs; [by rewrite Hs|]. destruct Hs as [-> Hs]. cbn [app].
    eexists. split; [done|]. by constructor.
  Qed.
  Lemma x_next_ok h L it r : remains h L it r ->
    match r with
    | [] => exists it', x_next h L it = Ok (None, it')
    | x :: r' => exists it', x_next h L it = Ok (Some x, it') /\ remains h L it' r'
    end.
  Proof.
    intros [|e|e|p xs Hp|ln p xs zss Hp He Hk|c strings cur xs zss Hc Hcur Hs]; cbn [x_next].
    - by exists XEmpty.
    - exists (XSingle (Some e) true). split; [done|]. constructor.
    - exists (XSingle e true). by destruct e.
    - destruct xs as [|x xs]; cbn in Hp; [subst p; by eexists|]. destruct Hp as [-> Hp]. eexists. split; [done|]. by constructor.
    - exact (all_next_ok h L zss (xh_next h) ln p xs Hp He Hk Hk).
    - destruct xs as [|x xs].
      + cbn [app]. pose proof (any_next_ok h L c strings zss Hc Hs) as Hn.
        assert ((match cur with Some (Some e) => Ok (Some e, XAny (Some c) strings (Some (el_next (lk L e)))) | _ => Ok (any_next h L (Some c) strings) end)
          = Ok (any_next h L (Some c) strings)) as ->. { destruct cur as [p|]; [|done]. cbn in Hcur. by subst p. }
        destruct (concat zss) as [|x rr]; destruct Hn as [it' Hn]; [exists it'; by rewrite Hn|]. destruct Hn as [Hn Hr]. exists it'. by rewrite Hn.
      + destruct cur as [p|]; [|done]. destruct Hcur as [-> Hcur]. cbn [app]. eexists. split; [done|]. by constructor.
  Qed.

  (** objects outside [J] and links of other edges do not matter *)
  Definition same_on (h h' : xheap) : Prop := xh_next h <= xh_next h' /\ forall x, x ∈ J ->
    xh_lists h' !! x = xh_lists h !! x /\ xh_in h' !! x = xh_in h !! x /\ xh_ell h' !! x = xh_ell h !! x /\ xh_maps h' !! x = xh_maps h !! x.
  Lemma remains_frame h h' L L' it r : remains h L it r -> same_on h h' ->
    (forall x, x ∈ r -> el_next (lk L' x) = el_next (lk L x)) -> remains h' L' it r.
  Proof.
    intros Hr [Hn Hs] Hl. destruct Hr as [|e|e|p xs Hp|ln p xs zss Hp He Hk|c strings cur xs zss Hc Hcur Hst]; try by constructor.
    - constructor. by eapply chain_frame.
    - constructor; [eapply chain_frame; [|done]; intros; apply Hl; set_solver| |lia]. clear Hk Hp.
      assert (forall x, x ∈ concat zss -> el_next (lk L' x) = el_next (lk L x)) as Hl' by (intros; apply Hl; set_solver). clear Hl xs p.
      revert ln He. induction zss as [|zs zss IH]; intros ln He; [done|]. destruct He as (el & a & -> & Hel & Hin & Ha & Hne & Hc & He).
      destruct (Hs el Hel) as (A1 & A2 & A3 & A4). destruct (Hs a Ha) as (B1 & B2 & B3 & B4).
      exists el, a. split; [done|]. split; [done|]. split; [congruence|]. split; [done|]. split; [done|]. cbn in Hl'. split.
      + unfold elem_list. rewrite A3. eapply chain_frame; [|done]. intros x Hx. apply Hl'. set_solver.
      + unfold elem_next in *. rewrite A2, Hin, B1. rewrite Hin in He. apply IH; [|done]. intros x Hx. apply Hl'. set_solver.
    - constructor; [done| |].
      + destruct cur; [|done]. eapply chain_frame; [|done]. intros; apply Hl; set_solver.
      + assert (forall x, x ∈ concat zss -> el_next (lk L' x) = el_next (lk L x)) as Hl' by (intros; apply Hl; set_solver). clear Hl Hcur xs.
        induction Hst as [|s zs strings zss Hz Hst IH]; constructor.
        * unfold labelled in *. cbn [lab_get] in *. destruct (Hs c Hc) as (_ & _ & _ & ->). destruct (xh_maps h !! c) as [mp|]; [|done].
          destruct (mp !! s) as [el|]; [|done]. destruct Hz as [Hel Hz]. split; [done|]. unfold elem_list. destruct (Hs el Hel) as (_ & _ & -> & _).
          eapply chain_frame; [|done]. intros x Hx. apply Hl'. cbn. set_solver.
        * apply IH. intros x Hx. apply Hl'. cbn. set_solver.
  Qed.
End remains.

Lemma succ_in_filter el el' els : el' <> el -> succ_in el' els <> Some el ->
  succ_in el' (filter (fun x => x <> el) els) = succ_in el' els.
Proof.
  intros Hne. induction els as [|x els IH]; intros Hs; [done|]. cbn [succ_in] in Hs. destruct (decide (x = el')) as [->|Hx].
  - rewrite filter_cons_True by done. cbn [succ_in]. rewrite !decide_True by done. destruct els as [|y els]; [done|]. cbn in Hs.
    rewrite filter_cons_True by congruence. done.
  - rewrite filter_cons. case_decide; cbn [succ_in]; [|rewrite (decide_False _ _ Hx)]; rewrite ?decide_False by done; by apply IH.
Qed.

(** what removing [e] from its bucket does to the links that lead forward *)
Lemma el_remove_next l L e l' L' ys x : el_remove l L e = (l', L') -> is_dll L l ys -> e ∈ ys -> x <> e ->
  el_next (lk L x) <> Some e -> el_next (lk L' x) = el_next (lk L x).
Proof.
  intros Hr (Hnd & _ & _ & _ & Hs) He Hx Hn. apply elem_of_list_split in He as (a & b & Hys).
  destruct (segs_ends _ _ _ _ _ Hnd Hs Hys) as (Hl & H1 & H2).
  rewrite (el_remove_lk _ _ _ _ _ x Hr) by (rewrite Hl; done). rewrite decide_False by done. rewrite Hl. cbn [el_prev el_next].
  case_decide as Hp; [|done]. exfalso. apply Hn. destruct a as [|z a' _] using rev_ind; [done|]. rewrite last_snoc in Hp. injection Hp as ->.
  rewrite (Hs a' x (e :: b)); [done|]. by rewrite Hys, <-app_assoc.
Qed.

Section remove.
  Variables (J : gset nat) (h h' : xheap) (L L' : links) (e el a c : nat) (ys els : list nat) (l : string) (mp : gmap string nat) (ll : llist).
  Hypotheses (Hd : is_dll L ll ys) (He : e ∈ ys) (Hell : xh_ell h !! el = Some ll) (Hin : xh_in h !! el = Some a)
    (Hlists : xh_lists h !! a = Some els) (Hmaps : xh_maps h !! c = Some mp) (Hmp : mp !! l = Some el)
    (Hlink : forall x, x <> e -> el_next (lk L x) <> Some e -> el_next (lk L' x) = el_next (lk L x))
    (Hin' : forall x, x <> el -> xh_in h' !! x = xh_in h !! x)
    (Hell' : forall x, x <> el -> xh_ell h' !! x = xh_ell h !! x)
    (Hlists' : forall x, x <> a -> xh_lists h' !! x = xh_lists h !! x)
    (Hla : xh_lists h' !! a = Some els \/ xh_lists h' !! a = Some (filter (fun x => x <> el) els))
    (Hmaps' : forall x, x <> c -> xh_maps h' !! x = xh_maps h !! x)
    (Hmc : xh_maps h' !! c = Some mp \/ xh_maps h' !! c = Some (delete l mp))
    (Hnext : xh_next h' = xh_next h).
  Lemma rem_chain p xs : chain L p xs -> e ∉ xs -> chain L' p xs.
  Proof.
    intros Hc Hx. eapply chain_frame; [|done]. intros x Hxx. apply Hlink; [by intros ->|].
    intros Hn. apply Hx. by eapply chain_closed.
  Qed.
  Lemma rem_elem el' zs : chain L (ll_head (elem_list h el')) zs -> e ∉ zs -> el' <> el.
  Proof.
    intros Hc Hx ->. unfold elem_list in Hc. rewrite Hell in Hc. change (default ll_empty (Some ll)) with ll in Hc.
    pose proof (chain_fun _ _ _ _ Hc (chain_dll _ _ _ Hd)). by subst zs.
  Qed.
  Lemma rem_elem_list el' zs : chain L (ll_head (elem_list h el')) zs -> e ∉ zs -> chain L' (ll_head (elem_list h' el')) zs.
  Proof.
    intros Hc Hx. pose proof (rem_elem _ _ Hc Hx) as Hne. unfold elem_list. rewrite (Hell' el' Hne). by apply rem_chain.
  Qed.
  Lemma rem_elems zss : forall ln, elems J h L ln zss -> e ∉ concat zss -> elems J h' L' ln zss.
  Proof.
    induction zss as [|zs zss IH]; intros ln He' Hx; [done|]. cbn [concat] in Hx. apply not_elem_of_app in Hx as [Hx Hxx].
    destruct He' as (el' & a' & -> & Hel & Hi & Ha & Hne & Hc & He'). pose proof (rem_elem _ _ Hc Hx) as Hd'.
    exists el', a'. split; [done|]. split; [done|]. split; [by rewrite Hin'|]. split; [done|]. split; [done|]. split; [by apply rem_elem_list|].
    assert (elem_next h' el' = elem_next h el') as ->; [|by apply IH].
    unfold elem_next in *. rewrite (Hin' el' Hd'), Hi. rewrite Hi in He'. destruct (decide (a' = a)) as [->|Hna]; [|by rewrite Hlists'].
    rewrite Hlists in *. destruct Hla as [->| ->]; [done|]. apply succ_in_filter; [done|]. intros Hs. rewrite Hs in He'.
    destruct zss as [|zs2 zss]; [done|]. destruct He' as (el2 & a2 & [= <-] & _ & _ & _ & _ & Hc2 & _).
    cbn in Hxx. apply not_elem_of_app in Hxx as [Hxx _]. by apply (rem_elem _ _ Hc2 Hxx).
  Qed.
  Lemma rem_labelled c' s zs : labelled J h L (Some c') s zs -> e ∉ zs -> labelled J h' L' (Some c') s zs.
  Proof.
    intros Hz Hx. unfold labelled in *. cbn [lab_get] in *. destruct (decide (c' = c)) as [->|Hne].
    - rewrite Hmaps in Hz. destruct (decide (s = l)) as [->|Hs].
      + exfalso. rewrite Hmp in Hz. destruct Hz as [_ Hz]. by apply (rem_elem _ _ Hz Hx).
      + assert (match xh_maps h' !! c with Some mp => mp !! s | None => None end = mp !! s) as ->.
        { destruct Hmc as [->| ->]; [done|]. by rewrite lookup_delete_ne. }
        destruct (mp !! s); [|done]. destruct Hz as [? Hz]. split; [done|]. by apply rem_elem_list.
    - rewrite Hmaps' by done. destruct (xh_maps h !! c') as [mp'|]; [|done]. destruct (mp' !! s); [|done].
      destruct Hz as [? Hz]. split; [done|]. by apply rem_elem_list.
  Qed.
  Lemma rem_remains it r : remains J h L it r -> e ∉ r -> remains J h' L' it r.
  Proof.
    intros [|x|x|p xs Hp|ln p xs zss Hp Hes Hk|c' strings cur xs zss Hc Hcur Hst] Hx; try by constructor.
    - constructor. by apply rem_chain.
    - apply not_elem_of_app in Hx as [Hx Hxx]. constructor; [by apply rem_chain|by apply rem_elems|lia].
    - apply not_elem_of_app in Hx as [Hx Hxx]. constructor; [done|destruct cur; [by apply rem_chain|done]|].
      clear Hcur. induction Hst as [|s zs strings zss Hz Hst IH]; constructor; cbn in Hxx; apply not_elem_of_app in Hxx as [Hx1 Hx2].
      + by apply rem_labelled.
      + by apply IH.
  Qed.
End remove.

Lemma x_remove_remains lb key J h m em F L X e h' m' L' it r :
  xrel h m em F -> em_rep key L em X -> e ∈ X -> (2 <= size X -> key e = lb e) -> e ∉ r -> (forall x, x ∈ J -> x < xh_next h) ->
  remains J h L it r -> x_remove lb h m L e = (h', m', L') -> remains J h' L' it r.
Proof.
  intros HX Hrep Hin Hkey Hr HJ Hrem. destruct Hrep as (Hn & R1 & R2 & R3). pose proof HX as [H1 H2 H3 H4 H5 H6 H7 H8].
  unfold x_remove. rewrite H1, Hn. assert (size X <> 0) as Hnz by (intros H0%size_empty_inv; set_solver).
  rewrite decide_False by lia. destruct (decide (size X = 1)) as [S1|S1].
  { rewrite decide_True by lia. case_decide; by intros [= <- <- <-]. }
  assert (2 <= size X) as S2 by lia. rewrite decide_False by lia. destruct (R3 S2) as (Hnd & Hb & Hall). specialize (Hkey S2).
  destruct (Hall e Hin) as [ll Hll]. destruct (Hb _ _ Hll) as (ys & Hd & Hne & Hys).
  destruct H8 as [(?&?&?)|(a & c & els & mp & E1 & E2 & Hbk)]; [lia|]. rewrite E1, E2. cbn [lab_get]. rewrite (br_map _ _ _ _ _ _ _ Hbk).
  pose proof (bkrel_get _ _ _ _ _ _ _ (lb e) Hbk) as Hget. rewrite Hkey in Hll. destruct (mp !! lb e) as [el|] eqn:Emp.
  2:{ apply bk_get_none in Hget. congruence. }
  destruct Hget as (b1 & ll' & b2 & e1 & e2 & Eb & Ee & Hlen & Hell & Hi & Hl1 & Hl2 & Hn1 & Hn2).
  assert (ll' = ll) as ->. { rewrite Eb, bk_get_mid in Hll by done. congruence. }
  unfold elem_list at 1. rewrite Hell. change (default ll_empty (Some ll)) with ll.
  assert (e ∈ ys) as Hey by (apply Hys; by rewrite Hkey).
  destruct (el_remove ll L e) as [l1 L1] eqn:Er. cbv zeta.
  set (h2 := if decide (ll_n l1 = 0)%Z then lab_delete (list_remove (set_elem h el l1) a el) c (lb e) else set_elem h el l1).
  assert (remains J h2 L1 it r) as Hr2.
  { apply (rem_remains J h h2 L L1 e el a c ys els (lb e) mp ll); try done.
    - apply (br_list _ _ _ _ _ _ _ Hbk).
    - apply (br_map _ _ _ _ _ _ _ Hbk).
    - intros x Hx Hxn. by eapply el_remove_next.
    - intros x Hx. unfold h2. case_decide; cbn; [by rewrite lookup_delete_ne|done].
    - intros x Hx. unfold h2. case_decide; cbn; by rewrite lookup_insert_ne.
    - intros x Hx. unfold h2. case_decide; cbn; [by rewrite lookup_alter_ne|done].
    - unfold h2. case_decide; cbn; [right; by rewrite lookup_alter, (br_list _ _ _ _ _ _ _ Hbk)|left; apply (br_list _ _ _ _ _ _ _ Hbk)].
    - intros x Hx. unfold h2. case_decide; cbn; [by rewrite lookup_alter_ne|done].
    - unfold h2. case_decide; cbn; [right; by rewrite lookup_alter, (br_map _ _ _ _ _ _ _ Hbk)|left; apply (br_map _ _ _ _ _ _ _ Hbk)].
    - unfold h2. by case_decide. }
  assert (xh_next h2 = xh_next h) as Hn2' by (unfold h2; by case_decide). clearbody h2.
  case_decide; [|by intros [= <- <- <-]]. cbn. intros [= <- <- <-]. eapply remains_frame; [done| |done]. split; [cbn; lia|].
  intros x Hx%HJ. cbn. rewrite !lookup_insert_ne by lia. done.
Qed.

(** ** Adding an edge whose label the iterator does not ask for *)
Definition avoids (it : xitr) (l : string) : Prop :=
  match it with XAll _ _ => False | XAny _ strings _ => l ∉ strings | _ => True end.
Lemma any_next_avoids h L c l strings p it : any_next h L c strings = (p, it) -> l ∉ strings -> avoids it l.
Proof.
  induction strings as [|s strings IH]; cbn [any_next]; [intros [= <- <-]; cbn; set_solver|]. intros H Hl.
  apply not_elem_of_cons in Hl as [_ Hl]. destruct (lab_get h c s) as [el|]; [|by apply IH].
  destruct (ll_head (elem_list h el)); [|by apply IH]. by injection H as <- <-.
Qed.
Lemma x_next_avoids h L it p it' l : x_next h L it = Ok (p, it') -> avoids it l -> avoids it' l.
Proof.
  destruct it as [|[e|] []|[e|]|ln n|c strings [[e|]|]]; cbn [x_next avoids]; intros H Ha; try done; try (by injection H as <- <-).
  - injection H as H. by eapply any_next_avoids.
  - injection H as H. by eapply any_next_avoids.
Qed.

(** no element of a list is in two maps, or twice in one *)
Definition hp_ok (h : xheap) : Prop := forall c s el, lab_get h (Some c) s = Some el ->
  el < xh_next h /\ forall c' s', lab_get h (Some c') s' = Some el -> c' = c /\ s' = s.
Lemma hp_ok_new : hp_ok xh_new.
Proof. intros c s el. cbn. by rewrite lookup_empty. Qed.
Lemma hp_ok_step h h' c0 s0 : hp_ok h -> xh_next h <= xh_next h' ->
  (forall c s el, lab_get h' (Some c) s = Some el ->
     lab_get h (Some c) s = Some el \/ c = c0 /\ s = s0 /\ el = xh_next h /\ el < xh_next h') -> hp_ok h'.
Proof.
  intros H Hn Hl c s el Hel. destruct (Hl _ _ _ Hel) as [H1|(-> & -> & He & Hlt)].
  - destruct (H _ _ _ H1) as [H2 H3]. split; [lia|]. intros c' s' Hc'. destruct (Hl _ _ _ Hc') as [H4|(_ & _ & He & _)]; [by apply H3|lia].
  - split; [done|]. intros c' s' Hc'. destruct (Hl _ _ _ Hc') as [H4|(? & ? & _)]; [|done]. apply H in H4 as [H4 _]. lia.
Qed.
Lemma hp_ok_lazy h m h' m' : x_lazy_init h m = (h', m') -> hp_ok h -> hp_ok h'.
Proof.
  unfold x_lazy_init. intros [= <- _] H. apply (hp_ok_step h _ 0 ""); [done|cbn; lia|]. intros c s el. cbn [lab_get xh_maps].
  destruct (decide (c = S (xh_next h))) as [->|Hc]; [by rewrite lookup_insert, lookup_empty|rewrite lookup_insert_ne by done]. by left.
Qed.
Lemma hp_ok_delete h c l : hp_ok h -> hp_ok (lab_delete h c l).
Proof.
  intros H. apply (hp_ok_step h _ 0 ""); [done|done|]. intros c' s el. cbn [lab_get xh_maps lab_delete].
  destruct (decide (c' = c)) as [->|Hc]; [|rewrite lookup_alter_ne by done; by left]. rewrite lookup_alter.
  destruct (xh_maps h !! c) as [mp|]; [|done]. cbn. intros [_ Hs]%lookup_delete_Some. by left.
Qed.
Lemma hp_ok_do_add lb h m L e h' L' : x_do_add lb h m L e = Ok (h', L') -> hp_ok h -> hp_ok h'.
Proof.
  unfold x_do_add. intros H Hh. destruct (lab_get h (xm_lab m) (lb e)) as [el|] eqn:El.
  { destruct (el_add _ _ _) as [l1 L1]. injection H as <- _. exact Hh. }
  destruct (xm_list m) as [a|]; [|done]. destruct (xm_lab m) as [c|]; [|done]. destruct (el_add _ _ _) as [l1 L1]. injection H as <- _.
  apply (hp_ok_step h _ c (lb e)); [done|cbn; lia|]. intros c' s el. cbn [lab_get xh_maps xh_next].
  destruct (decide (c' = c)) as [->|Hc]; [|rewrite lookup_alter_ne by done; by left]. rewrite lookup_alter.
  destruct (xh_maps h !! c) as [mp|]; [|done]. cbn. intros [[<- <-]|[_ Hs]]%lookup_insert_Some; [right; split_and!; try done; lia|by left].
Qed.
Lemma hp_ok_add lb h m L e h' m' L' : x_add lb h m L e = Ok (h', m', L') -> hp_ok h -> hp_ok h'.
Proof.
  unfold x_add. intros H Hh. case_decide; [by injection H as <- _ _|]. case_decide.
  - destruct (x_lazy_init h m) as [h1 m1] eqn:E. apply hp_ok_lazy in E; [|done]. destruct (xm_only m1) as [o|]; [|done].
    apply rbind_Ok_inv in H as ([h2 L2] & E2 & H). apply rbind_Ok_inv in H as ([h3 L3] & E3 & [= <- _ _]).
    eapply hp_ok_do_add; [exact E3|]. by eapply hp_ok_do_add.
  - apply rbind_Ok_inv in H as ([h2 L2] & E2 & [= <- _ _]). by eapply hp_ok_do_add.
Qed.
Lemma hp_ok_remove lb h m L e h' m' L' : x_remove lb h m L e = (h', m', L') -> hp_ok h -> hp_ok h'.
Proof.
  unfold x_remove. intros H Hh. case_decide; [by injection H as <- _ _|]. case_decide.
  { by case_decide; injection H as <- _ _. }
  destruct (lab_get h (xm_lab m) (lb e)) as [el|]; [|by injection H as <- _ _].
  destruct (el_remove _ _ _) as [l1 L1]. cbv zeta in H.
  match type of H with context [x_lazy_init ?x _] => set (h2 := x) in H end.
  assert (hp_ok h2) as H2. { clear H. unfold h2. case_decide; [|exact Hh]. destruct (xm_list m), (xm_lab m); try exact Hh. by apply hp_ok_delete. }
  clearbody h2. case_decide; [|by injection H as <- _ _]. destruct (x_lazy_init h2 m) as [h3 m3] eqn:E. injection H as <- _ _. by eapply hp_ok_lazy.
Qed.

Lemma chain_one L o xs : forall p, chain L p xs -> (forall y, y ∈ xs -> y = o) -> o ∈ xs -> el_next (lk L o) = None.
Proof.
  induction xs as [|x xs IH]; intros p Hc Hx Ho; [by apply elem_of_nil in Ho|]. destruct Hc as [-> Hc].
  assert (x = o) as -> by (apply Hx; left). destruct xs as [|y xs]; [done|]. eapply IH; [exact Hc| |].
  - intros z Hz. apply Hx. by right.
  - assert (y = o) as -> by (apply Hx; right; left). left.
Qed.
Lemma remains_one J h L it r o : remains J h L it r -> (forall y, y ∈ r -> y = o) ->
  (exists e b, it = XSingle e b) \/ (o ∈ r -> el_next (lk L o) = None).
Proof.
  assert (forall p xs, chain L p xs -> (forall y, y ∈ xs -> y = o) -> o ∈ xs -> el_next (lk L o) = None) as Hone by (intros; by eapply chain_one).
  intros [|e|e|p xs Hp|ln p xs zss Hp He Hk|c strings cur xs zss Hc Hcur Hs] Hr; try (left; by eauto); right.
  - by intros ?%elem_of_nil.
  - intros Ho. by eapply Hone.
  - intros [Ho|Ho]%elem_of_app; [eapply Hone; [exact Hp| |done]; intros; apply Hr; apply elem_of_app; by left|].
    assert (forall y, y ∈ concat zss -> y = o) as Hr' by (intros; apply Hr, elem_of_app; by right). clear Hk Hp Hr.
    revert ln He Ho Hr'. induction zss as [|zs zss IH]; intros ln He Ho Hr; [by apply elem_of_nil in Ho|].
    destruct He as (el & a & _ & _ & _ & _ & _ & Hch & He). cbn in Ho, Hr. apply elem_of_app in Ho as [Ho|Ho].
    + eapply Hone; [exact Hch| |done]. intros y Hy. apply Hr, elem_of_app. by left.
    + eapply IH; [exact He|done|]. intros y Hy. apply Hr, elem_of_app. by right.
  - intros [Ho|Ho]%elem_of_app.
    { destruct cur as [p|]; [|subst xs; by apply elem_of_nil in Ho]. eapply Hone; [exact Hcur| |done]. intros; apply Hr; apply elem_of_app; by left. }
    assert (forall y, y ∈ concat zss -> y = o) as Hr' by (intros; apply Hr, elem_of_app; by right). clear Hcur Hr.
    induction Hs as [|s zs strings zss Hz Hs IH]; [by apply elem_of_nil in Ho|]. cbn in Ho, Hr'. apply elem_of_app in Ho as [Ho|Ho].
    + unfold labelled in Hz. destruct (lab_get h (Some c) s) as [el|]; [|subst zs; by apply elem_of_nil in Ho]. destruct Hz as [_ Hz].
      eapply Hone; [exact Hz| |done]. intros y Hy. apply Hr', elem_of_app. by left.
    + apply IH; [done|]. intros y Hy. apply Hr', elem_of_app. by right.
Qed.
(** the heap after adding to the list of label [l] of the map object [c] *)
Lemma remains_add J h h' L L' it r l c el : remains J h L it r -> avoids it l -> xh_next h <= xh_next h' ->
  (forall x, x ∈ r -> el_next (lk L' x) = el_next (lk L x)) ->
  (forall s, s <> l -> lab_get h' (Some c) s = lab_get h (Some c) s) -> (forall x, x ∈ J -> x <> c -> xh_maps h' !! x = xh_maps h !! x) ->
  (forall x, x ∈ J -> x <> el -> xh_ell h' !! x = xh_ell h !! x) ->
  (forall c' s, s <> l -> lab_get h (Some c') s <> Some el) ->
  remains J h' L' it r.
Proof.
  intros Hr Ha Hn Hl Hc Hm He Hel. destruct Hr as [|e|e|p xs Hp|ln p xs zss Hp Hes Hk|c' strings cur xs zss Hc' Hcur Hst]; try by constructor.
  - constructor. by eapply chain_frame.
  - constructor; [done| |].
    + destruct cur; [|done]. eapply chain_frame; [|done]. intros; apply Hl, elem_of_app; by left.
    + assert (forall x, x ∈ concat zss -> el_next (lk L' x) = el_next (lk L x)) as Hl' by (intros; apply Hl, elem_of_app; by right). clear Hl Hcur xs.
      cbn in Ha. induction Hst as [|s zs strings zss Hz Hst IH]; constructor.
      * apply not_elem_of_cons in Ha as [Hs _]. unfold labelled in *.
        assert (lab_get h' (Some c') s = lab_get h (Some c') s) as ->.
        { destruct (decide (c' = c)) as [->|Hne]; [by apply Hc|]. cbn [lab_get]. by rewrite Hm. }
        destruct (lab_get h (Some c') s) as [el'|] eqn:El; [|done]. destruct Hz as [Hz Hch]. split; [done|].
        unfold elem_list. rewrite He; [|done|intros ->; by apply (Hel c' s)]. eapply chain_frame; [|exact Hch].
        intros x Hx. apply Hl'. cbn. apply elem_of_app. by left.
      * apply not_elem_of_cons in Ha as [_ Ha]. apply IH; [done|]. intros x Hx. apply Hl'. cbn. apply elem_of_app. by right.
Qed.
Lemma el_add_next l L e l' L' x : el_add l L e = (l', L') -> x <> e -> Some x <> ll_tail l -> el_next (lk L' x) = el_next (lk L x).
Proof. intros H Hx Ht. by rewrite (el_add_frame _ _ _ _ _ _ H Hx Ht). Qed.
Lemma x_add_remains lb J h m em F L X e h' m' L' it r :
  xrel h m em F -> em_rep lb L em X -> e ∉ X -> hp_ok h -> (forall x, x ∈ r -> x ∈ X /\ lb x <> lb e) -> (forall x, x ∈ J -> x < xh_next h) ->
  avoids it (lb e) -> remains J h L it r -> x_add lb h m L e = Ok (h', m', L') -> remains J h' L' it r.
Proof.
  intros HX Hrep Hne Hh Hr HJ Ha Hrem. destruct Hrep as (Hn & R1 & R2 & R3). pose proof HX as [H1 H2 H3 H4 H5 H6 H7 H8].
  unfold x_add. rewrite H1, Hn. destruct (decide (size X = 0)) as [S0|S0].
  { rewrite decide_True by lia. by intros [= <- <- <-]. }
  rewrite decide_False by lia. destruct (decide (size X = 1)) as [S1|S1].
  - rewrite decide_True by lia. unfold x_lazy_init. cbn [xm_only xm_list xm_lab xm_n]. destruct (R2 S1) as (o & Ho & HXo). rewrite H2, Ho.
    assert (forall y, y ∈ r -> y = o) as Hro. { intros y Hy. apply Hr in Hy as [Hy _]. rewrite HXo in Hy. by apply elem_of_singleton in Hy. }
    unfold x_do_add at 1. cbn [lab_get xm_lab xm_list xh_maps]. rewrite lookup_insert, lookup_empty. cbn [rbind].
    destruct (el_add ll_empty L o) as [l1 L1] eqn:E1. cbn [fst snd rbind]. set (a := xh_next h). cbn [xh_next xh_lists xh_in xh_ell xh_maps].
    unfold x_do_add. cbn [lab_get xm_lab xm_list xh_maps xh_next xh_lists xh_in xh_ell]. rewrite lookup_alter, lookup_insert. cbn [fmap option_fmap option_map].
    destruct (remains_one _ _ _ _ _ o Hrem Hro) as [(e0 & b0 & ->)|Hnx].
    { intros _. inversion Hrem; subst; constructor. }
    assert (el_next (lk L1 o) = None) as HL1. { unfold el_add in E1. cbn in E1. injection E1 as _ <-. rewrite lk_set_next, decide_True by done. done. }
    assert (ll_tail l1 = Some o) as Ht by (unfold el_add in E1; by injection E1 as <- _).
    destruct (decide (lb e = lb o)) as [Heq|Hneq].
    + (* the label of the other edge: it is not left *)
      rewrite Heq, lookup_insert. cbn [rbind]. destruct (el_add _ L1 e) as [l2 L2] eqn:E2. cbn [rbind fst snd]. intros [= <- <- <-].
      assert (forall x, x ∈ r -> False) as Hemp. { intros x Hx. pose proof (Hro x Hx) as ->. apply Hr in Hx as [_ Hx]. congruence. }
      eapply remains_frame; [exact Hrem| |intros x Hx; by destruct (Hemp x)].
      split; [cbn; lia|]. intros x Hx%HJ. cbn. rewrite !lookup_insert_ne, !lookup_alter_ne, !lookup_insert_ne by lia. done.
    + rewrite lookup_insert_ne, lookup_empty by done. cbn [rbind]. destruct (el_add ll_empty L1 e) as [l2 L2] eqn:E2. cbn [rbind fst snd]. intros [= <- <- <-].
      eapply remains_frame; [exact Hrem| |].
      * split; [cbn; lia|]. intros x Hx%HJ. cbn. rewrite !lookup_insert_ne, !lookup_alter_ne, !lookup_insert_ne by lia. done.
      * intros x Hx. pose proof (Hro x Hx) as ->. assert (o <> e) by (intros ->; apply Hne; set_solver).
        rewrite (el_add_next _ _ _ _ _ o E2) by done. rewrite HL1. symmetry. by apply Hnx.
  - rewrite decide_False by lia. assert (2 <= size X) as S2 by lia. destruct (R3 S2) as (Hnd & Hb & Hall).
    destruct H8 as [(?&?&?)|(a & c & els & mp & E1 & E2 & Hbk)]; [lia|]. intros H. apply rbind_Ok_inv in H as ([h1 L1] & E & [= <- _ <-]).
    unfold x_do_add in E. rewrite E1, E2 in E. destruct (lab_get h (Some c) (lb e)) as [el|] eqn:El.
    + destruct (el_add (elem_list h el) L e) as [l1 L2] eqn:Ea. injection E as <- <-.
      pose proof (bkrel_get _ _ _ _ _ _ _ (lb e) Hbk) as Hget. cbn [lab_get] in El. rewrite (br_map _ _ _ _ _ _ _ Hbk) in El. rewrite El in Hget.
      destruct Hget as (b1 & ll & b2 & e1 & e2 & Eb & Ee & Hlen & Hell & Hi & Hl1 & Hl2 & Hn1 & Hn2).
      assert (elem_list h el = ll) as Hll by (unfold elem_list; by rewrite Hell). rewrite Hll in Ea.
      destruct (Hb (lb e) ll) as (ys & (_ & _ & Ht & _) & _ & Hys). { rewrite Eb. by apply bk_get_mid. }
      apply (remains_add J h _ L _ it r (lb e) c el); try done.
      * intros x Hx. destruct (Hr x Hx) as [HxX Hxl]. eapply el_add_next; [exact Ea|intros ->; done|]. rewrite Ht. intros Hlast. symmetry in Hlast.
        apply last_elem, Hys in Hlast as [_ Hlast]. done.
      * intros x Hx Hxe. cbn. by rewrite lookup_insert_ne.
      * intros c' s Hs Hc'. destruct (Hh c (lb e) el) as [_ Hu]; [cbn; by rewrite (br_map _ _ _ _ _ _ _ Hbk)|]. destruct (Hu _ _ Hc') as [_ ?]. done.
    + destruct (el_add ll_empty L e) as [l1 L2] eqn:Ea. injection E as <- <-.
      apply (remains_add J h _ L _ it r (lb e) c (xh_next h)); try done; cbn [xh_next xh_ell xh_maps lab_get].
      * lia.
      * intros x Hx. destruct (Hr x Hx) as [HxX Hxl]. eapply el_add_next; [exact Ea|intros ->; done|done].
      * intros s Hs. rewrite lookup_alter. destruct (xh_maps h !! c); [|done]. cbn. by rewrite lookup_insert_ne.
      * intros x Hx Hxc. by rewrite lookup_alter_ne.
      * intros x Hx Hxe. by rewrite lookup_insert_ne.
      * intros c' s Hs Hc'. destruct (Hh c' s _ Hc'). lia.
Qed.
