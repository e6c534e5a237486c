(** Proofs about the text forms. *)
From Verif Require Import Base Value Graph GraphSpec Path StringSet JsonText JsonTextProofs Json JsonSpec JsonReadProofs JsonTripProofs
  JsonUtf8Proofs FastSet FastSetProofs Pattern ItrSpec ItrProofs ContainerSpec ContainerProofs GraphExamples PatternSym Text TextSpec.
From Coq Require Import Ascii.
Local Open Scope string_scope.
Local Arguments String.append !_ _ : simpl nomatch.
Local Open Scope list_scope.

(** ** Strings *)
Lemma sapp_assoc a b c : ((a +:+ b) +:+ c = a +:+ (b +:+ c))%string.
Proof. induction a as [|x a IH]; [done|]. simpl. f_equal. exact IH. Qed.
Lemma sapp_nil_r a : (a +:+ "" = a)%string.
Proof. induction a as [|x a IH]; [done|]. simpl. f_equal. exact IH. Qed.
Lemma sapp_list a b : list_ascii_of_string (a +:+ b) = list_ascii_of_string a ++ list_ascii_of_string b.
Proof. induction a as [|x a IH]; [done|]. cbn. by rewrite IH. Qed.
Lemma sapp_inj_r a b c : a +:+ c = b +:+ c -> a = b.
Proof.
  intros H%(f_equal list_ascii_of_string). rewrite !sapp_list in H. apply app_inv_tail in H.
  by rewrite <-(string_of_list_ascii_of_string a), <-(string_of_list_ascii_of_string b), H.
Qed.
Lemma lacks_cons c x s : lacks c (String x s) <-> x <> c /\ lacks c s.
Proof.
  split.
  - intros H. split.
    + intros ->. by apply (H "" s).
    + intros a b ->. by apply (H (String x a) b).
  - intros [Hx H] [|y a] b; cbn; intros [= Hy Hs]; [by apply Hx|]. by eapply H.
Qed.
Lemma lacks_nil c : lacks c "".
Proof. by intros [|y a] b. Qed.
Lemma lacks_app c a b : lacks c (a +:+ b) <-> lacks c a /\ lacks c b.
Proof.
  induction a as [|x a IH]; cbn [String.append].
  - split; [intros H; split; [apply lacks_nil|done]|by intros [_ H]].
  - rewrite !lacks_cons, IH. tauto.
Qed.
(** the first occurrence of a character splits a string in one way *)
Lemma split_first c a a' r r' : lacks c a -> lacks c a' -> a +:+ String c r = a' +:+ String c r' -> a = a' /\ r = r'.
Proof.
  revert a'. induction a as [|x a IH]; intros [|x' a'] Ha Ha'; cbn [String.append].
  - by intros [= ->].
  - intros [= -> _]. apply lacks_cons in Ha' as [? _]. done.
  - intros [= -> _]. apply lacks_cons in Ha as [? _]. done.
  - intros [= -> H]. apply lacks_cons in Ha as [_ Ha]. apply lacks_cons in Ha' as [_ Ha'].
    apply IH in H as [-> ->]; done.
Qed.

Lemma concat_cons sep x y l : String.concat sep (x :: y :: l) = x +:+ sep +:+ String.concat sep (y :: l).
Proof. done. Qed.
(** pieces without the separator can be read off *)
Lemma concat_inj c l l' : Forall (lacks c) l -> Forall (lacks c) l' -> l <> [] -> l' <> [] ->
  String.concat (String c "") l = String.concat (String c "") l' -> l = l'.
Proof.
  revert l'. induction l as [|x l IH]; [done|]. intros [|x' l'] Hl Hl' _ Hne; [done|].
  apply Forall_cons in Hl as [Hx Hl]. apply Forall_cons in Hl' as [Hx' Hl'].
  destruct l as [|y l], l' as [|y' l']; [by intros [= ->]| | |].
  - rewrite concat_cons. cbn [String.concat String.append]. intros H. by apply Hx in H.
  - rewrite concat_cons. cbn [String.concat String.append]. intros H. symmetry in H. by apply Hx' in H.
  - rewrite !concat_cons. cbn [String.append]. intros H. apply split_first in H as [-> H]; [|done..].
    f_equal. by apply IH.
Qed.
Lemma concat_empty c l : Forall (fun s => s <> "") l -> String.concat (String c "") l = "" -> l = [].
Proof. destruct l as [|x [|y l]]; [done| |]; intros [Hx _]%Forall_cons; [done|]. rewrite concat_cons. by destruct x. Qed.

(** ** Properties *)
Section show.
  Context (show : value -> option string).
  Definition element (p : props) (k : string) : option string := s ← p !! k ≫= show; Some (k +:+ ":" +:+ s).
  Lemma props_elements_ok p ord : props_elements show p ord = omap (element p) ord.
  Proof.
    unfold props_elements. assert (H : forall acc, fold_left (fun els k =>
      match p !! k with
      | Some v => match show v with Some s => els ++ [(k +:+ ":" +:+ s)%string] | None => els end
      | None => els
      end) ord acc = acc ++ omap (element p) ord); [|apply H].
    induction ord as [|k ord IH]; intros acc; [by rewrite app_nil_r|]. cbn [fold_left]. rewrite IH.
    change (omap (element p) (k :: ord)) with (match element p k with Some y => y :: omap (element p) ord | None => omap (element p) ord end).
    unfold element at 2. destruct (p !! k) as [v|]; cbn; [|done]. destruct (show v) as [s|]; cbn; [|done]. by rewrite <-app_assoc.
  Qed.
  Lemma props_elements_in p ord x : x ∈ props_elements show p ord ->
    exists k v s, k ∈ ord /\ p !! k = Some v /\ show v = Some s /\ x = k +:+ ":" +:+ s.
  Proof.
    rewrite props_elements_ok. intros (k & Hk & H)%elem_of_list_omap. unfold element in H.
    apply bind_Some in H as (s & Hs & [= <-]). apply bind_Some in Hs as (v & Hv & Hs). eauto 10.
  Qed.
  Lemma element_of p ord k s : order_of (dom p) ord -> p !! k ≫= show = Some s -> k +:+ ":" +:+ s ∈ props_elements show p ord.
  Proof.
    intros [_ Ho] Hs. rewrite props_elements_ok. apply elem_of_list_omap. exists k. split.
    - apply Ho. apply bind_Some in Hs as (v & Hv & _). by apply elem_of_dom.
    - unfold element. by rewrite Hs.
  Qed.
  Lemma colon_split k s : k +:+ ":" +:+ s = k +:+ String colon s.
  Proof. done. Qed.
  Lemma elements_sub p p' ord ord' : order_of (dom p) ord -> plain_props show p -> plain_props show p' ->
    props_elements show p ord = props_elements show p' ord' -> forall k s, p !! k ≫= show = Some s -> p' !! k ≫= show = Some s.
  Proof.
    intros Ho Hp Hp' E k s Hs. pose proof (element_of _ _ _ _ Ho Hs) as Hin. rewrite E in Hin.
    apply props_elements_in in Hin as (k' & v & s' & _ & Hv & Hs' & H). rewrite !colon_split in H.
    apply bind_Some in Hs as (w & Hw & Hs). destruct (Hp _ _ _ Hw Hs) as (H1 & _). destruct (Hp' _ _ _ Hv Hs') as (H2 & _).
    apply split_first in H as [-> ->]; [|done..]. by rewrite Hv.
  Qed.
  Lemma props_string_inj p p' ord ord' : order_of (dom p) ord -> order_of (dom p') ord' -> plain_props show p -> plain_props show p' ->
    props_string show p ord = props_string show p' ord' -> same_shown show p p'.
  Proof.
    intros Ho Ho' Hp Hp' H. unfold props_string in H. injection H as H. apply sapp_inj_r in H.
    assert (Hl : forall p ord, plain_props show p -> Forall (lacks space) (props_elements show p ord)).
    { clear. intros p ord Hp. apply Forall_forall. intros x (k & v & s & _ & Hv & Hs & ->)%props_elements_in.
      destruct (Hp _ _ _ Hv Hs) as (_ & H1 & H2). rewrite !lacks_app. repeat split; try done.
      apply lacks_cons. split; [done|apply lacks_nil]. }
    assert (Hn : forall p ord, Forall (fun s => s <> "") (props_elements show p ord)).
    { clear. intros p ord. apply Forall_forall. intros x (k & v & s & _ & _ & _ & ->)%props_elements_in. by destruct k. }
    assert (E : props_elements show p ord = props_elements show p' ord').
    { destruct (decide (props_elements show p ord = [])) as [E|E].
      - rewrite E in *. symmetry in H. apply concat_empty in H; [done|apply Hn].
      - destruct (decide (props_elements show p' ord' = [])) as [E'|E'].
        + rewrite E' in *. by apply concat_empty in H.
        + by apply (concat_inj space) in H; [|by apply Hl..| |]. }
    intros k. destruct (p !! k ≫= show) as [s|] eqn:Es.
    - symmetry. by apply (elements_sub p p' ord ord').
    - destruct (p' !! k ≫= show) as [s|] eqn:Es'; [|done]. rewrite <-Es. by apply (elements_sub p' p ord' ord).
  Qed.

  Lemma label_text X lord : order_of X lord ->
    (if decide (0 < size X) then ":" +:+ String.concat ":" (ss_slice lord) else String.concat ":" (ss_slice lord)) =
    (if decide (lord = []) then "" else String colon (String.concat ":" lord)).
  Proof.
    intros Ho. rewrite ss_slice_ok. pose proof (order_list _ _ Ho) as <-. destruct Ho as [Hn _].
    rewrite size_list_to_set by done. destruct lord as [|l lord]; [done|]. by rewrite decide_True by (cbn; lia).
  Qed.
  Lemma lacks_concat c d l : c <> d -> Forall (lacks d) l -> lacks d (String.concat (String c "") l).
  Proof.
    intros Hc. induction l as [|x [|y l] IH]; [intros; apply lacks_nil|by intros [? _]%Forall_cons|].
    intros [Hx Hl]%Forall_cons. rewrite concat_cons, !lacks_app. repeat split; [done| |by apply IH].
    apply lacks_cons. split; [done|apply lacks_nil].
  Qed.
  Lemma node_string_inj X X' p p' lord lord' ord ord' :
    order_of X lord -> order_of X' lord' -> order_of (dom p) ord -> order_of (dom p') ord' ->
    plain_labels X -> plain_labels X' -> plain_props show p -> plain_props show p' ->
    node_string show X p lord ord = node_string show X' p' lord' ord' -> X = X' /\ same_shown show p p'.
  Proof.
    intros Hl Hl' Ho Ho' HX HX' Hp Hp' H. unfold node_string in H. rewrite !label_text in H by done. injection H as H.
    assert (Hx : forall X lord, order_of X lord -> plain_labels X ->
      lacks space (if decide (lord = []) then "" else String colon (String.concat ":" lord)) /\ Forall (lacks colon) lord).
    { clear. intros X lord [_ Ho] HX. split.
      - destruct (decide _); [apply lacks_nil|]. apply lacks_cons. split; [done|]. apply lacks_concat; [done|].
        apply Forall_forall. intros l Hl. by apply HX, Ho.
      - apply Forall_forall. intros l Hl. by apply HX, Ho. }
    destruct (Hx _ _ Hl HX) as [H1 H2]. destruct (Hx _ _ Hl' HX') as [H3 H4]. clear Hx.
    rewrite !sapp_assoc in H. cbn [String.append] in H.
    change (String " " ?s) with (String space s) in H. apply split_first in H as [HL HP]; [|done..]. split.
    - rewrite <-(order_list _ _ Hl), <-(order_list _ _ Hl').
      destruct (decide (lord = [])) as [->|E], (decide (lord' = [])) as [->|E']; try done.
      injection HL as HL. f_equal. by apply (concat_inj colon) in HL.
    - apply (props_string_inj p p' ord ord'); try done. unfold props_string. cbn [String.append].
      injection HP as HP. apply sapp_inj_r in HP. by rewrite HP.
  Qed.
  Lemma edge_string_inj l l' p p' ord ord' :
    order_of (dom p) ord -> order_of (dom p') ord' -> lacks space l -> lacks space l' -> plain_props show p -> plain_props show p' ->
    edge_string show l p ord = edge_string show l' p' ord' -> l = l' /\ same_shown show p p'.
  Proof.
    intros Ho Ho' Hl Hl' Hp Hp' H. unfold edge_string in H. injection H as H.
    cbn [String.append] in H. change (String " " ?s) with (String space s) in H.
    apply split_first in H as [-> HP]; [|done..]. split; [done|].
    apply (props_string_inj p p' ord ord'); try done. unfold props_string in *. rewrite !sapp_assoc in HP. cbn [String.append] in HP |- *.
    injection HP as HP. apply sapp_inj_r in HP. by rewrite HP.
  Qed.
End show.

(** ** One iteration order only *)
Lemma order_one (X : gset string) ord ord' : size X <= 1 -> order_of X ord -> order_of X ord' -> ord = ord'.
Proof.
  intros Hs Ho Ho'. assert (HP : ord ≡ₚ ord').
  { destruct Ho as [Hn Ho], Ho' as [Hn' Ho']. apply NoDup_Permutation; try done. intros x. by rewrite Ho, Ho'. }
  pose proof (order_list _ _ Ho) as <-. destruct Ho as [Hn _]. rewrite size_list_to_set in Hs by done.
  destruct ord as [|x [|y ord]]; [by apply Permutation_nil_l in HP|by apply Permutation_singleton_l in HP|cbn in Hs; lia].
Qed.

(** ** Paths *)
Definition paren_end (s : string) : Prop := exists t c, s = t +:+ String c "" /\ is_space c = false.
Lemma trim_right_space s : paren_end s -> trim_right (s +:+ " ") = s.
Proof.
  intros (t & c & -> & Hc). rewrite sapp_assoc. induction t as [|x t IH].
  - cbn. by rewrite Hc.
  - cbn [String.append trim_right] in *. rewrite IH. by destruct t.
Qed.
Lemma paren_end_app a s : paren_end s -> paren_end (a +:+ s).
Proof. intros (t & c & -> & Hc). exists (a +:+ t), c. by rewrite sapp_assoc. Qed.
Section path.
  Context (from to : nat -> nat) (text : nat -> nat -> string).
  Lemma path_loop_ok els k i sb : k = 2 * i -> path_loop from to text k sb els =
    sb +:+ String.concat "" (imap (fun j x => element_text from to text (i + j) x +:+ " ") els).
  Proof.
    revert k i sb. induction els as [|x els IH]; intros k i sb ->; [by rewrite sapp_nil_r|].
    cbn [path_loop]. rewrite (IH _ (S i)) by lia.
    set (R := imap _ els). assert (imap (fun j y => element_text from to text (i + j) y +:+ " ") (x :: els) =
      (element_text from to text i x +:+ " ") :: R) as ->.
    { cbn [imap]. rewrite Nat.add_0_r. f_equal. apply imap_ext. intros j y _. unfold compose. f_equal. f_equal. lia. }
    assert (forall a, String.concat "" (a :: R) = a +:+ String.concat "" R) as ->.
    { intros a. destruct R; [|done]. cbn. by rewrite sapp_nil_r. }
    unfold element_text. replace (2 * i + 1) with (S (2 * i)) by lia. destruct (pe_rev x); rewrite !sapp_assoc; done.
  Qed.
  Lemma concat_spaces els : els <> [] ->
    String.concat "" (map (fun s => s +:+ " ") els) = String.concat " " els +:+ " ".
  Proof.
    induction els as [|x [|y els] IH]; [done|done|]. intros _. rewrite concat_cons. cbn [map] in *.
    rewrite concat_cons, IH by done. by rewrite !sapp_assoc.
  Qed.
  Context (Htext : forall k n, enclosed (text k n)).
  Lemma path_string_ok p : path_string from to text p = path_text from to text p.
  Proof.
    unfold path_string, path_text, trim_space. rewrite (path_loop_ok _ 0 0) by done. cbn [String.append].
    destruct (p_path p) as [|x els] eqn:E; [done|]. rewrite <-E.
    assert (imap (fun j x => element_text from to text (0 + j) x +:+ " ") (p_path p) =
      map (fun s => s +:+ " ") (imap (element_text from to text) (p_path p))) as ->.
    { symmetry. apply (fmap_imap (element_text from to text) (fun s => s +:+ " ")). }
    rewrite concat_spaces by (by rewrite E).
    assert (Hs : forall l, l <> [] -> (forall s, s ∈ l -> exists t, s = String "(" t) -> exists t, String.concat " " l = String "(" t).
    { intros [|s l]; [done|]. intros _ H. destruct (H s) as [t ->]; [left|]. destruct l; [by exists t|]. rewrite concat_cons. cbn. eauto. }
    assert (He : forall l, l <> [] -> (forall s, s ∈ l -> paren_end s) -> paren_end (String.concat " " l)).
    { induction l as [|s [|s' l] IH]; [done|intros _ H; apply H; left|]. intros _ H. rewrite concat_cons.
      apply paren_end_app, paren_end_app, IH; [done|]. intros; apply H; by right. }
    assert (imap (element_text from to text) (p_path p) <> []) as Hne by (by rewrite E).
    destruct (Hs _ Hne) as [t Ht].
    { intros s (i & y & -> & _)%elem_of_lookup_imap. unfold element_text.
      destruct (Htext (2 * i) (from (pe_edge y))) as [t ->]. cbn. eauto. }
    assert (trim_left (String.concat " " (imap (element_text from to text) (p_path p)) +:+ " ") =
      String.concat " " (imap (element_text from to text) (p_path p)) +:+ " ") as -> by (by rewrite Ht).
    apply trim_right_space, He; [done|]. intros s (i & y & -> & _)%elem_of_lookup_imap. unfold element_text.
    do 2 apply paren_end_app. destruct (Htext (2 * i + 1) (to (pe_edge y))) as [u ->]. destruct (pe_rev y).
    - apply paren_end_app. by exists " Revers", "e"%char.
    - rewrite sapp_nil_r. do 2 apply paren_end_app. by exists "", ")"%char.
  Qed.
End path.
Lemma node_enclosed show X p lord ord : enclosed (node_string show X p lord ord).
Proof.
  unfold node_string. set (l := if decide _ then _ else _). set (r := props_string show p ord). clearbody l r.
  exists (l +:+ " " +:+ r). by rewrite !sapp_assoc.
Qed.

(** ** JSON *)
Lemma json_value_iff ts v : json_value ts = Some v <-> ts = toks v.
Proof.
  unfold json_value. split.
  - destruct (parse _ ts) as [[w [|]]|] eqn:E; try done. intros [= ->]. apply (parse_sound _) in E. by rewrite app_nil_r in E.
  - intros ->. pose proof (parse_ok v (S (length (toks v))) [] ltac:(lia)) as H. rewrite app_nil_r in H. by rewrite H.
Qed.
Lemma str_json_back s : json_value (str_json s) = Some (JS (SStr s)) <-> utf8 s.
Proof.
  rewrite json_value_iff. unfold str_json. split.
  - intros H%toks_inj. injection H as H. rewrite <-H. apply json_str_valid.
  - intros H. by rewrite (json_str_utf8 _ H).
Qed.
Lemma read_str_iff v s : read_str v = Some s <-> reads_string v s.
Proof.
  unfold reads_string. split.
  - destruct v as [[]|?|?]; try done; intros [= <-]; eauto.
  - by intros [-> | [-> ->]].
Qed.
Lemma ss_unmarshal_ok h v ts x X : ts = toks x -> reads_set x X ->
  exists h' v', ss_unmarshal h v ts = (h', v', true) /\ ss_at h' v' = X /\ ss_fresh h (h', v') X.
Proof.
  intros Hts HX. assert (exists l, read_list read_str x = Some l /\ X = list_to_set l) as (l & Hl & ->).
  { destruct HX as [[-> ->]|(l & ss & -> & HF & ->)]; [by exists []|]. exists ss. split; [|done]. cbn. apply mapM_Some.
    eapply Forall2_impl; [exact HF|]. intros a b. apply read_str_iff. }
  unfold ss_unmarshal. rewrite (proj2 (json_value_iff ts x) Hts). cbn [mbind option_bind]. rewrite Hl.
  destruct (ss_new h l) as [h' v'] eqn:E. exists h', v'. split; [done|].
  pose proof (ss_new_at h l) as H1. pose proof (ss_new_ok h l) as H2. rewrite E in H1, H2. by split.
Qed.
Lemma ss_unmarshal_ok_iff h v ts h' v' : ss_unmarshal h v ts = (h', v', true) ->
  exists x X, ts = toks x /\ reads_set x X /\ ss_at h' v' = X.
Proof.
  unfold ss_unmarshal. destruct (json_value ts) as [x|] eqn:E; cbn [mbind option_bind]; [|done].
  destruct (read_list read_str x) as [l|] eqn:El; [|done]. intros H'. assert (ss_new h l = (h', v')) as H by congruence. clear H'. apply json_value_iff in E.
  exists x, (list_to_set l). split; [done|]. split; [|pose proof (ss_new_at h l) as H1; by rewrite H in H1].
  destruct x as [[]|l'|?]; try done; cbn in El.
  - injection El as <-. by left.
  - right. exists l', l. split; [done|]. split; [|done]. apply mapM_Some in El. eapply Forall2_impl; [exact El|].
    intros a b. apply read_str_iff.
Qed.
Lemma ss_unmarshal_fails h v ts : (forall x X, ts = toks x -> ~ reads_set x X) -> ss_unmarshal h v ts = (h, v, false).
Proof.
  intros H. destruct (ss_unmarshal h v ts) as [[h' v'] []] eqn:E.
  - apply ss_unmarshal_ok_iff in E as (x & X & Hx & HX & _). by apply H in HX.
  - unfold ss_unmarshal in E. destruct (_ ≫= _); [done|]. by injection E as <- <-.
Qed.
Lemma ss_trip h v X ord : order_of X ord ->
  exists h' v', ss_unmarshal h v (ss_marshal ord) = (h', v', true) /\ ss_at h' v' = set_map json_str X.
Proof.
  intros Ho. destruct (ss_unmarshal_ok h v (ss_marshal ord) _ (list_to_set (map json_str ord)) eq_refl) as (h' & v' & H & Hat & _).
  - right. eexists _, _. split; [done|]. split; [|done]. rewrite ss_slice_ok. clear. induction ord; constructor; [by left|done].
  - exists h', v'. split; [done|]. rewrite Hat, <-(order_list _ _ Ho). apply set_eq. intros x.
    rewrite elem_of_list_to_set, elem_of_map. setoid_rewrite elem_of_list_to_set. apply elem_of_list_fmap.
Qed.
Lemma json_image (X : gset string) : set_map json_str X = X <-> forall s, s ∈ X -> utf8 s.
Proof.
  split.
  - intros H s. rewrite <-H. intros (t & -> & _)%elem_of_map. apply json_str_valid.
  - intros H. apply set_eq. intros s. rewrite elem_of_map. split.
    + intros (t & -> & Ht). by rewrite (json_str_utf8 _ (H _ Ht)).
    + intros Hs. exists s. by rewrite (json_str_utf8 _ (H _ Hs)).
Qed.
Lemma ss_trip_iff h v X ord : order_of X ord ->
  (exists h' v', ss_unmarshal h v (ss_marshal ord) = (h', v', true) /\ ss_at h' v' = X) <-> forall s, s ∈ X -> utf8 s.
Proof.
  intros Ho. destruct (ss_trip h v _ _ Ho) as (h' & v' & H & Hat). rewrite <-json_image. split.
  - intros (h2 & v2 & H2 & Hat2). rewrite H in H2. injection H2 as <- <-. congruence.
  - intros E. exists h', v'. split; [done|congruence].
Qed.

(** ** MapInterner *)
Definition interned (i : interner) : Prop := forall k v, i !! k = Some v -> v = k.
Lemma intern_ok i s : interned i -> interned (intern i s).1 /\ (intern i s).2 = s.
Proof.
  intros Hi. unfold intern. destruct (i !! s) as [k|] eqn:E; cbn; [split; [done|by apply Hi]|]. split; [|done].
  intros k v. rewrite lookup_insert_Some. intros [[-> ->]|[_ H]]; [done|by apply Hi].
Qed.
Lemma intern_all_ok i l : interned i -> (intern_all i l).2 = l.
Proof.
  revert i. induction l as [|s l IH]; intros i Hi; [done|]. cbn. destruct (intern_ok _ s Hi) as [H1 H2]. by rewrite H2, IH.
Qed.
(** what a given map returns *)
Lemma intern_all_given i l : (intern_all i l).2 = map (fun s => default s (i !! s)) l.
Proof.
  assert (H : forall l j, (forall s, default s (j !! s) = default s (i !! s)) -> (intern_all j l).2 = map (fun s => default s (i !! s)) l);
    [|by apply H]. clear l. induction l as [|s l IH]; intros j Hj; [done|]. cbn. f_equal.
  - rewrite <-Hj. unfold intern. by destruct (j !! s).
  - apply IH. intros t. rewrite <-Hj. unfold intern. destruct (j !! s) eqn:E; [done|]. cbn.
    destruct (decide (t = s)) as [->|Ht]; [by rewrite lookup_insert, E|by rewrite lookup_insert_ne].
Qed.

(** ** Symbols of patterns *)
Lemma spec_run_firsts {A} `{EqDecision A} (l : list A) : is_spec_run (map ISAdd l) = firsts [] l.
Proof.
  unfold is_spec_run. assert (H : forall acc seen, (forall x, x ∈ acc <-> x ∈ seen) ->
    fold_left is_spec_step (map ISAdd l) acc = acc ++ firsts seen l); [|by rewrite (H [] [])].
  induction l as [|x l IH]; intros acc seen Hs; cbn [map fold_left firsts is_spec_step]; [by rewrite app_nil_r|].
  destruct (decide (x ∈ acc)) as [Hx|Hx].
  - rewrite decide_True by (by apply Hs). by apply IH.
  - rewrite decide_False by (by rewrite <-Hs). rewrite (IH _ (x :: seen)), <-app_assoc; [done|]. intros y.
    rewrite elem_of_app, elem_of_list_singleton, elem_of_cons, Hs. tauto.
Qed.
Section sym.
  Context {N E : Type} `{EqDecision N} `{EqDecision E} (nid : N -> nat) (eid : E -> nat).
  Notation adds f id l := (fold_left (fun a x => (fs_add a (id x) x).1) l f).
  Lemma py_run_ok (l : list (@sitem N E)) :
    (py_nodes (py_run nid eid l) = None <-> ~ has_nodes l) /\
    (forall f, py_nodes (py_run nid eid l) = Some f -> f = adds fs_new nid (added_nodes l)) /\
    (py_edges (py_run nid eid l) = None <-> ~ has_edges l) /\
    (forall f, py_edges (py_run nid eid l) = Some f -> f = adds fs_new eid (added_edges l)).
  Proof.
    unfold py_run, added_nodes, added_edges. induction l as [|i l (IH1 & IH2 & IH3 & IH4)] using rev_ind.
    { cbn. unfold has_nodes, has_edges. split_and!; try done.
      - split; [|done]. by intros _ [n ?%elem_of_nil].
      - split; [|done]. by intros _ [[n ?%elem_of_nil]|[n ?%elem_of_nil]]. }
    rewrite fold_left_app, !bind_app, !fold_left_app. cbn [fold_left].
    set (s := fold_left (py_add nid eid) l py_empty) in *.
    assert (Hn : has_nodes (l ++ [i]) <-> has_nodes l \/ exists n, i = INode n).
    { unfold has_nodes. setoid_rewrite elem_of_app. setoid_rewrite elem_of_list_singleton. split.
      - intros [n [?|<-]]; eauto.
      - intros [[n ?]|[n ->]]; eauto. }
    assert (He : has_edges (l ++ [i]) <-> has_edges l \/ (exists e, i = IEdge e) \/ exists p, i = IPath p).
    { unfold has_edges. setoid_rewrite elem_of_app. setoid_rewrite elem_of_list_singleton. split.
      - intros [[n [?|<-]]|[n [?|<-]]]; eauto.
      - intros [[[n ?]|[n ?]]|[[n ->]|[n ->]]]; eauto. }
    rewrite Hn, He. clear Hn He.
    assert (Hnone : py_nodes s = None -> added_nodes l = []).
    { intros Hs. apply IH1 in Hs. destruct (added_nodes l) as [|n r] eqn:Hl; [done|]. exfalso. apply Hs.
      assert (n ∈ n :: r) as Hin by left. rewrite <-Hl in Hin. unfold added_nodes, added_edges in Hin. apply elem_of_list_bind in Hin as (y & Hy & Hl').
      exists n. destruct y; try (by apply elem_of_nil in Hy). apply elem_of_list_singleton in Hy as ->. done. }
    assert (Hnone' : py_edges s = None -> added_edges l = []).
    { intros Hs. apply IH3 in Hs. destruct (added_edges l) as [|n r] eqn:Hl; [done|]. exfalso. apply Hs.
      assert (n ∈ n :: r) as Hin by left. rewrite <-Hl in Hin. unfold added_nodes, added_edges in Hin. apply elem_of_list_bind in Hin as (y & Hy & Hl').
      destruct y; try (by apply elem_of_nil in Hy); [left|right]; eauto. }
    unfold added_nodes, added_edges in *.
    assert (Hns : fs_new = match py_nodes s with None => fs_new | Some f => f end \/ is_Some (py_nodes s)) by (destruct (py_nodes s); eauto).
    assert (HN : match py_nodes s with None => fs_new | Some f => f end =
      adds fs_new nid (l ≫= (fun i : @sitem N E => match i with INode n => [n] | _ => [] end))).
    { destruct (py_nodes s) as [f|] eqn:Hs; [by apply IH2|]. by rewrite Hnone. }
    assert (HE : match py_edges s with None => fs_new | Some f => f end =
      adds fs_new eid (l ≫= (fun i : @sitem N E => match i with IEdge e => [e] | IPath p => p.*1 | _ => [] end))).
    { destruct (py_edges s) as [f|] eqn:Hs; [by apply IH4|]. by rewrite Hnone'. }
    clear Hns Hnone Hnone'.
    destruct i as [n|e|p|]; cbn [py_add py_add_node py_add_path py_nodes py_edges mbind list_bind app fold_left].
    - split_and!.
      + split; [done|]. intros H. exfalso. apply H. eauto.
      + intros f [= <-]. rewrite HN. done.
      + rewrite IH3. split; [intros H [?|[[]|[]]]; [by apply H|done..]|tauto].
      + intros f Hf. by apply IH4.
    - split_and!.
      + rewrite IH1. split; [intros H [?|[]]; [by apply H|done]|tauto].
      + intros f Hf. by apply IH2.
      + split; [done|]. intros H. exfalso. apply H. eauto.
      + intros f [= <-]. rewrite HE. done.
    - split_and!.
      + rewrite IH1. split; [intros H [?|[]]; [by apply H|done]|tauto].
      + intros f Hf. by apply IH2.
      + split; [done|]. intros H. exfalso. apply H. eauto.
      + intros f [= <-]. rewrite HE, app_nil_r. clear. generalize (adds fs_new eid (l ≫= (fun i : @sitem N E => match i with IEdge e => [e] | IPath p => p.*1 | _ => [] end))).
        induction p as [|x p IH]; intros f; [done|]. cbn. apply IH.
    - split_and!.
      + rewrite IH1. split; [intros H [?|[]]; [by apply H|done]|tauto].
      + intros f Hf. by apply IH2.
      + rewrite IH3. split; [intros H [?|[[]|[]]]; [by apply H|done..]|tauto].
      + intros f Hf. by apply IH4.
  Qed.
  Lemma adds_slice {A} `{EqDecision A} (id : A -> nat) l : (forall x y, x ∈ l -> y ∈ l -> id x = id y -> x = y) ->
    fs_iter (adds fs_new id l) = firsts [] l.
  Proof.
    intros Hinj. rewrite <-spec_run_firsts. destruct l as [|x l]; [done|].
    destruct (is_exact id (map ISAdd (x :: l)) x) as (Hs & _).
    { assert (map is_arg (map ISAdd (x :: l)) = x :: l) as ->; [|done]. rewrite map_map. apply map_id. }
    rewrite <-Hs. unfold is_slice, is_run. f_equal. generalize (@fs_new A). generalize (x :: l). clear.
    induction l as [|x l IH]; intros f; [done|]. cbn. apply IH.
  Qed.
  Lemma py_node_slice_ok l : (forall x y, x ∈ added_nodes l -> y ∈ added_nodes l -> nid x = nid y -> x = y) ->
    (has_nodes l -> py_node_slice (py_run nid eid l) = Some (firsts [] (added_nodes l))) /\
    (~ has_nodes l -> py_node_slice (py_run nid eid l) = None).
  Proof.
    intros Hinj. destruct (py_run_ok l) as (H1 & H2 & _). unfold py_node_slice. split; intros Hl.
    - destruct (py_nodes (py_run nid eid l)) as [f|] eqn:Ef; [|by destruct H1 as [H1 _]; specialize (H1 eq_refl)].
      rewrite (H2 _ eq_refl). f_equal. by apply adds_slice.
    - by rewrite (proj2 H1 Hl).
  Qed.
  Lemma py_edge_slice_ok l : (forall x y, x ∈ added_edges l -> y ∈ added_edges l -> eid x = eid y -> x = y) ->
    (has_edges l -> py_edge_slice (py_run nid eid l) = Some (map (fun e => (e, false)) (firsts [] (added_edges l)))) /\
    (~ has_edges l -> py_edge_slice (py_run nid eid l) = None).
  Proof.
    intros Hinj. destruct (py_run_ok l) as (_ & _ & H1 & H2). unfold py_edge_slice. split; intros Hl.
    - destruct (py_edges (py_run nid eid l)) as [f|] eqn:Ef; [|by destruct H1 as [H1 _]; specialize (H1 eq_refl)].
      rewrite (H2 _ eq_refl), adds_slice by done. f_equal.
      generalize (firsts [] (added_edges l)). clear. intros l.
      assert (H : forall acc, fold_left (fun (p : list (E * bool)) e => p ++ [(e, false)]) l acc = acc ++ map (fun e => (e, false)) l); [|apply H].
      induction l as [|x l IH]; intros acc; cbn; [by rewrite app_nil_r|]. by rewrite IH, <-app_assoc.
    - by rewrite (proj2 H1 Hl).
  Qed.
  Lemma firsts_id {A} `{EqDecision A} (l seen : list A) : NoDup l -> (forall x, x ∈ l -> x ∉ seen) -> firsts seen l = l.
  Proof.
    revert seen. induction l as [|x l IH]; intros seen; [done|]. intros [Hx Hn]%NoDup_cons Hs. cbn.
    rewrite decide_False by (apply Hs; left). f_equal. apply IH; [done|]. intros y Hy. rewrite elem_of_cons. intros [-> | H']; [done|].
    revert H'. apply Hs. by right.
  Qed.
  Lemma path_back p : (forall x y, x ∈ p.*1 -> y ∈ p.*1 -> eid x = eid y -> x = y) ->
    py_edge_slice (py_run nid eid [IPath p]) = Some p <-> (forall x, x ∈ p -> x.2 = false) /\ NoDup p.*1.
  Proof.
    intros Hinj. destruct (py_edge_slice_ok [IPath p]) as [H _].
    { unfold added_edges. cbn. by rewrite app_nil_r. }
    rewrite H by (right; exists p; left). unfold added_edges. cbn [mbind list_bind]. rewrite app_nil_r. split.
    - intros [= Hp]. split.
      + intros x. rewrite <-Hp. by intros (e & -> & _)%elem_of_list_fmap.
      + rewrite <-Hp at 1. assert (forall l : list E, (map (fun e => (e, false)) l).*1 = l) as ->; [|apply firsts_NoDup].
        intros l. induction l as [|e l IHl]; [done|]. cbn. by rewrite IHl.
    - intros [Hr Hn]. rewrite firsts_id; [|done|by intros x _ ?%elem_of_nil]. f_equal. clear -Hr.
      induction p as [|[e b] p IH]; [done|]. cbn. rewrite IH by (intros; apply Hr; by right). f_equal. f_equal.
      symmetry. apply (Hr (e, b)). left.
  Qed.
End sym.
Lemma symbol_names_ok pat x : x ∈ get_symbol_names pat <-> x <> "" /\ exists p, p ∈ pat /\ pi_name p = x.
Proof.
  unfold get_symbol_names. assert (H : forall acc : gset string, x ∈ fold_left (fun ret p => if decide (0 < String.length (pi_name p)) then {[pi_name p]} ∪ ret else ret) pat acc <->
    x ∈ acc \/ (x <> "" /\ exists p, p ∈ pat /\ pi_name p = x)); [|rewrite H; set_solver].
  induction pat as [|p pat IH]; intros acc; cbn [fold_left].
  - split; [by left|]. intros [?|(_ & p & ?%elem_of_nil & _)]; done.
  - rewrite IH. setoid_rewrite elem_of_cons. destruct (decide (0 < String.length (pi_name p))) as [Hl|Hl].
    + rewrite elem_of_union, elem_of_singleton. split.
      * intros [[-> | ?]|(Hx & q & ? & ?)]; [|by left|right; eauto].
        right. split; [|eauto]. intros E. rewrite E in Hl. cbn in Hl. lia.
      * intros [?|(Hx & q & [-> | ?] & ?)]; eauto.
    + assert (pi_name p = "") as E. { destruct (pi_name p); [done|]. cbn in Hl. lia. }
      split; [intros [?|(Hx & q & ? & ?)]; eauto 6|]. intros [?|(Hx & q & [-> | ?] & ?)]; eauto. congruence.
Qed.

(** ** What is false, and the examples *)
Lemma ss_unmarshal_frame h v ts x X : ts = toks x -> reads_set x X ->
  exists h' v', ss_unmarshal h v ts = (h', v', true) /\ ss_at h' v' = X /\
    forall w, (forall a, w = Some a -> a < sh_next h) -> ss_at h' w = ss_at h w.
Proof.
  intros Hts HX. destruct (ss_unmarshal_ok h v ts x X Hts HX) as (h' & v' & H & Hat & Hf). exists h', v'. split; [done|]. split; [done|].
  intros w Hw. exact (ss_at_other h (h', v') X w Hf Hw).
Qed.
Lemma ss_trip_false : ~ forall h v X ord, order_of X ord ->
  exists h' v', ss_unmarshal h v (ss_marshal ord) = (h', v', true) /\ ss_at h' v' = X.
Proof.
  intros H. assert (order_of {[bytes [255%N]]} [bytes [255%N]]) as Ho.
  { split; [apply NoDup_singleton|]. intros x. by rewrite elem_of_list_singleton, elem_of_singleton. }
  pose proof (proj1 (ss_trip_iff sh_empty None _ _ Ho) (H _ _ _ _ Ho) (bytes [255%N])) as Hu.
  rewrite elem_of_singleton in Hu. specialize (Hu eq_refl). apply json_str_utf8 in Hu. vm_compute in Hu. done.
Qed.
Definition ss_view2 (r : sheap * sset * bool) : gset string * bool := (ss_at r.1.1 r.1.2, r.2).
Lemma path_back_false : ~ forall p : list (nat * bool), py_edge_slice (py_run (fun n : nat => n) (fun e => e) [IPath p]) = Some p.
Proof. intros H. specialize (H [(0, true)]). vm_compute in H. done. Qed.
Lemma sym_of_ok r : sym_of r = sym_view (py_run (fun n : nat => n) (fun e => e) [item_of r]).
Proof.
  unfold sym_view. destruct (py_node_slice_ok (fun n : nat => n) (fun e : nat => e) [item_of r] ltac:(done)) as [H1 H2].
  destruct (py_edge_slice_ok (fun n : nat => n) (fun e : nat => e) [item_of r] ltac:(done)) as [H3 H4]. destruct r as [n|p]; cbn [item_of sym_of] in *.
  - rewrite H1 by (exists n; left). rewrite H4; [done|]. intros [[e He]|[p He]]; by apply elem_of_list_singleton in He.
  - rewrite H2, H3; [|right; eexists; left|by intros [n He]; apply elem_of_list_singleton in He]. cbn [option_map].
    unfold added_edges. cbn [mbind list_bind]. rewrite app_nil_r. f_equal. f_equal.
    assert (forall l : list nat, map fst (map (fun e => (e, false)) l) = l) as ->.
    { intros l. induction l as [|e l IH]; [done|]. cbn. by rewrite IH. }
    f_equal. clear. induction (p_path p) as [|x l IH]; [done|]. cbn. f_equal. exact IH.
Qed.
Definition show_str (v : value) : option string := match v with VStr s => Some s | _ => None end.
Definition C72_p : props := {["k" := VStr "v"; "l" := VStr "w"; "n" := VOther true 0]}.
Lemma node_string_false : ~ forall show X X' p p' lord lord' ord ord',
  order_of X lord -> order_of X' lord' -> order_of (dom p) ord -> order_of (dom p') ord' ->
  node_string show X p lord ord = node_string show X' p' lord' ord' -> X = X' /\ same_shown show p p'.
Proof.
  intros H. destruct (H show_str {["a:b"]} {["a"; "b"]} ∅ ∅ ["a:b"] ["a"; "b"] [] []) as [E _]; try by_compute.
  assert ("a:b" ∈ ({["a"; "b"]} : gset string)) as Hin by (rewrite <-E; set_solver).
  apply elem_of_union in Hin as [Hin|Hin]; apply elem_of_singleton in Hin; done.
Qed.
Lemma node_string_varies : exists X lord lord', order_of X lord /\ order_of X lord' /\
  node_string show_str X ∅ lord [] <> node_string show_str X ∅ lord' [].
Proof. exists {["a"; "b"]}, ["a"; "b"], ["b"; "a"]. split; [by_compute|]. split; [by_compute|]. vm_compute. done. Qed.
Lemma node_string_stable show X (p : props) lord lord' ord ord' : size X <= 1 -> size p <= 1 ->
  order_of X lord -> order_of X lord' -> order_of (dom p) ord -> order_of (dom p) ord' ->
  node_string show X p lord ord = node_string show X p lord' ord'.
Proof.
  intros HX Hp Hl Hl' Ho Ho'. rewrite (order_one X lord lord'), (order_one (dom p) ord ord'); try done. by rewrite size_dom.
Qed.
Fixpoint lacksb (c : ascii) (s : string) : bool :=
  match s with EmptyString => true | String x r => negb (Ascii.eqb x c) && lacksb c r end.
Lemma check_lacks c s : lacksb c s = true -> lacks c s.
Proof.
  induction s as [|x s IH]; [intros; apply lacks_nil|]. cbn. intros [H1 H2]%andb_true_iff. apply lacks_cons. split; [|by apply IH].
  intros ->. by rewrite Ascii.eqb_refl in H1.
Qed.
Lemma check_labels X : set_Forall (fun l => lacksb colon l = true /\ lacksb space l = true) X -> plain_labels X.
Proof. intros H l Hl. apply H in Hl as [? ?]. split; by apply check_lacks. Qed.
Lemma check_props show p : map_Forall (fun k v => match show v with
    | Some s => lacksb colon k && (lacksb space k && lacksb space s) | None => true end = true) p -> plain_props show p.
Proof.
  intros H k v s Hv Hs. apply H in Hv. rewrite Hs in Hv. apply andb_true_iff in Hv as [? [? ?]%andb_true_iff].
  split_and!; by apply check_lacks.
Qed.
Definition C73_text (k n : nat) : string := match n with 0 => "(a)" | 1 => "(b)" | _ => "(c)" end.
Lemma C73_text_ok k n : enclosed (C73_text k n).
Proof. destruct n as [|[|n]]; [by exists "a"|by exists "b"|by exists "c"]. Qed.
Lemma path_string_false : ~ forall from to text p p', (forall k n, enclosed (text k n)) ->
  path_string from to text p = path_string from to text p' -> num_path_nodes p = num_path_nodes p'.
Proof. intros H. specialize (H S S C73_text (path_from_node 0) path_empty C73_text_ok eq_refl). vm_compute in H. done. Qed.
Lemma intern_false : ~ forall i l, (intern_all i l).2 = l.
Proof. intros H. specialize (H {["a" := "b"]} ["a"]). vm_compute in H. done. Qed.
Lemma intern_empty l : (intern_all ∅ l).2 = l.
Proof. apply intern_all_ok. intros k v. by rewrite lookup_empty. Qed.
