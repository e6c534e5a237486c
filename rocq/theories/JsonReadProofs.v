(** Proofs about the texts Decode accepts, and the order of the keys it writes. *)
From Verif Require Import Base Value ValueSpec ValueProofs Graph Sizes JsonText JsonTextProofs Json JsonSpec JsonReadSpec CoreProofs.
From Coq Require Import Sorted.
Local Open Scope string_scope.
Local Open Scope list_scope.

(** what is parsed is the text of the value *)
Lemma parse_sound k :
  (forall ts v r, parse k ts = Some (v, r) -> ts = toks v ++ r) /\
  (forall ts l r, parse_elems k ts = Some (l, r) -> l <> [] /\ ts = commas (map toks l) ++ TArrEnd :: r) /\
  (forall ts l r, parse_members k ts = Some (l, r) -> l <> [] /\ ts = commas (map (fun p => member p) l) ++ TObjEnd :: r).
Proof.
  induction k as [|k (IH1 & IH2 & IH3)]; [done|]. split_and!; intros ts v r.
  - destruct ts as [|x ts]; [done|]. destruct x; cbn [parse]; try done.
    + assert (head ts = Some TObjEnd \/ head ts <> Some TObjEnd) as [E|E] by (destruct ts as [|[] ?]; first [by left|by right]).
      * destruct ts as [|[] ts]; try done. by intros [= <- <-].
      * intros H. assert (match parse_members k ts with Some (l, r) => Some (JObj l, r) | None => None end = Some (v, r)) as H' by (by destruct ts as [|[] ?]).
        destruct (parse_members k ts) as [[l r']|] eqn:E'; [|done]. injection H' as <- <-. apply IH3 in E' as [_ ->].
        cbn [toks]. by rewrite <-app_comm_cons, <-app_assoc.
    + assert (head ts = Some TArrEnd \/ head ts <> Some TArrEnd) as [E|E] by (destruct ts as [|[] ?]; first [by left|by right]).
      * destruct ts as [|[] ts]; try done. by intros [= <- <-].
      * intros H. assert (match parse_elems k ts with Some (l, r) => Some (JArr l, r) | None => None end = Some (v, r)) as H' by (by destruct ts as [|[] ?]).
        destruct (parse_elems k ts) as [[l r']|] eqn:E'; [|done]. injection H' as <- <-. apply IH2 in E' as [_ ->].
        cbn [toks]. by rewrite <-app_comm_cons, <-app_assoc.
    + by intros [= <- <-].
  - cbn [parse_elems]. destruct (parse k ts) as [[w [|[] ts']]|] eqn:E; try done; apply IH1 in E as ->.
    + by intros [= <- <-].
    + destruct (parse_elems k ts') as [[l r']|] eqn:E'; [|done]. intros [= <- <-]. apply IH2 in E' as [Hne ->].
      split; [done|]. destruct l as [|y l]; [done|]. cbn [map]. rewrite commas_cons. by rewrite <-app_assoc, <-app_comm_cons.
  - cbn [parse_members]. destruct ts as [|[| | | | | |[]|] [|[] ts]]; try done.
    destruct (parse k ts) as [[w [|[] ts']]|] eqn:E; try done; apply IH1 in E as ->.
    + by intros [= <- <-].
    + destruct (parse_members k ts') as [[l r']|] eqn:E'; [|done]. intros [= <- <-]. apply IH3 in E' as [Hne ->].
      split; [done|]. destruct l as [|y l]; [done|]. cbn [map]. rewrite commas_cons. cbn [fst snd]. by rewrite <-!app_comm_cons, <-app_assoc, <-app_comm_cons.
Qed.
Lemma decode_value_sound r st v d : decode_value (Decoder r ObjectColon st) = Some (v, d) ->
  exists r', r = TColon :: toks v ++ r' /\ d = Decoder r' ObjectComma st.
Proof.
  unfold decode_value. cbn [dc_in dc_state dc_stack]. destruct r as [|[] r]; try done. cbn [value_allowed].
  destruct (parse (S (length r)) r) as [[w r']|] eqn:E; [|done]. intros [= <- <-]. apply parse_sound in E as ->. eauto.
Qed.

(** ** The texts Decode accepts *)
(** what is left of them after the members read so far *)
Definition rest_text (first : bool) (ts : list jtok) : Prop := exists ms r, Forall other_scalar ms /\
  (ts = (if first then [] else match ms with [] => [] | _ => [TComma] end) ++ commas (map (fun p => member p) ms) ++ TObjEnd :: r \/
   exists key t, key <> "nodes" /\ key <> "edges" /\ (t = TObj \/ t = TArr) /\
     ts = (if first then [] else [TComma]) ++ commas (map (fun p => member p) ms ++ [[TS (SStr key); TColon; t]]) ++ r).
Lemma rest_cons (first : bool) p ts : other_scalar p -> rest_text false ts -> rest_text first ((if first then [] else [TComma]) ++ member p ++ ts).
Proof.
  intros Hp (ms & r & Hms & H). exists (p :: ms), r. split; [by constructor|]. destruct H as [-> | (key & t & N1 & N2 & Ht & ->)]; [left|right].
  - cbn [map]. replace (match p :: ms with [] => [] | _ => [TComma] end) with [TComma] by done. f_equal.
    destruct ms as [|q ms]; [done|]. cbn [map]. rewrite commas_cons. by rewrite <-app_assoc.
  - exists key, t. split_and!; try done. f_equal. cbn [map app]. destruct (map _ ms) eqn:E; cbn [app]; rewrite commas_cons; by rewrite <-app_assoc.
Qed.
Lemma rest_end first r : rest_text first (TObjEnd :: r).
Proof. exists [], r. split; [done|]. left. by destruct first. Qed.
Lemma rest_nested (first : bool) key t r : key <> "nodes" -> key <> "edges" -> t = TObj \/ t = TArr ->
  rest_text first ((if first then [] else [TComma]) ++ TS (SStr key) :: TColon :: t :: r).
Proof. intros N1 N2 Ht. exists [], r. split; [done|]. right. by exists key, t. Qed.

Lemma loop_accepts pu lord k : forall (first : bool) r s s',
  decode_loop pu lord k (Decoder r (if first then ObjectStart else ObjectComma) [TopValue]) 0 s = Ok (s', true) -> rest_text first r.
Proof.
  induction k as [k IH] using lt_wf_ind. intros first r s s' H. destruct k as [|k]; [done|]. cbn [decode_loop] in H.
  set (t0 := if first then ObjectStart else ObjectComma) in *.
  destruct (token (Decoder r t0 [TopValue])) as [[t d]|] eqn:Et; [|done].
  (* the end, or a key *)
  assert ((exists r', t = DObjEnd /\ r = TObjEnd :: r') \/
          exists key r', t = DS (SStr key) /\ d = Decoder r' ObjectColon [TopValue] /\ r = (if first then [] else [TComma]) ++ TS (SStr key) :: r') as [(r' & -> & ->)|(key & r' & -> & -> & ->)].
  { unfold token in Et. cbn [dc_in dc_state dc_stack] in Et. destruct first; subst t0.
    - destruct r as [|[| | | | | |[]|] r]; try done; cbn in Et.
      + injection Et as <- <-. left. eauto.
      + injection Et as <- <-. right. eauto.
    - destruct r as [|[| | | | | |[]|] r]; try done; cbn in Et.
      + injection Et as <- <-. left. eauto.
      + destruct r as [|[| | | | | |[]|] r]; try done; cbn in Et.
        injection Et as <- <-. right. eauto. }
  { apply rest_end. }
  assert (Hval : forall v, other_scalar (key, v) -> forall r2 k2 s2, k2 < S k -> r' = TColon :: toks v ++ r2 ->
    decode_loop pu lord k2 (Decoder r2 ObjectComma [TopValue]) 0 s2 = Ok (s', true) ->
    rest_text first ((if first then [] else [TComma]) ++ TS (SStr key) :: r')).
  { intros v Hv r2 k2 s2 Hk -> Hl. apply (IH k2 Hk false) in Hl. apply (rest_cons first (key, v)); done. }
  destruct (decide (key = "nodes")) as [N1|N1]; [|destruct (decide (key = "edges")) as [N2|N2]].
  - destruct (decode_value _) as [[v d]|] eqn:Ev; [|done]. apply decode_value_sound in Ev as (r2 & E & ->).
    destruct (read_list read_node v) as [nds|]; [|done]. inv_ok H. destruct a.2 eqn:Ea; [|by destruct a; simplify_eq/=].
    eapply (Hval v); [left; cbn; by left| |exact E|exact H]. lia.
  - destruct (decode_value _) as [[v d]|] eqn:Ev; [|done]. apply decode_value_sound in Ev as (r2 & E & ->).
    destruct (read_list (read_edge true) v) as [nds|]; [|done]. inv_ok H. destruct a.2 eqn:Ea; [|by destruct a; simplify_eq/=].
    eapply (Hval v); [left; cbn; by right| |exact E|exact H]. lia.
  - destruct k as [|k]; [done|]. cbn [decode_loop] in H.
    destruct (token (Decoder r' ObjectColon [TopValue])) as [[t d]|] eqn:Et'; [|done].
    unfold token in Et'. cbn [dc_in dc_state dc_stack] in Et'. destruct r' as [|[] r']; try done.
    cbn [token_from] in Et'. destruct r' as [|[| | | | | |sc|] r']; cbn in Et'; try done; [apply rest_nested; by auto|apply rest_nested; by auto|].
    assert (t = DS sc /\ d = Decoder r' ObjectComma [TopValue]) as [-> ->] by (destruct sc; by injection Et' as <- <-).
    eapply (Hval (JS sc)); [by right; exists sc| |done|exact H]. lia.
Qed.
Lemma decode_accepts pu lord g ts g' : decode pu lord g ts = Ok (g', true) -> scalar_text ts \/ nested_text ts.
Proof.
  unfold decode. destruct (token (new_decoder ts)) as [[t d]|] eqn:E; [|done].
  unfold token, new_decoder in E. cbn [dc_in dc_state dc_stack] in E.
  destruct ts as [|[| | | | | |sc|] ts]; cbn in E; try done.
  2:{ by injection E as <- <-. } 2:{ destruct sc; by injection E as <- <-. }
  injection E as <- <-. intros H. inv_ok H. destruct a as [s' b]. cbn in H. assert (b = true) as -> by congruence.
  apply (loop_accepts pu lord _ true) in Ha as (ms & r & Hms & [E | (key & t & N1 & N2 & Ht & E)]); cbn [app] in E; rewrite E; [left|right].
  - exists ms, r. split; [done|]. cbn [toks]. by rewrite <-app_comm_cons, <-app_assoc.
  - by exists ms, key, t, r.
Qed.

(** ** Keys *)
Lemma map_json_keys m : exists ks, map_json m = JObj (map (fun k => (json_str k, default (JS SNull) (m !! k))) ks) /\
  StronglySorted bytes_lt ks /\ (forall k, k ∈ ks <-> is_Some (m !! k)).
Proof.
  unfold map_json. pose proof (merge_sort_Permutation key_le (map_to_list m)) as Hp.
  assert (Hs : StronglySorted key_le (merge_sort key_le (map_to_list m))).
  { assert (Transitive key_le).
    { intros a b c Hab Hbc. unfold key_le in *. destruct (str_cmp a.1 b.1) eqn:E1; [apply str_cmp_eq in E1; by rewrite E1| |done].
      destruct (str_cmp b.1 c.1) eqn:E2; [apply str_cmp_eq in E2; by rewrite <-E2, E1| |done].
      by rewrite (str_cmp_trans_lt _ _ _ E1 E2). }
    assert (Total key_le).
    { intros a b. unfold key_le. rewrite (str_cmp_opp a.1 b.1). destruct (str_cmp a.1 b.1); cbn; [by left|by left|by right]. }
    apply StronglySorted_merge_sort; apply _. }
  set (l := merge_sort key_le (map_to_list m)) in *.
  assert (Hl : forall k d, (k, d) ∈ l <-> m !! k = Some d) by (intros k d; by rewrite Hp, elem_of_map_to_list).
  assert (Hn : NoDup l.*1) by (rewrite Hp; apply NoDup_fst_map_to_list). clearbody l. clear Hp.
  exists l.*1. split_and!.
  - f_equal. rewrite map_map. apply map_ext_in. intros [k d] Hin%elem_of_list_In%Hl. cbn. by rewrite Hin.
  - clear Hl. induction Hs as [|[k d] l Hs IH Hh]; [constructor|]. cbn in Hn |- *. apply NoDup_cons in Hn as [Hk Hn]. constructor; [by apply IH|].
    apply Forall_forall. intros k' Hin. apply str_cmp_lt_bytes. assert (k <> k') by (by intros <-).
    apply elem_of_list_fmap in Hin as ([? d'] & -> & Hin). rewrite Forall_forall in Hh. specialize (Hh _ Hin). unfold key_le in Hh. cbn in *.
    destruct (str_cmp k s) eqn:E; [|done..]. by apply str_cmp_eq in E.
  - intros k. rewrite elem_of_list_fmap. split.
    + intros ([? d] & -> & Hin%Hl). by exists d.
    + intros [d Hd]. exists (k, d). split; [done|]. by apply Hl.
Qed.

(** ** What follows the text *)
Definition more (x : list jtok) (d : decoder) : decoder := Decoder (dc_in d ++ x) (dc_state d) (dc_stack d).
Lemma token_more x d t d' : token d = Some (t, d') -> token (more x d) = Some (t, more x d').
Proof.
  destruct d as [ts u st]. unfold token, more. cbn [dc_in dc_state dc_stack]. revert u.
  assert (Hp : forall r st d, pop r st = Some d -> pop (r ++ x) st = Some (more x d)). { intros r [|a b] d; simpl; [done|]. by intros [= <-]. }
  induction ts as [|y r IH]; intros u; cbn [token_from app]; [done|]. intros H.
  destruct y.
  - destruct (value_allowed u); [|done]. by injection H as <- <-.
  - destruct u; try done; apply bind_Some in H as (d & Hd & [= <- <-]); by rewrite (Hp _ _ _ Hd).
  - destruct (value_allowed u); [|done]. by injection H as <- <-.
  - destruct u; try done; apply bind_Some in H as (d & Hd & [= <- <-]); by rewrite (Hp _ _ _ Hd).
  - destruct u; try done; by apply IH in H.
  - destruct u; try done; by apply IH in H.
  - destruct u, s; try done; by injection H as <- <-.
  - done.
Qed.
Lemma parse_more x k : forall k', k <= k' ->
  (forall ts v r, parse k ts = Some (v, r) -> parse k' (ts ++ x) = Some (v, r ++ x)) /\
  (forall ts l r, parse_elems k ts = Some (l, r) -> parse_elems k' (ts ++ x) = Some (l, r ++ x)) /\
  (forall ts l r, parse_members k ts = Some (l, r) -> parse_members k' (ts ++ x) = Some (l, r ++ x)).
Proof.
  induction k as [|k IH]; [done|]. intros [|k'] Hk; [lia|]. destruct (IH k' ltac:(lia)) as (IH1 & IH2 & IH3). split_and!; intros ts v r.
  - destruct ts as [|y ts]; [done|]. destruct y; try done.
    + assert (head ts = Some TObjEnd \/ head ts <> Some TObjEnd) as [E|E] by (destruct ts as [|[] ?]; first [by left|by right]).
      * destruct ts as [|[] ts]; try done. by intros [= <- <-].
      * rewrite parse_obj by done. destruct (parse_members k ts) as [[l r']|] eqn:E'; [|done]. intros [= <- <-].
        rewrite <-app_comm_cons, parse_obj; [by rewrite (IH3 _ _ _ E')|]. destruct ts; [|done]. by destruct k.
    + assert (head ts = Some TArrEnd \/ head ts <> Some TArrEnd) as [E|E] by (destruct ts as [|[] ?]; first [by left|by right]).
      * destruct ts as [|[] ts]; try done. by intros [= <- <-].
      * rewrite parse_arr by done. destruct (parse_elems k ts) as [[l r']|] eqn:E'; [|done]. intros [= <- <-].
        rewrite <-app_comm_cons, parse_arr; [by rewrite (IH2 _ _ _ E')|]. destruct ts; [|done]. destruct k as [|[|?]]; done.
    + by intros [= <- <-].
  - cbn [parse_elems]. destruct (parse k ts) as [[w [|[] ts']]|] eqn:E; try done; rewrite (IH1 _ _ _ E); cbn [app].
    + by intros [= <- <-].
    + destruct (parse_elems k ts') as [[l r']|] eqn:E'; [|done]. intros [= <- <-]. by rewrite (IH2 _ _ _ E').
  - cbn [parse_members]. destruct ts as [|[| | | | | |[]|] [|[] ts]]; try done. cbn [app].
    destruct (parse k ts) as [[w [|[] ts']]|] eqn:E; try done; rewrite (IH1 _ _ _ E); cbn [app].
    + by intros [= <- <-].
    + destruct (parse_members k ts') as [[l r']|] eqn:E'; [|done]. intros [= <- <-]. by rewrite (IH3 _ _ _ E').
Qed.
Lemma decode_value_more x d v d' : decode_value d = Some (v, d') -> decode_value (more x d) = Some (v, more x d').
Proof.
  unfold decode_value. destruct d as [ts u st]. unfold more. cbn [dc_in dc_state dc_stack].
  assert (H : forall r t, (if value_allowed t then match parse (S (length r)) r with Some (v, r) => Some (v, Decoder r (value_end t) st) | None => None end else None) = Some (v, d') ->
    (if value_allowed t then match parse (S (length (r ++ x))) (r ++ x) with Some (v, r) => Some (v, Decoder r (value_end t) st) | None => None end else None) = Some (v, more x d')).
  { intros r t. destruct (value_allowed t); [|done]. destruct (parse (S (length r)) r) as [[w r']|] eqn:E; [|done]. intros [= <- <-].
    destruct (parse_more x (S (length r)) (S (length (r ++ x)))) as [Hp _]; [rewrite app_length; lia|]. by rewrite (Hp _ _ _ E). }
  destruct u; try (intros H'; by apply H in H'); destruct ts as [|[] ts]; try done; intros H'; by apply H in H'.
Qed.
Lemma loop_more pu lord x k : forall k' d n s s', k <= k' -> decode_loop pu lord k d n s = Ok (s', true) -> decode_loop pu lord k' (more x d) n s = Ok (s', true).
Proof.
  induction k as [|k IH]; intros k' d n s s' Hk; [done|]. destruct k' as [|k']; [lia|]. apply le_S_n in Hk. cbn [decode_loop].
  destruct (token d) as [[t d1]|] eqn:Et; [|done]. rewrite (token_more x _ _ _ Et).
  destruct n as [|n]; [|destruct t; by apply IH].
  destruct t as [| | | |sc]; try by apply IH. 1: done.
  destruct sc as [| | | |key]; try by apply IH.
  destruct (decide (key = "nodes")); [|destruct (decide (key = "edges")); [|by apply IH]].
  - destruct (decode_value d1) as [[v d2]|] eqn:Ev; [|done]. rewrite (decode_value_more x _ _ _ Ev).
    destruct (read_list _ _); [|done]. intros H. inv_ok H. rewrite Ha. cbn. destruct a.2; [by apply IH|done].
  - destruct (decode_value d1) as [[v d2]|] eqn:Ev; [|done]. rewrite (decode_value_more x _ _ _ Ev).
    destruct (read_list _ _); [|done]. intros H. inv_ok H. rewrite Ha. cbn. destruct a.2; [by apply IH|done].
Qed.
Lemma decode_more pu lord g ts x g' : decode pu lord g ts = Ok (g', true) -> decode pu lord g (ts ++ x) = Ok (g', true).
Proof.
  unfold decode. destruct (token (new_decoder ts)) as [[t d]|] eqn:E; [|done]. apply (token_more x) in E.
  replace (more x (new_decoder ts)) with (new_decoder (ts ++ x)) in E by done. rewrite E. destruct t; try done.
  intros H. inv_ok H. destruct a as [s' b]. cbn in H. assert (b = true) as -> by congruence.
  assert (Hl : length ts <= length (ts ++ x)) by (rewrite app_length; lia).
  by rewrite (loop_more pu lord x _ _ _ _ _ _ Hl Ha).
Qed.

(** ** A text that is accepted and is no JSON object *)
Definition cut_text : list jtok := [TObj; TS (SStr "x"); TColon; TObj; TS (SStr "a"); TColon; TS SNull; TObjEnd].
Lemma cut_no_object ms r : cut_text <> toks (JObj ms) ++ r.
Proof.
  intros E. pose proof (parse_ok (JObj ms) 8 r) as H. rewrite <-E in H.
  assert (length (toks (JObj ms)) <= 8). { apply (f_equal length) in E. rewrite app_length in E. cbn [cut_text length] in E. lia. }
  by specialize (H ltac:(done)).
Qed.
