(** Proofs about JSON texts. *)
From Verif Require Import Base JsonText.

Section json_ind.
  Context (P : json -> Prop) (HS : forall s, P (JS s)) (HA : forall l, Forall P l -> P (JArr l))
    (HO : forall l, Forall (fun p => P p.2) l -> P (JObj l)).
  Fixpoint json_ind' (v : json) : P v :=
    match v with
    | JS s => HS s
    | JArr l => HA l ((fix go l : Forall P l := match l with [] => List.Forall_nil _ | x :: r => List.Forall_cons _ _ _ (json_ind' x) (go r) end) l)
    | JObj l => HO l ((fix go l : Forall (fun p => P p.2) l := match l with [] => List.Forall_nil _ | x :: r => List.Forall_cons _ _ _ (json_ind' x.2) (go r) end) l)
    end.
End json_ind.

(** a member of an object *)
Notation member p := (TS (SStr p.1) :: TColon :: toks p.2).

Lemma commas_cons x y l : commas (x :: y :: l) = x ++ TComma :: commas (y :: l).
Proof. done. Qed.
Lemma toks_head v : exists t r, toks v = t :: r /\ t <> TArrEnd /\ t <> TObjEnd.
Proof. destruct v; simpl; eauto. Qed.
Lemma parse_arr k ts : head ts <> Some TArrEnd ->
  parse (S k) (TArr :: ts) = match parse_elems k ts with Some (l, r) => Some (JArr l, r) | None => None end.
Proof. destruct ts as [|[] ts]; try done. Qed.
Lemma parse_obj k ts : head ts <> Some TObjEnd ->
  parse (S k) (TObj :: ts) = match parse_members k ts with Some (l, r) => Some (JObj l, r) | None => None end.
Proof. destruct ts as [|[] ts]; try done. Qed.

Definition parses (v : json) : Prop := forall k r, length (toks v) <= k -> parse k (toks v ++ r) = Some (v, r).
Lemma parse_elems_ok v l : Forall parses (v :: l) -> forall k r, length (commas (map toks (v :: l))) < k ->
  parse_elems k (commas (map toks (v :: l)) ++ TArrEnd :: r) = Some (v :: l, r).
Proof.
  revert v. induction l as [|w l IH]; intros v [Hv Hl]%Forall_cons k r Hk; destruct k as [|k]; try lia; cbn [map commas] in *.
  - cbn [parse_elems]. rewrite Hv by lia. done.
  - rewrite app_length in Hk. cbn [length] in Hk. cbn [parse_elems]. rewrite <-app_assoc, Hv by lia. cbn [app].
    specialize (IH w Hl k r). cbn [map commas] in IH. rewrite IH by lia. done.
Qed.
Lemma parse_members_ok v l : Forall (fun p => parses p.2) (v :: l) -> forall k r, length (commas (map (fun p => member p) (v :: l))) < k ->
  parse_members k (commas (map (fun p => member p) (v :: l)) ++ TObjEnd :: r) = Some (v :: l, r).
Proof.
  revert v. induction l as [|w l IH]; intros v [Hv Hl]%Forall_cons k r Hk; destruct k as [|k]; try lia.
  - cbn [parse_members app length map commas] in *. rewrite Hv by lia. destruct v; done.
  - specialize (IH w Hl k r). set (f := fun p => member p) in *.
    change (commas (map f (v :: w :: l))) with (f v ++ TComma :: commas (map f (w :: l))) in *.
    set (R := commas (map f (w :: l))) in *. unfold f in *.
    rewrite app_length in Hk. cbn [length] in Hk. cbn [app parse_members]. rewrite <-app_assoc, Hv by lia. cbn [app].
    rewrite IH by lia. destruct v; done.
Qed.
Lemma parse_ok v : parses v.
Proof.
  induction v as [s|l IH|l IH] using json_ind'; intros k r Hk; destruct k as [|k]; try (simpl in Hk; lia).
  - done.
  - destruct l as [|v l]; [done|]. cbn [toks] in *. cbn [length] in Hk. rewrite app_length in Hk. simpl in Hk.
    rewrite <-app_comm_cons, <-app_assoc. cbn [app]. rewrite parse_arr.
    + pose proof (parse_elems_ok v l IH k r) as H. rewrite H; [done|]. simpl. lia.
    + destruct (toks_head v) as (t & ts & E & ? & ?). cbn [map]. destruct l; [|rewrite map_cons, commas_cons]; cbn [commas map]; rewrite E; simpl; congruence.
  - destruct l as [|v l]; [done|]. cbn [toks] in *. cbn [length] in Hk. rewrite app_length in Hk. simpl in Hk.
    rewrite <-app_comm_cons, <-app_assoc. cbn [app]. rewrite parse_obj.
    + pose proof (parse_members_ok v l IH k r) as H. rewrite H; [done|]. simpl. lia.
    + cbn [map]. destruct l; done.
Qed.
Lemma toks_inj v w : toks v = toks w -> v = w.
Proof.
  intros E. pose proof (parse_ok v (length (toks v)) [] (le_n _)) as H1.
  pose proof (parse_ok w (length (toks v)) [] ltac:(rewrite E; done)) as H2. rewrite app_nil_r in H1, H2. rewrite <-E in H2. congruence.
Qed.
(** a text that starts with a brace and a comma is not JSON *)
Lemma comma_no_json ts v : TObj :: TComma :: ts <> toks v.
Proof. destruct v as [s|l|[|p l]]; simpl; try done. destruct l; done. Qed.

(** ** The decoder *)
Lemma decode_value_ok v r st : decode_value (Decoder (TColon :: toks v ++ r) ObjectColon st) = Some (v, Decoder r ObjectComma st).
Proof. unfold decode_value. cbn [dc_state dc_in dc_stack value_allowed]. rewrite (parse_ok v); [done|]. rewrite app_length. lia. Qed.

Inductive reads : decoder -> list dtok -> decoder -> Prop :=
| reads_nil d : reads d [] d
| reads_cons d t d1 ts d2 : token d = Some (t, d1) -> reads d1 ts d2 -> reads d (t :: ts) d2.
Lemma reads_app d ts d1 ts' d2 : reads d ts d1 -> reads d1 ts' d2 -> reads d (ts ++ ts') d2.
Proof. induction 1; [done|]. intros H'. simpl. econstructor; eauto. Qed.
Lemma reads_step d d' t ts d2 : token d = token d' -> reads d' (t :: ts) d2 -> reads d (t :: ts) d2.
Proof. intros E H. inversion H; subst. econstructor; [|done]. congruence. Qed.
Lemma dtoks_cons v : exists t ts, dtoks v = t :: ts.
Proof. destruct v; simpl; eauto. Qed.
Definition value_reads (v : json) : Prop := forall r t st, value_allowed t = true ->
  reads (Decoder (toks v ++ r) t st) (dtoks v) (Decoder r (value_end t) st).
Lemma reads_elems l : Forall value_reads l -> forall r t st, t = ArrayStart \/ t = ArrayValue -> l <> [] ->
  reads (Decoder (commas (map toks l) ++ r) t st) (concat (map dtoks l)) (Decoder r ArrayComma st).
Proof.
  induction 1 as [|v l Hv Hl IH]; intros r t st Ht Hne; [done|]. destruct l as [|w l].
  - cbn [map commas concat]. rewrite app_nil_r. destruct Ht as [-> | ->]; by apply (Hv r).
  - cbn [map] in *. rewrite commas_cons. cbn [concat] in *. eapply reads_app.
    + rewrite <-app_assoc. destruct Ht as [-> | ->]; by apply Hv.
    + assert (value_end t = ArrayComma) as -> by (by destruct Ht as [-> | ->]). rewrite <-app_comm_cons.
      specialize (IH r ArrayValue st (or_intror eq_refl) ltac:(done)).
      destruct (dtoks_cons w) as (a & b & E). rewrite E in *. eapply reads_step; [|exact IH]. done.
Qed.
Lemma reads_members l : Forall (fun p => value_reads p.2) l -> forall r t st, t = ObjectStart \/ t = ObjectKey -> l <> [] ->
  reads (Decoder (commas (map (fun p => member p) l) ++ r) t st) (concat (map (fun p => DS (SStr p.1) :: dtoks p.2) l)) (Decoder r ObjectComma st).
Proof.
  assert (Hm : forall p r t st, value_reads p.2 -> t = ObjectStart \/ t = ObjectKey ->
    reads (Decoder (member p ++ r) t st) (DS (SStr p.1) :: dtoks p.2) (Decoder r ObjectComma st)).
  { intros p r t st Hp Ht. eapply (reads_cons _ _ (Decoder (TColon :: toks p.2 ++ r) ObjectColon st)).
    - by destruct Ht as [-> | ->].
    - specialize (Hp r ObjectValue st eq_refl). destruct (dtoks_cons p.2) as (a & b & E). rewrite E in *. eapply reads_step; [|exact Hp]. done. }
  induction 1 as [|v l Hv Hl IH]; intros r t st Ht Hne; [done|]. destruct l as [|w l].
  - cbn [map commas concat]. rewrite app_nil_r. by apply Hm.
  - cbn [map] in *. rewrite commas_cons. cbn [concat] in *. eapply reads_app.
    + rewrite <-app_assoc. by apply Hm.
    + rewrite <-app_comm_cons. specialize (IH r ObjectKey st (or_intror eq_refl) ltac:(done)).
      eapply reads_step; [|exact IH]. done.
Qed.
Lemma reads_value v : value_reads v.
Proof.
  induction v as [s|l IH|l IH] using json_ind'; intros r t st Ht; cbn [toks dtoks].
  - econstructor; [|constructor]. unfold token. cbn [dc_in dc_state dc_stack app token_from]. destruct t; try done; by destruct s.
  - rewrite <-app_comm_cons. eapply reads_cons; [unfold token; cbn [dc_in dc_state dc_stack token_from]; by rewrite Ht|].
    assert (E : reads (Decoder (TArrEnd :: r) (if decide (l = []) then ArrayStart else ArrayComma) (t :: st)) [DArrEnd] (Decoder r (value_end t) st)).
    { econstructor; [|constructor]. by case_decide. }
    destruct (decide (l = [])) as [->|Hne]; [exact E|].
    eapply reads_app; [|exact E]. rewrite <-app_assoc. by apply reads_elems; [|left|].
  - rewrite <-app_comm_cons. eapply reads_cons; [unfold token; cbn [dc_in dc_state dc_stack token_from]; by rewrite Ht|].
    assert (E : reads (Decoder (TObjEnd :: r) (if decide (l = []) then ObjectStart else ObjectComma) (t :: st)) [DObjEnd] (Decoder r (value_end t) st)).
    { econstructor; [|constructor]. by case_decide. }
    destruct (decide (l = [])) as [->|Hne]; [exact E|].
    eapply reads_app; [|exact E]. rewrite <-app_assoc. by apply reads_members; [|left|].
Qed.
Lemma token_shorter d t d' : token d = Some (t, d') -> length (dc_in d') < length (dc_in d).
Proof.
  destruct d as [ts u st]. unfold token. cbn [dc_in dc_state dc_stack]. revert u.
  assert (Hp : forall r st d, pop r st = Some d -> dc_in d = r). { intros r [|a b] d; simpl; [done|]. by intros [= <-]. }
  induction ts as [|x r IH]; intros u; cbn [token_from]; [done|]. intros H. cbn [length]. apply Nat.lt_succ_r.
  destruct x.
  - destruct (value_allowed u); [|done]. by injection H as <- <-.
  - destruct u; try done; apply bind_Some in H as (d & Hd & [= <- <-]); by rewrite (Hp _ _ _ Hd).
  - destruct (value_allowed u); [|done]. by injection H as <- <-.
  - destruct u; try done; apply bind_Some in H as (d & Hd & [= <- <-]); by rewrite (Hp _ _ _ Hd).
  - destruct u; try done; apply IH in H; lia.
  - destruct u; try done; apply IH in H; lia.
  - destruct u, s; try done; by injection H as <- <-.
  - done.
Qed.
Lemma parse_shorter k : (forall ts v r, parse k ts = Some (v, r) -> length r < length ts) /\
  (forall ts v r, parse_elems k ts = Some (v, r) -> length r < length ts) /\
  (forall ts v r, parse_members k ts = Some (v, r) -> length r < length ts).
Proof.
  induction k as [|k (IH1 & IH2 & IH3)]; [done|]. split_and!; intros ts v r.
  - destruct ts as [|x ts]; [done|]. destruct x; cbn [parse]; try done.
    + assert (head ts = Some TObjEnd \/ head ts <> Some TObjEnd) as [E|E] by (destruct ts as [|[] ?]; first [by left|by right]).
      * destruct ts as [|[] ts]; try done. intros [= <- <-]. simpl. lia.
      * intros H. assert (match parse_members k ts with Some (l, r) => Some (JObj l, r) | None => None end = Some (v, r)) as H' by (by destruct ts as [|[] ?]).
        destruct (parse_members k ts) as [[l r']|] eqn:E'; [|done]. injection H' as <- <-. apply IH3 in E'. simpl. lia.
    + assert (head ts = Some TArrEnd \/ head ts <> Some TArrEnd) as [E|E] by (destruct ts as [|[] ?]; first [by left|by right]).
      * destruct ts as [|[] ts]; try done. intros [= <- <-]. simpl. lia.
      * intros H. assert (match parse_elems k ts with Some (l, r) => Some (JArr l, r) | None => None end = Some (v, r)) as H' by (by destruct ts as [|[] ?]).
        destruct (parse_elems k ts) as [[l r']|] eqn:E'; [|done]. injection H' as <- <-. apply IH2 in E'. simpl. lia.
    + intros [= <- <-]. simpl. lia.
  - cbn [parse_elems]. destruct (parse k ts) as [[w [|[] ts']]|] eqn:E; try done; apply IH1 in E; simpl in E.
    + intros [= <- <-]. lia.
    + destruct (parse_elems k ts') as [[l r']|] eqn:E'; [|done]. intros [= <- <-]. apply IH2 in E'. lia.
  - cbn [parse_members]. destruct ts as [|[| | | | | |[]|] [|[] ts]]; try done.
    destruct (parse k ts) as [[w [|[] ts']]|] eqn:E; try done; apply IH1 in E; simpl in *.
    + intros [= <- <-]. lia.
    + destruct (parse_members k ts') as [[l r']|] eqn:E'; [|done]. intros [= <- <-]. apply IH3 in E'. lia.
Qed.
Lemma decode_value_shorter d v d' : decode_value d = Some (v, d') -> length (dc_in d') < length (dc_in d).
Proof.
  unfold decode_value. destruct d as [ts u st]. cbn [dc_in dc_state dc_stack].
  assert (H : forall r t, (if value_allowed t then match parse (S (length r)) r with Some (v, r) => Some (v, Decoder r (value_end t) st) | None => None end else None) = Some (v, d') -> length (dc_in d') < length r).
  { intros r t. destruct (value_allowed t); [|done]. destruct (parse (S (length r)) r) as [[w r']|] eqn:E; [|done]. intros [= <- <-].
    by apply parse_shorter in E. }
  destruct u; try (intros H'; by apply H in H'); destruct ts as [|[] ts]; try done; intros H'; apply H in H'; simpl; lia.
Qed.
