(** Proofs about the model of [ComparePropertyValue]. *)
From Verif Require Import Base Value ValueSpec.
From Coq Require Import Ascii.

(** ** Induction principle for values *)
Section value_ind.
  Variable P : value -> Prop.
  Hypothesis Hnil : P VNil.
  Hypothesis Hint : forall z, P (VInt z).
  Hypothesis Hstr : forall s, P (VStr s).
  Hypothesis Hstrs : forall l, P (VStrs l).
  Hypothesis Hints : forall l, P (VInts l).
  Hypothesis Hlist : forall l, Forall P l -> P (VList l).
  Hypothesis Hnat : forall v, P v -> P (VNative v).
  Hypothesis Hoth : forall h n, P (VOther h n).
  Fixpoint value_ind' (v : value) : P v :=
    match v with
    | VNil => Hnil
    | VInt z => Hint z
    | VStr s => Hstr s
    | VStrs l => Hstrs l
    | VInts l => Hints l
    | VList l => Hlist l
        ((fix go (l : list value) : Forall P l :=
            match l with
            | [] => Forall_nil_2 _
            | x :: r => Forall_cons_2 _ _ _ (value_ind' x) (go r)
            end) l)
    | VNative v => Hnat v (value_ind' v)
    | VOther h n => Hoth h n
    end.
End value_ind.

(** ** Strings *)
Lemma str_cmp_eq a b : str_cmp a b = Eq <-> a = b.
Proof.
  revert b; induction a as [|x a IH]; intros [|y b]; simpl; split; try congruence.
  - destruct (N.compare_spec (N_of_ascii x) (N_of_ascii y)) as [E|E|E]; try congruence.
    intros H. apply IH in H. subst b.
    rewrite <- (ascii_N_embedding x), <- (ascii_N_embedding y), E. reflexivity.
  - intros [= -> ->]. rewrite N.compare_refl. apply IH. reflexivity.
Qed.
Lemma str_cmp_refl a : str_cmp a a = Eq.
Proof. apply str_cmp_eq; reflexivity. Qed.
Lemma str_cmp_opp a b : str_cmp b a = CompOpp (str_cmp a b).
Proof.
  revert b; induction a as [|x a IH]; intros [|y b]; simpl; try reflexivity.
  rewrite (N.compare_antisym (N_of_ascii x) (N_of_ascii y)).
  destruct (N.compare (N_of_ascii x) (N_of_ascii y)); simpl; auto.
Qed.
Lemma str_cmp_trans_lt a b c : str_cmp a b = Lt -> str_cmp b c = Lt -> str_cmp a c = Lt.
Proof.
  revert b c; induction a as [|x a IH]; intros [|y b] [|z c]; simpl; try congruence.
  destruct (N.compare_spec (N_of_ascii x) (N_of_ascii y)) as [E|E|E]; try congruence;
  destruct (N.compare_spec (N_of_ascii y) (N_of_ascii z)) as [E'|E'|E']; try congruence;
  destruct (N.compare_spec (N_of_ascii x) (N_of_ascii z)) as [E''|E''|E'']; try lia; auto.
  apply IH.
Qed.

(** ** A total order on the content of values, of which [compare_value] is a restriction *)
Inductive nv : Type := NBad | NInt (z : Z) | NStr (s : string) | NList (l : list nv).

Section nv_ind.
  Variable P : nv -> Prop.
  Hypothesis Hbad : P NBad.
  Hypothesis Hint : forall z, P (NInt z).
  Hypothesis Hstr : forall s, P (NStr s).
  Hypothesis Hlist : forall l, Forall P l -> P (NList l).
  Fixpoint nv_ind' (v : nv) : P v :=
    match v with
    | NBad => Hbad
    | NInt z => Hint z
    | NStr s => Hstr s
    | NList l => Hlist l
        ((fix go (l : list nv) : Forall P l :=
            match l with
            | [] => Forall_nil_2 _
            | x :: r => Forall_cons_2 _ _ _ (nv_ind' x) (go r)
            end) l)
    end.
End nv_ind.

Fixpoint norm (v : value) : nv :=
  match v with
  | VNil | VOther _ _ => NBad
  | VInt z => NInt z
  | VStr s => NStr s
  | VStrs l => NList (map NStr l)
  | VInts l => NList (map NInt l)
  | VList l => NList (map norm l)
  | VNative w => norm w
  end.

Definition tlex {A} (f : A -> A -> comparison) :=
  fix go (l1 l2 : list A) {struct l1} : comparison :=
    match l1, l2 with
    | [], [] => Eq
    | [], _ :: _ => Lt
    | _ :: _, [] => Gt
    | x :: l1', y :: l2' => match f x y with Eq => go l1' l2' | c => c end
    end.

Fixpoint tcmp (a b : nv) {struct a} : comparison :=
  match a, b with
  | NBad, NBad => Eq
  | NBad, _ => Lt
  | NInt _, NBad => Gt
  | NInt x, NInt y => Z.compare x y
  | NInt _, _ => Lt
  | NStr _, NBad | NStr _, NInt _ => Gt
  | NStr x, NStr y => str_cmp x y
  | NStr _, NList _ => Lt
  | NList _, NBad | NList _, NInt _ | NList _, NStr _ => Gt
  | NList l1, NList l2 => tlex tcmp l1 l2
  end.

Lemma tcmp_eq a b : tcmp a b = Eq <-> a = b.
Proof.
  revert b; induction a as [|z|s|l IH] using nv_ind'; intros [|z'|s'|l']; simpl;
    try (split; congruence).
  - rewrite Z.compare_eq_iff. split; congruence.
  - rewrite str_cmp_eq. split; congruence.
  - transitivity (l = l'); [|split; congruence].
    revert l'; induction IH as [|x l Hx Hl IH]; intros [|y l']; simpl; try (split; congruence).
    specialize (Hx y). specialize (IH l').
    destruct (tcmp x y) eqn:E.
    + rewrite IH. destruct Hx as [Hx _]. rewrite Hx by reflexivity. split; congruence.
    + split; [discriminate|]. intros [= -> ->]. destruct Hx as [_ Hx]. rewrite Hx in *; congruence.
    + split; [discriminate|]. intros [= -> ->]. destruct Hx as [_ Hx]. rewrite Hx in *; congruence.
Qed.
Lemma tcmp_refl a : tcmp a a = Eq.
Proof. apply tcmp_eq; reflexivity. Qed.

Lemma tcmp_opp a b : tcmp b a = CompOpp (tcmp a b).
Proof.
  revert b; induction a as [|z|s|l IH] using nv_ind'; intros [|z'|s'|l']; simpl;
    try reflexivity.
  - apply Z.compare_antisym.
  - apply str_cmp_opp.
  - revert l'; induction IH as [|x l Hx Hl IH]; intros [|y l']; simpl; try reflexivity.
    rewrite Hx. destruct (tcmp x y); simpl; auto.
Qed.

Lemma tcmp_trans_lt a b c : tcmp a b = Lt -> tcmp b c = Lt -> tcmp a c = Lt.
Proof.
  revert b c; induction a as [|z|s|l IH] using nv_ind'; intros [|z'|s'|l'] [|z''|s''|l'']; simpl;
    try congruence.
  - rewrite !Z.compare_lt_iff. lia.
  - apply str_cmp_trans_lt.
  - revert l' l''; induction IH as [|x l Hx Hl IH]; intros [|y l'] [|w l'']; simpl; try congruence.
    destruct (tcmp x y) eqn:E1; try congruence; destruct (tcmp y w) eqn:E2; try congruence;
      try (apply tcmp_eq in E1; subst y); try (apply tcmp_eq in E2; subst w);
      rewrite ?E1, ?E2, ?tcmp_refl; try congruence; try apply IH; try congruence.
    rewrite (Hx y w); auto.
Qed.

(** ** [compare_value] agrees with the total order wherever it does not panic *)
Lemma norm_strip v : norm (strip v) = norm v.
Proof. induction v; simpl; auto. Qed.
Lemma strip_not_native v w : strip v = VNative w -> False.
Proof. induction v; simpl; auto; discriminate. Qed.

Lemma lex_tcmp {A B} (f : A -> B -> option comparison) (na : A -> nv) (nb : B -> nv) l1 l2 r :
  Forall (fun x => forall y c, f x y = Some c -> tcmp (na x) (nb y) = c) l1 ->
  lex f l1 l2 = Some r -> tlex tcmp (map na l1) (map nb l2) = r.
Proof.
  intros HF; revert l2; induction HF as [|x l1 Hx Hl IH]; intros [|y l2]; simpl; try congruence.
  destruct (f x y) as [c|] eqn:E; try congruence. rewrite (Hx _ _ E).
  destruct c; simpl; try congruence. apply IH.
Qed.

Lemma cmp_str_tcmp s b c : cmp_str s b = Some c -> tcmp (NStr s) (norm b) = c.
Proof.
  unfold cmp_str. rewrite <- (norm_strip b). destruct (strip b); try congruence.
  intros [= <-]; reflexivity.
Qed.
Lemma cmp_int_tcmp s b c : cmp_int s b = Some c -> tcmp (NInt s) (norm b) = c.
Proof.
  unfold cmp_int. rewrite <- (norm_strip b). destruct (strip b); try congruence.
  intros [= <-]; reflexivity.
Qed.

Lemma compare_value_tcmp a b c : compare_value a b = Some c -> tcmp (norm a) (norm b) = c.
Proof.
  revert b c; induction a as [|z|s|l|l|l IH|v IH|h n] using value_ind'; intros b c; simpl;
    try congruence; eauto using cmp_str_tcmp, cmp_int_tcmp.
  - rewrite <- (norm_strip b). destruct (strip b) eqn:Eb; try congruence; simpl.
    + intros H. eapply (lex_tcmp _ NStr NStr); [|exact H].
      apply Forall_true. intros x y c' [= <-]. reflexivity.
    + intros H. eapply (lex_tcmp _ NStr norm); [|exact H].
      apply Forall_true. intros x y c'. apply cmp_str_tcmp.
  - rewrite <- (norm_strip b). destruct (strip b) eqn:Eb; try congruence; simpl.
    + intros H. eapply (lex_tcmp _ NInt NInt); [|exact H].
      apply Forall_true. intros x y c' [= <-]. reflexivity.
    + intros H. eapply (lex_tcmp _ NInt norm); [|exact H].
      apply Forall_true. intros x y c'. apply cmp_int_tcmp.
  - rewrite <- (norm_strip b). destruct (strip b) eqn:Eb; try congruence; simpl.
    + destruct (lex cmp_str l0 l) as [c'|] eqn:E; simpl; try congruence. intros [= <-].
      apply (lex_tcmp _ NStr norm) in E.
      * change (tcmp (NList (map norm l)) (NList (map NStr l0)) = CompOpp c').
        rewrite tcmp_opp. f_equal. exact E.
      * apply Forall_true. intros x y c''. apply cmp_str_tcmp.
    + destruct (lex cmp_int l0 l) as [c'|] eqn:E; simpl; try congruence. intros [= <-].
      apply (lex_tcmp _ NInt norm) in E.
      * change (tcmp (NList (map norm l)) (NList (map NInt l0)) = CompOpp c').
        rewrite tcmp_opp. f_equal. exact E.
      * apply Forall_true. intros x y c''. apply cmp_int_tcmp.
    + intros H. eapply (lex_tcmp _ norm norm); [|exact H]. exact IH.
Qed.

(** ** Native values *)
Lemma compare_value_native_l a b : compare_value (VNative a) b = compare_value a b.
Proof. reflexivity. Qed.
Lemma compare_value_strip_r a b : compare_value a (strip b) = compare_value a b.
Proof.
  assert (Hs : strip (strip b) = strip b) by (induction b; simpl; auto).
  revert b Hs; induction a as [|z|s|l|l|l IH|v IH|h n] using value_ind'; intros b Hs; simpl;
    unfold cmp_str, cmp_int; rewrite ?Hs; auto.
Qed.
Lemma compare_value_native_r a b : compare_value a (VNative b) = compare_value a b.
Proof. rewrite <- (compare_value_strip_r a (VNative b)). simpl. apply compare_value_strip_r. Qed.
Lemma compare_value_strip_l a b : compare_value (strip a) b = compare_value a b.
Proof. induction a; simpl; auto. Qed.

(** ** Antisymmetry, with symmetric panics *)
Lemma lex_opp {A B} (f : A -> B -> option comparison) (g : B -> A -> option comparison) l1 l2 :
  Forall (fun x => forall y, g y x = option_map CompOpp (f x y)) l1 ->
  lex g l2 l1 = option_map CompOpp (lex f l1 l2).
Proof.
  intros HF; revert l2; induction HF as [|x l1 Hx Hl IH]; intros [|y l2]; simpl; try reflexivity.
  rewrite Hx. destruct (f x y) as [[]|]; simpl; auto.
Qed.
Lemma opp_opp (o : option comparison) : option_map CompOpp (option_map CompOpp o) = o.
Proof. destruct o as [[]|]; reflexivity. Qed.

Lemma compare_value_opp_stripped a b :
  compare_value (strip b) (strip a) = option_map CompOpp (compare_value (strip a) (strip b)).
Proof.
  enough (H : forall a b, compare_value b a = option_map CompOpp (compare_value a b)) by apply H.
  clear a b.
  induction a as [|z|s|l|l|l IH|v IH|h n] using value_ind'; intros b;
    rewrite <- (compare_value_strip_l b), <- (compare_value_strip_r _ b);
    try (rewrite compare_value_native_r, compare_value_native_l, IH; reflexivity);
    destruct (strip b) eqn:Eb; try (exfalso; eapply strip_not_native; exact Eb);
    cbn [compare_value cmp_str cmp_int strip option_map]; unfold cmp_str, cmp_int; simpl;
    rewrite ?opp_opp; try reflexivity.
  - f_equal. apply Z.compare_antisym.
  - f_equal. apply str_cmp_opp.
  - apply lex_opp. apply Forall_true. intros x y. simpl. f_equal. apply str_cmp_opp.
  - apply lex_opp. apply Forall_true. intros x y. simpl. f_equal. apply Z.compare_antisym.
  - apply lex_opp. exact IH.
Qed.
Lemma compare_value_opp a b : compare_value b a = option_map CompOpp (compare_value a b).
Proof.
  rewrite <- (compare_value_strip_l b), <- (compare_value_strip_r (strip b) a).
  rewrite <- (compare_value_strip_l a), <- (compare_value_strip_r (strip a) b).
  apply compare_value_opp_stripped.
Qed.

(** ** Transitivity and equality *)
Lemma compare_value_trans_gen a b c x y z :
  compare_value a b = Some x -> compare_value b c = Some y -> compare_value a c = Some z ->
  (x = Lt -> y <> Gt -> z = Lt) /\ (x <> Gt -> y = Lt -> z = Lt) /\ (x = Eq -> y = Eq -> z = Eq).
Proof.
  intros Hab%compare_value_tcmp Hbc%compare_value_tcmp Hac%compare_value_tcmp.
  subst x y z. split; [|split].
  - intros Hx Hy. destruct (tcmp (norm b) (norm c)) eqn:E; try congruence.
    + apply tcmp_eq in E. rewrite <- E. exact Hx.
    + eapply tcmp_trans_lt; eauto.
  - intros Hx Hy. destruct (tcmp (norm a) (norm b)) eqn:E; try congruence.
    + apply tcmp_eq in E. rewrite E. exact Hy.
    + eapply tcmp_trans_lt; eauto.
  - intros Hx%tcmp_eq Hy%tcmp_eq. rewrite Hx, Hy. apply tcmp_refl.
Qed.

Lemma compare_value_eq_norm a b : compare_value a b = Some Eq -> norm a = norm b.
Proof. intros H%compare_value_tcmp. apply tcmp_eq. exact H. Qed.

Lemma compare_value_congr a b c x y :
  compare_value a b = Some Eq -> compare_value a c = Some x -> compare_value b c = Some y -> x = y.
Proof.
  intros Hab%compare_value_eq_norm Hac%compare_value_tcmp Hbc%compare_value_tcmp.
  rewrite <- Hab in Hbc. congruence.
Qed.

(** ** Reflexivity: exactly the supported values compare equal to themselves *)
Lemma lex_refl {A} (f : A -> A -> option comparison) l :
  lex f l l = Some Eq <-> Forall (fun x => f x x = Some Eq) l.
Proof.
  induction l as [|x l IH]; simpl; [split; constructor|].
  rewrite Forall_cons. destruct (f x x) as [[]|]; rewrite ?IH; intuition congruence.
Qed.

(** ** Lexicographic order, spelled out *)
Lemma lex_total_lt {A} (f : A -> A -> comparison) (l1 l2 : list A) :
  (forall x y, f x y = Eq <-> x = y) ->
  lex (fun x y => Some (f x y)) l1 l2 = Some Lt <->
  (exists y r, l2 = l1 ++ y :: r) \/
  (exists p x y r1 r2, l1 = p ++ x :: r1 /\ l2 = p ++ y :: r2 /\ f x y = Lt).
Proof.
  intros Hf. revert l2; induction l1 as [|x l1 IH]; intros [|y l2]; simpl.
  - split; [discriminate|]. intros [(?&?&?)|(p&?&?&?&?&?&H&?)]; [discriminate|destruct p; discriminate].
  - split; [|reflexivity]. intros _. left; eauto.
  - split; [discriminate|]. intros [(?&?&?)|(p&?&?&?&?&?&H&?)]; [discriminate|destruct p; discriminate].
  - destruct (f x y) eqn:E.
    + apply Hf in E; subst y. rewrite IH. split.
      * intros [(y&r&->)|(p&a&b&r1&r2&->&->&H)]; [left; eauto|].
        right. exists (x :: p), a, b, r1, r2. auto.
      * intros [(y&r&[= ->])|(p&a&b&r1&r2&H1&H2&H)]; [left; eauto|].
        destruct p as [|q p]; simplify_eq/=.
        -- match goal with H : f ?q ?q = Lt |- _ => assert (f q q = Eq) by (apply Hf; reflexivity) end.
           congruence.
        -- right. eauto 10.
    + split; [|reflexivity]. intros _. right. exists [], x, y, l1, l2. auto.
    + split; [discriminate|].
      intros [(y'&r&[= ->])|(p&a&b&r1&r2&H1&H2&H)].
      * assert (f x x = Eq) by (apply Hf; reflexivity). congruence.
      * destruct p as [|q p]; simplify_eq/=; [congruence|].
        match goal with H : f ?q ?q = Gt |- _ => assert (f q q = Eq) by (apply Hf; reflexivity) end.
        congruence.
Qed.
Lemma lex_total_eq {A} (f : A -> A -> comparison) (l1 l2 : list A) :
  (forall x y, f x y = Eq <-> x = y) ->
  lex (fun x y => Some (f x y)) l1 l2 = Some Eq <-> l1 = l2.
Proof.
  intros Hf. revert l2; induction l1 as [|x l1 IH]; intros [|y l2]; simpl; try (split; congruence).
  specialize (Hf x y). destruct (f x y).
  - rewrite IH. destruct Hf as [Hf _]. rewrite Hf by reflexivity. split; congruence.
  - split; [congruence|]. intros [= Hxy ?]. apply Hf in Hxy. congruence.
  - split; [congruence|]. intros [= Hxy ?]. apply Hf in Hxy. congruence.
Qed.
Lemma lex_total_defined {A} (f : A -> A -> comparison) (l1 l2 : list A) :
  lex (fun x y => Some (f x y)) l1 l2 <> None.
Proof.
  revert l2; induction l1 as [|x l1 IH]; intros [|y l2]; simpl; try congruence.
  destruct (f x y); auto; congruence.
Qed.

(** ** Facts stated in the vocabulary of ValueSpec.v *)
Lemma supported_ind' (P : value -> Prop) :
  (forall z, P (VInt z)) -> (forall s, P (VStr s)) -> (forall l, P (VStrs l)) -> (forall l, P (VInts l)) ->
  (forall l, Forall supported l -> Forall P l -> P (VList l)) -> (forall v, supported v -> P v -> P (VNative v)) ->
  forall v, supported v -> P v.
Proof.
  intros H1 H2 H3 H4 H5 H6. fix IH 2. intros v [z|s|l|l|l Hl|w Hw]; auto.
  - apply H5; [exact Hl|]. induction Hl as [|x l Hx Hl IHl]; constructor; [apply IH, Hx|exact IHl].
Qed.

Lemma compare_refl_iff v : compare_value v v = Some Eq <-> supported v.
Proof.
  split.
  - induction v as [|z|s|l|l|l IH|v IH|h n] using value_ind'; simpl; try congruence; try constructor.
    + apply lex_refl in H. induction IH as [|x l Hx Hl IHl]; [constructor|].
      inversion H; subst. constructor; auto.
    + apply IH. rewrite <- H. symmetry. apply compare_value_native_r.
  - intros H. induction H as [z|s|l|l|l Hl IH|v Hv IH] using supported_ind'; simpl.
    + unfold cmp_int; simpl. by rewrite Z.compare_refl.
    + unfold cmp_str; simpl. by rewrite str_cmp_refl.
    + apply lex_total_eq; [apply str_cmp_eq|done].
    + apply lex_total_eq; [intros; apply Z.compare_eq_iff|done].
    + by apply lex_refl.
    + by rewrite compare_value_native_r.
Qed.

Fixpoint nv_meaning (a : nv) : meaning :=
  match a with NBad => MNone | NInt z => MInt z | NStr s => MStr s | NList l => MSeq (map nv_meaning l) end.
Lemma mean_norm v : mean v = nv_meaning (norm v).
Proof.
  induction v as [|z|s|l|l|l IH|v IH|h n] using value_ind'; simpl; auto.
  - f_equal. induction l; simpl; f_equal; auto.
  - f_equal. induction l; simpl; f_equal; auto.
  - f_equal. induction IH; simpl; f_equal; auto.
Qed.
Lemma compare_eq_mean a b : compare_value a b = Some Eq -> mean a = mean b.
Proof. intros H%compare_value_eq_norm. by rewrite !mean_norm, H. Qed.

Lemma str_cmp_lt_bytes a b : str_cmp a b = Lt <-> bytes_lt a b.
Proof.
  revert b; induction a as [|x a IH]; intros b; simpl.
  - destruct b as [|y b]; split; try congruence.
    + intros [(c & r & H)|(p & u & v & ra & rb & H1 & H2 & H3)]; [discriminate|]. by destruct p.
    + intros _. left. eauto.
  - destruct b as [|y b]; [split; [congruence|]|].
    + intros [(c & r & H)|(p & u & v & ra & rb & H1 & H2 & H3)]; [discriminate|]. by destruct p.
    + destruct (N.compare_spec (N_of_ascii x) (N_of_ascii y)) as [E|E|E].
      * assert (x = y) as <- by (rewrite <- (ascii_N_embedding x), <- (ascii_N_embedding y), E; done).
        rewrite IH. split.
        -- intros [(c & r & ->)|(p & u & v & ra & rb & -> & -> & H3)].
           ++ left. exists c, r. done.
           ++ right. exists (String x p), u, v, ra, rb. done.
        -- intros [(c & r & [= ->])|(p & u & v & ra & rb & H1 & H2 & H3)].
           ++ left. eauto.
           ++ destruct p as [|z p]; cbn [String.append] in H1, H2.
              ** injection H1 as -> ->. injection H2 as -> ->. lia.
              ** injection H1 as -> ->. injection H2 as ->. right. eauto 10.
      * split; [|done]. intros _. right. exists EmptyString, x, y, a, b. done.
      * split; [done|]. intros [(c & r & [= -> ?])|(p & u & v & ra & rb & H1 & H2 & H3)]; [lia|].
        destruct p as [|z p]; cbn [String.append] in H1, H2; injection H1 as -> _; injection H2 as -> _; lia.
Qed.
Lemma compare_value_str_lt a b : compare_value (VStr a) (VStr b) = Some Lt <-> bytes_lt a b.
Proof. rewrite <- str_cmp_lt_bytes. simpl. unfold cmp_str. simpl. split; congruence. Qed.
Lemma compare_value_ints_lt (a b : list Z) :
  compare_value (VInts a) (VInts b) = Some Lt <-> seq_lt Z.lt a b.
Proof. simpl. apply lex_total_lt. intros. apply Z.compare_eq_iff. Qed.
Lemma compare_value_strs_lt (a b : list string) :
  compare_value (VStrs a) (VStrs b) = Some Lt <-> seq_lt bytes_lt a b.
Proof.
  simpl. rewrite lex_total_lt by apply str_cmp_eq. unfold seq_lt.
  split; (intros [H|(p & x & y & ra & rb & H1 & H2 & H3)]; [by left|right]);
    exists p, x, y, ra, rb; (split; [done|split; [done|]]); by apply str_cmp_lt_bytes.
Qed.
Lemma comparability_not_transitive :
  exists a b c x y, supported a /\ supported b /\ supported c /\
    compare_value a b = Some x /\ compare_value b c = Some y /\ compare_value a c = None.
Proof.
  exists (VList [VInt 1]), (VList []), (VStrs ["x"%string]), Gt, Lt.
  split; [repeat constructor|]. split; [repeat constructor|]. split; [repeat constructor|].
  repeat split.
Qed.
