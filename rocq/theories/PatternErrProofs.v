(** Proofs about the errors of pattern matching. *)
From Verif Require Import Base Value Graph Path VPath Pattern PatternErrSpec.
Local Open Scope string_scope.
Local Open Scope list_scope.

(** ** What an accumulator keeps until it stops, CollectAllPaths keeps *)
Section collect.
  Context {T : Type} (g : graph) (filt : nat -> bool) (d : dir) (min max : Z) (acc : path -> T -> bool * T) (I F : T -> Prop).
  Definition going (r : bool * T) : Prop := F r.2 /\ (r.1 = true -> I r.2).
  Hypotheses (Hacc : forall p t, I t -> going (acc p t)) (HIF : forall t, I t -> F t).
  Lemma loop_keeps f p n es : (forall q t r, I t -> f q t = Ok r -> going r) -> forall t r, I t -> vp_loop T g f p n es t = Ok r -> going r.
  Proof.
    intros Hf. induction es as [|e es IH]; intros t r Ht; cbn [vp_loop]; [intros [= <-]; split; auto|].
    destruct (is_loop p _); [by apply IH|]. intros H. apply rbind_Ok_inv in H as (q & _ & H). apply rbind_Ok_inv in H as (b & Hb & H).
    apply (Hf _ _ _ Ht) in Hb as [H1 H2]. destruct b.1; [eapply IH; [|exact H]; auto|]. by injection H as <-.
  Qed.
  Lemma recurse_keeps k : forall p t r, I t -> vp_recurse T g filt d min max acc k p t = Ok r -> going r.
  Proof.
    induction k as [|k IH]; intros p t r Ht; [done|]. cbn [vp_recurse]. cbv zeta.
    assert (going (if in_bounds min max p then acc (path_clone p) t else (true, t))) as Hb.
    { destruct (in_bounds _ _ _); [by apply Hacc|]. split; auto. }
    destruct (if in_bounds min max p then _ else _) as [b t1]. destruct Hb as [H1 H2]. cbn [fst snd] in *. destruct b; [|by intros [= <-]].
    destruct (decide _) as [_|_]; [by intros [= <-]|]. destruct (path_last _ _ p) as [n|]; [|done].
    intros H. apply rbind_Ok_inv in H as (es & _ & H). eapply loop_keeps; [exact IH|by apply H2|exact H].
  Qed.
  Lemma collect_keeps n k leg t r : I t -> collect_all_paths T g n filt d min max acc k leg t = Ok r -> F r.
  Proof.
    unfold collect_all_paths. generalize (ItrSpec.firsts [] leg). clear leg. intros l. revert t.
    induction l as [|e l IH]; intros t Ht; cbn [vp_first]; [intros [= <-]; auto|].
    intros H. apply rbind_Ok_inv in H as (b & Hb & H). apply (recurse_keeps _ _ _ _ Ht) in Hb as [H1 H2].
    destruct b.1; [eapply IH; [|exact H]; auto|]. by injection H as <-.
  Qed.
End collect.

(** ** Steps of a plan: nodes at even, relationships at odd positions *)
Definition step_good (pat : list pitem) (st : pstep) : Prop :=
  step_item st < length pat /\
  match st with IterNodes i _ | ConnNodes i _ _ _ => Nat.even i = true | IterEdges i _ | ConnEdges i _ _ => Nat.even i = false end.
Definition node_step (st : pstep) : Prop := match st with IterNodes _ _ | ConnNodes _ _ _ _ => True | _ => False end.
Definition kind_ok (i : nat) (r : sres) : Prop := match r with RNode _ => Nat.even i = true | RPath _ => Nat.even i = false end.

(** [J] holds before and after the step of item [i], [J'] while it has a result; an error is as in [E], and [A] holds then *)
Section matching.
  Context {T : Type} (g : graph) (syms : symbols) (pat : list pitem) (eord : nat -> nat -> list string) (E : string -> Prop) (A : mstate T -> Prop).
  Notation out := (res (option string * mstate T)).
  Definition keeps_out (J : mstate T -> Prop) (o : out) : Prop :=
    forall x, o = Ok x -> (x.1 = None -> J x.2) /\ forall e, x.1 = Some e -> E e /\ A x.2.
  Definition keeps (J : mstate T -> Prop) (f : mstate T -> out) : Prop := forall m, J m -> keeps_out J (f m).

  Context (i : nat) (J J' : mstate T -> Prop).
  Hypotheses (Henter : forall r m, kind_ok i r -> J m -> J' (enter T syms pat i r m)) (Hleave : forall m, J' m -> J (leave T syms pat i m))
    (Hvnode : forall v m, J m -> J (with_vnode T v m)) (Hvnode' : forall v m, J' m -> J' (with_vnode T v m)) (Hcalled : forall k m, J m -> J (called T k m))
    (HAvnode : forall v m, A m -> A (with_vnode T v m)).
  Hypothesis Hcon : forall m, Nat.even i = true -> J m -> constrained syms (m_local m) (item pat i) = None -> E (pi_name (item pat i)) /\ A m.

  Lemma visit_all_keeps next rs : keeps J' next -> (forall r, r ∈ rs -> kind_ok i r) -> keeps J (visit_all T syms pat i next rs).
  Proof.
    intros Hn. induction rs as [|r rs IH]; intros Hk m Hm x; cbn [visit_all]; [by intros [= <-]|].
    intros H. apply rbind_Ok_inv in H as (y & Hy & H). apply Hn in Hy as [HJ HE]; [|apply Henter; [apply Hk; left|done]].
    destruct y.1 as [e|] eqn:Ey.
    - injection H as <-. split; rewrite Ey; [done|]. intros e' [= <-]. by apply HE.
    - eapply IH; [|by apply Hleave, HJ|exact H]. intros z Hz. apply Hk. by right.
  Qed.
  Lemma visit_path_keeps next p m : Nat.even i = false -> keeps J' next -> J m ->
    going (fun t => exists m, t = Ok (None, m) /\ J m) (keeps_out J) (visit_path T g syms pat i next p (Ok (None, m))).
  Proof.
    intros Hev Hn Hm. assert (keeps_out J (visit_path T g syms pat i next p (Ok (None, m))).2) as Hk.
    { intros x. unfold visit_path. cbn [snd rbind]. intros H. apply rbind_Ok_inv in H as (z & Hz & H).
      apply Hn in Hz as [Jz Ez]; [|by apply Hvnode', Henter]. injection H as <-. destruct z.1 as [e|] eqn:E1.
      - split; rewrite E1; [done|]. by intros e' [= <-]; apply Ez.
      - split; [|done]. intros _. by apply Hleave, Hvnode', Jz. }
    split; [done|].
    change ((visit_path T g syms pat i next p (Ok (None, m))).1) with (match (visit_path T g syms pat i next p (Ok (None, m))).2 with Ok (None, _) => true | _ => false end).
    destruct (visit_path T g syms pat i next p (Ok (None, m))).2 as [[[e|] m1]| |]; try done. intros _. exists m1. split; [done|]. by apply (Hk _ eq_refl).
  Qed.
  Lemma run_step_keeps st next : step_item st = i -> step_good pat st -> keeps J' next -> keeps J (run_step T g syms pat eord st next).
  Proof.
    intros Ei [Hi Hg] Hn m Hm. destruct st as [j xs|j xs|j src d|j src u prev]; cbn [step_item] in Hi, Ei; subst j; cbn [run_step]; cbv zeta.
    - destruct (constrained syms (m_local m) (item pat i)) as [c|] eqn:Ec.
      + apply visit_all_keeps; [done| |done]. intros r (n & -> & _)%elem_of_list_fmap. done.
      + intros x [= <-]. split; [done|]. intros e [= <-]. by apply Hcon.
    - apply visit_all_keeps; [done| |done]. intros r (n & -> & _)%elem_of_list_fmap. done.
    - destruct (m_res m !! src) as [[n|p]|]; [|done|done]. intros x H. apply rbind_Ok_inv in H as (es & _ & H). cbv zeta in H.
      destruct (decide _).
      + eapply visit_all_keeps; [done| | |exact H]; [|by apply Hcalled]. intros r (e & -> & _)%elem_of_list_fmap. done.
      + apply rbind_Ok_inv in H as (o & Ho & H). revert x H. change (keeps_out J o).
        eapply (collect_keeps g _ _ _ _ _ (fun t => exists m, t = Ok (None, m) /\ J m)) in Ho; [exact Ho| | |].
        * intros p t (m1 & -> & Hm1). by apply visit_path_keeps.
        * intros t (m1 & -> & Hm1) x [= <-]. done.
        * eexists. split; [done|]. by apply Hcalled.
    - destruct (m_res m !! src) as [[n|p]|]; [done| |done]. intros x H. apply rbind_Ok_inv in H as (eo & _ & H).
      apply rbind_Ok_inv in H as (n & _ & H). destruct (item_nodes g (item pat i) n); [|by injection H as <-].
      destruct (constrained syms (m_local m) (item pat i)) as [c|] eqn:Ec.
      2:{ injection H as <-. split; [done|]. intros e [= <-]. by apply Hcon. }
      destruct (match c with None => true | Some ns => bool_decide (n ∈ ns) end); [|by injection H as <-].
      apply rbind_Ok_inv in H as (y & Hy & H). apply Hn in Hy as [Jy Ey]; [|by apply Henter, Hvnode].
      injection H as <-. destruct y.1 as [e|] eqn:E1; cbn [fst snd].
      + split; [done|]. intros e' [= <-]. destruct (Ey e eq_refl) as [? ?]. split; [done|]. destruct (m_vnode m); auto.
      + split; [|done]. intros _. destruct (m_vnode m); auto.
  Qed.
End matching.

(** ** The plan *)
Lemma rmap_forall {A B} (f : A -> res B) (P : B -> Prop) l r : (forall x y, x ∈ l -> f x = Ok y -> P y) -> rmap f l = Ok r -> Forall P r.
Proof.
  revert r. induction l as [|x l IH]; intros r H; cbn [rmap]; [by intros [= <-]|]. intros E. apply rbind_Ok_inv in E as (y & Hy & E).
  apply rbind_Ok_inv in E as (ys & Hys & [= <-]). constructor; [by eapply H; [left|]|]. apply IH; [|done]. intros z w Hz. apply H. by right.
Qed.
Lemma rmap_image {A B} (f : A -> res B) l r x : rmap f l = Ok r -> x ∈ l -> exists y, f x = Ok y /\ y ∈ r.
Proof.
  revert r. induction l as [|z l IH]; intros r; cbn [rmap]; [by intros _ ?%elem_of_nil|]. intros E. apply rbind_Ok_inv in E as (y & Hy & E).
  apply rbind_Ok_inv in E as (ys & Hys & [= <-]). intros [->|Hx]%elem_of_cons; [exists y; split; [done|left]|].
  destruct (IH _ Hys Hx) as (w & ? & ?). exists w. split; [done|by right].
Qed.
Lemma forward_good pat start i : i < length pat -> step_good pat (forward_step pat start i).
Proof.
  intros Hi. unfold step_good, forward_step. destruct (Nat.odd i) eqn:Eo; [split; [done|by rewrite <-Nat.negb_odd, Eo]|].
  repeat case_match; (split; [done|by rewrite <-Nat.negb_odd, Eo]).
Qed.
Lemma backward_good pat i st : i < length pat -> backward_step pat i = Ok st -> step_good pat st /\ step_item st = i.
Proof.
  intros Hi. unfold step_good, backward_step. destruct (Nat.odd i) eqn:Eo; [intros [= <-]; split; [|done]; split; [done|by rewrite <-Nat.negb_odd, Eo]|].
  cbv zeta. repeat case_match; intros [= <-]; (split; [|done]); (split; [done|by rewrite <-Nat.negb_odd, Eo]).
Qed.
Lemma fastest_index g syms pat lord pord xs i sz : fastest g syms pat lord pord = Ok (Some xs, i, sz) -> i < length pat.
Proof.
  unfold fastest. set (f := fun (cur : option (list nat) * nat * Z) i => _).
  assert (forall l cur r, (forall j, j ∈ l -> j < length pat) -> (is_Some cur.1.1 -> cur.1.2 < length pat) -> rfold f l cur = Ok r -> is_Some r.1.1 -> r.1.2 < length pat) as H.
  { induction l as [|j l IH]; intros cur r Hl Hc; cbn [rfold]; [by intros [= <-]|]. intros H. apply rbind_Ok_inv in H as (c & Hf & H).
    eapply (IH c); [intros k Hk; apply Hl; by right| |exact H]. unfold f in Hf. apply rbind_Ok_inv in Hf as (q & _ & Hf).
    injection Hf as <-. destruct (decide _); [|done]. intros _. cbn [fst snd]. apply Hl. left. }
  intros Hf. eapply (H _ _ _) in Hf; [exact Hf| | |by eexists].
  - intros j Hj%elem_of_seq. lia.
  - by intros [? ?].
Qed.
(** the items in the order of the plan *)
Definition plan_items (n start : nat) : list nat := start :: seq (S start) (n - S start) ++ rev (seq 0 start).
Lemma elem_of_rev_seq x k : x ∈ rev (seq 0 k) <-> x < k.
Proof. rewrite elem_of_list_In, <-in_rev, <-elem_of_list_In, elem_of_seq. lia. Qed.
Lemma elem_of_plan n start i : start < n -> i ∈ plan_items n start <-> i < n.
Proof. intros H. unfold plan_items. rewrite elem_of_cons, elem_of_app, elem_of_seq, elem_of_rev_seq. lia. Qed.
Lemma sorted_app {A} (R : A -> A -> Prop) l k : StronglySorted R l -> StronglySorted R k -> (forall x y, x ∈ l -> y ∈ k -> R x y) -> StronglySorted R (l ++ k).
Proof.
  intros Hl Hk. induction Hl as [|x l Hl IH Hx]; intros H; [done|]. cbn. constructor.
  - apply IH. intros y z Hy. apply H. by right.
  - apply Forall_app. split; [done|]. apply Forall_forall. intros y Hy. apply H; [left|done].
Qed.
Lemma sorted_split {A} (R : A -> A -> Prop) l k x j : StronglySorted R (l ++ x :: k) -> j ∈ l -> R j x.
Proof.
  induction l as [|y l IH]; [by intros _ ?%elem_of_nil|]. cbn. intros [H1 H2]%StronglySorted_inv [->|Hj]%elem_of_cons; [|by apply IH].
  rewrite Forall_forall in H2. apply H2. set_solver.
Qed.
Lemma plan_sorted n start : StronglySorted (before start) (plan_items n start).
Proof.
  unfold plan_items. constructor.
  2:{ apply Forall_forall. intros x. rewrite elem_of_app, elem_of_seq, elem_of_rev_seq. unfold before. lia. }
  apply sorted_app.
  - generalize (n - S start). intros k. assert (forall a, start <= a -> StronglySorted (before start) (seq a k)) as H; [|apply H; lia].
    induction k as [|k IH]; intros a Ha; [constructor|]. cbn. constructor; [apply IH; lia|].
    apply Forall_forall. intros x Hx%elem_of_seq. unfold before. lia.
  - assert (forall k, k <= start -> StronglySorted (before start) (rev (seq 0 k))) as H; [|by apply H].
    induction k as [|k IH]; intros Hk; [constructor|]. rewrite seq_S, rev_app_distr. cbn. constructor; [apply IH; lia|].
    apply Forall_forall. intros x Hx%elem_of_rev_seq. unfold before. lia.
  - intros x y Hx%elem_of_seq Hy%elem_of_rev_seq. unfold before. lia.
Qed.
Lemma before_split n start j i : start < n -> j < n -> i < n -> before start j i -> exists pre mid post, plan_items n start = pre ++ j :: mid ++ i :: post.
Proof.
  intros Hs Hj Hi Hb. apply (elem_of_plan n start) in Hj, Hi; [|done|done].
  apply elem_of_list_split in Hj as (pre & rest & E). rewrite E in Hi.
  apply elem_of_app in Hi as [Hi|[->|Hi]%elem_of_cons].
  - pose proof (plan_sorted n start) as Hsort. rewrite E in Hsort. apply (sorted_split _ _ _ _ _ Hsort) in Hi. unfold before in *. lia.
  - unfold before in Hb. lia.
  - apply elem_of_list_split in Hi as (mid & post & ->). by exists pre, mid, post.
Qed.
Lemma get_plan_steps g syms pat lord pord pl : get_plan g syms pat lord pord = Ok pl -> exists xs start sz,
  fastest g syms pat lord pord = Ok (Some xs, start, sz) /\ start < length pat /\
  Forall (step_good pat) (pl_steps pl) /\ map step_item (pl_steps pl) = plan_items (length pat) start.
Proof.
  unfold get_plan. intros H. apply rbind_Ok_inv in H as ([[o index] sz] & Hf & H). cbn [fst snd] in H. destruct o as [xs|]; [|done].
  exists xs, index, sz. split; [done|]. apply fastest_index in Hf. split; [done|]. cbv zeta in H. apply rbind_Ok_inv in H as (back & Hb & [= <-]). cbn [pl_steps].
  split.
  - constructor.
    + destruct (Nat.even index) eqn:Ev; split; done.
    + apply Forall_app. split.
      * apply Forall_forall. intros st Hin. apply elem_of_list_fmap in Hin as (i & -> & Hi%elem_of_seq). apply forward_good. lia.
      * eapply rmap_forall; [|exact Hb]. intros i st Hi%elem_of_rev_seq Hst. apply (backward_good pat i); [lia|done].
  - unfold plan_items. cbn [map]. f_equal; [by destruct (Nat.even index)|]. rewrite map_app. f_equal.
    + rewrite map_map. rewrite <-(map_id (seq _ _)) at 2. apply map_ext. intros i. unfold forward_step. by repeat case_match.
    + assert (forall l r, (forall i, i ∈ l -> i < length pat) -> rmap (backward_step pat) l = Ok r -> map step_item r = l) as Hm.
      { induction l as [|i l IH]; intros r Hl; cbn [rmap]; [by intros [= <-]|]. intros H. apply rbind_Ok_inv in H as (st & Hst & H).
        apply rbind_Ok_inv in H as (r' & Hr & [= <-]). cbn [map]. f_equal; [apply (backward_good pat i) in Hst as [_ ?]; [done|apply Hl; left]|].
        apply IH; [|done]. intros k Hk. apply Hl. by right. }
      apply Hm; [|done]. intros i Hi%elem_of_rev_seq. lia.
Qed.

(** ** Errors *)
Lemma item_in_pat pat i : i < length pat -> pat !! i = Some (item pat i).
Proof. intros H. unfold item. destruct (pat !! i) as [it|] eqn:E; [|by apply lookup_ge_None in E; lia]. by rewrite (nth_lookup_Some _ _ _ _ E). Qed.
Lemma names_node_item pat v i : names_node pat v i <-> v <> "" /\ Nat.even i = true /\ i < length pat /\ pi_name (item pat i) = v.
Proof.
  split.
  - intros (H1 & H2 & it & Hi & H3). split_and!; [done|done|by eapply lookup_lt_Some|]. unfold item. by rewrite (nth_lookup_Some _ _ _ _ Hi).
  - intros (H1 & H2 & H3 & H4). split_and!; [done|done|]. exists (item pat i). split; [by apply item_in_pat|done].
Qed.
Lemma names_rel_item pat v i : names_rel pat v i <-> v <> "" /\ Nat.even i = false /\ i < length pat /\ pi_name (item pat i) = v.
Proof.
  assert (Nat.odd i = true <-> Nat.even i = false) as Ho by (rewrite <-Nat.negb_even; destruct (Nat.even i); done).
  split.
  - intros (H1 & H2%Ho & it & Hi & H3). split_and!; [done|done|by eapply lookup_lt_Some|]. unfold item. by rewrite (nth_lookup_Some _ _ _ _ Hi).
  - intros (H1 & H2 & H3 & H4). split_and!; [done|by apply Ho|]. exists (item pat i). split; [by apply item_in_pat|done].
Qed.

Lemma from_clash syms pat start v : clash_from syms pat start v -> clash syms pat v.
Proof. intros (i & Hi & [H|(Hs & j & Hj & _)]); exists i; (split; [done|]); [by left|]. right. split; [done|]. by exists j. Qed.

Section errors.
  Context {T : Type} (g : graph) (syms : symbols) (pat : list pitem) (eord : nat -> nat -> list string)
    (store : path -> gmap string sres -> T -> T).
  (** edges bound while matching are those of relationships among [pre] *)
  Definition loc_ok (pre : list nat) (loc : symbols) : Prop :=
    forall v x, loc !! v = Some x -> ps_edges x <> None -> syms !! v = None /\ exists j, j ∈ pre /\ names_rel pat v j.
  Lemma record_ok pre i r loc : i < length pat -> kind_ok i r -> loc_ok pre loc -> loc_ok (pre ++ [i]) (record_result syms (item pat i) r loc).
  Proof.
    intros Hi Hk Hl. assert (loc_ok (pre ++ [i]) loc) as Hl'.
    { intros v x Hv Hx. destruct (Hl v x Hv Hx) as (? & j & ? & ?). split; [done|]. exists j. split; [set_solver|done]. }
    unfold record_result. destruct (decide _); [done|]. destruct (syms !! pi_name (item pat i)) eqn:Es; [done|].
    intros v x. destruct (decide (v = pi_name (item pat i))) as [->|Hne].
    - rewrite lookup_insert. intros [= <-]. destruct r as [m|p]; [done|]. intros _. split; [done|].
      exists i. split; [set_solver|]. by apply names_rel_item.
    - rewrite lookup_insert_ne by done. apply Hl'.
  Qed.
  Lemma reset_ok pre i loc : loc_ok (pre ++ [i]) loc -> loc_ok pre (reset_result syms (item pat i) loc).
  Proof.
    intros Hl v x Hv Hx. assert (loc !! v = Some x /\ (v = "" \/ is_Some (syms !! v) \/ v <> pi_name (item pat i))) as [Hv' Hor].
    { revert Hv. unfold reset_result. destruct (decide _) as [E|Hne]; [|destruct (syms !! pi_name (item pat i)) eqn:Es].
      - intros Hv. split; [done|]. rewrite E. destruct (decide (v = "")); tauto.
      - intros Hv. split; [done|]. destruct (decide (v = pi_name (item pat i))) as [->|]; [rewrite Es; right; left; by eexists|tauto].
      - intros [Hne' Hv]%lookup_delete_Some. split; [done|]. right; right. congruence. }
    destruct (Hl v x Hv' Hx) as (Hs & j & Hj & Hn). split; [done|]. exists j. split; [|done].
    apply elem_of_app in Hj as [?| ->%elem_of_list_singleton]; [done|]. apply names_rel_item in Hn as (? & ? & ? & ?).
    destruct Hor as [?|[[? ?]|?]]; congruence.
  Qed.
  Lemma run_steps_errors start pl sts : start < length pat -> forall pre, Forall (step_good pat) sts ->
    pre ++ map step_item sts = plan_items (length pat) start ->
    keeps (clash_from syms pat start) (fun _ => True) (fun m => loc_ok pre (m_local m)) (run_steps T g syms pat eord store pl sts).
  Proof.
    intros Hs. induction sts as [|st sts IH]; intros pre Hg Ep; cbn [run_steps].
    - intros m Hm x H. apply rbind_Ok_inv in H as (p & _ & [= <-]). done.
    - apply Forall_cons in Hg as [Hst Hg]. assert (Hi : step_item st < length pat) by apply Hst.
      eapply (run_step_keeps g syms pat eord _ _ (step_item st) _ (fun m => loc_ok (pre ++ [step_item st]) (m_local m)));
        [| | | | | |idtac|done|done|].
      + intros r m Hk Hm. by apply record_ok.
      + intros m Hm. by apply reset_ok.
      + done.
      + done.
      + done.
      + done.
      + intros m Hev Hl Hc. split; [|done]. unfold constrained in Hc. destruct (decide _) as [|Hne]; [done|].
        exists (step_item st). split; [by apply names_node_item|].
        destruct (m_local m !! pi_name (item pat (step_item st))) as [x|] eqn:Ex.
        * destruct (ps_edges x) eqn:Ee; [|done]. right. destruct (Hl _ _ Ex) as (H1 & j & Hj & H2); [by rewrite Ee|]. split; [done|].
          exists j. split; [done|]. pose proof (plan_sorted (length pat) start) as Hsort. rewrite <-Ep in Hsort. cbn [map] in Hsort.
          by apply (sorted_split _ _ _ _ _ Hsort).
        * destruct (syms !! pi_name (item pat (step_item st))) as [x|] eqn:Es; [|done]. destruct (ps_edges x) as [es|] eqn:Ee; [|done].
          left. by exists x, es.
      + apply IH; [done|]. cbn [map] in Ep. by rewrite <-app_assoc.
  Qed.
  Lemma pattern_run_errors lord pord t v t' : pattern_run T g syms pat eord store lord pord t = Ok (Some v, t') ->
    exists xs start sz, fastest g syms pat lord pord = Ok (xs, start, sz) /\ clash_from syms pat start v.
  Proof.
    unfold pattern_run. intros H. apply rbind_Ok_inv in H as (pl & Hpl & H). apply rbind_Ok_inv in H as (x & Hx & [= E _]).
    apply get_plan_steps in Hpl as (xs & start & sz & Hf & Hs & Hg & Hit). exists (Some xs), start, sz. split; [done|].
    apply (run_steps_errors start pl _ Hs [] Hg Hit) in Hx as [_ HE]; [by apply HE|]. cbn [m_local]. intros w y. by rewrite lookup_empty.
  Qed.

  (** ** Nothing is reported if there is such a name *)
  Definition same_acc (t : T) (m : mstate T) : Prop := m_acc m = t.
  Lemma blocked (J : mstate T -> Prop) t st next : step_good pat st -> Nat.even (step_item st) = true ->
    (forall m, J m -> constrained syms (m_local m) (item pat (step_item st)) = None /\ same_acc t m) ->
    keeps (fun _ => True) (same_acc t) J (run_step T g syms pat eord st next).
  Proof.
    intros [_ Hk] Hev HJ m Hm x. destruct (HJ m Hm) as [Hc Ha].
    destruct st as [j xs|j xs|j src d|j src u prev]; cbn [step_item] in *; try congruence; cbn [run_step]; cbv zeta.
    - rewrite Hc. by intros [= <-].
    - destruct (m_res m !! src) as [[n|p]|]; [done| |done]. intros H. apply rbind_Ok_inv in H as (eo & _ & H). apply rbind_Ok_inv in H as (n & _ & H).
      rewrite Hc in H. destruct (item_nodes _ _ _); by injection H as <-.
  Qed.
  (** a step before that *)
  Lemma passed (J J' : mstate T -> Prop) t st next : step_good pat st -> keeps (fun _ => True) (same_acc t) J' next ->
    (forall r m, kind_ok (step_item st) r -> J m -> J' (enter T syms pat (step_item st) r m)) ->
    (forall m, J' m -> J (leave T syms pat (step_item st) m)) ->
    (forall v m, J m -> J (with_vnode T v m)) -> (forall v m, J' m -> J' (with_vnode T v m)) -> (forall k m, J m -> J (called T k m)) ->
    (forall m, J m -> same_acc t m) -> keeps (fun _ => True) (same_acc t) J (run_step T g syms pat eord st next).
  Proof. intros Hst Hn H1 H2 H3 H4 H5 HA. eapply (run_step_keeps g syms pat eord _ _ (step_item st) J J'); try done. intros m _ Hm _. split; [done|]. by apply HA. Qed.

  Section name.
    Context (v : string) (t : T).
    (** bound to edges *)
    Definition bound (m : mstate T) : Prop := (exists x es, m_local m !! v = Some x /\ ps_edges x = Some es) /\ same_acc t m.
    Definition unbound (m : mstate T) : Prop := m_local m !! v = None /\ same_acc t m.
    Lemma bound_constrained i m : pi_name (item pat i) = v -> v <> "" -> bound m -> constrained syms (m_local m) (item pat i) = None.
    Proof. intros Hn Hne [(x & es & Hx & He) _]. unfold constrained. rewrite Hn, decide_False by done. by rewrite Hx, He. Qed.
    Lemma given_constrained i m : pi_name (item pat i) = v -> v <> "" -> edges_given syms v -> unbound m -> constrained syms (m_local m) (item pat i) = None.
    Proof. intros Hn Hne (x & es & Hx & He) [H _]. unfold constrained. rewrite Hn, decide_False by done. by rewrite H, Hx, He. Qed.

    Lemma given_stops i pl sts : names_node pat v i -> edges_given syms v -> Forall (step_good pat) sts -> i ∈ map step_item sts ->
      keeps (fun _ => True) (same_acc t) unbound (run_steps T g syms pat eord store pl sts).
    Proof.
      intros (Hne & Hev & Hi & Hn)%names_node_item Hgiven. induction sts as [|st sts IH]; intros Hg Hin; [by apply elem_of_nil in Hin|].
      apply Forall_cons in Hg as [Hst Hg]. cbn [run_steps]. destruct (decide (step_item st = i)) as [Ei|Hni].
      - subst i. apply blocked; [done|done|]. intros m Hm. split; [by apply given_constrained|by apply Hm].
      - apply (passed unbound unbound); [done| | | |done|done|done|by intros m [_ ?]].
        + apply IH; [done|]. cbn [map] in Hin. apply elem_of_cons in Hin as [?|?]; [congruence|done].
        + intros r m Hk [H1 H2]. split; [|done]. cbn [enter m_local]. unfold record_result. destruct (decide _); [done|].
          destruct (syms !! pi_name (item pat (step_item st))) eqn:Es; [done|]. rewrite lookup_insert_ne; [done|]. intros E. rewrite E in Es.
          destruct Hgiven as (y & es & Hy & _). congruence.
        + intros m [H1 H2]. split; [|done]. cbn [leave m_local]. unfold reset_result. destruct (decide _); [done|].
          destruct (syms !! _); [done|]. apply lookup_delete_None. by right.
    Qed.
    Lemma bound_stops pl mid st post : Forall (step_good pat) (mid ++ st :: post) -> names_node pat v (step_item st) ->
      (forall k, k ∈ map step_item mid -> pi_name (item pat k) <> v) ->
      keeps (fun _ => True) (same_acc t) bound (run_steps T g syms pat eord store pl (mid ++ st :: post)).
    Proof.
      intros Hg Hst Hmid. induction mid as [|s1 mid IH]; cbn [app run_steps].
      - apply Forall_cons in Hg as [Hg _]. apply names_node_item in Hst as (Hne & Hev & Hi & Hn). apply blocked; [done|done|].
        intros m Hm. split; [by apply bound_constrained|by apply Hm].
      - cbn [app] in Hg. apply Forall_cons in Hg as [H1 Hg].
        assert (Hn1 : pi_name (item pat (step_item s1)) <> v) by (apply Hmid; left).
        apply (passed bound bound); [done| | | |done|done|done|by intros m [_ ?]].
        + apply IH; [done|]. intros k Hk. apply Hmid. by right.
        + intros r m Hk [(x & es & Hx & He) H2]. split; [|done]. exists x, es. split; [|done]. cbn [enter m_local]. unfold record_result.
          destruct (decide _); [done|]. destruct (syms !! _); [done|]. by rewrite lookup_insert_ne.
        + intros m [(x & es & Hx & He) H2]. split; [|done]. exists x, es. split; [|done]. cbn [leave m_local]. unfold reset_result.
          destruct (decide _); [done|]. destruct (syms !! _); [done|]. by rewrite lookup_delete_ne.
    Qed.
    Lemma rel_stops pl pre sj mid st post : Forall (step_good pat) (pre ++ sj :: mid ++ st :: post) -> syms !! v = None ->
      names_rel pat v (step_item sj) -> names_node pat v (step_item st) -> (forall k, k ∈ map step_item mid -> pi_name (item pat k) <> v) ->
      keeps (fun _ => True) (same_acc t) (same_acc t) (run_steps T g syms pat eord store pl (pre ++ sj :: mid ++ st :: post)).
    Proof.
      intros Hg Hs (Hne & Hev & Hi & Hn)%names_rel_item Hst Hmid. induction pre as [|s1 pre IH]; cbn [app run_steps].
      - cbn [app] in Hg. apply Forall_cons in Hg as [H1 Hg]. apply (passed (same_acc t) bound); [done|by apply bound_stops| | |done| |done|done].
        + intros r m Hk Hm. split; [|done]. destruct r as [n|p]; [cbn in Hk; congruence|].
          eexists _, _. cbn [enter m_local]. unfold record_result. rewrite decide_False by congruence. rewrite Hn, Hs, lookup_insert. done.
        + by intros m [_ ?].
        + done.
      - cbn [app] in Hg. apply Forall_cons in Hg as [H1 Hg]. apply (passed (same_acc t) (same_acc t)); try done. by apply IH.
    Qed.
  End name.

  Lemma closest v : forall n items pre j mid i post, length mid < n -> items = pre ++ j :: mid ++ i :: post ->
    (forall k, k ∈ items -> k < length pat) -> names_rel pat v j -> names_node pat v i ->
    exists pre j mid i post, items = pre ++ j :: mid ++ i :: post /\ names_rel pat v j /\ names_node pat v i /\
      forall k, k ∈ mid -> pi_name (item pat k) <> v.
  Proof.
    induction n as [|n IH]; intros items pre j mid i post Hl E Hlt Hj Hi; [lia|].
    destruct (decide (Exists (fun k => pi_name (item pat k) = v) mid)) as [Hex|Hno].
    - apply Exists_exists in Hex as (k & Hk & Hkn). apply elem_of_list_split in Hk as (m1 & m2 & ->). rewrite app_length in Hl. cbn in Hl.
      assert (k < length pat) as Hkl. { apply Hlt. rewrite E. set_solver. }
      assert (v <> "") as Hne by (by destruct Hj). destruct (Nat.even k) eqn:Ek.
      + apply (IH items pre j m1 k (m2 ++ i :: post)); [lia|rewrite E; by rewrite <-app_assoc|done|done|]. by apply names_node_item.
      + apply (IH items (pre ++ j :: m1) k m2 i post); [lia|rewrite E; by rewrite <-!app_assoc|done| |done]. by apply names_rel_item.
    - exists pre, j, mid, i, post. split_and!; try done. intros k Hk Hkn. apply Hno. apply Exists_exists. by exists k.
  Qed.
  Lemma map_split {A B} (f : A -> B) l p x q : map f l = p ++ x :: q -> exists p' x' q', l = p' ++ x' :: q' /\ map f p' = p /\ f x' = x /\ map f q' = q.
  Proof.
    revert p. induction l as [|y l IH]; intros [|z p] H; cbn in H; try done.
    - injection H as <- <-. by exists [], y, l.
    - injection H as <- H. destruct (IH p H) as (p' & x' & q' & -> & <- & <- & <-). by exists (y :: p'), x', q'.
  Qed.
  Lemma pattern_run_stops lord pord xs start sz v t o t' : fastest g syms pat lord pord = Ok (xs, start, sz) -> clash_from syms pat start v ->
    pattern_run T g syms pat eord store lord pord t = Ok (o, t') -> t' = t.
  Proof.
    intros Hf (i & Hi & Hor). unfold pattern_run. intros H. apply rbind_Ok_inv in H as (pl & Hpl & H). apply rbind_Ok_inv in H as (x & Hx & [= _ E]).
    apply get_plan_steps in Hpl as (xs' & start' & sz' & Hf' & Hs & Hg & Hit). rewrite Hf in Hf'. injection Hf' as -> -> ->.
    assert (forall J : mstate T -> Prop, (forall m, J m -> same_acc t m) -> J (MS ∅ None ∅ 0 t) ->
      keeps (fun _ => True) (same_acc t) J (run_steps T g syms pat eord store pl (pl_steps pl)) -> t' = t) as Hgo.
    { intros J HJ H0 Hk. destruct (Hk _ H0 _ Hx) as [H1 H2]. rewrite <-E. destruct x.1 as [e|]; [by apply (H2 e)|]. by apply HJ, H1. }
    destruct Hor as [Hgiven|(Hsv & j & Hj & Hb)].
    - apply (Hgo (unbound v t)); [by intros m [_ ?]|split; [apply lookup_empty|done]|]. apply (given_stops v t i); [done|done|done|].
      rewrite Hit. apply elem_of_plan; [done|]. apply names_node_item in Hi; tauto.
    - destruct (before_split (length pat) start' j i) as (pre & mid & post & Esp); [done|apply names_rel_item in Hj; tauto|apply names_node_item in Hi; tauto|done|].
      destruct (closest v (S (length mid)) (plan_items (length pat) start') pre j mid i post) as (pre1 & j1 & mid1 & i1 & post1 & E1 & Hj1 & Hi1 & Hmid1); try done.
      { lia. }
      { intros k. by apply elem_of_plan. }
      rewrite <-Hit in E1. apply map_split in E1 as (p' & sj & q' & E1 & _ & <- & Eq). apply map_split in Eq as (m' & si & r' & -> & <- & <- & _).
      apply (Hgo (same_acc t)); [done|done|]. rewrite E1. rewrite E1 in Hg. apply rel_stops with (v := v); done.
  Qed.
End errors.
Lemma pattern_run_clash g syms pat lord pord eord {T} (store : path -> gmap string sres -> T -> T) t v t' :
  pattern_run T g syms pat eord store lord pord t = Ok (Some v, t') ->
  clash syms pat v /\ exists xs start sz, fastest g syms pat lord pord = Ok (xs, start, sz) /\ clash_from syms pat start v.
Proof. intros (xs & start & sz & Hf & Hc)%pattern_run_errors. split; [by eapply from_clash|]. by exists xs, start, sz. Qed.
Lemma pattern_run_error g syms pat lord pord eord {T} (store : path -> gmap string sres -> T -> T) t v t' :
  pattern_run T g syms pat eord store lord pord t = Ok (Some v, t') -> t' = t.
Proof. intros H. pose proof H as (xs & start & sz & Hf & Hc)%pattern_run_errors. by eapply pattern_run_stops. Qed.
Lemma pattern_run_start g syms pat lord pord eord {T} (store : path -> gmap string sres -> T -> T) t xs start sz v o t' :
  fastest g syms pat lord pord = Ok (xs, start, sz) -> names_node pat v start -> edges_given syms v ->
  pattern_run T g syms pat eord store lord pord t = Ok (o, t') -> o = Some v.
Proof.
  intros Hf (Hne & Hev & _ & Hn)%names_node_item (x & es & Hx & He). unfold pattern_run, get_plan. rewrite Hf. cbn [rbind fst snd].
  destruct xs as [xs|]; [|done]. cbv zeta. destruct (rmap _ _) as [back| |]; [|done|done]. cbn [rbind pl_steps]. rewrite Hev. cbn [run_steps run_step].
  unfold constrained. cbn [m_local]. rewrite Hn, decide_False, lookup_empty, Hx, He by done. cbn [rbind fst]. by intros [= <- _].
Qed.
