From Verif Require Import Base Assoc Links EdgeMap Itr ItrSpec.

Lemma yields_det {S A} (m : machine S A) k s l l' : yields m k s l -> yields m k s l' -> l = l'.
Proof.
  intros H. revert l'. induction H as [s s' H|s s' a l H1 H2 H3 IH]; intros l' H'.
  - inversion H'; subst; congruence.
  - inversion H' as [|s1 s1' b l1 E1 E2 E3]; subst; [congruence|]. assert (s1' = s') as -> by congruence.
    rewrite (IH _ E3). congruence.
Qed.

(** ** firsts *)
Lemma firsts_in {A} `{EqDecision A} (seen l : list A) x : x ∈ firsts seen l <-> x ∈ l /\ x ∉ seen.
Proof.
  revert seen. induction l as [|a l IH]; intros seen; simpl; [set_solver|].
  destruct (decide (a ∈ seen)) as [Ha|Ha].
  - rewrite IH. set_solver.
  - rewrite elem_of_cons, IH. destruct (decide (x = a)) as [->|]; set_solver.
Qed.
Lemma firsts_NoDup {A} `{EqDecision A} (seen l : list A) : NoDup (firsts seen l).
Proof.
  revert seen. induction l as [|a l IH]; intros seen; simpl; [constructor|].
  destruct (decide (a ∈ seen)); [apply IH|]. constructor; [|apply IH]. rewrite firsts_in. set_solver.
Qed.

(** ** filter *)
Fixpoint sfilter {T A} (f : T -> A -> bool * T) (t : T) (l : list A) : list A :=
  match l with
  | [] => []
  | a :: r => if (f t a).1 then a :: sfilter f (f t a).2 r else sfilter f (f t a).2 r
  end.
Lemma filter_loop_spec {S T A} (m : machine S A) (f : T -> A -> bool * T) k s l :
  yields m k s l -> forall r t, length l < r ->
  (exists s' t', filter_loop m f r k s t = Ok (false, (s', t', None)) /\ sfilter f t l = []) \/
  (exists s' t' a l', filter_loop m f r k s t = Ok (true, (s', t', Some a)) /\ length l' < length l /\
       sfilter f t l = a :: sfilter f t' l' /\ yields m k s' l').
Proof.
  induction 1 as [s s' H|s s' a l H1 H2 H3 IH]; intros r t Hr; (destruct r as [|r]; simpl in *; [lia|]).
  - left. rewrite H. simpl. eauto.
  - rewrite H1. simpl. rewrite H2. simpl. destruct (f t a) as [b t'] eqn:Hf. simpl. destruct b.
    + right. exists s', t', a, l. split; [done|]. split; [lia|]. done.
    + destruct (IH r t') as [(s1 & t1 & E1 & E2)|(s1 & t1 & a1 & l1 & E1 & E2 & E3 & E4)]; [lia|left|right].
      * eauto.
      * exists s1, t1, a1, l1. split; [done|]. split; [lia|]. done.
Qed.
Lemma filter_yields {S T A} (m : machine S A) (f : T -> A -> bool * T) k s t c l :
  yields m k s l -> length l < k -> yields (filter_machine m f) k (s, t, c) (sfilter f t l).
Proof.
  remember (length l) as n eqn:Hn. revert s t c l Hn. induction (lt_wf n) as [n _ IH]. intros s t c l -> H Hk.
  destruct (filter_loop_spec m f k s l H k t Hk) as [(s1 & t1 & E1 & E2)|(s1 & t1 & a1 & l1 & E1 & E2 & E3 & E4)].
  - rewrite E2. econstructor. exact E1.
  - rewrite E3. econstructor; [exact E1|done|]. apply (IH (length l1) E2); [done|done|lia].
Qed.
Lemma sfilter_pure {A} (P : A -> bool) (l : list A) : sfilter (fun (_ : unit) a => (P a, ())) () l = filter P l.
Proof.
  induction l as [|a l IH]; [done|]. rewrite filter_cons. simpl. rewrite IH. case_decide as Hd; destruct (P a); try done; by destruct Hd.
Qed.
Lemma filter_pure_yields {S A} (m : machine S A) (P : A -> bool) k s c l :
  yields m k s l -> length l < k ->
  yields (filter_machine m (fun (_ : unit) a => (P a, ()))) k (s, (), c) (filter P l).
Proof. intros. rewrite <- sfilter_pure. by apply filter_yields. Qed.
Lemma sfilter_unique {A} `{EqDecision A} (seen l : list A) : sfilter unique_filter seen l = firsts seen l.
Proof.
  revert seen. induction l as [|a l IH]; intros seen; simpl; [done|]. destruct (unique_filter seen a) as [b t] eqn:E.
  unfold unique_filter in E. destruct (decide (a ∈ seen)); injection E as <- <-; simpl; by rewrite IH.
Qed.
Lemma unique_yields {S A} `{EqDecision A} (m : machine S A) k s seen c l :
  yields m k s l -> length l < k -> yields (unique_machine m) k (s, seen, c) (firsts seen l).
Proof. intros. rewrite <- sfilter_unique. by apply filter_yields. Qed.

(** ** proc *)
Lemma proc_yields {S A B} (m : machine S A) (f : A -> B) k s l :
  yields m k s l -> yields (proc_machine m f) k s (f <$> l).
Proof.
  induction 1 as [s s' H|s s' a l H1 H2 H3 IH]; csimpl; [by econstructor|].
  econstructor; [exact H1| |exact IH]. simpl. by rewrite H2.
Qed.

(** ** func *)
(** the closure returns iterators for [ls], one after the other *)
Inductive fetches {S T A} (m : machine S A) (f : T -> option S * T) (k : nat) : T -> list (list A) -> Prop :=
| fetches_end t t' : f t = (None, t') -> fetches m f k t []
| fetches_next t t' s l ls : f t = (Some s, t') -> yields m k s l -> fetches m f k t' ls -> fetches m f k t (l :: ls).
Lemma func_loop_none {S T A} (m : machine S A) (f : T -> option S * T) k t ls :
  fetches m f k t ls -> forall r, length ls < r ->
  (exists t', func_loop m f r k t None = Ok (false, (t', None)) /\ concat ls = []) \/
  (exists t' s' a l' ls', func_loop m f r k t None = Ok (true, (t', Some s')) /\ m_value m s' = Ok a /\
     concat ls = a :: l' ++ concat ls' /\ length ls' < length ls /\ yields m k s' l' /\ fetches m f k t' ls').
Proof.
  induction 1 as [t t' H|t t' s l ls H1 H2 H3 IH]; intros r Hr; (destruct r as [|r]; simpl in *; [lia|]).
  - rewrite H. left. eauto.
  - rewrite H1. destruct r as [|r]; [lia|]. simpl. inversion H2 as [s1 s' E|s1 s' a l1 E1 E2 E3]; subst.
    + rewrite E. simpl. destruct (IH (Datatypes.S r)) as [(t1 & E1 & E2)|(t1 & s1 & a & l' & ls' & E1 & E2 & E3 & E4 & E5)]; [lia|left|right].
      * exists t1. done.
      * exists t1, s1, a, l', ls'. split; [exact E1|]. split; [exact E2|]. split; [exact E3|]. split; [lia|]. exact E5.
    + right. rewrite E1. simpl. exists t', s', a, l1, ls. split; [done|]. split; [exact E2|]. split; [done|]. split; [lia|]. done.
Qed.
Lemma func_yields_some {S T A} (m : machine S A) (f : T -> option S * T) k t s l ls :
  yields m k s l -> fetches m f k t ls -> Datatypes.S (length ls) < k ->
  yields (func_machine m f) k (t, Some s) (l ++ concat ls).
Proof.
  remember (length ls) as n eqn:Hn. revert t s l ls Hn. induction (lt_wf n) as [n _ IH]. intros t s l ls -> H Hf Hk.
  induction H as [s s' H|s s' a l H1 H2 H3 IHl].
  - simpl. destruct k as [|k']; [lia|].
    assert (m_next (func_machine m f) (Datatypes.S k') (t, Some s) = func_loop m f (Datatypes.S k') (Datatypes.S k') t None) as E.
    { cbn [m_next func_machine fst snd]. cbn [func_loop]. rewrite H. done. }
    destruct (func_loop_none m f (Datatypes.S k') t ls Hf (Datatypes.S k')) as [(t1 & E1 & E2)|(t1 & s1 & a & l' & ls' & E1 & E2 & E3 & E4 & E5 & E6)]; [lia|..].
    + rewrite E2. econstructor. rewrite E. exact E1.
    + rewrite E3. econstructor; [rewrite E; exact E1|exact E2|]. eapply (IH (length ls')); [lia|done|done|done|lia].
  - destruct k as [|k']; [lia|]. apply (yields_next _ _ _ (t, Some s')); [|exact H2|exact IHl].
    cbn [m_next func_machine fst snd func_loop]. rewrite H1. done.
Qed.
Lemma func_yields {S T A} (m : machine S A) (f : T -> option S * T) k t ls :
  fetches m f k t ls -> length ls < k -> yields (func_machine m f) k (t, None) (concat ls).
Proof.
  intros Hf Hk. 
  destruct (func_loop_none m f k t ls Hf k Hk) as [(t1 & E1 & E2)|(t1 & s1 & a & l' & ls' & E1 & E2 & E3 & E4 & E5 & E6)].
  - rewrite E2. econstructor. exact E1.
  - rewrite E3. econstructor; [exact E1|exact E2|]. eapply func_yields_some; [done|done|lia].
Qed.
Lemma multi_yields {S A} (m : machine S A) k (its : list S) (ls : list (list A)) :
  Forall2 (yields m k) its ls -> length its < k -> yields (multi_machine m) k (its, None) (concat ls).
Proof.
  intros H Hk. rewrite (Forall2_length _ _ _ H) in Hk. apply func_yields; [|done]. clear Hk.
  induction H as [|s l its ls H1 H2 IH]; [by econstructor|]. econstructor; [done|done|exact IH].
Qed.

(** ** list *)
Lemma list_yields {A} k (l : list A) c : yields list_machine k (ListState l c) l.
Proof.
  revert c. induction l as [|a l IH]; intros c; [by econstructor|]. econstructor; [done|done|apply IH].
Qed.

(** ** the iterators over the lists of the graph *)
Lemma edge_list_yields L f cur c l k : walk f L cur = Ok l -> yields (edge_list_machine L) k (ElState c cur) l.
Proof.
  revert cur c l. induction f as [|f IH]; intros cur c l; destruct cur as [e|]; simpl; try done.
  - intros [= <-]. by econstructor.
  - intros (r & H & [= <-])%rbind_Ok_inv. econstructor; [done|done|]. by apply IH.
  - intros [= <-]. by econstructor.
Qed.
Inductive chain (L : links) : option nat -> list nat -> Prop :=
| chain_nil : chain L None []
| chain_cons e l : chain L (el_next (lk L e)) l -> chain L (Some e) (e :: l).
Lemma walk_chain L f cur l : walk f L cur = Ok l -> chain L cur l.
Proof.
  revert cur l. induction f as [|f IH]; intros cur l; destruct cur as [e|]; simpl; try done.
  - intros [= <-]. constructor.
  - intros (r & H & [= <-])%rbind_Ok_inv. constructor. by apply IH.
  - intros [= <-]. constructor.
Qed.
Lemma all_loop_enough L r r' s : S (length (as_list_next s)) < r -> S (length (as_list_next s)) < r' -> all_loop r L s = all_loop r' L s.
Proof.
  revert r' s. induction r as [|r IH]; intros r' s Hr Hr'; [lia|]. destruct r' as [|r']; [lia|]. simpl.
  destruct (as_next s); [done|]. destruct (as_list_next s) as [|b bs] eqn:E; [done|]. apply IH; simpl in *; lia.
Qed.
Lemma all_yields L bs ls k : Forall2 (fun b l => chain L (ll_head b.2) l) bs ls -> S (length bs) < k -> forall cb cur c l, chain L cur l ->
  yields (all_machine L) k (AllState bs cb cur c) (l ++ concat ls).
Proof.
  induction 1 as [|b l0 bs ls Hb Hbs IH]; intros Hk cb cur c l H; revert cb c; induction H as [|e l H IHl]; intros cb c; (destruct k as [|k]; [simpl in *; lia|]).
  - by econstructor.
  - simpl. econstructor; [done|done|]. apply IHl.
  - assert (yields (all_machine L) (S k) (AllState bs (b :: bs) (ll_head b.2) None) (l0 ++ concat ls)) as Hy.
    { apply IH; [simpl in *; lia|done]. }
    assert (m_next (all_machine L) (S k) (AllState (b :: bs) cb None c) = m_next (all_machine L) (S k) (AllState bs (b :: bs) (ll_head b.2) None)) as E.
    { cbn [m_next all_machine]. cbn [all_loop as_next as_list_next]. 
      rewrite (all_loop_enough L k (S k)); simpl in *; [done|lia|lia]. }
    simpl. inversion Hy as [s1 s' E1 Hs E2|s1 s' a l1 E1 E2 E3 Hs E4].
    + econstructor. rewrite E. exact E1.
    + econstructor; [rewrite E; exact E1|exact E2|exact E3].
  - simpl. econstructor; [done|done|]. apply IHl.
Qed.

Lemma lift_yields {S S' A} (m : machine S A) (m' : machine S' A) (inj : S -> S') k s l :
  (forall s, m_next m' k (inj s) = (let! b := m_next m k s in Ok (b.1, inj b.2))) ->
  (forall s, m_value m' (inj s) = m_value m s) ->
  yields m k s l -> yields m' k (inj s) l.
Proof.
  intros H1 H2. induction 1 as [s s' E|s s' a l E1 E2 E3 IH].
  - econstructor. rewrite H1, E. done.
  - econstructor; [rewrite H1, E1; done|by rewrite H2|exact IH].
Qed.
Lemma single_yields e k : yields single_machine k (SingleState (Some e) false) [e].
Proof. econstructor; [done|done|]. by econstructor. Qed.

Lemma rmap_Forall2 {A B} (f : A -> res B) l ys : rmap f l = Ok ys -> Forall2 (fun x y => f x = Ok y) l ys.
Proof.
  revert ys; induction l as [|x l IH]; intros ys; simpl; [by intros [= <-]|].
  intros (y & Hy & (ys' & Hys & [= <-])%rbind_Ok_inv)%rbind_Ok_inv. constructor; [done|by apply IH].
Qed.
(** edgeMap.iterator *)
Lemma iter_yields f L em l k : em_iter f L em = Ok l -> length (em_bkts em) < k ->
  yields (iter_machine L) k (iter_start em) l.
Proof.
  unfold em_iter, iter_start. intros H Hk. destruct (decide (em_n em = 0%Z)).
  { injection H as <-. by econstructor. }
  destruct (decide (em_n em = 1%Z)).
  { destruct (em_only em) as [e1|]; [|done]. injection H as <-.
    eapply (lift_yields single_machine _ ISingle); [done|done|]. apply single_yields. }
  apply rbind_Ok_inv in H as (ls & Hls & [= <-]). apply rmap_Forall2 in Hls.
  apply (lift_yields (all_machine L) _ IAll); [done|done|].
  assert (Forall2 (fun b l => chain L (ll_head b.2) l) (em_bkts em) ls) as Hc.
  { eapply Forall2_impl; [exact Hls|]. simpl. intros b l. apply walk_chain. }
  destruct Hc as [|b l bs ls' Hb Hbs].
  - destruct k; [simpl in *; lia|]. by econstructor.
  - apply all_yields; [done|simpl in *; lia|done].
Qed.
(** edgeMap.iteratorLabel *)
Lemma label_yields lbl f L em lab l k : em_iter_label lbl f L em lab = Ok l ->
  exists s, label_start lbl em lab = Ok s /\ yields (label_machine L) k s l.
Proof.
  unfold em_iter_label, label_start. intros H. destruct (decide (em_n em = 0%Z)).
  { injection H as <-. eexists. split; [done|]. by econstructor. }
  set (rest := match bk_get (em_bkts em) lab with None => _ | Some x => _ end) in H.
  set (rest' := match bk_get (em_bkts em) lab with None => _ | Some x => _ end).
  assert (rest = Ok l -> yields (label_machine L) k rest' l) as Hr.
  { subst rest rest'. destruct (bk_get (em_bkts em) lab) as [x|].
    - intros Hw. apply (lift_yields (edge_list_machine L) _ LList); [done|done|]. by eapply edge_list_yields.
    - intros [= <-]. by econstructor. }
  destruct (decide (em_n em = 1%Z)).
  - destruct (em_only em) as [e1|]; [|done]. destruct (decide (lab = lbl e1)).
    + injection H as <-. eexists. split; [done|]. eapply (lift_yields single_machine _ LSingle); [done|done|]. apply single_yields.
    + eauto.
  - eauto.
Qed.
(** edgeMap.iteratorAnyLabel *)
Lemma any_yields lbl f L em ord l k : em_iter_any lbl f L em ord = Ok l -> em_n em <> 0%Z -> em_n em <> 1%Z ->
  length ord < k -> yields (any_machine L em) k (ord, None) l.
Proof.
  unfold em_iter_any. intros H H0 H1 Hk. rewrite decide_False in H by done. rewrite decide_False in H by done.
  apply rbind_Ok_inv in H as (ls & Hls & [= <-]). apply rmap_Forall2 in Hls.
  assert (exists ls', fetches (label_machine L) (any_func em) k ord ls' /\ length ls' <= length ord /\ concat ls' = concat ls) as (ls' & Hf & Hlen & <-).
  { clear Hk. induction Hls as [|lab l ord ls Hl Hls IH].
    - exists []. split; [by econstructor|]. done.
    - destruct IH as (ls' & IH & Hlen & E). simpl in *. destruct (bk_get (em_bkts em) lab) as [x|] eqn:Hb.
      + exists (l :: ls'). split; [|split; [simpl; lia|simpl; by rewrite E]]. econstructor; [simpl; by rewrite Hb| |exact IH].
        unfold em_iter_label in Hl. rewrite decide_False in Hl by done. rewrite decide_False in Hl by done. rewrite Hb in Hl.
        apply (lift_yields (edge_list_machine L) _ LList); [done|done|]. by eapply edge_list_yields.
      + injection Hl as <-. exists ls'. split; [|split; [lia|done]].
        inversion IH as [t t' Ht|t t' s l1 ls1 Ht H2 H3]; subst.
        * econstructor. simpl. rewrite Hb. exact Ht.
        * econstructor; [|exact H2|exact H3]. simpl. rewrite Hb. exact Ht. }
  apply func_yields; [done|lia].
Qed.

(** ** nodes from edges, slices *)
Lemma nfe_loop_spec {S} (m : machine S nat) from to inc k s l :
  yields m k s l -> forall r seen, length l < r ->
  (exists s', nfe_loop m from to inc r k s seen = Ok (false, (s', seen)) /\
     firsts seen ((fun e => if inc : bool then from e else to e) <$> l) = []) \/
  (exists s' n l', nfe_loop m from to inc r k s seen = Ok (true, (s', n :: seen)) /\ nfe_node m from to inc s' = Ok n /\ length l' < length l /\
     firsts seen ((fun e => if inc : bool then from e else to e) <$> l) =
       n :: firsts (n :: seen) ((fun e => if inc : bool then from e else to e) <$> l') /\ yields m k s' l').
Proof.
  induction 1 as [s s' H|s s' a l H1 H2 H3 IH]; intros r seen Hr; (destruct r as [|r]; simpl in Hr; [lia|]); csimpl.
  - left. rewrite H. simpl. eauto.
  - rewrite H1. cbn [rbind fst snd].
    assert (nfe_node m from to inc s' = Ok (if inc then from a else to a)) as Hn by (unfold nfe_node; by rewrite H2).
    rewrite Hn. cbn [rbind].
    destruct (decide ((if inc then from a else to a) ∈ seen)) as [Hd|Hd].
    + destruct (IH r seen) as [(s1 & E1 & E2)|(s1 & n1 & l1 & E1 & E2 & E3 & E4 & E5)]; [lia|left|right].
      * eauto.
      * exists s1, n1, l1. split; [exact E1|]. split; [exact E2|]. split; [simpl; lia|]. done.
    + right. exists s', (if inc then from a else to a), l. split; [done|]. split; [exact Hn|]. split; [simpl; lia|]. done.
Qed.
Lemma nfe_yields {S} (m : machine S nat) from to inc k s seen l :
  yields m k s l -> length l < k ->
  yields (nfe_machine m from to inc) k (s, seen) (firsts seen ((fun e => if inc : bool then from e else to e) <$> l)).
Proof.
  remember (length l) as n eqn:Hn. revert s seen l Hn. induction (lt_wf n) as [n _ IH]. intros s seen l -> H Hk.
  destruct (nfe_loop_spec m from to inc k s l H k seen Hk) as [(s1 & E1 & E2)|(s1 & n1 & l1 & E1 & E2 & E3 & E4 & E5)].
  - rewrite E2. econstructor. exact E1.
  - rewrite E4. econstructor; [exact E1|exact E2|]. apply (IH (length l1) E3); [done|done|lia].
Qed.
Lemma slice_loop_ok {S A} (m : machine S A) k s l : yields m k s l -> forall r acc, length l < r ->
  slice_loop m r k s acc = Ok (acc ++ l).
Proof.
  induction 1 as [s s' H|s s' a l H1 H2 H3 IH]; intros r acc Hr; (destruct r as [|r]; simpl in *; [lia|]).
  - rewrite H. simpl. by rewrite app_nil_r.
  - rewrite H1. simpl. rewrite H2. simpl. rewrite IH by lia. by rewrite <- app_assoc.
Qed.
Lemma slice_ok {S A} (m : machine S A) k s l : yields m k s l -> length l < k -> slice m k s = Ok l.
Proof. intros. unfold slice. by rewrite (slice_loop_ok _ _ _ l). Qed.
Lemma node_set_loop_ok {S} (m : machine S nat) g k s l : yields m k s l -> forall r X, length l < r ->
  node_set_loop m g r k s X = Ok (list_to_set (g <$> l) ∪ X).
Proof.
  induction 1 as [s s' H|s s' a l H1 H2 H3 IH]; intros r X Hr; (destruct r as [|r]; simpl in *; [lia|]).
  - rewrite H. simpl. f_equal. clear; set_solver.
  - rewrite H1. simpl. rewrite H2. simpl. rewrite IH by lia. f_equal. clear. set_solver.
Qed.
Lemma unique_ok {S A} `{EqDecision A} (m : machine S A) k s c l :
  yields m k s l -> length l < k ->
  yields (unique_machine m) k (s, [], c) (firsts [] l) /\
  NoDup (firsts [] l) /\ forall a, a ∈ firsts [] l <-> a ∈ l.
Proof.
  intros H Hk. split; [by apply unique_yields|]. split; [apply firsts_NoDup|]. intros a. rewrite firsts_in. set_solver.
Qed.
