(** Loops over container/list lists that change (SetLive.v). *)
From Verif Require Import Base Assoc AssocProofs Value FastSet FastSetProofs Links EdgeMap NodeMap NodeMapProofs Index Graph GraphSpec ItrLive ItrLiveSpec.
From Verif Require Import LinksProofs EdgeMapProofs IndexProofs CoreProofs CoreStep AdjProofs ReadProofs NodeListProofs EdgeListProofs LabelProofs IndexGraphProofs ItrLiveProofs StoreProofs LiveLoopProofs.
From Verif Require Import Assoc SetLive SetLiveSpec.

Lemma behind_split pre p r : NoDup (pre ++ p :: r).*1 -> behind p.1 (pre ++ p :: r) = r.
Proof.
  induction pre as [|q pre IH]; cbn [app behind]; [by rewrite decide_True|]. rewrite fmap_cons. intros [Hn Hnd]%NoDup_cons.
  rewrite decide_False; [by apply IH|]. intros E. apply Hn. rewrite E. apply elem_of_list_fmap_1. apply elem_of_app. right. left.
Qed.
Lemma l_next_none P l : filter (fun x => P x = true) l.*2 = [] -> l_next P l = (None, None).
Proof.
  induction l as [|p l IH]; cbn [l_next]; [done|]. rewrite fmap_cons, filter_cons. destruct (P p.2) eqn:E.
  - by rewrite decide_True.
  - rewrite decide_False by congruence. apply IH.
Qed.
Lemma l_next_some P e es l : filter (fun x => P x = true) l.*2 = e :: es ->
  exists a h r, l = a ++ (h, e) :: r /\ l_next P l = (Some e, head r) /\ filter (fun x => P x = true) r.*2 = es.
Proof.
  induction l as [|p l IH]; cbn [l_next]; [done|]. rewrite fmap_cons, filter_cons. destruct (P p.2) eqn:E.
  - rewrite decide_True by done. intros [= <- <-]. exists [], p.1, l. by destruct p.
  - rewrite decide_False by congruence. intros (a & h & r & -> & Hn & Hf)%IH. by exists (p :: a), h, r.
Qed.

Section generic.
  Context (src : graph -> option (list (nat * nat))) (P : graph -> nat -> bool) (body : list nat -> list op).
  Context (K : sgraph -> list nat -> op -> Prop) (pick : list nat -> list nat -> list nat).
  (** histories for which the lists are right, and what else is known about what is still to come *)
  Context (good : list op -> Prop) (J : graph -> list nat -> list (nat * nat) -> Prop).
  Context (Hgood : forall ops1 ops2, good (ops1 ++ ops2) -> good ops1).
  Context (Hnd : forall ops g els, valid_history ops -> run ops = Ok g -> good ops -> src g = Some els -> NoDup els.*1 /\ NoDup els.*2).
  Context (Hstep : forall ops g o g' vis rest pre U, valid_history (ops ++ [o]) -> run ops = Ok g -> step g o = Ok g' -> good (ops ++ [o]) ->
    K (srun ops) (pick vis rest) o -> src g = Some (pre ++ U) -> U <> [] -> filter (fun x => P g x = true) U.*2 = rest -> J g vis U ->
    exists pre' new, src g' = Some (pre' ++ U ++ new) /\ filter (fun x => P g' x = true) (U ++ new).*2 = rest /\ J g' vis (U ++ new)).
  Context (Hadv : forall ops g vis pre a h e r, valid_history ops -> run ops = Ok g -> good ops -> src g = Some (pre ++ a ++ (h, e) :: r) ->
    J g vis (a ++ (h, e) :: r) -> J g (vis ++ [e]) r).

  Fixpoint loop_keeps2 (s : sgraph) (vis es : list nat) : Prop :=
    match es with
    | [] => True
    | e :: r =>
        calls_keep K s (pick (vis ++ [e]) r) (body (vis ++ [e])) /\
        loop_keeps2 (fold_left sstep (body (vis ++ [e])) s) (vis ++ [e]) r
    end.
  Definition point (g : graph) (there : bool) (next : option (nat * nat)) (vis es : list nat) : Prop :=
    next = None /\ es = [] \/
    exists pre p r, there = true /\ next = Some p /\ src g = Some (pre ++ p :: r) /\
      filter (fun x => P g x = true) (p :: r).*2 = es /\ J g vis (p :: r).

  Lemma calls_point calls : forall ops g g' there next vis es, valid_history (ops ++ calls) -> run ops = Ok g -> rfold step calls g = Ok g' ->
    good (ops ++ calls) -> calls_keep K (srun ops) (pick vis es) calls -> point g there next vis es ->
    exists there', rfold (src_step src) calls (g, there) = Ok (g', there') /\ point g' there' next vis es.
  Proof.
    induction calls as [|c calls IH]; intros ops g g' there next vis es Hv Hr Hs Hg Hk Hp; cbn [rfold] in *.
    { injection Hs as <-. by exists there. }
    apply rbind_Ok_inv in Hs as (g1 & Hc & Hs). destruct Hk as [Hk1 Hk2].
    assert (ops ++ c :: calls = (ops ++ [c]) ++ calls) as E by (by rewrite <-app_assoc). rewrite E in Hv, Hg.
    assert (valid_history (ops ++ [c])) as Hv1 by (unfold valid_history in Hv; by apply valid_from_app in Hv as [? _]).
    assert (src_step src (g, there) c = Ok (g1, there && bool_decide (is_Some (src g1)))) as -> by (unfold src_step; cbn [fst snd]; by rewrite Hc). cbn [rbind].
    apply (IH (ops ++ [c])); try done.
    - rewrite run_snoc, Hr. done.
    - by rewrite srun_snoc.
    - destruct Hp as [Hp|(pre & p & r & -> & -> & Hsrc & Hf & HJ)]; [by left|]. right.
      destruct (Hstep _ _ _ _ _ _ _ _ Hv1 Hr Hc (Hgood _ _ Hg) Hk1 Hsrc ltac:(done) Hf HJ) as (pre' & new & Hsrc' & Hf' & HJ').
      exists pre', p, (r ++ new). rewrite Hsrc'. split; [by rewrite bool_decide_true|]. done.
  Qed.
  Lemma s_loop_ok g' : forall es ops g there next vis k, valid_history (ops ++ loop_calls body vis es) -> run ops = Ok g ->
    rfold step (loop_calls body vis es) g = Ok g' -> good (ops ++ loop_calls body vis es) -> loop_keeps2 (srun ops) vis es ->
    point g there next vis es -> length es < k ->
    s_loop src P body k g there next vis = Ok (vis ++ es, g').
  Proof.
    induction es as [|e es IH]; intros ops g there next vis k Hv Hr Hs Hg Hk Hp Hlen; (destruct k as [|k]; [cbn in Hlen; lia|]); cbn [s_loop].
    - injection Hs as <-. destruct Hp as [[-> _]|(pre & p & r & -> & -> & Hsrc & Hf & HJ)]; [cbn; by rewrite app_nil_r|].
      rewrite Hsrc. cbn [default upcoming]. unfold id. cbn [loop_calls] in *. rewrite app_nil_r in *.
      destruct (Hnd _ _ _ Hv Hr Hg Hsrc) as [Hnd1 Hnd2]. rewrite behind_split by done. rewrite l_next_none by done. done.
    - destruct Hp as [[_ ?]|(pre & p & r & -> & -> & Hsrc & Hf & HJ)]; [done|]. rewrite Hsrc. cbn [default upcoming]. unfold id.
      assert (valid_history ops) as Hv0 by (unfold valid_history in Hv; by apply valid_from_app in Hv as [? _]).
      pose proof (Hgood _ _ Hg) as Hg0. destruct (Hnd _ _ _ Hv0 Hr Hg0 Hsrc) as [Hnd1 Hnd2]. rewrite behind_split by done.
      destruct (l_next_some _ _ _ _ Hf) as (a & h & r' & E & -> & Hf'). cbn [fst snd].
      cbn [loop_calls] in *. rewrite app_assoc in Hv, Hg. rewrite rfold_app in Hs. apply rbind_Ok_inv in Hs as (g1 & Hs1 & Hs). destruct Hk as [Hk1 Hk2].
      rewrite E in Hsrc, HJ. pose proof (Hadv _ _ _ _ _ _ _ _ Hv0 Hr Hg0 Hsrc HJ) as HJ'.
      destruct (calls_point (body (vis ++ [e])) ops g g1 true (head r') (vis ++ [e]) es) as (there' & -> & Hp'); try done.
      + unfold valid_history in Hv. by apply valid_from_app in Hv as [? _].
      + by eapply Hgood.
      + destruct r' as [|q r']; [left|right].
        * split; [done|]. by rewrite <-Hf'.
        * exists (pre ++ a ++ [(h, e)]), q, r'. split; [done|]. split; [done|]. split; [|done]. rewrite Hsrc. by rewrite <-!app_assoc.
      + cbn [rbind fst snd]. rewrite (IH (ops ++ body (vis ++ [e]))); try done.
        * by rewrite <-app_assoc.
        * unfold run. rewrite rfold_app. change (rfold step ops new_graph) with (run ops). by rewrite Hr.
        * unfold srun. rewrite fold_left_app. done.
        * cbn in Hlen. lia.
  Qed.
End generic.
Lemma loop_keeps_rest K body es : forall s vis, loop_keeps K body s vis es -> loop_keeps2 body K (fun _ r => r) s vis es.
Proof. induction es as [|e es IH]; intros s vis; cbn; [done|]. intros [H1 H2]. split; [done|]. by apply IH. Qed.
Lemma loop_keeps_past K body es : forall s vis, loop_keeps_vis K body s vis es -> loop_keeps2 body K (fun v _ => v) s vis es.
Proof. induction es as [|e es IH]; intros s vis; cbn; [done|]. intros [H1 H2]. split; [done|]. by apply IH. Qed.
(** an element of the list is removed *)
Lemma filter_away (pre U : list (nat * nat)) h n : NoDup (pre ++ U).*1 -> (h, n) ∈ pre ++ U -> n ∉ U.*2 ->
  exists pre', filter (fun p : nat * nat => p.1 <> h) (pre ++ U) = pre' ++ U.
Proof.
  intros Hnd Hin Hn. rewrite filter_app. eexists. f_equal.
  assert (h ∉ U.*1) as Hh.
  { rewrite fmap_app in Hnd. apply NoDup_app in Hnd as (_ & Hd & _). apply elem_of_app in Hin as [Hin|Hin].
    - apply Hd. by apply (elem_of_list_fmap_1 fst _ (h, n)).
    - destruct Hn. by apply (elem_of_list_fmap_1 snd _ (h, n)). }
  clear -Hh. induction U as [|q U IH]; [done|]. rewrite fmap_cons in Hh. rewrite filter_cons_True by set_solver. f_equal. apply IH. set_solver.
Qed.

(** ** Label sets *)
(** the set [s] without [n], dropped if empty *)
Definition unset (s : fastset nat) (n : nat) : option (fastset nat) :=
  if decide (fs_size (fs_remove s n).1 = 0) then None else Some (fs_remove s n).1.
Lemma labels_get n ls : forall m l s, bk_get m l = Some s -> NoDup ls ->
  bk_get (fold_left (nm_label n) ls m) l = Some (if decide (l ∈ ls) then (fs_add s n n).1 else s).
Proof.
  assert (forall m l l0 s, bk_get m l = Some s -> bk_get (nm_label n m l0) l = Some (if decide (l = l0) then (fs_add s n n).1 else s)) as H1.
  { intros m l l0 s Hs. unfold nm_label. destruct (bk_get m l0) as [s0|] eqn:H0.
    - rewrite bk_get_set by eauto. destruct (decide (l = l0)) as [->|]; [|done]. congruence.
    - rewrite bk_get_app, Hs. rewrite decide_False by congruence. done. }
  induction ls as [|l0 ls IH]; intros m l s Hs Hnd; cbn [fold_left].
  { rewrite decide_False by (by intros ?%elem_of_nil). done. }
  apply NoDup_cons in Hnd as [Hn Hnd]. rewrite (IH _ _ _ (H1 m l l0 s Hs) Hnd).
  destruct (decide (l = l0)) as [->|].
  - rewrite decide_False by done. by rewrite decide_True by left.
  - destruct (decide (l ∈ ls)); [by rewrite decide_True by (by right)|]. rewrite decide_False; [done|]. by intros [?|?]%elem_of_cons.
Qed.
Lemma unlabels_get n ls : forall m l, NoDup m.*1 -> NoDup ls ->
  bk_get (fold_left (nm_unlabel n) ls m) l = if decide (l ∈ ls) then bk_get m l ≫= fun s => unset s n else bk_get m l.
Proof.
  assert (forall m l l0, NoDup m.*1 -> bk_get (nm_unlabel n m l0) l = if decide (l = l0) then bk_get m l ≫= fun s => unset s n else bk_get m l) as H1.
  { intros m l l0 Hm. unfold nm_unlabel. destruct (bk_get m l0) as [s0|] eqn:H0; [|destruct (decide (l = l0)) as [->|]; [by rewrite H0|done]].
    destruct (decide (fs_size _ = 0)) as [Hz|Hz].
    - rewrite bk_get_del by done. destruct (decide (l = l0)) as [->|]; [|done]. rewrite H0. cbn. unfold unset. by rewrite decide_True.
    - rewrite bk_get_set by eauto. destruct (decide (l = l0)) as [->|]; [|done]. rewrite H0. cbn. unfold unset. by rewrite decide_False. }
  assert (forall m l0, NoDup m.*1 -> NoDup (nm_unlabel n m l0).*1) as H2.
  { intros m l0 Hm. unfold nm_unlabel. destruct (bk_get m l0) as [s0|]; [|done]. destruct (decide _); [by apply bk_del_NoDup|by rewrite bk_set_keys]. }
  induction ls as [|l0 ls IH]; intros m l Hm Hnd; cbn [fold_left].
  { rewrite decide_False by (by intros ?%elem_of_nil). done. }
  apply NoDup_cons in Hnd as [Hn Hnd]. rewrite (IH _ _ (H2 _ _ Hm) Hnd), H1 by done.
  destruct (decide (l = l0)) as [->|].
  - rewrite decide_False by done. by rewrite decide_True by left.
  - destruct (decide (l ∈ ls)); [by rewrite decide_True by (by right)|]. rewrite decide_False; [done|]. by intros [?|?]%elem_of_cons.
Qed.
(** what a call does to the set of a label *)
Lemma lab_step g s0 o g' l s : core g s0 -> lab_inv g s0 -> valid s0 o -> step g o = Ok g' -> bk_get (nm_m (g_lab g)) l = Some s ->
  bk_get (nm_m (g_lab g')) l =
    match o with
    | ONewNode ls _ _ => Some (if decide (l ∈ ls) then (fs_add s (g_next g) (g_next g)).1 else s)
    | OSetLabels n ls _ _ =>
        if decide (l ∈ labels_of g n /\ l ∉ ls /\ ls <> ∅) then unset s n
        else Some (if decide (l ∈ ls /\ l ∉ labels_of g n) then (fs_add s n n).1 else s)
    | ODetachRemove n _ => if decide (l ∈ labels_of g n) then unset s n else Some s
    | _ => Some s
    end.
Proof.
  intros Hc ([Hm _] & _) Ho Hs Hl. destruct (step_lab _ _ _ Hs) as [E _]. destruct o; rewrite E; try exact Hl; cbn [valid] in Ho.
  - destruct Ho as [Hnd Hin]. unfold nm_add. destruct (decide (labels = ∅)) as [->|]; cbn [nm_m].
    + rewrite decide_False by set_solver. done.
    + rewrite (labels_get _ _ _ _ _ Hl Hnd). f_equal. destruct (decide (l ∈ labels)) as [H|H].
      * rewrite decide_True by (by apply Hin). done.
      * rewrite decide_False by (by rewrite Hin). done.
  - destruct Ho as [[Hnd2 Hin2] (sn & Hsn & Hnd1 & Hin1)]. destruct (read_node _ _ Hc _ _ Hsn) as [Hold _]. rewrite <-Hold in Hin1.
    unfold nm_replace. destruct (decide (labels_of g n = ∅ /\ labels = ∅)) as [[E1 E2]|Hne]; cbn [nm_m].
    { rewrite decide_False by set_solver. rewrite decide_False by set_solver. done. }
    destruct (decide (labels = ∅)) as [->|Hne2]; cbn [nm_m].
    { rewrite decide_False by tauto. rewrite decide_False by set_solver. done. }
    pose proof (unlabels_get n (filter (fun l => l ∉ labels) ordo) (nm_m (g_lab g)) l Hm (NoDup_filter _ _ Hnd1)) as Hu.
    rewrite Hl in Hu. cbn [mbind option_bind] in Hu.
    assert (forall X : Prop, l ∈ filter (fun l => l ∉ labels) ordo <-> l ∈ labels_of g n /\ l ∉ labels /\ labels <> ∅) as Hf1.
    { intros _. rewrite elem_of_list_filter, Hin1. tauto. }
    assert (l ∈ filter (fun l => l ∉ labels_of g n) ordn <-> l ∈ labels /\ l ∉ labels_of g n) as Hf2.
    { rewrite elem_of_list_filter, Hin2. tauto. }
    destruct (decide (l ∈ labels_of g n /\ l ∉ labels /\ labels <> ∅)) as [H|H].
    + rewrite decide_True in Hu by (by apply (Hf1 True)). destruct (unset s n) as [s'|] eqn:Eu.
      * rewrite (labels_get _ _ _ _ _ Hu (NoDup_filter _ _ Hnd2)). rewrite decide_False; [done|]. rewrite Hf2. tauto.
      * clear -Hu Hf2 H. assert (l ∉ filter (fun l => l ∉ labels_of g n) ordn) as Hn by (rewrite Hf2; tauto). revert Hu Hn.
        generalize (filter (fun l => l ∉ labels_of g n) ordn), (fold_left (nm_unlabel n) (filter (fun l => l ∉ labels) ordo) (nm_m (g_lab g))).
        intros ls. induction ls as [|l0 ls IH]; intros m Hu Hn; cbn [fold_left]; [done|]. apply IH; [|by intros ?; apply Hn; right].
        unfold nm_label. destruct (bk_get m l0) as [s0|] eqn:E0.
        -- rewrite bk_get_set by eauto. rewrite decide_False; [done|]. intros ->. apply Hn. left.
        -- rewrite bk_get_app, Hu. rewrite decide_False; [done|]. intros ->. apply Hn. left.
    + rewrite decide_False in Hu by (by rewrite (Hf1 True)). rewrite (labels_get _ _ _ _ _ Hu (NoDup_filter _ _ Hnd2)). f_equal.
      destruct (decide (l ∈ labels /\ l ∉ labels_of g n)) as [H'|H'].
      * rewrite decide_True by (by apply Hf2). done.
      * rewrite decide_False by (by rewrite Hf2). done.
  - destruct Ho as (sn & Hsn & Hnd1 & Hin1). destruct (read_node _ _ Hc _ _ Hsn) as [Hold _]. rewrite <-Hold in Hin1.
    unfold nm_remove. destruct (decide (labels_of g n = ∅)) as [E1|Hne]; cbn [nm_m].
    { rewrite decide_False by (rewrite E1; set_solver). done. }
    rewrite (unlabels_get _ _ _ _ Hm Hnd1), Hl. cbn [mbind option_bind]. destruct (decide (l ∈ labels_of g n)) as [H|H].
    + rewrite decide_True by (by apply Hin1). done.
    + rewrite decide_False by (by rewrite Hin1). done.
Qed.
Lemma ns_rep_els s xs : ns_rep s xs -> NoDup (fs_l s).*1 /\ (fs_l s).*2 = xs /\ NoDup xs /\
  (forall h n, fs_m s !! n = Some h -> (h, n) ∈ fs_l s) /\ (forall n, n ∉ xs -> fs_m s !! n = None).
Proof.
  intros H. pose proof (ns_iter _ _ H) as Hi. unfold fs_iter in Hi. pose proof (ns_rep_NoDup _ _ H) as Hnd.
  assert (forall n, n ∉ xs -> fs_m s !! n = None) as Hout.
  { intros n Hn. apply (fs_lookup_None _ _ n H). by rewrite dup_fst. }
  destruct H as (ts & Ets & Hnd1 & _ & _ & Hl & Hm). split.
  { rewrite Hl. clear -Hnd1. assert ((map (fun t : nat * (nat * nat) => (t.1, t.2.2)) ts).*1 = ts.*1) as ->; [|done].
    clear. induction ts as [|t ts IH]; [done|]. cbn. by f_equal. }
  split; [done|]. split; [done|]. split; [|done]. intros h n Hn. rewrite Hm in Hn. apply elem_of_list_to_map_2 in Hn.
  apply elem_of_list_In, in_map_iff in Hn as ([h0 [i x]] & [= -> ->] & Hin). rewrite Hl. apply elem_of_list_In, in_map_iff. exists (h, (n, x)).
  split; [|done]. cbn. f_equal. apply elem_of_list_In in Hin. assert ((n, x) ∈ map dup xs) as Hx by (rewrite <-Ets; by apply (elem_of_list_fmap_1 snd _ (h, (n, x)))).
  apply elem_of_list_In, in_map_iff in Hx as (y & Hy & _). unfold dup in Hy. congruence.
Qed.
Lemma unset_els s xs n pre p r : ns_rep s xs -> fs_l s = pre ++ p :: r -> n ∉ (p :: r).*2 ->
  exists pre' s', unset s n = Some s' /\ fs_l s' = pre' ++ p :: r.
Proof.
  intros Hs Hl Hn. pose proof (ns_remove _ _ n Hs) as Hr. destruct (ns_rep_els _ _ Hs) as (Hnd & Hx & _ & Hm & _).
  unfold unset. rewrite decide_False.
  - unfold fs_remove. destruct (fs_m s !! n) as [h|] eqn:E; [|by exists pre, s].
    apply Hm in E. cbn [fst]. rewrite Hl in *. destruct (filter_away pre (p :: r) h n) as [pre' Ep]; try done. eexists pre', _. split; [done|]. exact Ep.
  - rewrite (ns_size _ _ Hr). intros H0. apply nil_length_inv in H0.
    assert (p.2 ∈ filter (fun m => m <> n) xs) as Hin; [|rewrite H0 in Hin; by apply elem_of_nil in Hin].
    apply elem_of_list_filter. split; [intros E; apply Hn; rewrite <-E, fmap_cons; left|]. rewrite <-Hx, Hl. apply elem_of_list_fmap_1. apply elem_of_app. right. left.
Qed.

Definition lab_J (g : graph) (vis : list nat) (U : list (nat * nat)) : Prop := forall m, m ∈ vis -> m ∉ U.*2 /\ is_Some (g_nodes g !! m).
Lemma filter_bool (P Q : nat -> bool) (l : list nat) : (forall x, x ∈ l -> P x = Q x) -> filter (fun x => P x = true) l = filter (fun x => Q x = true) l.
Proof.
  induction l as [|x l IH]; intros H; [done|]. rewrite !filter_cons. assert (P x = Q x) as E by (apply H; left).
  assert (filter (fun x => P x = true) l = filter (fun x => Q x = true) l) as -> by (apply IH; intros y Hy; apply H; by right).
  destruct (decide (P x = true)), (decide (Q x = true)); congruence.
Qed.
Lemma lab_loop_step l labels (Hl : l ∈ labels) ops g o g' vis rest pre U : valid_history (ops ++ [o]) -> run ops = Ok g -> step g o = Ok g' ->
  labels_keep labels (srun ops) vis o -> lab_els l g = Some (pre ++ U) -> U <> [] ->
  filter (fun x => bool_decide (labels ⊆ labels_of g x) = true) U.*2 = rest -> lab_J g vis U ->
  exists pre' new, lab_els l g' = Some (pre' ++ U ++ new) /\
    filter (fun x => bool_decide (labels ⊆ labels_of g' x) = true) (U ++ new).*2 = rest /\ lab_J g' vis (U ++ new).
Proof.
  intros Hv Hr Hs Hk Hsrc Hne Hf HJ. apply valid_history_snoc in Hv as [Hv Ho]. pose proof (core_run _ _ Hv Hr) as Hc.
  pose proof (lab_inv_run _ _ Hv Hr) as Hi. destruct Hi as ([Hm Hwf] & Hi1 & Hi2).
  unfold lab_els in *. destruct (bk_get (nm_m (g_lab g)) l) as [s|] eqn:Hb; [|done]. injection Hsrc as Hsrc. destruct (Hwf _ _ Hb) as (xs & Hxs & _).
  rewrite (lab_step _ _ _ _ _ _ Hc (conj (conj Hm Hwf) (conj Hi1 Hi2)) Ho Hs Hb). destruct (step_lab _ _ _ Hs) as [_ Hlof].
  pose proof (fun n => step_nodes_mono _ _ _ n Hs) as Hmono. destruct (ns_rep_els _ _ Hxs) as (Hnd1 & Hx & Hnd2 & Hfm & Hout).
  assert (forall m, m ∈ U.*2 -> is_Some (g_nodes g !! m)) as HU.
  { intros m Hm'. apply (Hi2 m l). exists s. split; [done|]. rewrite (ns_has _ _ _ Hxs). apply bool_decide_eq_true. rewrite <-Hx, Hsrc, fmap_app. apply elem_of_app. by right. }
  (* nothing happens to the list *)
  assert (bool_decide (fs_l s = fs_l s) = true -> (forall m, m ∈ U.*2 -> (labels ⊆ labels_of g' m <-> labels ⊆ labels_of g m)) ->
    exists pre' new, fs_l s = pre' ++ U ++ new /\ filter (fun x => bool_decide (labels ⊆ labels_of g' x) = true) (U ++ new).*2 = rest /\ lab_J g' vis (U ++ new)) as Hsame.
  { intros _ HP. exists pre, []. rewrite app_nil_r. split; [done|]. split.
    - rewrite <-Hf. apply filter_bool. intros x Hxx. apply bool_decide_ext. by apply HP.
    - intros m Hm'. destruct (HJ m Hm'). split; [done|]. by apply Hmono. }
  (* [n] is removed from it *)
  assert (forall n, n ∉ U.*2 -> (forall m, m ∈ U.*2 -> (labels ⊆ labels_of g' m <-> labels ⊆ labels_of g m)) ->
    exists pre' new, fs_l <$> unset s n = Some (pre' ++ U ++ new) /\ filter (fun x => bool_decide (labels ⊆ labels_of g' x) = true) (U ++ new).*2 = rest /\ lab_J g' vis (U ++ new)) as Hless.
  { intros n Hn HP. destruct U as [|p r]; [done|]. destruct (unset_els _ _ _ _ _ _ Hxs Hsrc Hn) as (pre' & s' & -> & El).
    exists pre', []. rewrite app_nil_r. split; [cbn; by rewrite El|]. split.
    - rewrite <-Hf. apply filter_bool. intros x Hxx. apply bool_decide_ext. by apply HP.
    - intros m Hm'. destruct (HJ m Hm'). split; [done|]. by apply Hmono. }
  assert (forall A (x y : A), Some x = Some y <-> x = y) as HS by (intros; split; congruence).
  destruct o; cbn [fmap option_fmap option_map]; try (setoid_rewrite HS; apply Hsame; [by apply bool_decide_eq_true|]; intros m Hm'; by rewrite Hlof); cbn [labels_keep] in Hk.
  - (* NewNode *)
    assert (forall m, m ∈ U.*2 -> labels_of g' m = labels_of g m) as HP.
    { intros m Hm'. rewrite Hlof. rewrite decide_False; [done|]. intros ->. apply HU in Hm'. destruct Hc as (_ & _ & _ & Hlt & _). apply Hlt in Hm'. lia. }
    destruct (decide (l ∈ labels0)) as [Hin|]; [|setoid_rewrite HS; apply Hsame; [by apply bool_decide_eq_true|]; intros m Hm'; by rewrite HP].
    setoid_rewrite HS. unfold fs_add. destruct (fs_m s !! g_next g) as [h|] eqn:E; cbn [fst fs_l].
    { apply Hsame; [by apply bool_decide_eq_true|]. intros m Hm'. by rewrite HP. }
    exists pre, [(fs_fresh s, g_next g)]. rewrite Hsrc, <-app_assoc. split; [done|]. rewrite fmap_app. cbn. split.
    + rewrite filter_app. rewrite filter_cons_False, filter_nil, app_nil_r.
      * rewrite <-Hf. apply filter_bool. intros x Hxx. by rewrite HP.
      * intros Hb'%bool_decide_eq_true. apply Hk. rewrite Hlof, decide_True in Hb' by done. done.
    + intros m Hm'. destruct (HJ m Hm') as [H1 H2]. split; [|by apply Hmono]. rewrite fmap_app. intros [?|Hx']%elem_of_app; [done|].
      apply elem_of_list_singleton in Hx'. cbn in Hx'. subst m. destruct Hc as (_ & _ & _ & Hlt & _). apply Hlt in H2. lia.
  - (* SetLabels *)
    destruct Ho as [_ (sn & Hsn & _)]. destruct (read_node _ _ Hc _ _ Hsn) as [Hold _]. specialize (Hk _ Hsn). rewrite <-Hold in Hk.
    assert (forall m, m ∈ U.*2 -> (labels ⊆ labels_of g' m <-> labels ⊆ labels_of g m)) as HP.
    { intros m Hm'. rewrite Hlof. destruct (decide (m = n)) as [->|]; [|done]. destruct Hk as [Hk|[Hvis _]]; [set_solver|]. by apply HJ in Hvis as [? _]. }
    destruct (decide (l ∈ labels_of g n /\ l ∉ labels0 /\ labels0 <> ∅)) as [(H1 & H2 & _)|H].
    + apply Hless; [|done]. destruct Hk as [Hk|[Hvis _]]; [apply Hk in Hl; tauto|]. by apply HJ in Hvis as [? _].
    + rewrite decide_False; [|destruct Hk as [Hk|[_ Hk]]; specialize (Hk l Hl); tauto]. cbn [fmap option_fmap option_map]. setoid_rewrite HS. by apply Hsame; [apply bool_decide_eq_true|].
  - (* DetachAndRemove *)
    destruct Ho as (sn & Hsn & _). destruct (read_node _ _ Hc _ _ Hsn) as [Hold _].
    assert (forall m, m ∈ U.*2 -> (labels ⊆ labels_of g' m <-> labels ⊆ labels_of g m)) as HP by (intros m _; by rewrite Hlof).
    destruct (decide (l ∈ labels_of g n)) as [H|H].
    + apply Hless; [|done]. rewrite Hold in H. apply (HJ n). by eapply Hk.
    + cbn [fmap option_fmap option_map]. setoid_rewrite HS. by apply Hsame; [apply bool_decide_eq_true|].
Qed.
Lemma nm_min_label_ok m ord : forall cur, nm_min m ord (option_map snd cur) = option_map (option_map snd) (nm_min_label m ord cur) /\
  match nm_min_label m ord cur with
  | Some (Some (l, s)) => cur = Some (l, s) \/ l ∈ ord /\ bk_get m l = Some s
  | _ => True
  end.
Proof.
  induction ord as [|l ord IH]; intros cur; cbn [nm_min nm_min_label].
  { split; [done|]. destruct cur as [[l s]|]; [by left|done]. }
  destruct (bk_get m l) as [s|] eqn:Hg; [|done].
  assert (forall cur', (cur' = cur \/ cur' = Some (l, s)) ->
    nm_min m ord (option_map snd cur') = option_map (option_map snd) (nm_min_label m ord cur') /\
    match nm_min_label m ord cur' with Some (Some (l0, s0)) => cur = Some (l0, s0) \/ l0 ∈ l :: ord /\ bk_get m l0 = Some s0 | _ => True end) as H.
  { intros cur' Hc. destruct (IH cur') as [H1 H2]. split; [done|]. destruct (nm_min_label m ord cur') as [[[l0 s0]|]|]; try done.
    destruct H2 as [H2|[H2 H3]]; [|right; split; [by right|done]]. destruct Hc as [-> | ->]; [by left|]. injection H2 as <- <-. right. split; [left|done]. }
  destruct cur as [[l1 c]|]; cbn [option_map snd].
  - destruct (decide (fs_size s < fs_size c)); [apply (H (Some (l, s))); by right|apply (H (Some (l1, c))); by left].
  - apply (H (Some (l, s))). by right.
Qed.
Theorem labels_loop_ok ops body g g' labels ord es m k :
  valid_history (ops ++ loop_calls body [] es) -> run ops = Ok g -> run (ops ++ loop_calls body [] es) = Ok g' -> order_of labels ord ->
  get_nodes_all_labels g labels ord = Ok (es, m) -> loop_keeps_vis (labels_keep labels) body (srun ops) [] es -> length es < k ->
  labels_loop k body g labels ord = Ok (es, g').
Proof.
  intros Hv Hr Hr' Hord Hq Hk Hlen. unfold run in Hr'. rewrite rfold_app in Hr'. change (rfold step ops new_graph) with (run ops) in Hr'. rewrite Hr in Hr'. cbn [rbind] in Hr'.
  unfold get_nodes_all_labels, nm_iter_all in Hq. unfold labels_loop. destruct (nm_min_label_ok (nm_m (g_lab g)) ord None) as [E H].
  cbn [option_map] in E. rewrite E in Hq. destruct (nm_min_label _ ord None) as [[[l s]|]|]; cbn [option_map snd] in Hq; [|done|].
  2: { injection Hq as <- _. cbn in Hr'. injection Hr' as <-. done. }
  destruct H as [?|[Hl Hs]]; [done|]. injection Hq as Hq _. apply Hord in Hl.
  apply (s_loop_ok (lab_els l) (fun g n => bool_decide (labels ⊆ labels_of g n)) body (labels_keep labels) (fun v _ => v) (fun _ => True) lab_J) with (ops := ops) (es := es) (vis := []); try done.
  - intros ops' g1 els Hv1 Hr1 _ Hsrc. pose proof (lab_inv_run _ _ Hv1 Hr1) as ([_ Hwf] & _). unfold lab_els in Hsrc.
    destruct (bk_get (nm_m (g_lab g1)) l) as [s1|] eqn:Hb; [|done]. injection Hsrc as <-. destruct (Hwf _ _ Hb) as (xs & Hxs & _).
    destruct (ns_rep_els _ _ Hxs) as (? & -> & ? & _). done.
  - intros ops' g1 o g2 vis rest pre U Hv1 Hr1 Hs1 _ Hk1. by apply (lab_loop_step l labels Hl ops' g1 o).
  - intros ops' g1 vis pre a h e r Hv1 Hr1 _ Hsrc HJ. pose proof (lab_inv_run _ _ Hv1 Hr1) as ([_ Hwf] & _ & Hi2). unfold lab_els in Hsrc.
    destruct (bk_get (nm_m (g_lab g1)) l) as [s1|] eqn:Hb; [|done]. injection Hsrc as Hsrc. destruct (Hwf _ _ Hb) as (xs & Hxs & _).
    destruct (ns_rep_els _ _ Hxs) as (_ & Hx & Hnd & _). rewrite <-Hx, Hsrc in Hnd. rewrite !fmap_app, fmap_cons in Hnd. cbn [snd] in Hnd.
    intros y [Hy|Hy]%elem_of_app.
    + destruct (HJ y Hy) as [H1 H2]. split; [|done]. intros Hin. apply H1. rewrite fmap_app, fmap_cons. apply elem_of_app. right. by right.
    + apply elem_of_list_singleton in Hy as ->. apply NoDup_app in Hnd as (_ & _ & Hnd). apply NoDup_app in Hnd as (_ & _ & Hnd). apply NoDup_cons in Hnd as [Hnd _]. split; [done|].
      apply (Hi2 e l). exists s1. split; [done|]. rewrite (ns_has _ _ _ Hxs). apply bool_decide_eq_true. rewrite <-Hx, Hsrc. apply (elem_of_list_fmap_1 snd _ (h, e)).
      apply elem_of_app. right. apply elem_of_app. right. left.
  - by apply loop_keeps_past.
  - pose proof (lab_inv_run _ _ (proj1 (proj1 (valid_from_app _ _ _) Hv)) Hr) as ([_ Hwf] & _). destruct (fs_l s) as [|p r] eqn:Els.
    + left. split; [done|]. unfold fs_iter in Hq. rewrite Els in Hq. by symmetry.
    + right. exists [], p, r. split; [done|]. split; [done|]. split; [unfold lab_els; rewrite Hs; cbn; by rewrite Els|]. split; [|by intros ? ?%elem_of_nil].
      unfold fs_iter in Hq. rewrite Els in Hq. rewrite <-Hq. apply list_filter_iff. intros x. apply bool_decide_eq_true.
Qed.
