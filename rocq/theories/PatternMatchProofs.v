(** Pattern matching: the results of the steps are matches. *)
From Verif Require Import Base Value Graph GraphSpec Sizes CoreProofs CoreStep Path PathSpec PathProofs VPath VPathSpec VPathProofs.
From Verif Require Import Pattern PatternSpec PatternStartProofs PatternRunProofs PatternPlanProofs.

(** ** Matches by index *)
Lemma hop_nodes_length a hs : length (hop_nodes a hs) = S (length hs).
Proof. revert a. induction hs as [|h hs IH]; intros a; [done|]. cbn [hop_nodes length]. by rewrite IH. Qed.
Lemma hop_nodes_0 a hs : hop_nodes a hs !! 0 = Some a.
Proof. by destruct hs. Qed.
Lemma hop_nodes_S a hs k n h : hop_nodes a hs !! k = Some n -> hs !! k = Some h -> hop_nodes a hs !! S k = Some (hop_end n h).
Proof.
  revert a k. induction hs as [|h0 hs IH]; intros a k Hn Hh; [done|]. destruct k as [|k].
  - injection Hh as ->. injection Hn as ->. cbn [hop_nodes]. apply hop_nodes_0.
  - exact (IH (hop_end a h0) k Hn Hh).
Qed.
Lemma hops_ok_alt s syms pat a hs : hops_ok s syms pat a hs <->
  length pat = 2 * length hs /\
  (forall k n, hop_nodes a hs !! S k = Some n -> node_ok s syms (item pat (2 * k + 1)) n) /\
  (forall k n h, hop_nodes a hs !! k = Some n -> hs !! k = Some h -> hop_ok s syms (item pat (2 * k)) n h).
Proof.
  split.
  - induction 1 as [a|ie it pat a h hs Hh Hn Hhs (IH1 & IH2 & IH3)].
    + by split_and!.
    + split_and!; [simpl; lia| |].
      * intros [|k] n Hk.
        -- change (hop_nodes (hop_end a h) hs !! 0 = Some n) in Hk. rewrite hop_nodes_0 in Hk. injection Hk as <-. done.
        -- replace (2 * S k + 1) with (S (S (2 * k + 1))) by lia. exact (IH2 k n Hk).
      * intros [|k] n h' Hk Hh'.
        -- injection Hk as <-. injection Hh' as <-. done.
        -- replace (2 * S k) with (S (S (2 * k))) by lia. exact (IH3 k n h' Hk Hh').
  - revert pat a. induction hs as [|h hs IH]; intros pat a (Hl & H1 & H2).
    + destruct pat; [constructor|done].
    + destruct pat as [|ie [|it pat]]; [done|simpl in Hl; lia|]. constructor.
      * by apply (H2 0 a h).
      * apply (H1 0). apply (hop_nodes_0 (hop_end a h) hs).
      * apply IH. split_and!.
        -- simpl in Hl. lia.
        -- intros k n Hk. specialize (H1 (S k) n Hk). by replace (2 * S k + 1) with (S (S (2 * k + 1))) in H1 by lia.
        -- intros k n h' Hk Hh'. specialize (H2 (S k) n h' Hk Hh'). by replace (2 * S k) with (S (S (2 * k))) in H2 by lia.
Qed.
Lemma fits_alt s syms pat K m : length pat = 2 * K + 1 ->
  fits_items s syms pat m <->
  length (pm_hops m) = K /\
  (forall k n, pm_nodes m !! k = Some n -> node_ok s syms (item pat (2 * k)) n) /\
  (forall k n h, pm_nodes m !! k = Some n -> pm_hops m !! k = Some h -> hop_ok s syms (item pat (2 * k + 1)) n h).
Proof.
  intros HN. destruct pat as [|it pat]; [simpl in HN; lia|]. simpl in HN. unfold fits_items, pm_nodes. rewrite hops_ok_alt. split.
  - intros (Hn & Hl & H1 & H2). split_and!; [lia| |].
    + intros [|k] n Hk; [rewrite hop_nodes_0 in Hk; by injection Hk as <-|]. replace (2 * S k) with (S (2 * k + 1)) by lia. exact (H1 k n Hk).
    + intros k n h Hk Hh. replace (2 * k + 1) with (S (2 * k)) by lia. by apply (H2 k n h).
  - intros (Hl & H1 & H2). split_and!.
    + apply (H1 0). apply hop_nodes_0.
    + lia.
    + intros k n Hk. specialize (H1 (S k) n Hk). by replace (2 * S k) with (S (2 * k + 1)) in H1 by lia.
    + intros k n h Hk Hh. specialize (H2 k n h Hk Hh). by replace (2 * k + 1) with (S (2 * k)) in H2 by lia.
Qed.
Lemma hop_end_last a h : last (a :: map snd h) = Some (hop_end a h).
Proof. unfold hop_end. generalize (map snd h). intros l. rewrite last_cons. by destruct (last l). Qed.

Lemma list_choice {A} (P : nat -> A -> Prop) K : (forall k, k < K -> exists x, P k x) ->
  exists l, length l = K /\ forall k x, l !! k = Some x -> P k x.
Proof.
  induction K as [|K IH]; intros H; [by exists []|]. destruct IH as (l & Hl & HP); [intros k Hk; apply H; lia|].
  destruct (H K) as [x Hx]; [lia|]. exists (l ++ [x]). split; [rewrite app_length; simpl; lia|].
  intros k y [Hy|[Hk Hy]]%lookup_app_Some; [by apply HP|].
  apply list_lookup_singleton_Some in Hy as [Hk0 <-]. replace k with K by lia. done.
Qed.
Lemma map_below {A} (f : nat -> option A) N : exists R : gmap nat A, forall i, R !! i = if decide (i < N) then f i else None.
Proof.
  induction N as [|N [R HR]]; [exists ∅; intros i; by rewrite lookup_empty, decide_False by lia|].
  exists (partial_alter (fun _ => f N) N R). intros i. destruct (decide (i = N)) as [->|Hne].
  - rewrite lookup_partial_alter. by rewrite decide_True by lia.
  - rewrite lookup_partial_alter_ne, HR by done. destruct (decide (i < N)); [by rewrite decide_True by lia|by rewrite decide_False by lia].
Qed.

(** ** The items as they are started from *)
Section started.
  Variables (pat : list pitem) (start : nat).
  Notation pat' := (as_started pat start).
  Lemma started_lookup i : pat' !! i = (if decide (i = start /\ Nat.odd i = true) then one_edge else (fun it => it)) <$> pat !! i.
  Proof.
    unfold as_started. destruct (Nat.odd start) eqn:Eo.
    - destruct (decide (i = start)) as [->|Hne].
      + rewrite list_lookup_alter. by rewrite decide_True.
      + rewrite list_lookup_alter_ne by done. rewrite decide_False by (by intros [? _]). by destruct (pat !! i).
    - rewrite decide_False by (intros [-> ?]; congruence). by destruct (pat !! i).
  Qed.
  Lemma started_length : length pat' = length pat.
  Proof. unfold as_started. destruct (Nat.odd start); [apply alter_length|done]. Qed.
  Lemma nth_lookup_default (l : list pitem) i : nth i l no_item = default no_item (l !! i).
  Proof. revert i. induction l as [|x l IH]; intros [|i]; try done. apply IH. Qed.
  Lemma started_same i : i <> start \/ Nat.odd i = false -> item pat' i = item pat i.
  Proof.
    intros H. unfold item. rewrite !nth_lookup_default, started_lookup. rewrite decide_False by (intros [? ?]; destruct H; congruence).
    by destruct (pat !! i).
  Qed.
  Lemma started_edge i : i = start -> Nat.odd i = true -> i < length pat -> item pat' i = one_edge (item pat i).
  Proof.
    intros Hi Ho Hlt. unfold item. rewrite !nth_lookup_default, started_lookup, decide_True by done.
    destruct (lookup_lt_is_Some_2 pat i Hlt) as [it ->]. done.
  Qed.
  Lemma started_fields i : pi_labels (item pat' i) = pi_labels (item pat i) /\ pi_props (item pat' i) = pi_props (item pat i) /\
    pi_left (item pat' i) = pi_left (item pat i) /\ pi_undirected (item pat' i) = pi_undirected (item pat i) /\ pi_name (item pat' i) = pi_name (item pat i).
  Proof.
    unfold item. rewrite !nth_lookup_default, started_lookup. destruct (pat !! i); [|done]. by destruct (decide _).
  Qed.
End started.

(** ** Walks in reverse *)
Fixpoint rev_hop (a : nat) (h : list (nat * nat)) : list (nat * nat) :=
  match h with [] => [] | x :: h => rev_hop x.2 h ++ [(x.1, a)] end.
Lemma rev_hop_snoc a h e b : rev_hop a (h ++ [(e, b)]) = (e, hop_end a h) :: rev_hop a h.
Proof.
  revert a. induction h as [|[e0 b0] h IH]; intros a; [done|]. cbn [app rev_hop fst snd]. rewrite IH. cbn [app]. f_equal. f_equal.
  unfold hop_end. cbn [map snd]. rewrite last_cons. by destruct (last (map snd h)).
Qed.
Lemma rev_hop_edges a h : map fst (rev_hop a h) = rev (map fst h).
Proof. revert a. induction h as [|x h IH]; intros a; [done|]. cbn [rev_hop map rev]. by rewrite (map_app fst), IH. Qed.
Lemma rev_hop_length a h : length (rev_hop a h) = length h.
Proof. by rewrite <- (map_length fst), rev_hop_edges, rev_length, map_length. Qed.
Lemma hop_end_snoc a h e b : hop_end a (h ++ [(e, b)]) = b.
Proof. unfold hop_end. rewrite (map_app snd). cbn [map snd]. by rewrite last_snoc. Qed.
Lemma rev_hop_end a h : hop_end (hop_end a h) (rev_hop a h) = a.
Proof.
  destruct h as [|x h]; [done|]. cbn [rev_hop]. apply hop_end_snoc.
Qed.
Lemma rev_hop_twice a h : rev_hop (hop_end a h) (rev_hop a h) = h.
Proof.
  induction h as [|[e b] h IH] using rev_ind; [done|]. rewrite rev_hop_snoc, hop_end_snoc. cbn [rev_hop fst snd]. by rewrite IH.
Qed.
Lemma rev_hop_nil a h : rev_hop a h = [] <-> h = [].
Proof. rewrite <- !length_zero_iff_nil. by rewrite rev_hop_length. Qed.
Lemma walk_rev_hop a h : walk_rev (WalkFrom a h) = WalkFrom (hop_end a h) (rev_hop a h).
Proof.
  unfold walk_rev. assert (exists r, rev (a :: map snd h) = hop_end a h :: r /\ zip (rev (map fst h)) r = rev_hop a h /\ length r = length h) as (r & -> & -> & _); [|done].
  revert a. induction h as [|[e b] h IH]; intros a; [by exists []|]. destruct (IH b) as (r & Hr & Hz & Hl). exists (r ++ [a]).
  change (rev (a :: map snd ((e, b) :: h))) with (rev (b :: map snd h) ++ [a]). rewrite Hr. split_and!.
  - cbn [app]. f_equal. unfold hop_end. cbn [map snd]. rewrite last_cons. by destruct (last (map snd h)).
  - cbn [map rev rev_hop fst snd]. rewrite zip_with_app by (rewrite rev_length, map_length; lia). by rewrite Hz.
  - rewrite app_length. cbn [length]. lia.
Qed.
Lemma walks_snoc s it a h e b : walks s it a (h ++ [(e, b)]) <->
  walks s it a h /\ exists ed, s_edges s !! e = Some ed /\ may_take it ed (hop_end a h) b /\ edge_match s (pi_labels it) (pi_props it) e.
Proof.
  revert a. induction h as [|[e0 b0] h IH]; intros a.
  - cbn [app]. split.
    + intros H. inversion H; subst. split; [constructor|]. by eexists.
    + intros [_ (ed & ? & ? & ?)]. econstructor; try done. constructor.
  - cbn [app]. replace (hop_end a ((e0, b0) :: h)) with (hop_end b0 h).
    2:{ unfold hop_end. cbn [map snd]. rewrite last_cons. by destruct (last (map snd h)). }
    split.
    + intros H. inversion H as [|? ? ? ed ? Hed Hm Hem Hw]; subst. apply IH in Hw as [Hw Hs]. split; [|done]. by econstructor.
    + intros [H Hs]. inversion H as [|? ? ? ed ? Hed Hm Hem Hw]; subst. econstructor; try done. apply IH. done.
Qed.

Section matches.
  Variables (ops : list op) (g : graph).
  Hypotheses (Hv : valid_history ops) (Hr : run ops = Ok g).
  Notation s := (srun ops).
  Let Hc : core g s := core_run _ _ Hv Hr.
  Notation from := (edge_from g).
  Notation to := (edge_to g).

  (** ** Relationships *)
  Lemma follows_fwd it a x b : follows s (fwd_dir it) a x b <->
    exists ed, s_edges s !! pe_edge x = Some ed /\ may_take it ed a b /\ x = pe_at_node g a (pe_edge x).
  Proof.
    split.
    - intros Hf. destruct (follows_at g s Hc _ _ _ _ Hf) as (_ & Hx & _). destruct Hf as (ed & Hed & Hf). exists ed. split_and!; [done| |done].
      unfold may_take, fwd_dir in *. destruct (pi_left it), (pi_undirected it), (pe_rev x); naive_solver.
    - intros (ed & Hed & Hm & Hx). exists ed. split; [done|]. destruct (edge_ends g s Hc _ _ Hed) as [Ef Et].
      assert (pe_rev x = bool_decide (e_from ed <> e_to ed /\ e_to ed = a)) as ->.
      { rewrite Hx. unfold pe_at_node. cbn [pe_rev]. by rewrite Ef, Et. }
      unfold may_take, fwd_dir in *. case_bool_decide as Hb.
      + destruct (pi_left it), (pi_undirected it); naive_solver.
      + destruct (decide (e_from ed = e_to ed)) as [E|E]; destruct (pi_left it), (pi_undirected it); naive_solver.
  Qed.
  Lemma follows_back it a x b : follows s (back_dir it) b x a <->
    exists ed, s_edges s !! pe_edge x = Some ed /\ may_take it ed a b /\ x = pe_at_node g b (pe_edge x).
  Proof.
    split.
    - intros Hf. destruct (follows_at g s Hc _ _ _ _ Hf) as (_ & Hx & _). destruct Hf as (ed & Hed & Hf). exists ed. split_and!; [done| |done].
      unfold may_take, back_dir in *. destruct (pi_left it), (pi_undirected it), (pe_rev x); naive_solver.
    - intros (ed & Hed & Hm & Hx). exists ed. split; [done|]. destruct (edge_ends g s Hc _ _ Hed) as [Ef Et].
      assert (pe_rev x = bool_decide (e_from ed <> e_to ed /\ e_to ed = b)) as ->.
      { rewrite Hx. unfold pe_at_node. cbn [pe_rev]. by rewrite Ef, Et. }
      unfold may_take, back_dir in *. case_bool_decide as Hb.
      + destruct (pi_left it), (pi_undirected it); naive_solver.
      + destruct (decide (e_from ed = e_to ed)) as [E|E]; destruct (pi_left it), (pi_undirected it); naive_solver.
  Qed.
  Lemma follows_joins d a x b : follows s d a x b -> joins from to (pe_edge x) (pe_rev x) a b.
  Proof.
    intros (ed & Hed & Hf). destruct (edge_ends g s Hc _ _ Hed) as [Ef Et]. unfold joins. rewrite Ef, Et.
    destruct (pe_rev x); naive_solver.
  Qed.
  (** the elements of a walk *)
  Fixpoint elems (a : nat) (h : list (nat * nat)) : list pelem :=
    match h with [] => [] | x :: h => pe_at_node g a x.1 :: elems x.2 h end.
  Lemma elems_edges a h : map pe_edge (elems a h) = map fst h.
  Proof. revert a. induction h as [|x h IH]; intros a; [done|]. simpl. by rewrite IH. Qed.
  Lemma elems_length a h : length (elems a h) = length h.
  Proof. by rewrite <- (map_length pe_edge), elems_edges, map_length. Qed.
  Lemma walks_continues it a h : walks s it a h ->
    continues s (fwd_dir it) (item_edges g it) a (elems a h) /\ takes from to a (elems a h) h.
  Proof.
    induction 1 as [a|a e b ed h Hed Hm Hmatch Hw [IH1 IH2]]; [split; constructor|].
    assert (follows s (fwd_dir it) a (pe_at_node g a e) b) as Hf by (apply follows_fwd; by exists ed).
    cbn [elems fst snd]. split.
    - econstructor; [exact Hf| |exact IH1]. apply (item_edges_ok ops g Hv Hr); [|done]. by exists ed.
    - apply follows_joins in Hf. by constructor.
  Qed.
  Lemma continues_walks it a l : continues s (fwd_dir it) (item_edges g it) a l -> exists h, walks s it a h /\ l = elems a h.
  Proof.
    induction 1 as [a|a x b l Hf Hflt Hcont (h & Hw & ->)]; [exists []; split; [constructor|done]|].
    apply follows_fwd in Hf as (ed & Hed & Hm & Hx). exists ((pe_edge x, b) :: h). split.
    - econstructor; try done. apply (item_edges_ok ops g Hv Hr); [by exists ed|done].
    - cbn [elems fst snd]. by rewrite <- Hx.
  Qed.
  Lemma takes_path a l h : takes from to a l h -> l <> [] -> denotes from to (Path None l) (WalkFrom a h) /\ path_last from to (Path None l) = Some (hop_end a h).
  Proof.
    intros Ht Hne. destruct l as [|x l]; [done|]. assert (denotes from to (Path None (x :: l)) (WalkFrom a h)) as Hd by by constructor.
    split; [done|]. rewrite (den_last _ _ _ _ Hd). cbn [walk_nodes]. apply hop_end_last.
  Qed.
  Lemma elems_nil a h : elems a h = [] <-> h = [].
  Proof. by destruct h. Qed.

  Variables (syms : symbols) (pat : list pitem) (K start : nat) (xs : list nat).
  Notation N := (length pat).
  Hypotheses (HN : N = 2 * K + 1) (Hlt : start < N) (Hxs : start_ok ops syms pat start xs) (Hdir : ~ undirected_start pat start).
  Hypothesis Hesym : forall i it, pat !! (2 * i + 1) = Some it -> pi_name it <> "" -> syms !! pi_name it = None.
  Notation pat' := (as_started pat start).
  Notation rel k := (item pat' (2 * k + 1)).

  Lemma started_node k : item pat' (2 * k) = item pat (2 * k).
  Proof. apply started_same. right. apply odd_2. Qed.
  Lemma started_other k : 2 * k + 1 <> start -> rel k = item pat (2 * k + 1).
  Proof. intros H. apply started_same. by left. Qed.
  Lemma hop_ok_alt k a h : k < K -> hop_ok s syms (rel k) a h <->
    walks s (rel k) a h /\ h <> [] /\ NoDup (map fst h) /\
    (pi_min (rel k) = -1 \/ pi_min (rel k) <= Z.of_nat (length h))%Z /\ (pi_max (rel k) = -1 \/ Z.of_nat (length h) <= pi_max (rel k))%Z.
  Proof.
    intros Hk. unfold hop_ok. split; [naive_solver|]. intros (? & ? & ? & ? & ?). split_and!; try done.
    intros Hn x Hx. destruct (started_fields pat start (2 * k + 1)) as (_ & _ & _ & _ & En). rewrite En in *. rewrite (Hesym k (item pat (2 * k + 1))) in Hx; [done| |done]. apply item_in. lia.
  Qed.
  Lemma leads_fwd k a p : k < K -> leads ops g (rel k) (fwd_dir (rel k)) a p <-> exists h, hop_ok s syms (rel k) a h /\ p = Path None (elems a h).
  Proof.
    intros Hk. split.
    - intros (l & -> & Hne & Hcont & Hnd & Hmin & Hmax). apply continues_walks in Hcont as (h & Hw & ->). exists h. split; [|done].
      apply hop_ok_alt; [done|]. rewrite elems_edges in Hnd. rewrite elems_length in Hmin, Hmax. split_and!; try done. by intros ->.
    - intros (h & (Hw & Hne & Hnd & Hmin & Hmax)%hop_ok_alt & ->); [|done]. eexists. split; [done|]. rewrite elems_edges, elems_length.
      split_and!; try done; [by rewrite elems_nil|]. by apply walks_continues.
  Qed.
  Lemma walks_back it a h : walks s it a h ->
    continues s (back_dir it) (item_edges g it) (hop_end a h) (elems (hop_end a h) (rev_hop a h)) /\
    takes from to (hop_end a h) (elems (hop_end a h) (rev_hop a h)) (rev_hop a h).
  Proof.
    induction h as [|[e b] h IH] using rev_ind; intros Hw; [split; constructor|].
    apply walks_snoc in Hw as [Hw (ed & Hed & Hm & Hmatch)]. destruct (IH Hw) as [IH1 IH2].
    assert (follows s (back_dir it) b (pe_at_node g b e) (hop_end a h)) as Hf by (apply follows_back; by exists ed).
    rewrite rev_hop_snoc, hop_end_snoc. cbn [elems fst snd]. split.
    - econstructor; [exact Hf| |exact IH1]. apply (item_edges_ok ops g Hv Hr); [by exists ed|done].
    - apply follows_joins in Hf. by constructor.
  Qed.
  Lemma back_walks it b l : continues s (back_dir it) (item_edges g it) b l ->
    exists a h, walks s it a h /\ hop_end a h = b /\ l = elems b (rev_hop a h).
  Proof.
    induction 1 as [b|b x c l Hf Hflt Hcont (a & h & Hw & Hend & ->)]; [exists b, []; split; [constructor|done]|].
    apply follows_back in Hf as (ed & Hed & Hm & Hx). exists a, (h ++ [(pe_edge x, b)]). split_and!.
    - apply walks_snoc. split; [done|]. exists ed. rewrite Hend. split_and!; try done. apply (item_edges_ok ops g Hv Hr); [by exists ed|done].
    - apply hop_end_snoc.
    - rewrite rev_hop_snoc, Hend. cbn [elems fst snd]. by rewrite <- Hx.
  Qed.
  Lemma leads_back k b a p : k < K ->
    (leads ops g (rel k) (back_dir (rel k)) b p /\ path_last from to p = Some a) <->
    exists h, hop_ok s syms (rel k) a h /\ hop_end a h = b /\ p = Path None (elems b (rev_hop a h)).
  Proof.
    intros Hk. split.
    - intros [(l & -> & Hne & Hcont & Hnd & Hmin & Hmax) Hlast]. apply back_walks in Hcont as (a' & h & Hw & <- & ->).
      assert (h <> []) as Hne' by (by intros ->). destruct (walks_back _ _ _ Hw) as [_ Ht].
      destruct (takes_path _ _ _ Ht Hne) as [_ Hlast']. rewrite Hlast', rev_hop_end in Hlast. injection Hlast as ->.
      exists h. split_and!; try done. rewrite elems_edges, rev_hop_edges in Hnd. rewrite elems_length, rev_hop_length in Hmin, Hmax.
      apply hop_ok_alt; [done|]. split_and!; try done. apply NoDup_ListNoDup in Hnd. apply NoDup_ListNoDup. apply NoDup_rev in Hnd. by rewrite rev_involutive in Hnd.
    - intros (h & (Hw & Hne & Hnd & Hmin & Hmax)%hop_ok_alt & <- & ->); [|done]. destruct (walks_back _ _ _ Hw) as [Hcont Ht].
      assert (elems (hop_end a h) (rev_hop a h) <> []) as Hne' by (by rewrite elems_nil, rev_hop_nil).
      destruct (takes_path _ _ _ Ht Hne') as [_ Hlast]. rewrite rev_hop_end in Hlast. split; [|done].
      eexists. split; [done|]. rewrite elems_edges, rev_hop_edges, elems_length, rev_hop_length. split_and!; try done.
      apply NoDup_ListNoDup. apply NoDup_rev. by apply NoDup_ListNoDup.
  Qed.
  Lemma hop_one k a h : pi_max (rel k) = 1%Z -> hop_ok s syms (rel k) a h -> exists e b, h = [(e, b)].
  Proof.
    intros Hm (_ & Hne & _ & _ & Hmax & _). destruct h as [|[e b] [|y h]]; [done|by eauto|]. cbn [length] in Hmax. lia.
  Qed.

  (** ** Results and matches *)
  Definition first_edge (h : list (nat * nat)) : nat := default 0 (fst <$> head h).
  Definition hop_path (k a : nat) (h : list (nat * nat)) : path :=
    if decide (2 * k + 1 < start) then Path None (elems (hop_end a h) (rev_hop a h))
    else if decide (2 * k + 1 = start) then Path None [PE (first_edge h) false]
    else Path None (elems a h).
  Definition link (R : gmap nat sres) (k : nat) : Prop :=
    exists a h, R !! (2 * k) = Some (RNode a) /\ R !! (2 * k + 1) = Some (RPath (hop_path k a h)) /\
      R !! (2 * k + 2) = Some (RNode (hop_end a h)) /\ hop_ok s syms (rel k) a h.
  Definition nodes_fine (R : gmap nat sres) : Prop :=
    forall k, k <= K -> exists n, R !! (2 * k) = Some (RNode n) /\ node_ok s syms (item pat (2 * k)) n.
  Definition begun (R : gmap nat sres) : Prop :=
    forall k, start = 2 * k + 1 -> exists e, R !! start = Some (RPath (Path None [PE e false])) /\ e ∈ xs.
  Notation ok st R := (ok_at ops g syms pat start st R).
  Notation all := (steps pat start xs).

  Definition edge_start (it : pitem) (e : nat) : nat := if pi_left it then to e else from e.
  Definition edge_end (it : pitem) (e : nat) : nat := if pi_left it then from e else to e.
  Lemma start_hop k a h : start = 2 * k + 1 -> k < K -> hop_ok s syms (rel k) a h <->
    exists e, h = [(e, edge_end (rel k) e)] /\ a = edge_start (rel k) e /\ edge_match s (pi_labels (rel k)) (pi_props (rel k)) e.
  Proof.
    intros Es Hk. pose proof (start_edge_item pat start Hlt Hdir k Es) as Hside.
    assert (pi_left (rel k) = true \/ pi_left (rel k) = false /\ pi_undirected (rel k) = false) as Hside'.
    { destruct (started_fields pat start (2 * k + 1)) as (_ & _ & -> & -> & _). by rewrite <- Es. }
    assert (pi_min (rel k) = 1%Z /\ pi_max (rel k) = 1%Z) as [Hmin Hmax].
    { rewrite started_edge; [done|done|by apply odd_1|lia]. }
    unfold edge_end, edge_start. split.
    - intros Hh. destruct (hop_one _ _ _ Hmax Hh) as (e & b & ->). destruct Hh as (Hw & _). inversion Hw as [|? ? ? ed ? Hed Hmt Hmatch _]; subst.
      unfold may_take in Hmt. destruct (edge_ends g s Hc _ _ Hed) as [Ef Et]. exists e. rewrite Ef, Et.
      destruct Hside' as [Hl|[Hl Hu]]; rewrite Hl, ?Hu in *; by destruct Hmt as [<- <-].
    - intros (e & -> & -> & Hmatch). apply hop_ok_alt; [done|]. assert (Hm2 := Hmatch). destruct Hm2 as (ed & Hed & _). destruct (edge_ends g s Hc _ _ Hed) as [Ef Et]. split_and!; try done.
      + econstructor; try done; [|constructor]. unfold may_take. rewrite Ef, Et. destruct Hside' as [Hl|[Hl Hu]]; by rewrite Hl, ?Hu.
      + apply NoDup_singleton.
      + right. cbn [length]. lia.
      + right. cbn [length]. lia.
  Qed.

  Lemma ok_begun R : (forall st, st ∈ all -> ok st R) -> begun R.
  Proof.
    intros Hok k Ek. assert (ok (start_step start xs) R) as (r & Hr1 & Hcd).
    { apply Hok. apply (in_steps_all pat K start xs HN Hlt). by left. }
    unfold start_step in *. rewrite Ek, even_1 in Hr1, Hcd. destruct Hcd as (e & -> & _ & He). exists e. by rewrite Ek.
  Qed.
  Lemma ok_matches R : (forall st, st ∈ all -> ok st R) -> nodes_fine R /\ forall k, k < K -> link R k.
  Proof.
    intros Hok.
    assert (Hfw : forall i, start < i < N -> ok (forward_step pat start i) R).
    { intros i Hi. apply Hok. apply (in_steps_all pat K start xs HN Hlt). right. left. by exists i. }
    assert (Hbk : forall i, i < start -> ok (back_step pat i) R).
    { intros i Hi. apply Hok. apply (in_steps_all pat K start xs HN Hlt). right. right. by exists i. }
    assert (Hst : ok (start_step start xs) R).
    { apply Hok. apply (in_steps_all pat K start xs HN Hlt). by left. }
    assert (nodes_fine R) as Hnodes.
    { intros k Hk. destruct (Nat.lt_trichotomy (2 * k) start) as [Hs|[Hs|Hs]].
      - destruct (Hbk _ Hs) as (r & Hr1 & Hcd). rewrite (back_item pat K start HN Hlt) in Hr1 by lia.
        destruct (step_back_node pat K start HN Hlt k Hs) as (u & prev & E & _). rewrite E in Hcd. destruct Hcd as (p & n & _ & -> & _ & ?). eauto.
      - destruct Hst as (r & Hr1 & Hcd). unfold start_step in *. rewrite <- Hs, even_2 in *. destruct Hcd as (n & -> & ?). eauto.
      - destruct k as [|k]; [lia|]. destruct (Hfw (2 * S k)) as (r & Hr1 & Hcd); [lia|]. rewrite forward_item in Hr1.
        replace (2 * S k) with (2 * k + 2) in * by lia.
        destruct (step_forward_node pat K start HN Hlt k) as (u & prev & E & _). rewrite E in Hcd. destruct Hcd as (p & n & _ & -> & _ & ?). eauto. }
    split; [done|]. intros k Hk. unfold link, hop_path.
    destruct (Nat.lt_trichotomy (2 * k + 1) start) as [Hs|[Hs|Hs]].
    - destruct (Hbk _ Hs) as (r & Hr1 & Hcd). rewrite (back_item pat K start HN Hlt) in Hr1 by lia. rewrite (step_back_edge pat K start HN Hlt) in Hcd. destruct Hcd as (b & p & Hb & -> & Hl).
      destruct (Hbk (2 * k) ltac:(lia)) as (r & Hr2 & Hcd). rewrite (back_item pat K start HN Hlt) in Hr2 by lia.
      destruct (step_back_node pat K start HN Hlt k ltac:(lia)) as (u & prev & E & _). rewrite E in Hcd. destruct Hcd as (p' & a & Hp' & -> & Hna & _).
      assert (p' = p) as -> by congruence. unfold node_at in Hna. rewrite decide_False in Hna by lia.
      rewrite <- (started_other k) in Hl by lia.
      destruct (proj1 (leads_back k b a p Hk)) as (h & Hh & <- & ->); [done|].
      exists a, h. rewrite decide_True by done. done.
    - destruct Hst as (r & Hr1 & Hcd). unfold start_step in *. rewrite <- Hs, even_1 in Hr1, Hcd. destruct Hcd as (e & -> & Hmatch & _). cbn [step_item] in Hr1.
      destruct (Hbk (2 * k) ltac:(lia)) as (r & Hr2 & Hcd). rewrite (back_item pat K start HN Hlt) in Hr2 by lia.
      destruct (step_back_node pat K start HN Hlt k ltac:(lia)) as (u & prev & E & _). rewrite E in Hcd. destruct Hcd as (p' & a & Hp' & -> & Hna & _).
      assert (p' = Path None [PE e false]) as -> by congruence.
      destruct (Hfw (2 * k + 2) ltac:(lia)) as (r & Hr3 & Hcd). rewrite forward_item in Hr3.
      destruct (step_forward_node pat K start HN Hlt k) as (u' & prev' & E' & _). rewrite E' in Hcd. destruct Hcd as (p' & b & Hp2 & -> & Hnb & _).
      assert (p' = Path None [PE e false]) as -> by congruence.
      destruct (started_fields pat start (2 * k + 1)) as (Efl & Efp & Eleft & _ & _). rewrite <- Efl, <- Efp in Hmatch.
      assert (a = edge_start (rel k) e /\ b = edge_end (rel k) e) as [-> ->].
      { unfold node_at in Hna, Hnb. unfold edge_start, edge_end. rewrite <- Eleft in Hna, Hnb. destruct (pi_left (rel k)).
        - rewrite decide_False in Hna by (intros [_ [H _]]; specialize (H ltac:(lia)); done).
          rewrite decide_True in Hnb by (split; [done|split; [lia|done]]). cbn in Hna, Hnb. naive_solver.
        - rewrite decide_True in Hna by (split; [done|split; [done|lia]]).
          rewrite decide_False in Hnb by (intros [_ [_ H]]; specialize (H eq_refl); lia). cbn in Hna, Hnb. naive_solver. }
      exists (edge_start (rel k) e), [(e, edge_end (rel k) e)]. rewrite decide_False by lia. rewrite decide_True by lia. split_and!; try done.
      apply (start_hop k); try done. by exists e.
    - destruct (Hfw _ ltac:(split; [exact Hs|lia])) as (r & Hr1 & Hcd). rewrite forward_item in Hr1. rewrite (step_forward_edge pat K start HN Hlt) in Hcd. destruct Hcd as (a & p & Ha & -> & Hl).
      rewrite <- (started_other k) in Hl by lia. apply (leads_fwd k a p Hk) in Hl as (h & Hh & ->).
      destruct (Hfw (2 * k + 2) ltac:(lia)) as (r & Hr3 & Hcd). rewrite forward_item in Hr3.
      destruct (step_forward_node pat K start HN Hlt k) as (u' & prev' & E' & _). rewrite E' in Hcd. destruct Hcd as (p' & b & Hp2 & -> & Hna & _).
      assert (p' = Path None (elems a h)) as -> by congruence. unfold node_at in Hna. rewrite decide_False in Hna by lia.
      assert (Hh2 := Hh). destruct Hh2 as (Hw & Hne & _). destruct (walks_continues _ _ _ Hw) as [_ Ht].
      destruct (takes_path _ _ _ Ht) as [_ Hlast]; [by rewrite elems_nil|]. rewrite Hlast in Hna. injection Hna as <-.
      exists a, h. rewrite !decide_False by lia. done.
  Qed.
  Lemma matches_ok R : nodes_fine R -> (forall k, k < K -> link R k) -> begun R -> forall st, st ∈ all -> ok st R.
  Proof.
    intros Hnodes Hlink Hbegun st [->|[(i & Hi & ->)|(i & Hi & ->)]]%(in_steps_all pat K start xs HN Hlt).
    - unfold start_step. destruct (half pat K start HN Hlt start) as [k [Es|Es]].
      + rewrite Es, even_2. destruct (Hnodes k) as (n & Hn & Hok); [lia|]. exists (RNode n). split; [done|]. by exists n.
      + rewrite Es, even_1. destruct (Hlink k) as (a & h & Ha & Hp & Hb & Hh); [lia|]. unfold hop_path in Hp.
        rewrite decide_False in Hp by lia. rewrite decide_True in Hp by lia.
        apply (start_hop k a h Es) in Hh as (e & -> & -> & Hmatch); [|lia]. eexists. split; [exact Hp|]. exists e. split; [done|].
        destruct (started_fields pat start (2 * k + 1)) as (<- & <- & _). split; [done|].
        destruct (Hbegun k Es) as (e' & He' & Hx). rewrite Es, Hp in He'. injection He' as <-. done.
    - destruct (half pat K start HN Hlt i) as [k [Ei|Ei]].
      + destruct k as [|k]; [lia|]. assert (i = 2 * k + 2) as -> by lia.
        destruct (step_forward_node pat K start HN Hlt k) as (u & prev & -> & _).
        destruct (Hlink k) as (a & h & Ha & Hp & Hb & Hh); [lia|]. eexists. split; [exact Hb|]. eexists _, _. split; [exact Hp|]. split; [done|].
        destruct (Hnodes (k + 1)) as (n & Hn & Hok); [lia|]. replace (2 * (k + 1)) with (2 * k + 2) in * by lia.
        assert (n = hop_end a h) as -> by congruence. split; [|done].
        unfold hop_path. rewrite decide_False by lia. destruct (decide _) as [Es|Es].
        * apply (start_hop k a h (eq_sym Es)) in Hh as (e & -> & -> & Hmatch); [|lia]. cbn [first_edge head fmap option_fmap option_map default fst].
          destruct (started_fields pat start (2 * k + 1)) as (_ & _ & Eleft & _). unfold node_at, edge_start, edge_end, hop_end. rewrite <- Eleft. cbn [map snd last default].
          destruct (pi_left (rel k)).
          -- rewrite decide_True by (split; [done|split; [lia|done]]). done.
          -- rewrite decide_False by (intros [_ [_ H]]; specialize (H eq_refl); lia). done.
        * unfold node_at. rewrite decide_False by (by intros [? _]). assert (Hh2 := Hh). destruct Hh2 as (Hw & Hne & _). destruct (walks_continues _ _ _ Hw) as [_ Ht].
          destruct (takes_path _ _ _ Ht) as [_ Hlast]; [by rewrite elems_nil|]. done.
      + subst i. rewrite (step_forward_edge pat K start HN Hlt). destruct (Hlink k) as (a & h & Ha & Hp & Hb & Hh); [lia|]. unfold hop_path in Hp. rewrite !decide_False in Hp by lia.
        eexists. split; [exact Hp|]. eexists _, _. split; [exact Ha|]. split; [done|]. rewrite <- (started_other k) by lia. apply leads_fwd; [lia|]. by exists h.
    - destruct (half pat K start HN Hlt i) as [k [Ei|Ei]]; subst i.
      + destruct (step_back_node pat K start HN Hlt k Hi) as (u & prev & -> & _).
        destruct (Hlink k) as (a & h & Ha & Hp & Hb & Hh); [lia|]. eexists. split; [exact Ha|]. eexists _, _. split; [exact Hp|]. split; [done|].
        destruct (Hnodes k) as (n & Hn & Hok); [lia|]. assert (n = a) as -> by congruence. split; [|done].
        unfold hop_path. destruct (decide (2 * k + 1 = start)) as [Es|Es].
        * rewrite decide_False by lia.
          apply (start_hop k a h (eq_sym Es)) in Hh as (e & -> & -> & Hmatch); [|lia]. cbn [first_edge head fmap option_fmap option_map default fst].
          destruct (started_fields pat start (2 * k + 1)) as (_ & _ & Eleft & _). unfold node_at, edge_start, edge_end, hop_end. rewrite <- Eleft. cbn [map snd last default].
          destruct (pi_left (rel k)).
          -- rewrite decide_False by (intros [_ [H _]]; specialize (H ltac:(lia)); done). done.
          -- rewrite decide_True by (split; [done|split; [done|lia]]). done.
        * unfold node_at. rewrite decide_False by (by intros [? _]). rewrite decide_True by lia.
          apply (leads_back k (hop_end a h) a _ ltac:(lia)). by exists h.
      + rewrite (step_back_edge pat K start HN Hlt). destruct (Hlink k) as (a & h & Ha & Hp & Hb & Hh); [lia|]. unfold hop_path in Hp. rewrite decide_True in Hp by lia.
        eexists. split; [exact Hp|]. eexists _, _. split; [exact Hb|]. split; [done|]. rewrite <- (started_other k) by lia.
        apply (leads_back k (hop_end a h) a _ ltac:(lia)). by exists h.
  Qed.

  (** the results of a match *)
  Definition res_at (m : pmatch) (i : nat) : option sres :=
    if Nat.even i then RNode <$> pm_nodes m !! Nat.div2 i
    else match pm_nodes m !! Nat.div2 i, pm_hops m !! Nat.div2 i with
         | Some a, Some h => Some (RPath (hop_path (Nat.div2 i) a h))
         | _, _ => None
         end.
  Definition gives (m : pmatch) (R : gmap nat sres) : Prop := forall i, R !! i = if decide (i < N) then res_at m i else None.
  Lemma res_even m k : res_at m (2 * k) = RNode <$> pm_nodes m !! k.
  Proof. unfold res_at. rewrite even_2. by rewrite Nat.div2_double. Qed.
  Lemma res_odd m k : res_at m (2 * k + 1) = match pm_nodes m !! k, pm_hops m !! k with Some a, Some h => Some (RPath (hop_path k a h)) | _, _ => None end.
  Proof. unfold res_at. rewrite even_1. replace (2 * k + 1) with (S (2 * k)) by lia. by rewrite Nat.div2_succ_double. Qed.

  Lemma match_results m : exists R, gives m R.
  Proof. exact (map_below (res_at m) N). Qed.
  Lemma gives_rdom m R : gives m R -> rdom pat R.
  Proof. intros H i r Hi. rewrite H in Hi. by destruct (decide _). Qed.
  Lemma gives_even m R k : gives m R -> k <= K -> R !! (2 * k) = RNode <$> pm_nodes m !! k.
  Proof. intros H Hk. rewrite H, decide_True by lia. apply res_even. Qed.
  Lemma gives_odd m R k : gives m R -> k < K ->
    R !! (2 * k + 1) = match pm_nodes m !! k, pm_hops m !! k with Some a, Some h => Some (RPath (hop_path k a h)) | _, _ => None end.
  Proof. intros H Hk. rewrite H, decide_True by lia. apply res_odd. Qed.
  Lemma node_lookup m k : length (pm_hops m) = K -> k <= K -> exists n, pm_nodes m !! k = Some n.
  Proof. intros Hl Hk. apply lookup_lt_is_Some_2. unfold pm_nodes. rewrite hop_nodes_length. lia. Qed.
  Lemma hop_lookup m k : length (pm_hops m) = K -> k < K -> exists h, pm_hops m !! k = Some h.
  Proof. intros Hl Hk. apply lookup_lt_is_Some_2. lia. Qed.

  Lemma started_N : length pat' = 2 * K + 1.
  Proof. by rewrite started_length. Qed.
  Lemma fits_ok m R : fits_items s syms pat' m -> begins_in start xs m -> gives m R -> forall st, st ∈ all -> ok st R.
  Proof.
    intros (Hl & Hn & Hh)%(fits_alt _ _ _ K) Hbeg HR; [|apply started_N]. apply matches_ok.
    - intros k Hk. destruct (node_lookup m k Hl Hk) as [n En]. exists n. split; [by rewrite (gives_even m R k HR Hk), En|]. rewrite <- started_node. by apply Hn.
    - intros k Hk. destruct (node_lookup m k Hl ltac:(lia)) as [a Ea]. destruct (hop_lookup m k Hl Hk) as [h Eh]. exists a, h. split_and!.
      + by rewrite (gives_even m R k HR ltac:(lia)), Ea.
      + by rewrite (gives_odd _ _ _ HR Hk), Ea, Eh.
      + replace (2 * k + 2) with (2 * S k) by lia. rewrite (gives_even m R (S k) HR ltac:(lia)). unfold pm_nodes in *. by rewrite (hop_nodes_S _ _ _ _ _ Ea Eh).
      + by apply Hh.
    - intros k Ek. assert (k < K) as Hk by lia. destruct (node_lookup m k Hl ltac:(lia)) as [a Ea]. destruct (hop_lookup m k Hl Hk) as [h Eh].
      pose proof (Hh k a h Ea Eh) as Hok. apply (start_hop k a h Ek Hk) in Hok as (e & -> & -> & _). exists e. split.
      + rewrite Ek, (gives_odd _ _ _ HR Hk), Ea, Eh. unfold hop_path. rewrite decide_False by lia. rewrite decide_True by lia. done.
      + apply (Hbeg k _ e Ek Eh). by apply elem_of_list_singleton.
  Qed.
  Lemma ok_fits R : rdom pat R -> (forall st, st ∈ all -> ok st R) -> exists m, fits_items s syms pat' m /\ begins_in start xs m /\ gives m R.
  Proof.
    intros Hd Hok0. pose proof (ok_begun R Hok0) as Hbegun. apply ok_matches in Hok0 as [Hnodes Hlink].
    destruct (list_choice (fun k h => exists a, R !! (2 * k) = Some (RNode a) /\ R !! (2 * k + 1) = Some (RPath (hop_path k a h)) /\
      R !! (2 * k + 2) = Some (RNode (hop_end a h)) /\ hop_ok s syms (rel k) a h) K) as (hs & Hl & Hhs).
    { intros k Hk. destruct (Hlink k Hk) as (a & h & ? & ? & ? & ?). exists h, a. done. }
    destruct (Hnodes 0) as (n0 & Hn0 & _); [lia|]. set (m := PM n0 hs).
    assert (forall k n, pm_nodes m !! k = Some n -> R !! (2 * k) = Some (RNode n)) as Hns.
    { induction k as [|k IH]; intros n Hn.
      - unfold pm_nodes in Hn. rewrite hop_nodes_0 in Hn. injection Hn as <-. done.
      - assert (k < K) as Hk. { apply lookup_lt_Some in Hn. unfold pm_nodes in Hn. rewrite hop_nodes_length in Hn. cbn [m pm_hops] in Hn. lia. }
        destruct (node_lookup m k Hl ltac:(lia)) as [a Ea]. destruct (hop_lookup m k Hl Hk) as [h Eh]. unfold pm_nodes in *.
        rewrite (hop_nodes_S _ _ _ _ _ Ea Eh) in Hn. injection Hn as <-.
        destruct (Hhs k h Eh) as (a' & Ha' & _ & Hb & _). rewrite (IH a Ea) in Ha'. injection Ha' as <-. by replace (2 * S k) with (2 * k + 2) by lia. }
    exists m. split.
    - apply (fits_alt _ _ _ K); [apply started_N|]. split_and!.
      + done.
      + intros k n Hn. assert (k <= K) as Hk. { apply lookup_lt_Some in Hn. unfold pm_nodes in Hn. rewrite hop_nodes_length in Hn. cbn [m pm_hops] in Hn. lia. }
        destruct (Hnodes k Hk) as (n' & Hn' & Hok). rewrite (Hns k n Hn) in Hn'. injection Hn' as <-. by rewrite started_node.
      + intros k a h Ha Hh. destruct (Hhs k h Hh) as (a' & Ha' & _ & _ & Hok). rewrite (Hns k a Ha) in Ha'. by injection Ha' as <-.
    - split.
      { intros k h e Ek Hh He. destruct (Hhs k h Hh) as (a & Ha & Hp & _ & Hok). assert (k < K) as Hk by lia.
        apply (start_hop k a h Ek Hk) in Hok as (e1 & -> & _ & _). cbn [map fst] in He. apply elem_of_list_singleton in He as ->.
        destruct (Hbegun k Ek) as (e' & He' & Hx). unfold hop_path in Hp. rewrite decide_False in Hp by lia. rewrite decide_True in Hp by lia.
        rewrite Ek, Hp in He'. cbn in He'. injection He' as <-. done. }
      intros i. destruct (decide (i < N)) as [Hi|Hi]; [|destruct (R !! i) eqn:E; [by apply Hd in E|done]].
      destruct (half pat K start HN Hlt i) as [k [->| ->]].
      + rewrite res_even. destruct (node_lookup m k Hl ltac:(lia)) as [n En]. rewrite En. by apply Hns.
      + rewrite res_odd. destruct (node_lookup m k Hl ltac:(lia)) as [a Ea]. destruct (hop_lookup m k Hl ltac:(lia)) as [h Eh]. rewrite Ea, Eh.
        destruct (Hhs k h Eh) as (a' & Ha' & Hp & _). rewrite (Hns k a Ea) in Ha'. by injection Ha' as <-.
  Qed.
  Lemma takes_targets a l h : takes from to a l h -> h = map (fun x => (pe_edge x, pe_tgt from to x)) l.
  Proof.
    revert a h. induction l as [|x l IH]; intros a h Ht; inversion Ht as [|? ? ? ? ? ? Hj]; subst; [done|]. cbn [map pe_edge]. f_equal; [|by eapply IH].
    apply joins_iff in Hj as [_ ->]. done.
  Qed.
  Lemma elems_targets it a h : walks s it a h -> h = map (fun x => (pe_edge x, pe_tgt from to x)) (elems a h).
  Proof.
    intros [_ Ht]%walks_continues. revert Ht. generalize (elems a h). intros l. revert a h.
    induction l as [|x l IH]; intros a h Ht; inversion Ht as [|? ? ? ? ? ? Hj]; subst; [done|]. cbn [map pe_edge]. f_equal; [|by eapply IH].
    apply joins_iff in Hj as [_ ->]. done.
  Qed.
  Lemma gives_inj m m' R : fits_items s syms pat' m -> fits_items s syms pat' m' -> gives m R -> gives m' R -> m = m'.
  Proof.
    intros (Hl & Hn & Hh)%(fits_alt _ _ _ K) (Hl' & Hn' & Hh')%(fits_alt _ _ _ K) HR HR'; [|apply started_N|apply started_N].
    assert (forall k n n', pm_nodes m !! k = Some n -> pm_nodes m' !! k = Some n' -> n = n') as Hnn.
    { intros k n n' H H'. assert (k <= K) as Hk. { apply lookup_lt_Some in H. unfold pm_nodes in H. rewrite hop_nodes_length in H. lia. }
      pose proof (gives_even _ _ _ HR Hk) as E. pose proof (gives_even _ _ _ HR' Hk) as E'. rewrite H in E. rewrite H' in E'. simpl in *. congruence. }
    destruct m as [a hs], m' as [a' hs']. cbn [pm_hops] in *. f_equal.
    - apply (Hnn 0); apply hop_nodes_0.
    - apply list_eq. intros k. destruct (decide (k < K)) as [Hk|Hk].
      2:{ rewrite !lookup_ge_None_2 by lia. done. }
      destruct (node_lookup (PM a hs) k Hl ltac:(lia)) as [n En]. destruct (hop_lookup (PM a hs) k Hl Hk) as [h Eh].
      destruct (node_lookup (PM a' hs') k Hl' ltac:(lia)) as [n' En']. destruct (hop_lookup (PM a' hs') k Hl' Hk) as [h' Eh'].
      pose proof (Hnn k n n' En En') as <-.
      assert (hop_end n h = hop_end n h') as Hend.
      { apply (Hnn (S k)); [apply (hop_nodes_S a hs k n h En Eh)|apply (hop_nodes_S a' hs' k n h' En' Eh')]. }
      pose proof (gives_odd _ _ _ HR Hk) as E. pose proof (gives_odd _ _ _ HR' Hk) as E'. rewrite En, Eh in E. rewrite En', Eh' in E'.
      rewrite E in E'. injection E' as E'. cbn [pm_hops] in *. rewrite Eh, Eh'. f_equal.
      specialize (Hh k n h En Eh). specialize (Hh' k n h' En' Eh').
      unfold hop_path in E'. destruct (decide (2 * k + 1 < start)) as [Hs|Hs].
      + injection E' as E'. destruct Hh as [Hw _]. destruct Hh' as [Hw' _].
        rewrite <- (rev_hop_twice n h), <- (rev_hop_twice n h'), <- Hend. f_equal.
        destruct (walks_back _ _ _ Hw) as [_ Ht]. destruct (walks_back _ _ _ Hw') as [_ Ht'].
        rewrite (takes_targets _ _ _ Ht), (takes_targets _ _ _ Ht'). by rewrite E'.
      + destruct (decide (2 * k + 1 = start)) as [Es|Es].
        * apply (start_hop k n h (eq_sym Es)) in Hh as (e & -> & _); [|done]. apply (start_hop k n h' (eq_sym Es)) in Hh' as (e' & -> & _); [|done].
          cbn in E'. by simplify_eq.
        * injection E' as E'. destruct Hh as [Hw _]. destruct Hh' as [Hw' _]. rewrite (elems_targets _ _ _ Hw), (elems_targets _ _ _ Hw'). by rewrite E'.
  Qed.
End matches.
