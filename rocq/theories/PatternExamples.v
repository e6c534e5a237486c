(** Patterns for the examples. *)
From Verif Require Import Base Value Graph GraphSpec Path PathSpec PathProofs Pattern PatternSpec GraphExamples.
From Verif Require Import Sizes PatternStartProofs PatternMatchProofs PatternProofs.

(** (name), (name:l), and a relationship with its bounds, direction (left, undirected) and name *)
Definition nd (name : string) : pitem := PItem ∅ ∅ 0 0 false false name.
Definition ndl (l name : string) : pitem := PItem {[l]} ∅ 0 0 false false name.
Definition rel (mn mx : Z) (left und : bool) (name : string) : pitem := PItem ∅ ∅ mn mx left und name.
(** orders of the maps *)
Definition lords (pat : list pitem) (i : nat) : list string := elements (pi_labels (item pat i)).
Definition pords (pat : list pitem) (i : nat) : list string := elements (dom (pi_props (item pat i)) : gset string).
Lemma some_orders pat : item_orders pat (lords pat) (pords pat) (fun _ => lords pat).
Proof.
  intros i it Hi. unfold lords, pords. rewrite (item_lookup _ _ _ Hi). unfold order_of.
  split_and!; [apply NoDup_elements|intros; by rewrite elem_of_elements|apply NoDup_elements|intros; by rewrite elem_of_elements|].
  intros _. split; [apply NoDup_elements|intros; by rewrite elem_of_elements].
Qed.
(** the results for a history *)
Definition search (ops : list op) (syms : symbols) (pat : list pitem) : res (option string * list match_result) :=
  find_paths (result ops) syms pat (lords pat) (pords pat) (fun _ => lords pat).
Definition found (ops : list op) (syms : symbols) (pat : list pitem) : list match_result :=
  match search ops syms pat with Ok (None, rs) => rs | _ => [] end.
Definition returns_found (ops : list op) (syms : symbols) (pat : list pitem) : bool :=
  match search ops syms pat with Ok (None, _) => true | _ => false end.
Lemma search_found ops syms pat : returns_found ops syms pat = true ->
  find_paths (result ops) syms pat (lords pat) (pords pat) (fun _ => lords pat) = Ok (None, found ops syms pat).
Proof. unfold returns_found, found, search. by destruct (find_paths _ _ _ _ _ _) as [[[|] ?]| |]. Qed.
(** edges of the path with their directions, values of the names *)
Definition view (r : match_result) : list (nat * bool) * list (string * sres) :=
  (map (fun e => (pe_edge e, pe_rev e)) (p_path r.1), map_to_list r.2).
Definition starts_at (ops : list op) (syms : symbols) (pat : list pitem) : option nat :=
  match fastest (result ops) syms pat (lords pat) (pords pat) with Ok (_, i, _) => Some i | _ => None end.
Lemma starts_at_ok ops syms pat i : starts_at ops syms pat = Some i -> starts_well pat i ->
  forall xs start sz, fastest (result ops) syms pat (lords pat) (pords pat) = Ok (xs, start, sz) -> starts_well pat start.
Proof. unfold starts_at. intros H Hw xs start sz E. rewrite E in H. by injection H as ->. Qed.

Ltac node_item Hi :=
  match type of Hi with ?p !! (2 * ?i) = Some _ =>
    let H := fresh in pose proof (lookup_lt_Some _ _ _ Hi) as H; let n := eval vm_compute in (length p) in change (length p) with n in H;
    let E := fresh in
    assert (i = 0 \/ i = 1 \/ i = 2) as [E|[E|E]] by lia; rewrite E in *; clear E; try (exfalso; clear - H; lia); clear H; cbn in Hi; injection Hi as <-
  end.
Ltac edge_item Hi :=
  match type of Hi with ?p !! (2 * ?i + 1) = Some _ =>
    let H := fresh in pose proof (lookup_lt_Some _ _ _ Hi) as H; let n := eval vm_compute in (length p) in change (length p) with n in H;
    let E := fresh in
    assert (i = 0 \/ i = 1) as [E|E] by lia; rewrite E in *; clear E; try (exfalso; clear - H; lia); clear H; cbn in Hi; injection Hi as <-
  end.
Lemma no_symbols s pat : (forall i it, pat !! (2 * i + 1) = Some it -> pi_name it = "") -> names_ok s ∅ pat.
Proof.
  intros H. split_and!.
  - intros i j it jt _ Hj Hne. by rewrite (H j jt Hj).
  - intros i it x _ _ Hx. by rewrite lookup_empty in Hx.
  - intros. apply lookup_empty.
Qed.
Definition pnode (l : string) : op := ONewNode {[l]} ∅ [l].
Local Open Scope string_scope.
Local Open Scope list_scope.

(** nodes 0:x 1:y 2:z; edges 3: 0 -A-> 1, 4: 1 -A-> 2 *)
Definition chain_ops : list op := [pnode "x"; pnode "y"; pnode "z"; ONewEdge 0 1 "A" ∅; ONewEdge 1 2 "A" ∅].
(** nodes 0:x 1:y; edges 2: 0 -A-> 0, 3: 0 -A-> 1 *)
Definition loop_ops : list op := [pnode "x"; pnode "y"; ONewEdge 0 0 "A" ∅; ONewEdge 0 1 "A" ∅].

(** (a)-[*1..2]->(b:z): matched from b, only one edge of each path is reported *)
Definition back_pat : list pitem := [nd "a"; rel 1 2 false false ""; ndl "z" "b"].
Lemma back_unsound : exists r, r ∈ found chain_ops ∅ back_pat /\ forall m, ~ reported (edge_from (result chain_ops)) (edge_to (result chain_ops)) back_pat m r.
Proof.
  set (f := fun i => match found chain_ops ∅ back_pat !! i with Some r => r | None => (path_empty, ∅) end).
  exists (f 1). split.
  - apply elem_of_list_lookup_2 with 1. vm_compute. reflexivity.
  - intros m (Hd & _ & Hs). apply den_first_node in Hd.
    assert (path_get_node (edge_from (result chain_ops)) (edge_to (result chain_ops)) (f 1).1 0 = Ok 1) as E by (vm_compute; reflexivity).
    rewrite E in Hd. injection Hd as Hd.
    destruct (Hs "a" (RNode 0)) as (_ & i & it & Hi & Hnm & k & Ek & Hk); [vm_compute; reflexivity|].
    subst i. node_item Hi; [|done]. unfold pm_nodes in Hk. rewrite hop_nodes_0 in Hk. injection Hk as Hk. congruence.
Qed.

(** (a)<-[]-(b)<-[]-(c): matching starts with the first relationship *)
Definition left_pat : list pitem := [nd "a"; rel 1 1 true false ""; nd "b"; rel 1 1 true false ""; nd "c"].
Lemma left_match : is_match (srun chain_ops) ∅ left_pat (PM 2 [[(4, 1)]; [(3, 0)]]).
Proof.
  split.
  - assert (forall n, live_node (srun chain_ops) n -> forall v, node_ok (srun chain_ops) ∅ (nd v) n) as Hn.
    { intros n [x Hx] v. split; [|by intros _ ? ?]. exists x. split; [done|]. split; [set_solver|]. intros k w Hw. cbn [nd pi_props] in Hw. by apply lookup_empty_Some in Hw. }
    assert (forall e, live_edge (srun chain_ops) e -> edge_match (srun chain_ops) ∅ ∅ e) as He.
    { intros e [x Hx]. exists x. split; [done|]. split; [done|]. intros k w Hw. cbn [nd pi_props] in Hw. by apply lookup_empty_Some in Hw. }
    assert (forall a e b ed, s_edges (srun chain_ops) !! e = Some ed -> e_to ed = a -> e_from ed = b -> hop_ok (srun chain_ops) ∅ (rel 1 1 true false "") a [(e, b)]) as Hh.
    { intros a e b ed H1 H2 H3. split_and!; cbn; try lia; try done.
      - econstructor; [exact H1|by split| |constructor]. apply He. by eexists.
      - apply NoDup_singleton. }
    split; [apply Hn; by_compute|]. constructor; [eapply Hh; vm_compute; reflexivity|apply Hn; by_compute|].
    constructor; [eapply Hh; vm_compute; reflexivity|apply Hn; by_compute|]. constructor.
  - intros i j it jt n k Hi Hj Hne Hnm Hn Hk. node_item Hi; node_item Hj; cbn in Hnm; try done; congruence.
Qed.

(** (a)-[]-(b): a loop is reported twice *)
Definition und_pat : list pitem := [nd "a"; rel 1 1 false true ""; nd "b"].
Lemma und_twice ms : Forall2 (reported (edge_from (result loop_ops)) (edge_to (result loop_ops)) und_pat) ms (found loop_ops ∅ und_pat) ->
  (forall m, m ∈ ms -> fits_items (srun loop_ops) ∅ und_pat m) -> ~ NoDup ms.
Proof.
  intros H Hfit Hnd. destruct (found loop_ops ∅ und_pat) as [|r1 [|r2 rs]] eqn:E; [by exfalso; vm_compute in E|by exfalso; vm_compute in E|].
  assert (r1.1 = r2.1) as Er.
  { assert ((fun l : list match_result => match l with x :: y :: _ => bool_decide (x.1 = y.1) | _ => false end) (found loop_ops ∅ und_pat) = true) as Hb by (vm_compute; reflexivity).
    rewrite E in Hb. by apply bool_decide_eq_true in Hb. }
  inversion H as [|m1 ? ms1 ? (Hd1 & _) H1]; subst. inversion H1 as [|m2 ? ms2 ? (Hd2 & _) H2]; subst.
  assert (m1 = m2) as ->.
  { rewrite Er in Hd1. pose proof (denotes_det _ _ _ _ _ Hd1 Hd2) as Hw. injection Hw as Hf Hh.
    assert (forall m, m ∈ m1 :: m2 :: ms2 -> exists h, pm_hops m = [h]) as Hone.
    { clear - Hfit. intros m Hm. apply Hfit, (fits_alt _ _ _ 1) in Hm as (Hl & _); [|reflexivity]. clear Hfit. destruct (pm_hops m) as [|h [|]]; try done. by exists h. }
    destruct (Hone m1) as [h1 E1]; [by left|]. destruct (Hone m2) as [h2 E2]; [by right; left|]. rewrite E1, E2 in Hh. simpl in Hh. rewrite !app_nil_r in Hh.
    destruct m1, m2; simpl in *; congruence. }
  apply NoDup_cons in Hnd as [Hnin _]. apply Hnin. by left.
Qed.

(** (a)-[]->(a): a loop at 0, then an edge to 1 *)
Definition same_pat : list pitem := [nd "a"; rel 1 1 false false ""; nd "a"].
Lemma same_unsound : exists r, r ∈ found loop_ops ∅ same_pat /\
  forall m, fits_items (srun loop_ops) ∅ same_pat m -> reported (edge_from (result loop_ops)) (edge_to (result loop_ops)) same_pat m r -> ~ same_names same_pat m.
Proof.
  set (f := fun i => match found loop_ops ∅ same_pat !! i with Some r => r | None => (path_empty, ∅) end).
  exists (f 1). split.
  - apply elem_of_list_lookup_2 with 1. vm_compute. reflexivity.
  - intros m Hfit (Hd & _) Hs. apply (fits_alt _ _ _ 1) in Hfit as (Hl & _); [|reflexivity].
    pose proof (den_first_node _ _ _ _ _ Hd) as H1. pose proof (den_last_node _ _ _ _ _ Hd) as H2.
    assert (path_get_node (edge_from (result loop_ops)) (edge_to (result loop_ops)) (f 1).1 0 = Ok 0) as E1 by (vm_compute; reflexivity).
    assert (path_get_node (edge_from (result loop_ops)) (edge_to (result loop_ops)) (f 1).1 (num_path_nodes (f 1).1 - 1) = Ok 1) as E2 by (vm_compute; reflexivity).
    rewrite E1 in H1. rewrite E2 in H2. injection H1 as H1. injection H2 as H2. clear Hd E1 E2.
    destruct m as [a hs]. cbn [pm_first pm_hops] in *. destruct hs as [|h [|]]; try done. simpl in H2. rewrite app_nil_r in H2.
    assert (0 = 1) by (apply (Hs 0 1 (nd "a") (nd "a")); try done; cbn; congruence). done.
Qed.

(** (a:x)-[r*1..2]->(b)-[]-(c): from a *)
Definition good_pat : list pitem := [ndl "x" "a"; rel 1 2 false false "r"; nd "b"; rel 1 1 false true ""; nd "c"].
(** (a)-[]->(b)-[r]->(c), with symbols for b *)
Definition right_pat : list pitem := [nd "a"; rel 1 1 false false ""; nd "b"; rel 0 1 false false "r"; ndl "z" "c"].
Definition right_syms : symbols := {["b" := PSym (Some [1; 2]) None]}.
(** (a)-[]->(a), with a symbol for a *)
Definition fixed_syms : symbols := {["a" := PSym (Some [0]) None]}.
Lemma good_hyps : well_formed good_pat /\ pattern_askable chain_ops good_pat /\ names_ok (srun chain_ops) ∅ good_pat /\
  starts_at chain_ops ∅ good_pat = Some 0 /\ starts_well good_pat 0 /\ no_undirected_loops (srun chain_ops) good_pat /\ repeated_fixed ∅ good_pat.
Proof.
  split; [by exists 2|]. split; [split; intros i it Hi k v x Hk; [node_item Hi|edge_item Hi]; cbn [pi_props nd ndl rel] in Hk; by apply lookup_empty_Some in Hk|].
  split; [split_and!|].
  - intros i j it jt Hi Hj Hne. node_item Hi; edge_item Hj; done.
  - intros i it x Hi _ Hx. by rewrite lookup_empty in Hx.
  - intros i it _ _. apply lookup_empty.
  - split; [vm_compute; reflexivity|]. split; [split; intros; lia|]. split.
    + intros i it e ed Hi Hl Hu Hmin Hmax He. edge_item Hi; try done.
      assert (map_Forall (fun _ ed => e_from ed <> e_to ed) (s_edges (srun chain_ops))) as Hall by by_compute. by eapply Hall.
    + intros i j it jt Hij Hi Hj Hne Hnm. node_item Hi; node_item Hj; cbn in Hnm; try done.
Qed.
Lemma right_hyps : well_formed right_pat /\ pattern_askable chain_ops right_pat /\ names_ok (srun chain_ops) right_syms right_pat /\
  one_edge_right right_pat /\ repeated_fixed right_syms right_pat.
Proof.
  split; [by exists 2|]. split; [split; intros i it Hi k v x Hk; [node_item Hi|edge_item Hi]; cbn [pi_props nd ndl rel] in Hk; by apply lookup_empty_Some in Hk|].
  split; [split_and!|].
  - intros i j it jt Hi Hj Hne. node_item Hi; edge_item Hj; done.
  - intros i it x Hi _ Hx. unfold right_syms in Hx. apply lookup_singleton_Some in Hx as [_ <-]. split; [done|]. exists [1; 2].
    split; [done|]. split; [by_compute|]. intros n [->|[->|?%elem_of_nil]%elem_of_cons]%elem_of_cons; try done; by_compute.
  - intros i it Hi Hne. edge_item Hi; [done|]. vm_compute. reflexivity.
  - split; [intros i it Hi; edge_item Hi; cbn; lia|].
    intros i j it jt Hij Hi Hj Hne Hnm. node_item Hi; node_item Hj; cbn in Hnm; try done.
Qed.
Lemma fixed_hyps : well_formed same_pat /\ pattern_askable loop_ops same_pat /\ names_ok (srun loop_ops) fixed_syms same_pat /\
  one_edge_right same_pat /\ repeated_fixed fixed_syms same_pat.
Proof.
  split; [by exists 1|]. split; [split; intros i it Hi k v x Hk; [node_item Hi|edge_item Hi]; cbn [pi_props nd ndl rel] in Hk; by apply lookup_empty_Some in Hk|].
  split; [split_and!|].
  - intros i j it jt Hi Hj Hne. node_item Hi; edge_item Hj; done.
  - intros i it x Hi _ Hx. unfold fixed_syms in Hx. apply lookup_singleton_Some in Hx as [_ <-]. split; [done|]. exists [0].
    split; [done|]. split; [by_compute|]. intros n ->%elem_of_list_singleton. by_compute.
  - intros i it Hi Hne. edge_item Hi. done.
  - split; [intros i it Hi; edge_item Hi; cbn; lia|].
    intros i j it jt _ Hi Hj _ _. exists (PSym (Some [0]) None), 0. split; [|done]. node_item Hi; vm_compute; reflexivity.
Qed.

(** (a)<-[]-(b)-[*]->(c:z): matched from c *)
Definition far_pat : list pitem := [nd "a"; rel 1 1 true false "r"; nd "b"; rel 1 (-1) false false ""; ndl "z" "c"].
(** nodes 0:x 1:z; edges 2: 0 -A-> 1, 3: 0 -B-> 0 *)
Definition far_ops : list op := [pnode "x"; pnode "z"; ONewEdge 0 1 "A" ∅; ONewEdge 0 0 "B" ∅].
Lemma far_hyps : well_formed far_pat /\ pattern_askable far_ops far_pat /\ names_ok (srun far_ops) ∅ far_pat /\ repeated_fixed ∅ far_pat.
Proof.
  split; [by exists 2|]. split; [split; intros i it Hi k v x Hk; [node_item Hi|edge_item Hi]; cbn [pi_props nd ndl rel] in Hk; by apply lookup_empty_Some in Hk|].
  split; [split_and!|].
  - intros i j it jt Hi Hj Hne. node_item Hi; edge_item Hj; done.
  - intros i it x Hi _ Hx. by rewrite lookup_empty in Hx.
  - intros i it _ _. apply lookup_empty.
  - intros i j it jt Hij Hi Hj Hne Hnm. node_item Hi; node_item Hj; cbn in Hnm; done.
Qed.

(** ([a:y])-[r]->(b) and (a)-[r]->(b) with a symbol for r *)
Definition rel_syms (es : list nat) : symbols := {["r" := PSym None (Some es)]}.
Definition sym_pat : list pitem := [ndl "y" "a"; rel 1 1 false false "r"; nd "b"].
Definition from_pat : list pitem := [nd "a"; rel 1 1 false false "r"; nd "b"].
Lemma rel_names_apart pat es : (forall e, e ∈ es -> live_edge (srun chain_ops) e) -> NoDup es ->
  (forall i it, pat !! (2 * i) = Some it -> pi_name it <> "r") ->
  (forall i it, pat !! (2 * i + 1) = Some it -> pi_name it = "r") -> names_apart (srun chain_ops) (rel_syms es) pat.
Proof.
  intros Hl Hnd Hn Hr. split_and!.
  - intros i j it jt Hi Hj Hne E. rewrite (Hr j jt Hj) in E. by eapply Hn.
  - intros i it x Hi Hne Hx. unfold rel_syms in Hx. rewrite lookup_singleton_ne in Hx; [done|]. intros E. by eapply Hn.
  - intros i it x Hi Hne Hx. unfold rel_syms in Hx. rewrite (Hr i it Hi), lookup_singleton in Hx. injection Hx as <-. intros es' [= <-]. by split.
Qed.
Lemma sym_unsound : exists r, r ∈ found chain_ops (rel_syms [3]) sym_pat /\
  forall m, fits_items (srun chain_ops) (rel_syms [3]) sym_pat m -> ~ reported (edge_from (result chain_ops)) (edge_to (result chain_ops)) sym_pat m r.
Proof.
  set (f := fun i => match found chain_ops (rel_syms [3]) sym_pat !! i with Some r => r | None => (path_empty, ∅) end).
  exists (f 0). split.
  - apply elem_of_list_lookup_2 with 0. vm_compute. reflexivity.
  - intros m Hfit (Hd & _). apply (fits_alt _ _ _ 1) in Hfit as (Hl & _ & Hh); [|reflexivity].
    pose proof (den_last_node _ _ _ _ _ Hd) as H2.
    assert (path_get_node (edge_from (result chain_ops)) (edge_to (result chain_ops)) (f 0).1 (num_path_nodes (f 0).1 - 1) = Ok 2) as E2 by (vm_compute; reflexivity).
    rewrite E2 in H2. injection H2 as H2. clear Hd E2. clearbody f. clear f.
    destruct m as [a hs]. cbn [pm_first pm_hops] in *. destruct hs as [|h [|]]; try done. simpl in H2. rewrite app_nil_r in H2.
    destruct (Hh 0 a h eq_refl eq_refl) as (Hw & Hne & _ & _ & Hmax & Hsym). clear Hh.
    destruct (Hsym ltac:(done) (PSym None (Some [3])) ltac:(vm_compute; reflexivity)) as (es & [= <-] & Hes).
    destruct h as [|[e b] [|y h]]; [done| |].
    2:{ cbn in Hmax. destruct Hmax as [?|Hmax]; [done|]. lia. }
    inversion Hw as [|? ? ? ed ? Hed Hmt _ _]; subst.
    assert (e = 3) as -> by (apply elem_of_list_singleton, Hes; by apply elem_of_list_singleton).
    assert (s_edges (srun chain_ops) !! 3 = Some (Edge 0 1 "A" ∅)) as E by (vm_compute; reflexivity). rewrite E in Hed. injection Hed as <-.
    cbn in Hmt. destruct Hmt as [_ Hmt]. cbn in H2. congruence.
Qed.
Lemma sym_hyps : (well_formed sym_pat /\ pattern_askable chain_ops sym_pat /\ names_apart (srun chain_ops) (rel_syms [3]) sym_pat) /\
  (well_formed from_pat /\ pattern_askable chain_ops from_pat /\ names_apart (srun chain_ops) (rel_syms [4]) from_pat).
Proof.
  split; (split; [by exists 1|]; split; [split; intros i it Hi k v x Hk; [node_item Hi|edge_item Hi]; cbn [pi_props nd ndl rel] in Hk; by apply lookup_empty_Some in Hk|]).
  - apply rel_names_apart; [intros e ->%elem_of_list_singleton; eexists; vm_compute; reflexivity|apply NoDup_singleton|intros i it Hi; node_item Hi; done|intros i it Hi; edge_item Hi; done].
  - apply rel_names_apart; [intros e ->%elem_of_list_singleton; eexists; vm_compute; reflexivity|apply NoDup_singleton|intros i it Hi; node_item Hi; done|intros i it Hi; edge_item Hi; done].
Qed.
