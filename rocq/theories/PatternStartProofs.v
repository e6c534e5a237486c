(** Pattern matching: the candidates for the first element. *)
From Verif Require Import Base Value ValueProofs FastSet FastSetProofs Links EdgeMap NodeMap Index Graph GraphSpec Find Sizes.
From Verif Require Import LinksProofs EdgeMapProofs IndexProofs CoreProofs CoreStep AdjProofs ReadProofs NodeListProofs LabelProofs EdgeListProofs IndexGraphProofs FindProofs.
From Verif Require Import Path PathSpec Pattern PatternSpec.

Section start.
  Variables (ops : list op) (g : graph).
  Hypotheses (Hv : valid_history ops) (Hr : run ops = Ok g).
  Notation s := (srun ops).
  Let Hc : core g s := core_run _ _ Hv Hr.

  Lemma item_nodes_ok it n : live_node s n -> item_nodes g it n = true <-> node_match s (pi_labels it) (pi_props it) n.
  Proof.
    intros [x Hx]. unfold item_nodes. rewrite (node_filter_ok g _ (pi_props it)) by (unfold prop_order; reflexivity).
    destruct (read_node _ _ Hc _ _ Hx) as [-> Hpr]. setoid_rewrite Hpr. unfold node_match. rewrite Hx. naive_solver.
  Qed.
  Lemma item_edges_ok it e : live_edge s e -> item_edges g it e = true <-> edge_match s (pi_labels it) (pi_props it) e.
  Proof.
    intros [x Hx]. unfold item_edges. rewrite (edge_filter_ok g _ (pi_props it)) by (unfold prop_order; reflexivity).
    destruct (core_edge _ _ _ _ Hc Hx) as [Hg _]. unfold lbl, edge_prop, get_property. rewrite Hg.
    unfold edge_match. rewrite Hx. naive_solver.
  Qed.

  Lemma node_index_find p : node_askable ops p -> forall k v ix, p !! k = Some v -> g_nix g !! k = Some ix ->
    exists xs m, ix_find ix v = Ok (xs, m) /\ Z.of_nat (length xs) = m /\ NoDup xs /\
      (forall i, i ∈ xs -> live_node s i) /\ (forall i w, node_has s k w i -> answers v w -> i ∈ xs).
  Proof.
    intros Hask k v ix Hk Hix. destruct (node_index ops k) as [it|] eqn:Hi.
    - destruct (Hask k v it Hk Hi) as [Ha Hsafe].
      pose proof (nix_run (fun w => node_filed ops k w \/ w = v) k ops g Hv Hr (fun w H => or_introl H) Hsafe) as Hkix.
      rewrite Hi in Hkix. pose proof Ha as [Hst _]. apply storable_domain in Hst.
      destruct (Hkix Hst) as (ix' & Hix' & Ht & Hh). assert (ix' = ix) as -> by congruence.
      destruct (ask_index it _ ix (fun i w => node_has s k w i) v Ha Ht Hh) as (xs & m & Hf & Hm & Q & [Hnd HQ] & HQ1 & HQ2).
      { intros i w Hw. eapply node_has_filed; [by eexists|exact Hw]. }
      exists xs, m. split; [done|]. split; [done|]. split; [done|]. split.
      + intros i Hi'. apply HQ, HQ1 in Hi' as (w & x & Hx & _). by exists x.
      + intros i w Hw Haw. apply HQ. by eapply HQ2.
    - pose proof (nix_run (fun _ => True) k ops g Hv Hr (fun _ _ => I) (node_index_none_safe _ _ Hi)) as Hkix.
      rewrite Hi in Hkix. simpl in Hkix. congruence.
  Qed.
  Lemma edge_index_find p : edge_askable ops p -> forall k v ix, p !! k = Some v -> g_eix g !! k = Some ix ->
    exists xs m, ix_find ix v = Ok (xs, m) /\ Z.of_nat (length xs) = m /\
      (forall i w, edge_has s k w i -> answers v w -> i ∈ xs).
  Proof.
    intros Hask k v ix Hk Hix. destruct (edge_index ops k) as [it|] eqn:Hi.
    - destruct (Hask k v it Hk Hi) as [Ha Hs].
      pose proof (eix_run (fun w => edge_filed ops k w \/ w = v) k ops g Hv Hr (fun w H => or_introl H) Hs) as Hkix.
      rewrite Hi in Hkix. pose proof Ha as [Hst _]. apply storable_domain in Hst.
      destruct (Hkix Hst) as (ix' & Hix' & Ht & Hh). assert (ix' = ix) as -> by congruence.
      destruct (ask_index it _ ix (fun i w => edge_entry ops k w i) v Ha Ht Hh) as (xs & m & Hf & Hm & Q & [Hnd HQ] & HQ1 & HQ2).
      { intros i w [Hw|(o1 & o2 & -> & Hi' & Hw)]; [by eapply edge_has_filed; [eexists|]|].
        apply edge_filed_app. by eapply edge_has_filed. }
      exists xs, m. split; [done|]. split; [done|].
      intros i w Hw Haw. apply HQ. eapply HQ2; [by left|done].
    - pose proof (eix_run (fun _ => True) k ops g Hv Hr (fun _ _ => I) (edge_index_none_safe _ _ Hi)) as Hkix.
      rewrite Hi in Hkix. simpl in Hkix. congruence.
  Qed.

  (** candidates *)
  Definition covers (live : nat -> Prop) (P : nat -> Prop) (xs : list nat) : Prop :=
    NoDup xs /\ (forall n, n ∈ xs -> live n) /\ forall n, P n -> n ∈ xs.
  Definition found (live P : nat -> Prop) (cur : option (list nat) * Z) : Prop :=
    match cur.1 with None => cur.2 = (-1)%Z | Some xs => (0 <= cur.2)%Z /\ covers live P xs end.

  Lemma index_sizes_ok (ixs : gmap string index) p better ord (good : option (list nat) * Z -> Prop) cur :
    (forall k v ix cur, p !! k = Some v -> ixs !! k = Some ix -> good cur ->
       exists r, ix_find ix v = Ok r /\ (r.2 <> (-1)%Z -> better r.2 cur.2 = true -> good (Some r.1, r.2))) ->
    good cur -> exists cur', index_sizes ixs p better ord cur = Ok cur' /\ good cur'.
  Proof.
    intros H. unfold index_sizes. revert cur. induction ord as [|k ord IH]; intros cur Hg; [by exists cur|]. cbn [rfold].
    destruct (p !! k) as [v|] eqn:Hk; [|by apply IH]. destruct (ixs !! k) as [ix|] eqn:Hix; [|by apply IH].
    destruct (H k v ix cur Hk Hix Hg) as (r & -> & Hgood). cbn [rbind]. apply IH.
    destruct (decide (r.2 = (-1)%Z)); [done|]. destruct (better r.2 cur.2) eqn:Hb; [|done]. by apply Hgood.
  Qed.

  Section items.
    Variables (syms : symbols) (it : pitem) (lord pord : list string).
    Hypotheses (Hl : order_of (pi_labels it) lord) (Hp : order_of (dom (pi_props it)) pord).

    Lemma node_size_ok : node_list_safe ops -> node_askable ops (pi_props it) ->
      (pi_name it <> "" -> forall x, syms !! pi_name it = Some x -> node_symbol s x) ->
      exists xs sz, node_size g syms it lord pord = Ok (xs, sz) /\ (0 <= sz)%Z /\ covers (live_node s) (node_ok s syms it) xs.
    Proof.
      intros Hsafe Hask Hsym. unfold node_size.
      assert (exists a, (if decide (pi_labels it = ∅) then Ok (None, (-1)%Z)
        else let! r := get_nodes_all_labels g (pi_labels it) lord in Ok (known r)) = Ok a /\
        found (live_node s) (node_ok s syms it) a) as (a & -> & Ha).
      { destruct (decide (pi_labels it = ∅)) as [|Hne]; [by eexists|].
        destruct (get_nodes_all_labels_ok _ _ _ _ Hv Hr Hne Hl) as (xs & sz & -> & [Hnd Hin] & Hsz). cbn [rbind].
        eexists. split; [done|]. unfold known. cbn [fst snd]. destruct (decide (sz = (-1)%Z)) as [|Hsz1]; [done|]. split; cbn [fst snd]; [lia|].
        split; [done|]. split.
        - intros n Hn. apply Hin in Hn as (x & Hx & _). by exists x.
        - intros n [(x & Hx & HL & _) _]. apply Hin. by exists x. }
      cbn [rbind].
      destruct (index_sizes_ok (g_nix g) (pi_props it) (fun sz cur => bool_decide (cur = -1 \/ sz < cur)%Z) pord
        (found (live_node s) (node_ok s syms it)) a) as (b & -> & Hb); [|done|].
      { intros k v ix cur Hk Hix Hg. destruct (node_index_find _ Hask k v ix Hk Hix) as (xs & m & Hf & Hm & Hnd & Hlive & Hans).
        exists (xs, m). split; [done|]. intros _ _. split; cbn [fst snd]; [lia|]. split; [done|]. split; [done|].
        intros n [(x & Hx & _ & Hpr) _]. destruct (Hpr k v Hk) as (w & Hw & Haw). eapply Hans; [|done]. by exists x. }
      cbn [rbind].
      assert (found (live_node s) (node_ok s syms it) (symbol_size syms it ps_nodes b)) as Hcur.
      { unfold symbol_size. destruct (decide (pi_name it = "")) as [|Hne]; [done|].
        destruct (syms !! pi_name it) as [x|] eqn:Hx; [|done].
        destruct (Hsym Hne x eq_refl) as (_ & ns & Hns & Hnd & Hlive). rewrite Hns.
        destruct (decide (_ \/ _)); [|done]. split; cbn [fst snd]; [lia|]. split; [done|]. split; [done|].
        intros n [_ Hn]. destruct (Hn Hne x Hx) as (ns' & Hns' & ?). congruence. }
      destruct (symbol_size syms it ps_nodes b) as [[xs|] sz]; cbn [fst snd]; [destruct Hcur as [? ?]; by eauto|].
      destruct (get_nodes_ok _ _ Hv Hr Hsafe) as (xs & -> & [[Hnd Hin] _]). cbn [rbind].
      exists xs, (get_nodes_size g). assert (get_nodes_size g = Z.of_nat (size (s_nodes s))) as Hsz.
      { exact (num_nodes_ok _ _ Hv Hr). }
      rewrite decide_False by lia. split; [done|]. split; [lia|]. split; [done|]. split.
      - intros n. apply Hin.
      - intros n [(x & Hx & _) _]. apply Hin. by exists x.
    Qed.
    Lemma edge_size_ok : edge_list_safe ops -> edge_askable ops (pi_props it) ->
      (pi_name it <> "" -> forall x, syms !! pi_name it = Some x -> edge_symbol s x) ->
      exists xs sz, edge_size g syms it lord pord = Ok (xs, sz) /\
        (sz <> (-1)%Z -> (0 <= sz)%Z /\ NoDup xs /\ (forall e, e ∈ xs -> live_edge s e) /\ edges_tried s syms it xs).
    Proof.
      intros Hsafe Hask Hsym. unfold edge_size.
      destruct (get_edges_ok _ _ Hv Hr Hsafe) as [(all & Hall & Hnd & Hin) Hnum].
      destruct (decide _) as [_|_]. { rewrite Hall. cbn [rbind]. by eexists _, _. }
      set (good := fun cur : option (list nat) * Z => match cur.1 with None => cur.2 = (-1)%Z
        | Some xs => (0 <= cur.2 <= 1)%Z /\ covers (live_edge s) (edge_match s (pi_labels it) (pi_props it)) xs end).
      assert (exists a, (if decide (pi_labels it = ∅) then Ok (None, (-1)%Z)
        else let! xs := get_edges_any_label g lord in Ok (known (xs, get_edges_any_label_size g lord))) = Ok a /\ good a) as (a & -> & Ha).
      { destruct (decide (pi_labels it = ∅)) as [|Hne]; [by eexists|].
        destruct (get_edges_any_label_ok _ _ _ _ Hv Hr Hsafe Hl) as (lxs & Hlx & [Hlnd Hlab]). rewrite Hlx. cbn [rbind].
        eexists. split; [done|]. unfold get_edges_any_label in Hlx. apply any_size in Hlx as Hsz.
        unfold known, get_edges_any_label_size. cbn [fst snd]. unfold num_edges in Hnum.
        destruct Hsz as [(_ & _ & ->)|[Hn01 Hs]]; [done|].
        destruct (decide (_ = (-1)%Z)) as [|Hsz1]; [done|]. unfold good. cbn [fst snd]. split; [split; [lia|]|].
        - unfold em_iter_any_size. repeat case_decide; try lia. destruct (em_only _); [|lia]. case_decide; lia.
        - split; [done|]. split.
          + intros e He. apply Hlab in He. rewrite decide_False in He by lia. unfold label_in in He. unfold live_edge.
            destruct (s_edges s !! e); [by eexists|done].
          + intros e (x & Hx & HL & _). apply Hlab. rewrite decide_False by lia. unfold label_in. rewrite Hx. by apply HL. }
      cbn [rbind].
      destruct (index_sizes_ok (g_eix g) (pi_props it) (fun sz cur => bool_decide (sz < cur)%Z) pord good a) as (b & -> & Hb); [|done|].
      { intros k v ix cur Hk Hix Hg. destruct (edge_index_find _ Hask k v ix Hk Hix) as (xs & m & Hf & Hm & Hans).
        exists (xs, m). split; [done|]. intros _ Hlt%bool_decide_eq_true. cbn [fst snd] in *. unfold good in *. cbn [fst snd].
        destruct cur as [[ys|] sz]; cbn [fst snd] in *; [|lia]. destruct Hg as [Hsz _].
        assert (xs = []) as -> by (destruct xs; [done|]; simpl in Hm; lia). split; [lia|]. split; [constructor|]. split.
        - by intros n ?%elem_of_nil.
        - intros n (x & Hx & _ & Hpr). destruct (Hpr k v Hk) as (w & Hw & Haw). eapply Hans; [|done]. by exists x. }
      cbn [rbind].
      assert (symbol_size syms it ps_edges b = b \/ exists xs, symbol_size syms it ps_edges b = (Some xs, Z.of_nat (length xs)) /\
        NoDup xs /\ (forall e, e ∈ xs -> live_edge s e) /\
        exists x, pi_name it <> "" /\ syms !! pi_name it = Some x /\ (ps_edges x = Some xs \/ (ps_edges x = None /\ xs = []))) as [->|(xs & -> & Hxd & Hxl & Hx)].
      { unfold symbol_size. destruct (decide (pi_name it = "")) as [|Hne]; [by left|].
        destruct (syms !! pi_name it) as [x|] eqn:Hx; [|by left]. pose proof (Hsym Hne x eq_refl) as Hes.
        destruct (ps_edges x) as [es|] eqn:Hxe.
        - destruct (Hes es Hxe) as [Hed Hel]. destruct (decide (_ \/ _)); [|by left]. right. exists es. split_and!; try done. exists x. split_and!; try done. by left.
        - right. exists []. split_and!; try done; [constructor|by intros e ?%elem_of_nil|]. exists x. split_and!; try done. by right. }
      2:{ cbn [fst snd]. eexists _, _. split; [done|]. intros _. split; [lia|]. split; [done|]. split; [done|]. by right. }
      destruct b as [[xs|] sz]; cbn [fst snd].
      - unfold good in Hb. cbn [fst snd] in Hb. destruct Hb as [? (? & ? & ?)]. eexists _, _. split; [done|]. intros _. split; [lia|]. split_and!; try done. by left.
      - rewrite Hall. cbn [rbind]. eexists _, _. split; [done|]. intros _. split.
        + unfold get_edges_size, em_iter_size. unfold num_edges in Hnum. rewrite Hnum. destruct (decide _); [lia|]. destruct (decide _); lia.
        + split; [done|]. split.
          * intros e. apply Hin.
          * left. intros e (x & Hx & _). apply Hin. by exists x.
    Qed.
  End items.

  Definition start_ok (syms : symbols) (pat : list pitem) (start : nat) (xs : list nat) : Prop :=
    if Nat.even start then covers (live_node s) (node_ok s syms (item pat start)) xs
    else NoDup xs /\ forall e, e ∈ xs -> live_edge s e.
  Definition start_tried (syms : symbols) (pat : list pitem) (start : nat) (xs : list nat) : Prop :=
    if Nat.even start then True else edges_tried s syms (item pat start) xs.
  Lemma item_lookup (pat : list pitem) i it : pat !! i = Some it -> item pat i = it.
  Proof. intros H. unfold item. by apply nth_lookup_Some. Qed.
  Lemma item_in (pat : list pitem) i : i < length pat -> pat !! i = Some (item pat i).
  Proof. intros H. destruct (lookup_lt_is_Some_2 pat i H) as [it Hit]. by rewrite (item_lookup _ _ _ Hit). Qed.
  Lemma fastest_ok syms pat lord pord eord :
    item_orders pat lord pord eord -> node_list_safe ops -> edge_list_safe ops -> pattern_askable ops pat -> names_apart s syms pat ->
    pat <> [] -> exists xs start sz, fastest g syms pat lord pord = Ok (Some xs, start, sz) /\ start < length pat /\ start_ok syms pat start xs /\ start_tried syms pat start xs.
  Proof.
    intros Hord Hns Hes [Hna Hea] (_ & Hsyms & Hesym) Hne. unfold fastest.
    set (f := fun (cur : option (list nat) * nat * Z) i => let! r := (if Nat.even i then node_size else edge_size) g syms (item pat i) (lord i) (pord i) in
      Ok (if decide (r.2 <> -1 /\ (cur.2 = -1 \/ r.2 < cur.2))%Z then (Some r.1, i, r.2) else cur)).
    enough (forall l cur, (forall i, i ∈ l -> i < length pat) ->
      (cur.2 = (-1)%Z \/ exists xs, cur.1.1 = Some xs /\ cur.1.2 < length pat /\ start_ok syms pat cur.1.2 xs /\ start_tried syms pat cur.1.2 xs) ->
      exists cur', rfold f l cur = Ok cur' /\ ((0 ∈ l \/ cur.2 <> (-1)%Z) -> cur'.2 <> (-1)%Z /\
        exists xs, cur'.1.1 = Some xs /\ cur'.1.2 < length pat /\ start_ok syms pat cur'.1.2 xs /\ start_tried syms pat cur'.1.2 xs)) as G.
    { destruct (G (seq 0 (length pat)) (None, 0, (-1)%Z)) as ([[o start] sz] & Hf & H).
      - intros i Hi%elem_of_seq. lia.
      - by left.
      - destruct H as (_ & xs & Hx & Hs & Hok). { left. apply elem_of_seq. destruct pat; [done|]. simpl. lia. }
        simpl in Hx. subst o. exists xs, start, sz. done. }
    induction l as [|i l IH]; intros cur Hlt Hcur; cbn [rfold].
    { exists cur. split; [done|]. intros [?%elem_of_nil|Hn]; [done|]. split; [done|]. by destruct Hcur as [?|?]. }
    assert (i < length pat) as Hi by (apply Hlt; by apply elem_of_cons; left).
    assert (pat !! i = Some (item pat i)) as Hit by by apply item_in.
    destruct (Hord _ _ Hit) as (Hl & Hp & _).
    assert (exists r, (if Nat.even i then node_size else edge_size) g syms (item pat i) (lord i) (pord i) = Ok r /\
      (i = 0 -> r.2 <> (-1)%Z) /\ (r.2 <> (-1)%Z -> (0 <= r.2)%Z /\ start_ok syms pat i r.1 /\ start_tried syms pat i r.1)) as (r & Hr1 & Hr0 & Hr2).
    { unfold start_ok, start_tried. destruct (Nat.even i) eqn:Hev.
      - apply Nat.even_spec in Hev as [k ->].
        destruct (node_size_ok syms (item pat (2 * k)) (lord (2 * k)) (pord (2 * k)) Hl) as (xs & sz & Hsz & H0 & Hcov).
        + done.
        + by eapply Hna.
        + intros Hn x Hx. by eapply Hsyms.
        + exists (xs, sz). rewrite Hsz. simpl. split; [done|]. split; [intros _; lia|]. intros _. done.
      - assert (Nat.odd i = true) as Hod by (by rewrite <- Nat.negb_even, Hev). apply Nat.odd_spec in Hod as [k ->].
        destruct (edge_size_ok syms (item pat (2 * k + 1)) (lord (2 * k + 1)) (pord (2 * k + 1)) Hl) as (xs & sz & Hsz & Hcov).
        + done.
        + by eapply Hea.
        + intros Hn x Hx. by eapply Hesym.
        + exists (xs, sz). rewrite Hsz. simpl. split; [done|]. split; [lia|]. intros Hz. destruct (Hcov Hz) as (? & ? & ? & ?). done. }
    unfold f at 1. rewrite Hr1. cbn [rbind].
    destruct (decide _) as [[Hn1 Hd]|Hd].
    - destruct (IH (Some r.1, i, r.2)) as (cur' & Hf & H).
      + intros j Hj. apply Hlt. by apply elem_of_cons; right.
      + right. exists r.1. simpl. split; [done|]. split; [done|]. by apply Hr2.
      + exists cur'. split; [done|]. intros _. apply H. by right.
    - destruct (IH cur) as (cur' & Hf & H).
      + intros j Hj. apply Hlt. by apply elem_of_cons; right.
      + done.
      + exists cur'. split; [done|]. intros Hz. apply H. destruct Hz as [Hz|Hz]; [|by right].
        apply elem_of_cons in Hz as [<-|Hz]; [|by left]. right. intros Hm. apply Hd. split; [by apply Hr0|by left].
  Qed.
End start.
