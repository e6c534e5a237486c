(** Pattern matching: what is reported for the matches. *)
From Verif Require Import Base Value Graph GraphSpec Sizes CoreProofs CoreStep Path PathSpec PathProofs VPath VPathSpec VPathProofs.
From Verif Require Import Pattern PatternSpec PatternStartProofs PatternRunProofs PatternSimProofs PatternPlanProofs PatternMatchProofs.

(** ** Steps that join *)
Lemma joined_app l1 l2 : joined (l1 ++ l2) <->
  joined l1 /\ joined l2 /\ forall x y, last l1 = Some x -> head l2 = Some y -> x.2.2 = y.1.
Proof.
  unfold joined. split.
  - intros H. split_and!.
    + intros i x y Hx Hy. apply (H i); by apply lookup_app_l_Some.
    + intros i x y Hx Hy. apply (H (length l1 + i)).
      * rewrite lookup_app_r by lia. by replace (length l1 + i - length l1) with i by lia.
      * rewrite lookup_app_r by lia. by replace (S (length l1 + i) - length l1) with (S i) by lia.
    + intros x y Hx Hy. destruct l2 as [|z l2]; [done|]. injection Hy as ->. rewrite last_lookup in Hx.
      assert (length l1 <> 0) by (by destruct l1).
      apply (H (pred (length l1))); [by apply lookup_app_l_Some|]. rewrite lookup_app_r by lia. by replace (S (pred (length l1)) - length l1) with 0 by lia.
  - intros (H1 & H2 & H3) i x y Hx Hy. destruct (decide (S i < length l1)) as [Hi|Hi].
    { rewrite lookup_app_l in Hx, Hy by lia. by eapply H1. }
    destruct (decide (i < length l1)) as [Hi'|Hi'].
    + rewrite lookup_app_l in Hx by lia. rewrite lookup_app_r in Hy by lia. apply H3.
      * rewrite last_lookup. by replace (pred (length l1)) with i by lia.
      * replace (S i - length l1) with 0 in Hy by lia. by destruct l2.
    + rewrite lookup_app_r in Hx, Hy by lia. apply (H2 (i - length l1)); [done|]. by replace (S (i - length l1)) with (S i - length l1) by lia.
Qed.
Lemma joined_cons x l : joined (x :: l) <-> joined l /\ forall y, head l = Some y -> x.2.2 = y.1.
Proof.
  change (x :: l) with ([x] ++ l). rewrite joined_app. split.
  - intros (_ & H & Hj). split; [done|]. intros y Hy. by apply (Hj x y).
  - intros [H Hj]. split_and!; [by intros [|i] a b ? ?|done|]. intros x0 y [= <-]. apply Hj.
Qed.
Lemma joined_nil : joined [].
Proof. by intros i. Qed.
Lemma steps_from_snoc a h e b : steps_from a (h ++ [(e, b)]) = steps_from a h ++ [(hop_end a h, (e, b))].
Proof.
  revert a. induction h as [|[e0 b0] h IH]; intros a; [done|]. cbn [app steps_from snd]. rewrite IH. f_equal. f_equal. f_equal. f_equal.
  unfold hop_end. cbn [map snd]. rewrite last_cons. by destruct (last (map snd h)).
Qed.
Lemma steps_from_joined a h : joined (steps_from a h).
Proof.
  revert a. induction h as [|x h IH]; intros a; cbn [steps_from]; [apply joined_nil|]. apply joined_cons. split; [apply IH|].
  intros y Hy. destruct h; [done|]. by injection Hy as <-.
Qed.
Lemma steps_from_snd a h : map snd (steps_from a h) = h.
Proof. revert a. induction h as [|x h IH]; intros a; [done|]. cbn [steps_from map snd]. by rewrite IH. Qed.

Section ends.
  Variables from to : nat -> nat.
  Notation src := (pe_src from to).
  Notation tgt := (pe_tgt from to).
  (** the step over an element of a path *)
  Definition tri (x : pelem) : nat * (nat * nat) := (src x, (pe_edge x, tgt x)).
  Lemma takes_tri a l h : takes from to a l h -> map tri l = steps_from a h.
  Proof.
    revert a h. induction l as [|x l IH]; intros a h H; [by inversion H|].
    apply takes_cons_inv in H as (ts & -> & <- & H). cbn [map steps_from snd]. by rewrite <- (IH _ _ H).
  Qed.
  Lemma tri_takes x l : joined (map tri (x :: l)) -> takes from to (src x) (x :: l) (map snd (map tri (x :: l))).
  Proof.
    revert x. induction l as [|y l IH]; intros x H; cbn [map] in *.
    - apply takes_cons'. constructor.
    - apply joined_cons in H as [H Hj]. apply (takes_cons' from to x). specialize (Hj _ eq_refl). cbn in Hj. rewrite Hj. by apply IH.
  Qed.
  Lemma links_joined a l : joined (map tri l) -> links_up from to a l = true <-> forall y, head l = Some y -> src y = a.
  Proof.
    revert a. induction l as [|x l IH]; intros a Hj; [done|]. cbn [links_up map] in *. apply joined_cons in Hj as [Hj Hh].
    destruct (decide (src x = a)) as [Hx|Hx].
    - rewrite IH by done. split; [by intros _ y [= <-]|]. intros _ y Hy. destruct l; [done|]. injection Hy as ->. symmetry. by apply (Hh (tri y)).
    - split; [done|]. intros H. destruct Hx. by apply H.
  Qed.
  (** a path made of these elements, if they join *)
  Definition glued (o : res path) (E : list pelem) : Prop :=
    (joined (map tri E) /\ o = Ok (Path None E)) \/ (~ joined (map tri E) /\ o = Panic).
  Lemma append_glued E l : joined (map tri E) -> joined (map tri l) -> glued (path_append from to (Path None E) l) (E ++ l).
  Proof.
    intros HE Hl. unfold path_append, glued. rewrite (map_app tri), joined_app. destruct (decide (l = [])) as [->|Hne].
    { left. rewrite app_nil_r. by split_and!. }
    destruct E as [|x E].
    { rewrite decide_True by done. left. split; [|done]. split_and!; try done. }
    rewrite decide_False.
    2:{ unfold num_path_nodes, num_path_edges. cbn [p_only p_path length]. destruct (decide _); lia. }
    unfold path_last. cbn [p_only p_path]. destruct (last (x :: E)) as [y|] eqn:Hy; [|by apply last_None in Hy].
    cbn [fmap option_fmap option_map].
    assert (last (map tri (x :: E)) = Some (tri y)) as Hy' by (rewrite fmap_last; by rewrite Hy).
    destruct (links_up from to (tgt y) l) eqn:Elu; [left|right]; (split; [|done]).
    - split_and!; try done. intros u v Hu Hv. rewrite Hy' in Hu. injection Hu as <-. destruct l as [|z l]; [done|]. injection Hv as <-.
      symmetry. by apply (links_joined (tgt y) (z :: l)).
    - intros (_ & _ & H). assert (links_up from to (tgt y) l = true); [|congruence]. apply links_joined; [done|].
      intros z Hz. symmetry. apply (H (tri y) (tri z) Hy'). destruct l; [done|]. by injection Hz as ->.
  Qed.
  Lemma append_path_glued E l : joined (map tri E) -> joined (map tri l) ->
    glued (let! r := path_append_path from to (Path None E) (Path None l) in Ok r.1) (E ++ l).
  Proof.
    intros HE Hl. pose proof (append_glued E l HE Hl) as Ha. unfold path_append_path. cbn [p_only p_path].
    destruct E as [|x E]; [rewrite decide_True by done; by left|].
    assert (num_path_nodes (Path None (x :: E)) = Z.of_nat (length (x :: E)) + 1)%Z as ->.
    { unfold num_path_nodes, num_path_edges. cbn [p_only p_path length]. destruct (decide _); lia. }
    rewrite !decide_False by (cbn [length]; lia). destruct l as [|y l].
    - rewrite decide_True by done. rewrite app_nil_r. by left.
    - assert (num_path_nodes (Path None (y :: l)) = Z.of_nat (length (y :: l)) + 1)%Z as ->.
      { unfold num_path_nodes, num_path_edges. cbn [p_only p_path length]. destruct (decide _); lia. }
      rewrite !decide_False by (cbn [length]; lia). destruct Ha as [[? ->]|[? ->]]; [by left|by right].
  Qed.
  Lemma rfold_glued (F : path -> path -> res path) (fl : path -> list pelem) ps E :
    (forall p E, p ∈ ps -> joined (map tri E) -> glued (F (Path None E) p) (E ++ fl p)) ->
    joined (map tri E) -> glued (rfold F ps (Path None E)) (E ++ concat (map fl ps)).
  Proof.
    revert E. induction ps as [|p ps IH]; intros E HF HE; cbn [rfold map concat].
    { left. by rewrite app_nil_r. }
    destruct (HF p E ltac:(by apply elem_of_cons; left) HE) as [[HE' ->]|[HE' ->]]; cbn [rbind].
    - rewrite app_assoc. apply IH; [|done]. intros q E' Hq. apply HF. by apply elem_of_cons; right.
    - right. split; [|done]. rewrite app_assoc, (map_app tri), joined_app. by intros [? _].
  Qed.
  Lemma glued_both o1 o2 E1 E2 : glued o1 E1 -> glued o2 E2 ->
    glued (let! b := o1 in let! o := o2 in let! r := path_append_path from to b o in Ok r.1) (E1 ++ E2).
  Proof.
    intros [[H1 ->]|[H1 ->]]; cbn [rbind].
    2:{ intros _. right. split; [|done]. rewrite (map_app tri), joined_app. by intros [? _]. }
    intros [[H2 ->]|[H2 ->]]; cbn [rbind]; [by apply append_path_glued|].
    right. split; [|done]. rewrite (map_app tri), joined_app. by intros (_ & ? & _).
  Qed.
  Lemma glued_denotes o E n : glued o E -> E <> [] ->
    (joined (map tri E) /\ exists p, o = Ok p /\ denotes from to p (walk_of n (map tri E))) \/ (~ joined (map tri E) /\ o = Panic).
  Proof.
    intros [[H ->]|[H ->]] Hne; [left|by right]. split; [done|]. eexists. split; [done|]. destruct E as [|x E]; [done|].
    cbn [walk_of map]. change (map snd (tri x :: map tri E)) with (map snd (map tri (x :: E))). constructor. by apply tri_takes.
  Qed.
  Definition flip (x : pelem) : pelem := PE (pe_edge x) (negb (pe_rev x)).
  Lemma tri_flip x : tri (flip x) = back_over (tri x).
  Proof. unfold tri, back_over, flip, pe_src, pe_tgt. cbn. by destruct (pe_rev x). Qed.
End ends.

Definition paths_of (R : gmap nat sres) (is : list nat) : list path :=
  omap (fun i => match R !! i with Some (RPath p) => Some p | _ => None end) is.
Lemma paths_of_app R is js : paths_of R (is ++ js) = paths_of R is ++ paths_of R js.
Proof. apply omap_app. Qed.
Lemma rfold_paths {S} (F : S -> path -> res S) R sts o :
  rfold (fun o st => match R !! step_item st with Some (RPath p) => F o p | _ => Ok o end) sts o = rfold F (paths_of R (items sts)) o.
Proof.
  revert o. induction sts as [|st sts IH]; intros o; [done|]. cbn [rfold]. unfold paths_of. cbn [map omap list_omap].
  destruct (R !! step_item st) as [[n|p]|]; cbn [rbind]; [apply IH| |apply IH]. cbn [rfold]. destruct (F o p); cbn [rbind]; [apply IH|done|done].
Qed.

Lemma item_of_step pat K start xs (HN : length pat = 2 * K + 1) (Hlt : start < length pat) st : st ∈ steps pat start xs -> step_item st < length pat.
Proof.
  intros (k & Hk)%elem_of_list_lookup. assert (k < length pat) as HkN by (apply lookup_lt_Some in Hk; by rewrite (steps_length pat K start xs HN Hlt) in Hk).
  rewrite (steps_lookup pat K start xs HN Hlt) in Hk by done. injection Hk as <-. rewrite (step_at_item pat K start xs HN Hlt) by done.
  unfold pos, nforward. destruct (decide _); lia.
Qed.

Section report.
  Variables (ops : list op) (g : graph).
  Hypotheses (Hv : valid_history ops) (Hr : run ops = Ok g).
  Notation s := (srun ops).
  Let Hc : core g s := core_run _ _ Hv Hr.
  Notation from := (edge_from g).
  Notation to := (edge_to g).
  Variables (syms : symbols) (pat : list pitem) (K start : nat) (xs : list nat).
  Notation N := (length pat).
  Hypotheses (HN : N = 2 * K + 1) (Hlt : start < N) (Hxs : start_ok ops syms pat start xs) (Hdir : ~ undirected_start pat start).
  Hypothesis Hesym : forall i it, pat !! (2 * i + 1) = Some it -> pi_name it <> "" -> syms !! pi_name it = None.
  Notation pat' := (as_started pat start).
  Notation rel k := (item pat' (2 * k + 1)).
  Notation all := (steps pat start xs).
  Notation pl := (Plan all (nforward pat start)).

  Section one.
    Variables (m : pmatch) (R : gmap nat sres).
    Hypotheses (Hfit : fits_items s syms pat' m) (HR : gives g pat start m R).
    Let Hl : length (pm_hops m) = K.
    Proof. by apply (fits_alt _ _ _ K) in Hfit as (? & _); [|by rewrite started_length]. Qed.
    Let Hhops : forall k n h, pm_nodes m !! k = Some n -> pm_hops m !! k = Some h -> hop_ok s syms (rel k) n h.
    Proof. by apply (fits_alt _ _ _ K) in Hfit as (_ & _ & ?); [|by rewrite started_length]. Qed.

    Lemma hop_after k a h : pm_nodes m !! k = Some a -> pm_hops m !! k = Some h -> start < 2 * k + 1 ->
      exists l, hop_path g start k a h = Path None l /\ takes from to a l h /\ l <> [].
    Proof.
      intros Ha Hh Hs. pose proof (Hhops k a h Ha Hh) as (Hw & Hne & _).
      unfold hop_path. rewrite decide_False by lia. rewrite decide_False by lia.
      eexists. split; [done|]. split; [by apply (walks_continues ops g Hv Hr _ _ _ Hw)|]. by rewrite elems_nil.
    Qed.
    Lemma hop_at_start k a h : pm_nodes m !! k = Some a -> pm_hops m !! k = Some h -> start = 2 * k + 1 ->
      exists e, h = [(e, edge_end g (rel k) e)] /\ a = edge_start g (rel k) e /\ hop_path g start k a h = Path None [PE e false].
    Proof.
      intros Ha Hh Hs. pose proof (Hhops k a h Ha Hh) as Hok. assert (k < K) as Hk by (apply lookup_lt_Some in Hh; lia).
      apply (start_hop ops g Hv Hr syms pat K start xs HN Hlt Hxs Hdir Hesym k a h Hs Hk) in Hok as (e & -> & -> & _).
      exists e. split_and!; try done. unfold hop_path. rewrite decide_False by lia. by rewrite decide_True by lia.
    Qed.
    Lemma hop_before k a h : pm_nodes m !! k = Some a -> pm_hops m !! k = Some h -> 2 * k + 1 < start ->
      exists l, hop_path g start k a h = Path None l /\ takes from to (hop_end a h) l (rev_hop a h) /\ h <> [].
    Proof.
      intros Ha Hh Hs. pose proof (Hhops k a h Ha Hh) as (Hw & Hne & _). unfold hop_path. rewrite decide_True by done.
      eexists. split; [done|]. split; [|done]. by apply (walks_back ops g Hv Hr _ _ _ Hw).
    Qed.

    Definition hp (k : nat) : path := match R !! (2 * k + 1) with Some (RPath p) => p | _ => path_empty end.
    Lemma hp_eq k a h : pm_nodes m !! k = Some a -> pm_hops m !! k = Some h -> R !! (2 * k + 1) = Some (RPath (hop_path g start k a h)) /\ hp k = hop_path g start k a h.
    Proof.
      intros Ha Hh. assert (k < K) as Hk by (apply lookup_lt_Some in Hh; lia).
      assert (R !! (2 * k + 1) = Some (RPath (hop_path g start k a h))) as E.
      { by rewrite (gives_odd g pat K start HN Hlt m R k HR Hk), Ha, Hh. }
      split; [done|]. unfold hp. by rewrite E.
    Qed.
    Lemma lookups k : k < K -> exists a h, pm_nodes m !! k = Some a /\ pm_hops m !! k = Some h /\ pm_nodes m !! S k = Some (hop_end a h).
    Proof.
      intros Hk. destruct (node_lookup pat K start HN Hlt m k Hl ltac:(lia)) as [a Ea]. destruct (hop_lookup pat K start HN Hlt m k Hl Hk) as [h Eh]. exists a, h. split_and!; try done.
      by apply hop_nodes_S.
    Qed.
    Lemma node_result k : k <= K -> exists n, R !! (2 * k) = Some (RNode n) /\ pm_nodes m !! k = Some n.
    Proof.
      intros Hk. destruct (node_lookup pat K start HN Hlt m k Hl Hk) as [n En]. exists n. split; [|done]. by rewrite (gives_even g pat K start HN Hlt m R k HR Hk), En.
    Qed.
    Lemma paths_pairs j c : j + c <= K -> paths_of R (seq (2 * j) (2 * c)) = map hp (seq j c).
    Proof.
      induction c as [|c IH]; intros Hjc; [by replace (2 * 0) with 0 by lia|].
      replace (2 * S c) with (2 * c + 2) by lia. rewrite seq_app, paths_of_app, IH by lia.
      replace (S c) with (c + 1) by lia. rewrite seq_app, (map_app hp). f_equal.
      replace (2 * j + 2 * c) with (2 * (j + c)) by lia. destruct (node_result (j + c)) as (n & Hn & _); [lia|].
      destruct (lookups (j + c)) as (a & h & Ha & Hh & _); [lia|]. destruct (hp_eq _ _ _ Ha Hh) as [E1 E2].
      unfold paths_of. cbn [seq omap list_omap map]. rewrite Hn. replace (S (2 * (j + c))) with (2 * (j + c) + 1) by lia. by rewrite E1, E2.
    Qed.
    Lemma paths_node k : k <= K -> paths_of R [2 * k] = [].
    Proof. intros Hk. destruct (node_result k Hk) as (n & Hn & _). unfold paths_of. cbn [omap list_omap]. by rewrite Hn. Qed.
    (** the items before and after the start *)
    Lemma split_paths : exists j, j <= K /\ (forall k, k < j -> 2 * k + 1 < start) /\ (forall k, j <= k -> start <= 2 * k + 1) /\
      paths_of R (seq 0 start) = map hp (seq 0 j) /\ paths_of R (seq start (N - start)) = map hp (seq j (K - j)).
    Proof.
      destruct (half pat K start HN Hlt start) as [j [Es|Es]]; exists j; (split; [lia|]); (split; [intros; lia|]); (split; [intros; lia|]).
      - split.
        + rewrite Es. apply (paths_pairs 0 j). lia.
        + replace (N - start) with (2 * (K - j) + 1) by lia. rewrite seq_app, paths_of_app, Es, (paths_pairs j (K - j)) by lia.
          cbn [seq]. replace (2 * j + 2 * (K - j)) with (2 * K) by lia. rewrite paths_node by lia. by rewrite app_nil_r.
      - split.
        + rewrite Es. rewrite seq_app, paths_of_app. pose proof (paths_pairs 0 j ltac:(lia)) as E0. change (2 * 0) with 0 in E0. rewrite E0. cbn [seq]. replace (0 + 2 * j) with (2 * j) by lia.
          rewrite paths_node by lia. by rewrite app_nil_r.
        + assert (paths_of R (seq (2 * j) (1 + (2 * (K - j) - 1) + 1)) = paths_of R (seq start (N - start)) ) as <-.
          { rewrite <- Nat.add_assoc, seq_app, paths_of_app. cbn [seq]. rewrite paths_node by lia. cbn [app]. f_equal. f_equal; lia. }
          replace (1 + (2 * (K - j) - 1) + 1) with (2 * (K - j) + 1) by lia. rewrite seq_app, paths_of_app, (paths_pairs j (K - j)) by lia.
          cbn [seq]. replace (2 * j + 2 * (K - j)) with (2 * K) by lia. rewrite paths_node by lia. by rewrite app_nil_r.
    Qed.

    (** the elements kept of each walk *)
    Definition back_elems (p : path) : list pelem := match p_path p with [] => [] | x :: _ => [flip x] end.
    Definition kept (k : nat) : list pelem := if decide (2 * k + 1 < start) then back_elems (hp k) else p_path (hp k).
    Lemma kept_piece k a h : pm_nodes m !! k = Some a -> pm_hops m !! k = Some h ->
      map (tri from to) (kept k) = piece start (2 * k + 1) (item pat (2 * k + 1)) a h /\ kept k <> [] /\ joined (map (tri from to) (kept k)) /\
      p_only (hp k) = None.
    Proof.
      intros Ha Hh. destruct (hp_eq _ _ _ Ha Hh) as [_ E]. unfold kept, piece. rewrite E.
      destruct (started_fields pat start (2 * k + 1)) as (_ & _ & Eleft & _).
      destruct (decide (2 * k + 1 < start)) as [Hs|Hs].
      - destruct (hop_before _ _ _ Ha Hh Hs) as (l & -> & Ht & Hne). unfold back_elems. cbn [p_path p_only].
        destruct (exists_last Hne) as (h' & [e b] & ->). rewrite rev_hop_snoc, hop_end_snoc in Ht.
        destruct l as [|x l]; [inversion Ht|]. apply takes_cons_inv in Ht as (ts & [= He Hx Hts] & Hb & _).
        rewrite steps_from_snoc, last_snoc. cbn [map option_list]. rewrite tri_flip. unfold tri, back_over. cbn [fst snd]. rewrite <- Hx, <- He, Hb.
        split_and!; try done; intros [|i]; done.
      - destruct (decide (2 * k + 1 = start /\ _)) as [[Hst Hleft]|Hno].
        + destruct (hop_at_start _ _ _ Ha Hh (eq_sym Hst)) as (e & -> & -> & ->). cbn [p_path p_only map steps_from]. unfold edge_start, edge_end. rewrite Eleft, Hleft.
          split_and!; try done; intros [|i]; done.
        + destruct (decide (2 * k + 1 = start)) as [Hst|Hst].
          * destruct (hop_at_start _ _ _ Ha Hh (eq_sym Hst)) as (e & -> & -> & ->). cbn [p_path p_only map steps_from]. unfold edge_start, edge_end. rewrite Eleft.
            destruct (pi_left (item pat (2 * k + 1))) eqn:El; [by destruct Hno|]. split_and!; try done; intros [|i]; done.
          * destruct (hop_after _ _ _ Ha Hh) as (l & -> & Ht & Hne); [lia|]. cbn [p_path p_only].
            rewrite (takes_tri _ _ _ _ _ Ht). split_and!; try done. apply steps_from_joined.
    Qed.
    Lemma pieces_concat hs a k (G : nat -> list (nat * (nat * nat))) :
      (forall i n h, hop_nodes a hs !! i = Some n -> hs !! i = Some h -> G (k + i) = piece start (2 * (k + i) + 1) (item pat (2 * (k + i) + 1)) n h) ->
      pieces pat start k a hs = concat (map G (seq k (length hs))).
    Proof.
      revert a k. induction hs as [|h hs IH]; intros a k HG; [done|]. cbn [pieces length seq map concat]. f_equal.
      - specialize (HG 0 a h eq_refl eq_refl). by rewrite Nat.add_0_r in HG.
      - apply IH. intros i n h' Hn Hh'. replace (S k + i) with (k + S i) by lia. by apply HG.
    Qed.
    Lemma kept_pieces : map (tri from to) (concat (map kept (seq 0 K))) = pm_pieces pat start m.
    Proof.
      unfold pm_pieces. rewrite (pieces_concat _ _ 0 (fun k => map (tri from to) (kept k))).
      - rewrite Hl, concat_map, map_map. done.
      - intros i n h Hn Hh. by apply kept_piece.
    Qed.
    Lemma hop_end_app a h1 h2 : hop_end a (h1 ++ h2) = hop_end (hop_end a h1) h2.
    Proof.
      unfold hop_end. rewrite (map_app snd), last_app. destruct (last (map snd h2)); done.
    Qed.
    Lemma out_glued j c : (forall k, j <= k -> start <= 2 * k + 1) -> j + c <= K ->
      glued from to (rfold (fun o p => let! r := path_append_path from to o p in Ok r.1) (map hp (seq j c)) path_empty) (concat (map kept (seq j c))).
    Proof.
      intros Hs Hjc.
      assert (concat (map kept (seq j c)) = [] ++ concat (map p_path (map hp (seq j c)))) as ->.
      { cbn [app]. rewrite map_map. f_equal. apply map_ext_in. intros k Hk%elem_of_list_In%elem_of_seq. unfold kept.
        specialize (Hs k ltac:(lia)). by rewrite decide_False by lia. }
      apply (rfold_glued from to); [|apply joined_nil].
      intros p E (k & -> & Hk%elem_of_seq)%elem_of_list_fmap HE. destruct (lookups k) as (a & h & Ha & Hh & _); [lia|].
      destruct (kept_piece _ _ _ Ha Hh) as (_ & _ & Hj & Hon). unfold kept in Hj. specialize (Hs k ltac:(lia)). rewrite decide_False in Hj by lia.
      pose proof (append_path_glued from to E (p_path (hp k)) HE Hj) as Hg. destruct (hp k) as [o l]. cbn [p_only p_path] in *. by subst o.
    Qed.
    Lemma back_glued j : (forall k, k < j -> 2 * k + 1 < start) -> j <= K ->
      glued from to (rfold (fun o p => match p_path p with [] => Panic | x :: _ => path_append from to o [PE (pe_edge x) (negb (pe_rev x))] end)
          (map hp (seq 0 j)) path_empty) (concat (map kept (seq 0 j))).
    Proof.
      intros Hs Hj.
      assert (concat (map kept (seq 0 j)) = [] ++ concat (map back_elems (map hp (seq 0 j)))) as ->.
      { cbn [app]. rewrite map_map. f_equal. apply map_ext_in. intros k Hk%elem_of_list_In%elem_of_seq. unfold kept.
        specialize (Hs k ltac:(lia)). by rewrite decide_True by lia. }
      apply (rfold_glued from to); [|apply joined_nil].
      intros p E (k & -> & Hk%elem_of_seq)%elem_of_list_fmap HE. destruct (lookups k) as (a & h & Ha & Hh & _); [lia|].
      destruct (kept_piece _ _ _ Ha Hh) as (_ & Hne & Hjn & _). unfold kept in Hjn, Hne. specialize (Hs k ltac:(lia)). rewrite decide_True in Hjn, Hne by lia.
      unfold back_elems in *. destruct (p_path (hp k)) as [|x l]; [done|]. by apply append_glued.
    Qed.

    Lemma items_forward : items (take (S (nforward pat start)) all) = seq start (N - start).
    Proof.
      unfold steps, nforward. cbn [take map]. rewrite take_app_alt by (by rewrite map_length, seq_length).
      replace (N - start) with (S (N - S start)) by lia. cbn [seq]. f_equal.
      - unfold start_step. by destruct (Nat.even start).
      - rewrite map_map. erewrite map_ext; [apply map_id|]. intros i. apply forward_item.
    Qed.
    Lemma items_backward : exists k, k <= K /\ items (rev (drop (nforward pat start) all)) = seq 0 start ++ [2 * k].
    Proof.
      exists K. split; [done|]. rewrite map_rev.
      assert (drop (nforward pat start) all = step_at pat start xs (nforward pat start) :: map (back_step pat) (rev (seq 0 start))) as ->.
      { rewrite (drop_S _ (step_at pat start xs (nforward pat start))).
        2:{ apply (steps_lookup pat K start xs HN Hlt). unfold nforward. lia. }
        f_equal. unfold steps. cbn [drop]. rewrite drop_app_alt; [done|]. by rewrite map_length, seq_length. }
      cbn [map rev]. f_equal.
      - rewrite <- map_rev, <- map_rev, rev_involutive, map_map. rewrite <- (map_id (seq 0 start)) at 2. apply map_ext_in.
        intros i Hi%elem_of_list_In%elem_of_seq. apply (back_item pat K start HN Hlt). lia.
      - f_equal. rewrite (step_at_item pat K start xs HN Hlt) by (unfold nforward; lia). unfold pos, nforward. rewrite decide_True by lia. lia.
    Qed.
    Lemma current_path_exact :
      (joined (pm_pieces pat start m) /\ exists p, current_path g pl R = Ok p /\ denotes from to p (walk_of (pm_first m) (pm_pieces pat start m))) \/
      (~ joined (pm_pieces pat start m) /\ current_path g pl R = Panic).
    Proof.
      unfold current_path. cbn [pl_steps pl_forward].
      destruct (decide (K = 0)) as [HK|HK].
      - assert (start = 0) as Hs0 by lia. assert (all = [start_step start xs]) as ->.
        { unfold steps, nforward. rewrite Hs0. replace (N - 1) with 0 by lia. done. }
        destruct (node_result 0) as (n & Hn & Hnm); [lia|]. replace (step_item (start_step start xs)) with 0.
        2:{ unfold start_step. rewrite Hs0. done. }
        change (2 * 0) with 0 in Hn. rewrite Hn. unfold pm_nodes in Hnm. rewrite hop_nodes_0 in Hnm. injection Hnm as ->.
        unfold pm_pieces. destruct (pm_hops m); [|simpl in Hl; lia]. left. split; [apply joined_nil|]. eexists. split; [done|]. constructor.
      - assert (exists st1 st2 sts, all = st1 :: st2 :: sts) as (st1 & st2 & sts & E).
        { pose proof (steps_length pat K start xs HN Hlt) as HL. destruct all as [|st1 [|st2 sts]]; [simpl in HL; lia|simpl in HL; lia|]. by eexists _, _, _. }
        rewrite E. rewrite <- E.
        rewrite (rfold_paths (fun o p => let! r := path_append_path from to o p in Ok r.1)).
        rewrite (rfold_paths (fun o p => match p_path p with [] => Panic | x :: _ => path_append from to o [PE (pe_edge x) (negb (pe_rev x))] end)).
        rewrite items_forward. destruct items_backward as (k & Hk & ->). rewrite paths_of_app, paths_node, app_nil_r by done.
        destruct split_paths as (j & Hj & Hj1 & Hj2 & -> & ->).
        pose proof (back_glued j Hj1 Hj) as H1. pose proof (out_glued j (K - j) Hj2 ltac:(lia)) as H2.
        set (o1 := rfold _ (map hp (seq 0 j)) path_empty) in *. set (o2 := rfold _ (map hp (seq j (K - j))) path_empty) in *.
        assert ((let! out := o2 in let! back := o1 in let! r := path_append_path from to back out in Ok r.1) =
                (let! back := o1 in let! out := o2 in let! r := path_append_path from to back out in Ok r.1)) as ->.
        { destruct H1 as [[_ ->]|[_ ->]], H2 as [[_ ->]|[_ ->]]; done. }
        pose proof (glued_both _ _ _ _ _ _ H1 H2) as H. clearbody o1 o2.
        rewrite <- concat_app, <- map_app, <- seq_app in H. replace (j + (K - j)) with K in H by lia.
        rewrite <- kept_pieces. apply glued_denotes; [done|].
        destruct (lookups 0) as (a & h & Ha & Hh & _); [lia|]. destruct (kept_piece _ _ _ Ha Hh) as (_ & Hne & _).
        destruct K as [|K']; [done|]. cbn [seq map concat]. by destruct (kept 0).
    Qed.

    (** names *)
    Lemma capture_spec sts (ret0 : gmap string sres) v : let f := fun (ret : gmap string sres) st =>
        let v := pi_name (item pat (step_item st)) in
        if decide (v = "") then ret
        else match ret !! v, R !! step_item st with
             | None, Some r => <[v := r]> ret
             | _, _ => ret
             end in
      (forall x, fold_left f sts ret0 !! v = Some x -> ret0 !! v = Some x \/ (v <> "" /\ exists st, st ∈ sts /\ pi_name (item pat (step_item st)) = v /\ R !! step_item st = Some x)) /\
      (is_Some (ret0 !! v) \/ (v <> "" /\ exists st, st ∈ sts /\ pi_name (item pat (step_item st)) = v /\ is_Some (R !! step_item st)) -> is_Some (fold_left f sts ret0 !! v)).
    Proof.
      intros f. revert ret0. induction sts as [|st sts IH]; intros ret0; cbn [fold_left].
      - split; [by left|]. intros [?|(_ & st & ?%elem_of_nil & _)]; done.
      - destruct (IH (f ret0 st)) as [IH1 IH2]. split.
        + intros x Hx. apply IH1 in Hx as [Hx|(Hv0 & st' & Hst & ?)].
          * unfold f in Hx. cbv zeta in Hx. destruct (decide (pi_name (item pat (step_item st)) = "")); [by left|].
            destruct (ret0 !! pi_name (item pat (step_item st))) eqn:E1; [by left|]. destruct (R !! step_item st) as [r|] eqn:E2; [|by left].
            apply lookup_insert_Some in Hx as [[<- <-]|[_ Hx]]; [|by left]. right. split; [done|]. exists st. split_and!; [by apply elem_of_cons; left|done|done].
          * right. split; [done|]. exists st'. split; [by apply elem_of_cons; right|done].
        + intros H. apply IH2. destruct H as [[x Hx]|(Hv0 & st' & [->|Hst]%elem_of_cons & Hnm & [r HRr])].
          * left. unfold f. cbv zeta. destruct (decide _); [by eexists|]. destruct (ret0 !! pi_name (item pat (step_item st))) eqn:E1; [by eexists|].
            destruct (R !! step_item st); [|by eexists]. rewrite lookup_insert_ne by (intros E; congruence). by eexists.
          * left. unfold f. cbv zeta. rewrite Hnm. rewrite decide_False by done. destruct (ret0 !! v) eqn:E1; [by rewrite E1|].
            rewrite HRr, lookup_insert. by eexists.
          * right. split; [done|]. exists st'. done.
    Qed.
    Lemma result_shows i x : i < N -> R !! i = Some x -> shows from to m i x.
    Proof.
      intros Hi Hx. destruct (half pat K start HN Hlt i) as [k [->| ->]].
      - destruct (node_result k) as (n & Hn & Hnm); [lia|]. rewrite Hn in Hx. injection Hx as <-. by exists k.
      - destruct (lookups k) as (a & h & Ha & Hh & _); [lia|]. destruct (hp_eq _ _ _ Ha Hh) as [E _]. rewrite E in Hx. injection Hx as <-.
        exists k, a, h. split_and!; try done. destruct (decide (2 * k + 1 < start)) as [Hs|Hs].
        + right. destruct (hop_before _ _ _ Ha Hh Hs) as (l & -> & Ht & Hne). rewrite walk_rev_hop. destruct l; [|by constructor].
          apply takes_length in Ht. rewrite rev_hop_length in Ht. by destruct h.
        + destruct (decide (2 * k + 1 = start)) as [Hst|Hst].
          * destruct (hop_at_start _ _ _ Ha Hh (eq_sym Hst)) as (e & -> & -> & ->). unfold edge_start, edge_end. destruct (pi_left _); [right|left].
            -- cbn. constructor. constructor; [done|constructor].
            -- constructor. constructor; [done|constructor].
          * left. destruct (hop_after _ _ _ Ha Hh) as (l & -> & Ht & Hne); [lia|]. destruct l; [done|]. by constructor.
    Qed.
    Lemma result_some i : i < N -> is_Some (R !! i).
    Proof.
      intros Hi. destruct (half pat K start HN Hlt i) as [k [->| ->]].
      - destruct (node_result k) as (n & -> & _); [lia|]. by eexists.
      - destruct (lookups k) as (a & h & Ha & Hh & _); [lia|]. destruct (hp_eq _ _ _ Ha Hh) as [-> _]. by eexists.
    Qed.
    Lemma names_ok_reported p : names_reported from to pat m (p, capture pat pl R).
    Proof.
      unfold names_reported, capture. cbn [fst snd pl_steps]. split.
      - intros i it Hit Hn. apply (capture_spec all ∅ (pi_name it)). right. split; [done|].
        assert (i < N) as Hi by by eapply lookup_lt_Some.
        pose proof (items_all pat K start xs HN Hlt i Hi) as (st & Ei & Hst)%elem_of_list_fmap. exists st. rewrite <- Ei. split_and!; [done| |by apply result_some].
        by rewrite (item_lookup _ _ _ Hit).
      - intros v x Hx. apply (capture_spec all ∅ v) in Hx as [Hx|(Hne & st & Hst & Hnm & HRx)]; [by rewrite lookup_empty in Hx|].
        split; [done|]. pose proof (item_of_step pat K start xs HN Hlt st Hst) as Hi. exists (step_item st), (item pat (step_item st)). split_and!; [by apply item_in|done|by apply result_shows].
    Qed.
  End one.
End report.

Lemma Forall2_choose {A B} (P : A -> B -> Prop) (l : list B) : (forall y, y ∈ l -> exists x, P x y) -> exists l', Forall2 P l' l.
Proof.
  induction l as [|y l IH]; intros H; [exists []; constructor|]. destruct (H y) as [x Hx]; [by apply elem_of_cons; left|].
  destruct IH as [l' Hl']; [intros z Hz; apply H; by apply elem_of_cons; right|]. exists (x :: l'). by constructor.
Qed.

(** ** Pattern.Run and FindPaths *)
Lemma stored_panic g pat T store pl L : stored (res T) (record_panic T g pat store pl) L Panic = Panic.
Proof. unfold stored. induction L as [|R L IH]; [done|]. exact IH. Qed.
Lemma stored_exact g pat start T store pl ms L t :
  Forall2 (fun m R => names_reported (edge_from g) (edge_to g) pat m (path_empty, capture pat pl R) /\
    ((joined (pm_pieces pat start m) /\ exists p, current_path g pl R = Ok p /\
        denotes (edge_from g) (edge_to g) p (walk_of (pm_first m) (pm_pieces pat start m))) \/
     (~ joined (pm_pieces pat start m) /\ current_path g pl R = Panic))) ms L ->
  ((forall m, m ∈ ms -> joined (pm_pieces pat start m)) /\ exists rs, Forall2 (reported_from (edge_from g) (edge_to g) pat start) ms rs /\
     stored (res T) (record_panic T g pat store pl) L (Ok t) = Ok (fold_left (fun t r => store r.1 r.2 t) rs t)) \/
  ((exists m, m ∈ ms /\ ~ joined (pm_pieces pat start m)) /\ stored (res T) (record_panic T g pat store pl) L (Ok t) = Panic).
Proof.
  intros H. revert t. induction H as [|m R ms L [Hn Hp] _ IH]; intros t.
  { left. split; [by intros m ?%elem_of_nil|]. by exists []. }
  unfold stored. cbn [fold_left]. unfold record_panic at 2 4. cbn [rbind].
  destruct Hp as [(Hj & p & -> & Hd)|[Hj ->]]; cbn [rbind].
  - destruct (IH (store p (capture pat pl R) t)) as [(Hall & rs & Hrs & E)|[(m' & Hm' & Hj') E]]; unfold stored in E; rewrite E.
    + left. split.
      * intros m' [->|Hm']%elem_of_cons; [done|by apply Hall].
      * exists ((p, capture pat pl R) :: rs). split; [|done]. by constructor.
    + right. split; [|done]. exists m'. split; [by apply elem_of_cons; right|done].
  - right. split; [exists m; split; [by apply elem_of_cons; left|done]|]. apply stored_panic.
Qed.

(** ** Symbols for relationships *)
Lemma node_symbols_rel syms pat i it : pat !! (2 * i + 1) = Some it -> pi_name it <> "" -> node_symbols syms pat !! pi_name it = None.
Proof.
  intros Hi _. unfold node_symbols. apply map_filter_lookup_None. right. intros x _ H. apply H. cbn [fst]. unfold rel_names.
  apply elem_of_list_omap. exists (2 * i + 1). split; [apply elem_of_seq; apply lookup_lt_Some in Hi; lia|].
  assert (Nat.odd (2 * i + 1) = true) as -> by (apply Nat.odd_spec; by exists i). by rewrite Hi.
Qed.
Lemma node_symbols_node s syms pat i it : names_apart s syms pat -> pat !! (2 * i) = Some it -> pi_name it <> "" ->
  node_symbols syms pat !! pi_name it = syms !! pi_name it.
Proof.
  intros (Hn & _) Hi Hne. unfold node_symbols. destruct (syms !! pi_name it) as [x|] eqn:Hx.
  - apply map_filter_lookup_Some. split; [done|]. cbn [fst]. unfold rel_names. intros (j & _ & Hj)%elem_of_list_omap.
    destruct (Nat.odd j) eqn:Ho; [|done]. apply Nat.odd_spec in Ho as [k ->]. destruct (pat !! (2 * k + 1)) as [jt|] eqn:Hk; [|done].
    cbn in Hj. injection Hj as Hj. by eapply (Hn i k it jt).
  - apply map_filter_lookup_None. by left.
Qed.
Lemma node_ok_symbols ops syms pat : names_apart (srun ops) syms pat -> forall i it n, pat !! (2 * i) = Some it ->
  node_ok (srun ops) (node_symbols syms pat) it n <-> node_ok (srun ops) syms it n.
Proof.
  intros Hnames i it n Hi. unfold node_ok. destruct (decide (pi_name it = "")) as [E|E]; [naive_solver|].
  rewrite (node_symbols_node _ _ _ _ _ Hnames Hi E). done.
Qed.
Lemma ok_at_symbols ops g syms pat start pre st R : names_apart (srun ops) syms pat -> scheduled ops syms pat start pre st ->
  ok_at ops g syms pat start st R <-> ok_at ops g (node_symbols syms pat) pat start st R.
Proof.
  intros Hnames (_ & Hlt & _ & Hst). unfold ok_at, cand.
  assert (forall i n, i < length pat -> Nat.even i = true -> node_ok (srun ops) syms (item pat i) n <-> node_ok (srun ops) (node_symbols syms pat) (item pat i) n) as H.
  { intros i n Hi [k Ek]%Nat.even_spec. symmetry. eapply (node_ok_symbols ops syms pat Hnames k). rewrite <- Ek. by apply item_in. }
  destruct st as [i xs|i xs|i src d|i src u prev]; cbn [step_item] in *; try done.
  - destruct Hst as (_ & Hev & _). by setoid_rewrite (H i _ Hlt Hev).
  - destruct Hst as [Hev _]. by setoid_rewrite (H i _ Hlt Hev).
Qed.
Lemma pattern_run_symbols ops g syms pat lord pord eord T (store : path -> gmap string sres -> T -> T) t :
  valid_history ops -> run ops = Ok g -> node_list_safe ops -> edge_list_safe ops ->
  well_formed pat -> item_orders pat lord pord eord -> pattern_askable ops pat -> names_apart (srun ops) syms pat ->
  exists xs start sz, fastest g syms pat lord pord = Ok (Some xs, start, sz) /\ start < length pat /\ start_ok ops (node_symbols syms pat) pat start xs /\ start_tried ops syms pat start xs /\
   (~ undirected_start pat start ->
    exists ms, (forall m, m ∈ ms -> fits_items (srun ops) (node_symbols syms pat) (as_started pat start) m /\ begins_in start xs m) /\
      (forall m, is_match (srun ops) (node_symbols syms pat) (as_started pat start) m -> begins_in start xs m -> m ∈ ms) /\
      (no_undirected_loops (srun ops) pat -> NoDup ms) /\
      (((forall m, m ∈ ms -> joined (pm_pieces pat start m)) /\ exists rs, Forall2 (reported_from (edge_from g) (edge_to g) pat start) ms rs /\
          pattern_run T g syms pat eord store lord pord t = Ok (None, fold_left (fun t r => store r.1 r.2 t) rs t)) \/
       ((exists m, m ∈ ms /\ ~ joined (pm_pieces pat start m)) /\ pattern_run T g syms pat eord store lord pord t = Panic))).
Proof.
  intros Hv Hr Hns Hes [K HN] Hord Hask Hnames.
  destruct (fastest_ok ops g Hv Hr syms pat lord pord eord Hord Hns Hes Hask Hnames) as (xs & start & sz & Hf & Hlt & Hxs0 & Htried).
  { intros ->. simpl in HN. lia. }
  assert (start_ok ops (node_symbols syms pat) pat start xs) as Hxs.
  { unfold start_ok in *. destruct (Nat.even start) eqn:Hev; [|done]. destruct Hxs0 as (? & ? & Hcov). split_and!; try done.
    intros n Hn. apply Hcov. apply Nat.even_spec in Hev as [k Ek]. eapply (node_ok_symbols ops syms pat Hnames k); [|done]. rewrite <- Ek. by apply item_in. }
  exists xs, start, sz. split; [done|]. split; [done|]. split; [done|]. split; [done|]. intros Hdir.
  pose proof (node_symbols_rel syms pat) as Hesym.
  assert (forall i it, pat !! i = Some it -> forall c, order_of (pi_labels it) (eord c i)) as Horders by (intros i it Hit c; by apply (Hord i it Hit)).
  set (all := steps pat start xs). set (pl := Plan all (nforward pat start)).
  destruct (search_ok ops g Hv Hr syms pat eord Hnames Horders start) with (T := res T) (fin := record_panic T g pat store pl) (all := all) (t := Ok t)
    as (M' & L & Hrun & Hacc & Hsound & Hcomp & Hnd).
  { intros pre st post E. by eapply (steps_scheduled ops syms pat K start xs HN Hlt Hxs0 Hdir). }
  { intros i Hi. by apply (items_all pat K start xs HN Hlt). }
  assert (forall R, (forall st, st ∈ all -> ok_at ops g syms pat start st R) <-> forall st, st ∈ all -> ok_at ops g (node_symbols syms pat) pat start st R) as Hoks.
  { intros R. assert (forall st, st ∈ all -> ok_at ops g syms pat start st R <-> ok_at ops g (node_symbols syms pat) pat start st R) as H; [|split; intros G st Hst; apply H, G; done].
    intros st Hst. apply elem_of_list_split in Hst as (pre & post & E). eapply ok_at_symbols; [done|].
    exact (steps_scheduled ops syms pat K start xs HN Hlt Hxs0 Hdir pre st post E). }
  destruct (Forall2_choose (fun m R => (fits_items (srun ops) (node_symbols syms pat) (as_started pat start) m /\ begins_in start xs m) /\ gives g pat start m R) L) as [ms Hms].
  { intros R HR. destruct (Hsound R HR) as [Hd Hok]. pose proof (proj1 (Hoks R) Hok) as Hok'.
    destruct (ok_fits ops g Hv Hr (node_symbols syms pat) pat K start xs HN Hlt Hxs Hdir Hesym R Hd Hok') as (m & ? & ? & ?). by exists m. }
  exists ms. split_and!.
  - intros m Hm. apply elem_of_list_lookup in Hm as [i Hi]. destruct (Forall2_lookup_l _ _ _ _ _ Hms Hi) as (R & _ & ? & _). done.
  - intros m [Hfit Hsame] Hbeg. destruct (match_results g pat start m) as [R HR].
    assert (R ∈ L) as HL.
    { apply Hcomp.
      - by eapply gives_rdom.
      - apply Hoks. by apply (fits_ok ops g Hv Hr (node_symbols syms pat) pat K start xs HN Hlt Hxs Hdir Hesym m R).
      - intros i j it jt Hi Hj [k Ek]%Nat.even_spec [l El]%Nat.even_spec Hne Hnm. subst i j.
        assert (k <= K) by (apply lookup_lt_Some in Hi; lia). assert (l <= K) by (apply lookup_lt_Some in Hj; lia).
        destruct (node_result ops g (node_symbols syms pat) pat K start HN Hlt m R Hfit HR k) as (a & Ha & Ha'); [done|].
        destruct (node_result ops g (node_symbols syms pat) pat K start HN Hlt m R Hfit HR l) as (b & Hb & Hb'); [done|].
        assert (forall k it, pat !! (2 * k) = Some it -> as_started pat start !! (2 * k) = Some it) as Hst.
        { intros k' it' Hk'. rewrite started_lookup, Hk', decide_False; [done|]. intros [_ Ho]. rewrite <- Nat.negb_even in Ho.
          assert (Nat.even (2 * k') = true) as E by (apply Nat.even_spec; by exists k'). by rewrite E in Ho. }
        rewrite Ha, Hb. f_equal. f_equal. by eapply (Hsame k l); [apply Hst|apply Hst|..]. }
    apply elem_of_list_lookup in HL as [i Hi]. destruct (Forall2_lookup_r _ _ _ _ _ Hms Hi) as (m1 & Hm1 & [Hfit1 _] & HR1).
    rewrite (gives_inj ops g Hv Hr (node_symbols syms pat) pat K start xs HN Hlt Hxs Hdir Hesym m m1 R Hfit Hfit1 HR HR1). by eapply elem_of_list_lookup_2.
  - intros Hno. apply NoDup_alt. intros i j m Hi Hj.
    destruct (Forall2_lookup_l _ _ _ _ _ Hms Hi) as (R & HLi & _ & HR). destruct (Forall2_lookup_l _ _ _ _ _ Hms Hj) as (R' & HLj & _ & HR').
    assert (R = R') as <- by (apply map_eq; intros x; by rewrite HR, HR').
    by eapply (NoDup_alt L); [apply Hnd| |].
  - assert (pattern_run T g syms pat eord store lord pord t = (let! u := stored (res T) (record_panic T g pat store pl) L (Ok t) in Ok (None, u))) as ->.
    { unfold pattern_run. rewrite (get_plan_ok syms pat K start xs HN Hlt g lord pord sz Hf). cbn [rbind pl_steps]. fold all. fold pl.
      rewrite (sim_live _ _ _ (run_steps_sim T g syms pat eord store pl all) (MS ∅ None ∅ 0 t) M' Hrun).
      rewrite <- Hacc. unfold lower. by destruct (m_acc M'). }
    destruct (stored_exact g pat start T store pl ms L t) as [(Hall & rs & Hrs & ->)|[Hno ->]].
    + clear - Hms Hv Hr HN Hlt Hxs Hdir Hesym. induction Hms as [|m R ms L [[Hfit _] HR] _ IH]; constructor; [|done]. split.
      * apply (names_ok_reported ops g Hv Hr (node_symbols syms pat) pat K start xs HN Hlt Hxs Hdir Hesym m R Hfit HR path_empty).
      * by apply (current_path_exact ops g Hv Hr (node_symbols syms pat) pat K start xs HN Hlt Hxs Hdir Hesym m R Hfit HR).
    + left. split; [done|]. by exists rs.
    + right. by split.
Qed.
Lemma names_ok_apart s syms pat : names_ok s syms pat -> names_apart s syms pat.
Proof. intros (? & ? & H). split_and!; try done. intros i it x Hi Hne Hx. by rewrite (H i it) in Hx. Qed.
Lemma names_ok_node_symbols s syms pat i it : names_ok s syms pat -> pat !! i = Some it -> pi_name it <> "" ->
  node_symbols syms pat !! pi_name it = syms !! pi_name it.
Proof.
  intros Hnames Hi Hne. destruct (Nat.Even_or_Odd i) as [[k ->]|[k ->]].
  - eapply node_symbols_node; [by apply names_ok_apart|done|done].
  - destruct Hnames as (_ & _ & H). rewrite (H k it) by done. by eapply node_symbols_rel.
Qed.
Lemma fits_symbols s syms syms' pat m : well_formed pat -> (forall i it, pat !! i = Some it -> pi_name it <> "" -> syms !! pi_name it = syms' !! pi_name it) ->
  fits_items s syms pat m -> fits_items s syms' pat m.
Proof.
  intros [K HN] E. rewrite !(fits_alt _ _ _ K) by done. intros (Hl & Hn & Hh). split_and!; [done| |].
  - intros k n Hk. assert (k <= K) as Hle. { apply lookup_lt_Some in Hk. unfold pm_nodes in Hk. rewrite hop_nodes_length in Hk. lia. }
    destruct (Hn k n Hk) as [? H]. split; [done|]. intros Hne x Hx. apply H; [done|]. rewrite (E (2 * k)); [done|apply item_in; lia|done].
  - intros k n h Hk Hk'. assert (k < K) as Hle. { apply lookup_lt_Some in Hk'. lia. }
    destruct (Hh k n h Hk Hk') as (? & ? & ? & ? & ? & H). split_and!; try done. intros Hne x Hx. apply H; [done|]. rewrite (E (2 * k + 1)); [done|apply item_in; lia|done].
Qed.
Lemma fits_node_symbols s syms pat start m : names_ok s syms pat -> well_formed pat ->
  fits_items s (node_symbols syms pat) (as_started pat start) m <-> fits_items s syms (as_started pat start) m.
Proof.
  intros Hnames Hwf. assert (well_formed (as_started pat start)) as Hwf' by (unfold well_formed; by rewrite started_length).
  assert (forall i it, as_started pat start !! i = Some it -> pi_name it <> "" -> node_symbols syms pat !! pi_name it = syms !! pi_name it) as H.
  { intros i it Hi Hne. assert (i < length pat) as Hlt by (rewrite <- (started_length pat start); by eapply lookup_lt_Some).
    pose proof (item_lookup _ _ _ Hi) as Hit. destruct (started_fields pat start i) as (_ & _ & _ & _ & En). rewrite Hit in En.
    rewrite En in Hne |- *. by eapply names_ok_node_symbols; [|apply item_in|]. }
  split; apply fits_symbols; try done. intros i it Hi Hne. symmetry. by eapply H.
Qed.
Lemma started_edges s syms pat K start m k h e : length pat = 2 * K + 1 -> start < length pat -> fits_items s syms (as_started pat start) m ->
  start = 2 * k + 1 -> pm_hops m !! k = Some h -> e ∈ map fst h -> edge_match s (pi_labels (item pat start)) (pi_props (item pat start)) e.
Proof.
  intros HN Hlt Hm Ek Hk He. apply (fits_alt _ _ _ K) in Hm as (Hl & _ & Hh); [|by rewrite started_length].
  destruct (lookup_lt_is_Some_2 (pm_nodes m) k) as [a Ha]. { unfold pm_nodes. rewrite hop_nodes_length. lia. }
  destruct (Hh k a h Ha Hk) as (Hw & _). destruct (started_fields pat start (2 * k + 1)) as (E1 & E2 & _). rewrite <- Ek in Hw, E1, E2. rewrite <- E1, <- E2.
  clear - Hw He. induction Hw as [|a e' b ed h _ _ Hm _ IH]; [by apply elem_of_nil in He|].
  cbn [map fst] in He. apply elem_of_cons in He as [->|He]; [done|by apply IH].
Qed.
Lemma pattern_run_exact ops g syms pat lord pord eord T (store : path -> gmap string sres -> T -> T) t :
  valid_history ops -> run ops = Ok g -> node_list_safe ops -> edge_list_safe ops ->
  well_formed pat -> item_orders pat lord pord eord -> pattern_askable ops pat -> names_ok (srun ops) syms pat ->
  exists xs start sz, fastest g syms pat lord pord = Ok (Some xs, start, sz) /\ start < length pat /\
   (~ undirected_start pat start ->
    exists ms, (forall m, m ∈ ms -> fits_items (srun ops) syms (as_started pat start) m) /\
      (forall m, is_match (srun ops) syms (as_started pat start) m -> m ∈ ms) /\
      (no_undirected_loops (srun ops) pat -> NoDup ms) /\
      (((forall m, m ∈ ms -> joined (pm_pieces pat start m)) /\ exists rs, Forall2 (reported_from (edge_from g) (edge_to g) pat start) ms rs /\
          pattern_run T g syms pat eord store lord pord t = Ok (None, fold_left (fun t r => store r.1 r.2 t) rs t)) \/
       ((exists m, m ∈ ms /\ ~ joined (pm_pieces pat start m)) /\ pattern_run T g syms pat eord store lord pord t = Panic))).
Proof.
  intros Hv Hr Hns Hes Hwf Hord Hask Hnames.
  destruct (pattern_run_symbols ops g syms pat lord pord eord T store t) as (xs & start & sz & Hf & Hlt & _ & Htried & H); try done.
  { by apply names_ok_apart. }
  exists xs, start, sz. split; [done|]. split; [done|]. intros Hdir. destruct (H Hdir) as (ms & Hfit & Hall & Hnd & Hout).
  exists ms. split_and!; try done.
  - intros m Hm. destruct (Hfit m Hm) as [? _]. by eapply fits_node_symbols.
  - intros m [Hm Hsame]. apply Hall; [split; [by eapply fits_node_symbols|done]|].
    intros k h e Ek Hk He. pose proof Hwf as [K HN].
    unfold start_tried in Htried. assert (Nat.even start = false) as Hev. { rewrite <- Nat.negb_odd. assert (Nat.odd start = true) as -> by (apply Nat.odd_spec; by exists k). done. }
    rewrite Hev in Htried. destruct Htried as [Hx|(x & Hne & Hx & _)].
    + apply Hx. by eapply started_edges.
    + destruct Hnames as (_ & _ & Hes'). rewrite (Hes' k (item pat start)) in Hx; [done| |done]. rewrite <- Ek. by apply item_in.
Qed.

(** ** Starting well *)
Lemma well_directed pat start : starts_well pat start -> ~ undirected_start pat start.
Proof.
  intros [_ H] (Ho & it & Hit & _ & Hu). apply Nat.odd_spec in Ho as [k Hk]. subst start. destruct (H k it Hit eq_refl) as (_ & _ & _ & ?). congruence.
Qed.
Lemma hop_ok_one s syms it a h : pi_max it = 1%Z -> hop_ok s syms it a h -> exists e b, h = [(e, b)].
Proof.
  intros Hmax (_ & Hne & _ & _ & Hm & _). rewrite Hmax in Hm. destruct h as [|[e b] [|x h]]; [done|by exists e, b|]. cbn [length] in Hm. lia.
Qed.
Lemma one_edge_walks s it a h : walks s (one_edge it) a h <-> walks s it a h.
Proof. split; (induction 1; [constructor|]; econstructor; eassumption). Qed.
Lemma one_edge_hop s syms it a h : pi_max it = 1%Z -> (pi_min it <= 1)%Z -> hop_ok s syms (one_edge it) a h <-> hop_ok s syms it a h.
Proof.
  intros Hmax Hmin. assert (forall it, pi_max it = 1%Z -> hop_ok s syms it a h -> length h = 1) as Hlen.
  { intros it' E H. apply hop_ok_one in H as (e & b & ->); [done|exact E]. }
  split; intros H.
  - pose proof (Hlen (one_edge it) eq_refl H) as E. destruct H as (Hw & ? & ? & _ & _ & ?). split_and!; try done; [by apply one_edge_walks| |]; rewrite E; lia.
  - pose proof (Hlen it Hmax H) as E. destruct H as (Hw & ? & ? & _ & _ & ?). split_and!; try done; [by apply one_edge_walks| |]; rewrite E; cbn; lia.
Qed.
Lemma started_well s syms pat start m : well_formed pat -> starts_well pat start -> fits_items s syms (as_started pat start) m <-> fits_items s syms pat m.
Proof.
  intros [K HN] [_ Hw]. rewrite (fits_alt _ _ (as_started pat start) K) by (by rewrite started_length). rewrite (fits_alt _ _ pat K) by done.
  assert (forall k, item (as_started pat start) (2 * k) = item pat (2 * k)) as En.
  { intros k. apply started_same. right. rewrite <- Nat.negb_even. assert (Nat.even (2 * k) = true) as -> by (apply Nat.even_spec; by exists k). done. }
  assert (forall k a h, k < K -> hop_ok s syms (item (as_started pat start) (2 * k + 1)) a h <-> hop_ok s syms (item pat (2 * k + 1)) a h) as Eh.
  { intros k a h Hk. destruct (decide (2 * k + 1 = start)) as [Es|Es]; [|by rewrite started_same by (by left)].
    rewrite started_edge; [|done|apply Nat.odd_spec; by exists k|lia].
    destruct (Hw k (item pat (2 * k + 1))) as (? & ? & _); [apply item_in; lia|done|]. by apply one_edge_hop. }
  split; intros (Hl & Hn & Hh); (split; [done|]); split.
  - intros k n Hkn. rewrite <- En. by apply Hn.
  - intros k n h Hkn Hkh. apply Eh; [apply lookup_lt_Some in Hkh; lia|]. by apply Hh.
  - intros k n Hkn. rewrite En. by apply Hn.
  - intros k n h Hkn Hkh. apply Eh; [apply lookup_lt_Some in Hkh; lia|]. by apply Hh.
Qed.
Lemma steps_from_app a h1 h2 : steps_from a (h1 ++ h2) = steps_from a h1 ++ steps_from (hop_end a h1) h2.
Proof.
  revert h2. induction h1 as [|[e b] h1 IH] using rev_ind; intros h2; [done|]. rewrite <- app_assoc, IH, steps_from_snoc, hop_end_snoc, <- app_assoc. done.
Qed.
Lemma pieces_well s syms pat start m : well_formed pat -> starts_well pat start -> fits_items s syms pat m ->
  pm_pieces pat start m = steps_from (pm_first m) (concat (pm_hops m)).
Proof.
  intros [K HN] [Hw1 Hw2] Hfit. apply (fits_alt _ _ _ K) in Hfit as (Hl & _ & Hh); [|done]. unfold pm_pieces, pm_nodes in *.
  assert (forall i n h, hop_nodes (pm_first m) (pm_hops m) !! i = Some n -> pm_hops m !! i = Some h ->
    piece start (2 * (0 + i) + 1) (item pat (2 * (0 + i) + 1)) n h = steps_from n h) as H.
  { intros i n h Hn Hi. specialize (Hh i n h Hn Hi). change (0 + i) with i. unfold piece.
    assert (pat !! (2 * i + 1) = Some (item pat (2 * i + 1))) as Hit by (apply item_in; apply lookup_lt_Some in Hi; lia).
    destruct (decide (2 * i + 1 < start)) as [Hs|Hs].
    - apply hop_ok_one in Hh as (e & b & ->); [done|]. by apply (Hw1 i).
    - rewrite decide_False; [done|]. intros [Hs' Hleft]. destruct (Hw2 i _ Hit Hs') as (_ & _ & ? & _). congruence. }
  enough (forall hs a k, (forall i n h, hop_nodes a hs !! i = Some n -> hs !! i = Some h ->
    piece start (2 * (k + i) + 1) (item pat (2 * (k + i) + 1)) n h = steps_from n h) -> pieces pat start k a hs = steps_from a (concat hs)) as He by (by apply He).
  clear. intros hs. induction hs as [|h hs IH]; intros a k H; [done|]. cbn [pieces concat].
  rewrite steps_from_app. f_equal.
  - specialize (H 0 a h eq_refl eq_refl). by rewrite Nat.add_0_r in H.
  - apply IH. intros i n h' Hn Hi. replace (S k + i) with (k + S i) by lia. by apply H.
Qed.
Lemma walk_of_steps n l : walk_of n (steps_from n l) = WalkFrom n l.
Proof. destruct l as [|x l]; [done|]. unfold walk_of. cbn [steps_from]. f_equal. apply (steps_from_snd n (x :: l)). Qed.

Lemma pattern_run_ok ops g syms pat lord pord eord T (store : path -> gmap string sres -> T -> T) t :
  valid_history ops -> run ops = Ok g -> node_list_safe ops -> edge_list_safe ops ->
  well_formed pat -> item_orders pat lord pord eord -> pattern_askable ops pat -> names_ok (srun ops) syms pat ->
  (forall xs start sz, fastest g syms pat lord pord = Ok (xs, start, sz) -> starts_well pat start) ->
  exists rs ms, pattern_run T g syms pat eord store lord pord t = Ok (None, fold_left (fun t r => store r.1 r.2 t) rs t) /\
    Forall2 (reported (edge_from g) (edge_to g) pat) ms rs /\
    (forall m, m ∈ ms -> fits_items (srun ops) syms pat m) /\
    (forall m, is_match (srun ops) syms pat m -> m ∈ ms) /\
    (no_undirected_loops (srun ops) pat -> NoDup ms).
Proof.
  intros Hv Hr Hns Hes Hwf Hord Hask Hnames Hstart.
  destruct (pattern_run_exact ops g syms pat lord pord eord T store t) as (xs & start & sz & Hf & Hlt & H); try done.
  specialize (Hstart _ _ _ Hf) as Hwell. destruct (H (well_directed _ _ Hwell)) as (ms & Hfit & Hall & Hnd & Hout).
  assert (forall m, m ∈ ms -> fits_items (srun ops) syms pat m) as Hfit' by (intros m Hm; by eapply started_well, Hfit).
  assert (forall m, m ∈ ms -> pm_pieces pat start m = steps_from (pm_first m) (concat (pm_hops m))) as Hpc by (intros m Hm; by eapply pieces_well; [..|apply Hfit']).
  destruct Hout as [(_ & rs & Hrs & Hrun)|[(m & Hm & Hj) _]].
  2:{ destruct Hj. rewrite Hpc by done. apply steps_from_joined. }
  exists rs, ms. split_and!; try done.
  - clear - Hrs Hpc. induction Hrs as [|m r ms rs [Hd Hn] _ IH]; constructor.
    + split; [|done]. rewrite Hpc, walk_of_steps in Hd by (by apply elem_of_cons; left). done.
    + apply IH. intros m' Hm'. apply Hpc. by apply elem_of_cons; right.
  - intros m [Hm Hs]. apply Hall. split; [by apply started_well|].
    intros i j it jt n k Hi Hj Hne Hnm. apply (Hs i j it jt n k); try done.
    + rewrite started_lookup in Hi. rewrite decide_False in Hi; [by destruct (pat !! (2 * i))|]. intros [_ Ho%Nat.odd_spec]. destruct Ho. lia.
    + rewrite started_lookup in Hj. rewrite decide_False in Hj; [by destruct (pat !! (2 * j))|]. intros [_ Ho%Nat.odd_spec]. destruct Ho. lia.
Qed.

(** ** Starting at an undirected relationship *)
Lemma undirected_run ops g syms pat lord pord T (store : path -> gmap string sres -> T -> T) eord t xs start sz K :
  valid_history ops -> run ops = Ok g -> length pat = 2 * K + 1 -> start < length pat -> start_ok ops (node_symbols syms pat) pat start xs ->
  fastest g syms pat lord pord = Ok (Some xs, start, sz) -> undirected_start pat start ->
  ((exists e, e ∈ xs /\ edge_match (srun ops) (pi_labels (item pat start)) (pi_props (item pat start)) e) /\
     pattern_run T g syms pat eord store lord pord t = Panic) \/
  ((forall e, e ∈ xs -> ~ edge_match (srun ops) (pi_labels (item pat start)) (pi_props (item pat start)) e) /\
     pattern_run T g syms pat eord store lord pord t = Ok (None, t)).
Proof.
  intros Hv Hr HN Hlt Hxs Hf (Ho & it & Hit & Hl & Hu). pose proof Ho as [k Hk]%Nat.odd_spec.
  assert (Nat.even start = false) as Hev by (by rewrite <- Nat.negb_odd, Ho). unfold start_ok in Hxs. rewrite Hev in Hxs. destruct Hxs as (Hnd & Hlive).
  unfold pattern_run. rewrite (get_plan_ok syms pat K start xs HN Hlt g lord pord sz Hf). cbn [rbind pl_steps].
  set (pl := Plan _ _). unfold steps. cbn [run_steps]. unfold start_step. rewrite Hev.
  assert (nforward pat start = S (length pat - S (S start))) as -> by (unfold nforward; lia). cbn [seq map app run_steps].
  set (rest := map _ _ ++ _).
  assert (forward_step pat start (S start) = ConnNodes (S start) start UseAny None) as Hst.
  { unfold forward_step. rewrite Nat.odd_succ, Hev. replace (S start - 1) with start by lia. rewrite (item_lookup _ _ _ Hit), Hl, Hu.
    by rewrite decide_False by lia. }
  rewrite Hst. unfold run_step. set (fs := filter (fun e => item_edges g (item pat start) e = true) xs).
  assert (forall e, e ∈ fs <-> e ∈ xs /\ edge_match (srun ops) (pi_labels (item pat start)) (pi_props (item pat start)) e) as Hfs.
  { intros e. unfold fs. rewrite elem_of_list_filter. split.
    - intros [Hfe Hx]. split; [done|]. apply (item_edges_ok ops g Hv Hr); [by apply Hlive|done].
    - intros [Hx Hm]. split; [|done]. apply (item_edges_ok ops g Hv Hr); [by apply Hlive|done]. }
  clearbody fs. destruct fs as [|e fs].
  - right. split; [|done]. intros e Hx Hm. assert (e ∈ []) as ?%elem_of_nil by by apply Hfs. done.
  - left. split; [exists e; apply Hfs; by apply elem_of_cons; left|]. cbn [map visit_all].
    cbn [enter m_res m_vnode]. rewrite lookup_insert. done.
Qed.
Lemma collected {A} (rs : list A) acc : fold_left (fun l r => l ++ [r]) rs acc = acc ++ rs.
Proof. revert acc. induction rs as [|r rs IH]; intros acc; cbn [fold_left]; [by rewrite app_nil_r|]. by rewrite IH, <- app_assoc. Qed.
Lemma find_paths_ok ops g syms pat lord pord eord :
  valid_history ops -> run ops = Ok g -> node_list_safe ops -> edge_list_safe ops ->
  well_formed pat -> item_orders pat lord pord eord -> pattern_askable ops pat -> names_ok (srun ops) syms pat ->
  (forall xs start sz, fastest g syms pat lord pord = Ok (xs, start, sz) -> starts_well pat start) ->
  exists rs ms, find_paths g syms pat lord pord eord = Ok (None, rs) /\
    Forall2 (reported (edge_from g) (edge_to g) pat) ms rs /\
    (forall m, m ∈ ms -> fits_items (srun ops) syms pat m) /\
    (forall m, is_match (srun ops) syms pat m -> m ∈ ms) /\
    (no_undirected_loops (srun ops) pat -> NoDup ms).
Proof.
  intros Hv Hr Hns Hes Hwf Hord Hask Hnames Hstart.
  destruct (pattern_run_ok ops g syms pat lord pord eord (list match_result) (fun p x l => l ++ [(p, x)]) [] Hv Hr Hns Hes Hwf Hord Hask Hnames Hstart) as (rs & ms & Hrun & H).
  exists rs, ms. split; [|exact H]. transitivity (pattern_run (list match_result) g syms pat eord (fun p x l => l ++ [(p, x)]) lord pord []); [reflexivity|].
  rewrite Hrun. f_equal. f_equal. transitivity (fold_left (fun l r => l ++ [r]) rs []).
  - clear. assert (forall acc : list match_result, fold_left (fun l r => l ++ [(r.1, r.2)]) rs acc = fold_left (fun l r => l ++ [r]) rs acc) as H; [|apply H].
    induction rs as [|[p x] rs IH]; intros l; [done|]. apply IH.
  - apply (collected rs []).
Qed.
(** ** Repeated names *)
Lemma fits_same_names s syms pat m : well_formed pat -> repeated_fixed syms pat -> fits_items s syms pat m -> same_names pat m.
Proof.
  intros [K HN] Hrep Hfit i j it jt n k Hi Hj Hne Hnm Hni Hnj.
  apply (fits_alt _ _ _ K) in Hfit as (_ & Hnodes & _); [|done].
  destruct (decide (i = j)) as [->|Hij]; [congruence|].
  destruct (Hrep i j it jt Hij Hi Hj Hne Hnm) as (x & a & Hx & Ha).
  assert (forall i it n, pat !! (2 * i) = Some it -> pm_nodes m !! i = Some n -> pi_name it <> "" -> syms !! pi_name it = Some x -> n = a) as H.
  { intros i' it' n' Hi' Hn' Hne' Hx'. destruct (Hnodes _ _ Hn') as [_ Hsym]. rewrite (item_lookup _ _ _ Hi') in Hsym.
    destruct (Hsym Hne' x Hx') as (ns & Hns & Hin). rewrite Ha in Hns. injection Hns as <-. by apply elem_of_list_singleton in Hin. }
  transitivity a; [exact (H i it n Hi Hni Hne Hx)|]. symmetry. eapply H; [exact Hj|exact Hnj|congruence|congruence].
Qed.
Lemma directed_starts pat start : one_edge_right pat -> starts_well pat start.
Proof. intros H. split; intros i it Hi _; destruct (H i it Hi) as (? & ? & ? & ?); split_and?; try done; lia. Qed.
(** ** The ends *)
Lemma den_first_node from to p n ss : denotes from to p (WalkFrom n ss) -> path_get_node from to p 0 = Ok n.
Proof. intros H. pose proof (den_get_node _ _ _ _ 0 H) as E. exact E. Qed.
Lemma den_last_node from to p n ss : denotes from to p (WalkFrom n ss) -> path_get_node from to p (num_path_nodes p - 1) = Ok (hop_end n ss).
Proof.
  intros H. rewrite (den_num_nodes _ _ _ _ H). pose proof (den_get_node _ _ _ _ (length (map snd ss)) H) as E. cbn [walk_nodes length] in E |- *.
  replace (Z.of_nat (S (length (map snd ss))) - 1)%Z with (Z.of_nat (length (map snd ss))) by lia. rewrite E.
  assert ((n :: map snd ss) !! length (map snd ss) = Some (hop_end n ss)) as ->; [|done].
  rewrite <- hop_end_last, last_lookup. done.
Qed.
Lemma ends_collect g (f : match_result -> Z) (last_of : pmatch -> nat) ms rs X :
  Forall2 (fun m r => path_get_node (edge_from g) (edge_to g) r.1 (f r) = Ok (last_of m)) ms rs ->
  exists Y : gset nat, rfold (fun X r => let! n := path_get_node (edge_from g) (edge_to g) r.1 (f r) in Ok ({[n]} ∪ X)) rs X = Ok Y /\
    forall n, n ∈ Y <-> n ∈ X \/ exists m, m ∈ ms /\ last_of m = n.
Proof.
  intros H. revert X. induction H as [|m r ms rs E _ IH]; intros X; cbn [rfold].
  - exists X. split; [done|]. intros n. split; [by left|]. intros [?|(m & ?%elem_of_nil & _)]; done.
  - rewrite E. cbn [rbind]. destruct (IH ({[last_of m]} ∪ X)) as (Y & HY & Hin). exists Y. split; [exact HY|]. intros n. rewrite Hin, elem_of_union, elem_of_singleton.
    split.
    + intros [[->|?]|(m' & ? & ?)]; [right; exists m; split; [by apply elem_of_cons; left|done]|by left|right; exists m'; split; [by apply elem_of_cons; right|done]].
    + intros [?|(m' & [->|?]%elem_of_cons & <-)]; [by left; right|by left; left|by right; eexists].
Qed.
Lemma hop_end_concat a hs : hop_end a (concat hs) = default a (last (hop_nodes a hs)).
Proof.
  revert a. induction hs as [|h hs IH]; intros a; [done|]. cbn [concat hop_nodes]. rewrite hop_end_app, IH.
  rewrite last_cons. destruct (last (hop_nodes (hop_end a h) hs)) eqn:E; [done|]. apply last_None in E. by destruct hs.
Qed.
Lemma head_nodes_ok g pat ms rs : Forall2 (reported (edge_from g) (edge_to g) pat) ms rs ->
  exists X, head_nodes g rs = Ok X /\ forall n, n ∈ X <-> exists m, m ∈ ms /\ pm_first m = n.
Proof.
  intros H. destruct (ends_collect g (fun _ => 0%Z) pm_first ms rs ∅) as (Y & HY & Hin).
  { eapply Forall2_impl; [exact H|]. intros m r (Hd & _). by eapply den_first_node. }
  exists Y. split; [exact HY|]. intros n. rewrite Hin, elem_of_empty. naive_solver.
Qed.
Lemma tail_nodes_ok g pat ms rs : Forall2 (reported (edge_from g) (edge_to g) pat) ms rs ->
  exists X, tail_nodes g rs = Ok X /\ forall n, n ∈ X <-> exists m, m ∈ ms /\ last (pm_nodes m) = Some n.
Proof.
  intros H. destruct (ends_collect g (fun r => num_path_nodes r.1 - 1)%Z (fun m => hop_end (pm_first m) (concat (pm_hops m))) ms rs ∅) as (Y & HY & Hin).
  { eapply Forall2_impl; [exact H|]. intros m r (Hd & _). by eapply den_last_node. }
  exists Y. split; [exact HY|]. intros n. rewrite Hin, elem_of_empty.
  assert (forall m, hop_end (pm_first m) (concat (pm_hops m)) = n <-> last (pm_nodes m) = Some n) as Hl; [|setoid_rewrite Hl; naive_solver].
  intros m. rewrite hop_end_concat. unfold pm_nodes. destruct (last (hop_nodes (pm_first m) (pm_hops m))) eqn:E.
  - cbn. naive_solver.
  - apply last_None in E. by destruct (pm_hops m).
Qed.

(** ** Summaries *)
Lemma find_paths_right ops g syms pat lord pord eord :
  valid_history ops -> run ops = Ok g -> node_list_safe ops -> edge_list_safe ops ->
  well_formed pat -> item_orders pat lord pord eord -> pattern_askable ops pat -> names_ok (srun ops) syms pat ->
  one_edge_right pat ->
  exists rs ms, find_paths g syms pat lord pord eord = Ok (None, rs) /\
    Forall2 (reported (edge_from g) (edge_to g) pat) ms rs /\ NoDup ms /\
    (forall m, m ∈ ms -> fits_items (srun ops) syms pat m) /\ (forall m, is_match (srun ops) syms pat m -> m ∈ ms).
Proof.
  intros Hv Hr Hns Hes Hwf Hord Hask Hnames Hone.
  destruct (find_paths_ok ops g syms pat lord pord eord) as (rs & ms & Hrs & Hrep & Hs & Hcomp & Hnd); try done.
  { intros xs start sz _. by apply directed_starts. }
  exists rs, ms. split_and!; try done. apply Hnd. intros i it e ed Hi _ Hu. destruct (Hone i it Hi) as (_ & _ & _ & Hu'). congruence.
Qed.
Lemma find_paths_exact ops g syms pat lord pord eord :
  valid_history ops -> run ops = Ok g -> node_list_safe ops -> edge_list_safe ops ->
  well_formed pat -> item_orders pat lord pord eord -> pattern_askable ops pat -> names_ok (srun ops) syms pat ->
  (forall xs start sz, fastest g syms pat lord pord = Ok (xs, start, sz) -> starts_well pat start) -> repeated_fixed syms pat ->
  exists rs ms, find_paths g syms pat lord pord eord = Ok (None, rs) /\
    Forall2 (reported (edge_from g) (edge_to g) pat) ms rs /\ (forall m, m ∈ ms <-> is_match (srun ops) syms pat m) /\
    (no_undirected_loops (srun ops) pat -> NoDup ms).
Proof.
  intros Hv Hr Hns Hes Hwf Hord Hask Hnames Hstart Hrepd.
  destruct (find_paths_ok ops g syms pat lord pord eord) as (rs & ms & Hrs & Hrep & Hs & Hcomp & Hnd); try done.
  exists rs, ms. split_and!; try done. intros m. split; [|apply Hcomp]. intros Hm. specialize (Hs m Hm). split; [done|]. by eapply fits_same_names.
Qed.
Lemma find_match_nodes_ok ops g syms pat lord pord eord :
  valid_history ops -> run ops = Ok g -> node_list_safe ops -> edge_list_safe ops ->
  well_formed pat -> item_orders pat lord pord eord -> pattern_askable ops pat -> names_ok (srun ops) syms pat ->
  (forall xs start sz, fastest g syms pat lord pord = Ok (xs, start, sz) -> starts_well pat start) -> repeated_fixed syms pat ->
  exists rs X Y, find_paths g syms pat lord pord eord = Ok (None, rs) /\ find_match_nodes g syms pat lord pord eord = Ok (Some X) /\
    head_nodes g rs = Ok X /\ tail_nodes g rs = Ok Y /\
    (forall n, n ∈ X <-> exists m, is_match (srun ops) syms pat m /\ pm_first m = n) /\
    (forall n, n ∈ Y <-> exists m, is_match (srun ops) syms pat m /\ last (pm_nodes m) = Some n).
Proof.
  intros Hv Hr Hns Hes Hwf Hord Hask Hnames Hstart Hrepd.
  destruct (find_paths_exact ops g syms pat lord pord eord) as (rs & ms & Hrs & Hrep & Hex & _); try done.
  destruct (head_nodes_ok _ _ _ _ Hrep) as (X & HX & HinX). destruct (tail_nodes_ok _ _ _ _ Hrep) as (Y & HY & HinY).
  exists rs, X, Y. split_and!; try done.
  - unfold find_match_nodes. rewrite Hrs. cbn [rbind fst snd]. rewrite HX. done.
  - intros n. rewrite HinX. by setoid_rewrite Hex.
  - intros n. rewrite HinY. by setoid_rewrite Hex.
Qed.

Lemma started_node_item pat start k : as_started pat start !! (2 * k) = pat !! (2 * k).
Proof.
  rewrite started_lookup, decide_False; [by destruct (pat !! (2 * k))|]. intros [_ Ho%Nat.odd_spec]. destruct Ho. lia.
Qed.
Lemma find_paths_symbols ops g syms pat lord pord eord :
  valid_history ops -> run ops = Ok g -> node_list_safe ops -> edge_list_safe ops ->
  well_formed pat -> item_orders pat lord pord eord -> pattern_askable ops pat -> names_apart (srun ops) syms pat ->
  exists xs start sz, fastest g syms pat lord pord = Ok (Some xs, start, sz) /\ start < length pat /\
   (forall it, Nat.odd start = true -> pat !! start = Some it -> edges_tried (srun ops) syms it xs) /\
   (undirected_start pat start -> exists it, pat !! start = Some it /\
      (((exists e, e ∈ xs /\ edge_match (srun ops) (pi_labels it) (pi_props it) e) /\ find_paths g syms pat lord pord eord = Panic) \/
       ((forall e, e ∈ xs -> ~ edge_match (srun ops) (pi_labels it) (pi_props it) e) /\ find_paths g syms pat lord pord eord = Ok (None, [])))) /\
   (~ undirected_start pat start ->
    exists ms, (forall m, m ∈ ms -> fits_items (srun ops) (node_symbols syms pat) (as_started pat start) m /\ begins_in start xs m) /\
      (forall m, is_match (srun ops) (node_symbols syms pat) (as_started pat start) m -> begins_in start xs m -> m ∈ ms) /\
      (repeated_fixed syms pat -> forall m, m ∈ ms -> is_match (srun ops) (node_symbols syms pat) (as_started pat start) m) /\
      (no_undirected_loops (srun ops) pat -> NoDup ms) /\
      (((forall m, m ∈ ms -> joined (pm_pieces pat start m)) /\
        exists rs, find_paths g syms pat lord pord eord = Ok (None, rs) /\ Forall2 (reported_from (edge_from g) (edge_to g) pat start) ms rs) \/
       ((exists m, m ∈ ms /\ ~ joined (pm_pieces pat start m)) /\ find_paths g syms pat lord pord eord = Panic))).
Proof.
  intros Hv Hr Hns Hes Hwf Hord Hask Hnames.
  destruct (pattern_run_symbols ops g syms pat lord pord eord (list match_result) (fun p x l => l ++ [(p, x)]) []) as (xs & start & sz & Hf & Hlt & Hxs & Htried & H); try done.
  exists xs, start, sz. split_and!; [done|done| | |].
  - intros it Ho Hit. unfold start_tried in Htried. rewrite <- Nat.negb_odd, Ho in Htried. by rewrite (item_lookup _ _ _ Hit) in Htried.
  - intros Hu. exists (item pat start). split; [by apply item_in|]. destruct Hwf as [K HN]. by eapply undirected_run.
  - intros Hd. destruct (H Hd) as (ms & Hfit & Hall & Hnd & Hout). exists ms. split_and!; try done.
    + intros Hrep m Hm. destruct (Hfit m Hm) as [Hfm _]. split; [done|]. eapply fits_same_names; [| |done].
      * unfold well_formed. by rewrite started_length.
      * unfold repeated_fixed in *. intros i j it jt Hij Hi Hj Hne Hnm. rewrite started_node_item in Hi, Hj. destruct (Hrep i j it jt Hij Hi Hj) as (x & n & Hx & Hn); [done|done|]. exists x, n. split; [|done]. by rewrite (node_symbols_node _ _ _ _ _ Hnames Hi).
    + destruct Hout as [(Hj & rs & Hrs & Hrun)|[Hj Hrun]]; [left|right; by split]. split; [done|]. exists rs. split; [|done].
      transitivity (pattern_run (list match_result) g syms pat eord (fun p x l => l ++ [(p, x)]) lord pord []); [reflexivity|]. rewrite Hrun. f_equal. f_equal.
      transitivity (fold_left (fun l r => l ++ [r]) rs []); [|apply (collected rs [])].
      clear. assert (forall acc : list match_result, fold_left (fun l r => l ++ [(r.1, r.2)]) rs acc = fold_left (fun l r => l ++ [r]) rs acc) as H; [|apply H].
      induction rs as [|[p x] rs IH]; intros l; [done|]. apply IH.
Qed.
Lemma find_paths_from ops g syms pat lord pord eord :
  valid_history ops -> run ops = Ok g -> node_list_safe ops -> edge_list_safe ops ->
  well_formed pat -> item_orders pat lord pord eord -> pattern_askable ops pat -> names_ok (srun ops) syms pat ->
  exists xs start sz, fastest g syms pat lord pord = Ok (Some xs, start, sz) /\ start < length pat /\
   (undirected_start pat start -> exists it, pat !! start = Some it /\
      (((exists e, edge_match (srun ops) (pi_labels it) (pi_props it) e) /\ find_paths g syms pat lord pord eord = Panic) \/
       ((forall e, ~ edge_match (srun ops) (pi_labels it) (pi_props it) e) /\ find_paths g syms pat lord pord eord = Ok (None, [])))) /\
   (~ undirected_start pat start ->
    exists ms, (forall m, m ∈ ms -> fits_items (srun ops) syms (as_started pat start) m) /\
      (forall m, is_match (srun ops) syms (as_started pat start) m -> m ∈ ms) /\
      (repeated_fixed syms pat -> forall m, m ∈ ms -> is_match (srun ops) syms (as_started pat start) m) /\
      (no_undirected_loops (srun ops) pat -> NoDup ms) /\
      (((forall m, m ∈ ms -> joined (pm_pieces pat start m)) /\
        exists rs, find_paths g syms pat lord pord eord = Ok (None, rs) /\ Forall2 (reported_from (edge_from g) (edge_to g) pat start) ms rs) \/
       ((exists m, m ∈ ms /\ ~ joined (pm_pieces pat start m)) /\ find_paths g syms pat lord pord eord = Panic))).
Proof.
  intros Hv Hr Hns Hes Hwf Hord Hask Hnames.
  destruct (find_paths_symbols ops g syms pat lord pord eord) as (xs & start & sz & Hf & Hlt & Htried & Hu & H); try done.
  { by apply names_ok_apart. }
  assert (forall it e, Nat.odd start = true -> pat !! start = Some it -> edge_match (srun ops) (pi_labels it) (pi_props it) e -> e ∈ xs) as Hxs.
  { intros it e Ho Hit He. destruct (Htried it Ho Hit) as [Hx|(x & Hne & Hx & _)]; [by apply Hx|].
    apply Nat.odd_spec in Ho as [k Ek]. rewrite Ek in Hit. destruct Hnames as (_ & _ & Hes'). by rewrite (Hes' k it) in Hx. }
  exists xs, start, sz. split; [done|]. split; [done|]. split.
  - intros Hund. destruct (Hu Hund) as (it & Hit & Hor). exists it. split; [done|]. destruct Hund as [Ho _].
    destruct Hor as [[(e & _ & He) Hp]|[Hno Hp]]; [left|right]; (split; [|done]); [by exists e|].
    intros e He. apply (Hno e); [|done]. by eapply Hxs.
  - intros Hdir. destruct (H Hdir) as (ms & Hfit & Hall & Hrep & Hnd & Hout). exists ms. split_and!; try done.
    + intros m Hm. destruct (Hfit m Hm) as [? _]. by eapply fits_node_symbols.
    + intros m [Hm Hsame]. apply Hall; [split; [by eapply fits_node_symbols|done]|]. intros k h e Ek Hk He.
      eapply (Hxs (item pat start) e); [apply Nat.odd_spec; by exists k|by apply item_in|]. pose proof Hwf as [K HN]. by eapply started_edges.
    + intros Hr' m Hm. destruct (Hrep Hr' m Hm) as [? ?]. split; [|done]. by eapply fits_node_symbols.
Qed.
