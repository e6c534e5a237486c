(** Proofs about copies: CopyGraph and Decode of Encode into a graph without nodes. *)
From Verif Require Import Base Value Index Graph GraphSpec CoreProofs CoreStep NodeListProofs EdgeListProofs Sizes Alg AlgSpec AlgProofs.
From Verif Require Import Clone CloneSpec CloneProofs JsonText Json JsonSpec JsonAddProofs JsonTripProofs Path PathSpec Pattern PatternSpec PatternProofs.
From Verif Require Import IsoSpec IsoProofs.

Lemma same_graph_sym f h s1 s2 : (forall e x, s_edges s1 !! e = Some x -> live_node s1 (e_from x) /\ live_node s1 (e_to x)) ->
  same_graph f h s1 s2 -> exists f' h', same_graph f' h' s2 s1.
Proof.
  intros Hends [Hn He Nn Ee].
  assert (Hinv : forall (P Q : nat -> Prop) (k : nat -> nat) xs, lists P xs -> bijection P Q k ->
    exists k', bijection Q P k' /\ (forall x, P x -> k' (k x) = x) /\ (forall z, Q z -> k (k' z) = z)).
  { clear. intros P Q k xs [_ Hl] (B1 & B2 & B3).
    exists (fun z => default 0 (snd <$> list_find (fun x => k x = z) xs)).
    assert (L : forall x, P x -> default 0 (snd <$> list_find (fun y => k y = k x) xs) = x).
    { intros x Hx. destruct (list_find_elem_of (fun y => k y = k x) xs x) as [[i y] E]; [by apply Hl|done|].
      rewrite E. simpl. apply list_find_Some in E as (E1 & E2 & _). apply B2; [|done|done]. apply Hl. by eapply elem_of_list_lookup_2. }
    assert (R : forall z, Q z -> exists x, P x /\ z = k x) by (intros z Hz; destruct (B3 z Hz) as (x & Hx & <-); eauto).
    split; [split_and!|split].
    - intros z Hz. destruct (R z Hz) as (x & Hx & ->). by rewrite L.
    - intros y z Hy Hz. destruct (R y Hy) as (x & Hx & ->), (R z Hz) as (x' & Hx' & ->). rewrite !L by done. by intros ->.
    - intros x Hx. exists (k x). split; [by apply B1|by apply L].
    - done.
    - intros z Hz. destruct (R z Hz) as (x & Hx & ->). by rewrite L. }
  destruct (Hinv _ _ _ _ (proj1 (lists_dom _)) Hn) as (f' & F1 & F2 & F3), (Hinv _ _ _ _ (proj1 (lists_dom _)) He) as (h' & H1 & H2 & H3). clear Hinv.
  exists f', h'. split; [done|done| |].
  - intros n x Hx. assert (live_node s2 n) as Hl by by exists x. destruct (proj1 F1 _ Hl) as [y Hy]. rewrite Hy. apply Nn in Hy. rewrite (F3 n Hl) in Hy. congruence.
  - intros e x Hx. assert (live_edge s2 e) as Hl by by exists x. destruct (proj1 H1 _ Hl) as [y Hy]. rewrite Hy. destruct (Hends _ _ Hy) as [Hf Ht]. apply Ee in Hy. rewrite (H3 e Hl) in Hy.
    assert (x = Edge (f (e_from y)) (f (e_to y)) (e_label y) (e_props y)) as -> by congruence. cbn. rewrite !F2 by done. by destruct y.
Qed.

(** ** CheckIsomorphism *)
Lemma same_isomorphism f h ops1 ops2 g1 g2 : valid_history ops1 -> run ops1 = Ok g1 -> valid_history ops2 -> run ops2 = Ok g2 ->
  same_graph f h (srun ops1) (srun ops2) -> isomorphism (srun ops1) (srun ops2) (nodes_equal g1 g2) (edges_equal g1 g2) f h.
Proof.
  intros V1 R1 V2 R2 [Hn He Nn Ee]. pose proof (core_run _ _ V1 R1) as C1. pose proof (core_run _ _ V2 R2) as C2. split; [done|]. split; [done|]. split.
  - intros n [x Hx]. destruct (core_node _ _ _ _ C1 Hx) as (a & Ha & La & Pa), (core_node _ _ _ _ C2 (Nn _ _ Hx)) as (b & Hb & Lb & Pb).
    unfold nodes_equal. rewrite Ha, Hb, La, Lb, Pa, Pb, !bool_decide_eq_true_2 by done. done.
  - intros e x Hx. destruct (core_edge _ _ _ _ C1 Hx) as (Ha & _). pose proof (Ee _ _ Hx) as Hy. destruct (core_edge _ _ _ _ C2 Hy) as (Hb & _).
    split; [|eexists; split; [exact Hy|done]]. unfold edges_equal. rewrite Ha, Hb. cbn [e_label e_props]. rewrite !bool_decide_eq_true_2 by done. done.
Qed.
Lemma same_size f h s1 s2 : same_graph f h s1 s2 -> size (s_nodes s1) = size (s_nodes s2).
Proof.
  intros [B _ _ _]. destruct (lists_dom (s_nodes s1)) as [L1 E1], (lists_dom (s_nodes s2)) as [L2 E2]. rewrite <-E1, <-E2. by eapply bijection_length.
Qed.
Lemma check_same f h ops1 ops2 g1 g2 ord k :
  valid_history ops1 -> run ops1 = Ok g1 -> node_list_safe ops1 -> edge_list_safe ops1 ->
  valid_history ops2 -> run ops2 = Ok g2 -> node_list_safe ops2 -> edge_list_safe ops2 ->
  same_graph f h (srun ops1) (srun ops2) -> (forall m : gmap nat nat, ord m ≡ₚ (map_to_list m).*1) ->
  size (s_nodes (srun ops1)) ^ size (s_nodes (srun ops1)) <= k ->
  check_isomorphism g1 g2 (nodes_equal g1 g2) (edges_equal g1 g2) ord k = Ok true /\
  check_isomorphism g2 g1 (nodes_equal g2 g1) (edges_equal g2 g1) ord k = Ok true.
Proof.
  intros V1 R1 N1 E1 V2 R2 N2 E2 HS Ho Hk. pose proof (same_size _ _ _ _ HS) as Es. split.
  - eapply (check_complete ops1 ops2); try done; [by rewrite <-Es|]. by apply same_isomorphism.
  - destruct (same_graph_sym f h (srun ops1) (srun ops2)) as (f' & h' & HS'); [|done|].
    { intros e x Hx. destruct (core_edge _ _ _ _ (core_run _ _ V1 R1) Hx) as (_ & ? & ? & _). done. }
    eapply (check_complete ops2 ops1); try done; [by rewrite <-Es|]. by apply same_isomorphism.
Qed.

(** ** Copies *)
Lemma edges_empty ops g : valid_history ops -> run ops = Ok g -> s_nodes (srun ops) = ∅ -> s_edges (srun ops) = ∅.
Proof.
  intros V R E. apply map_empty. intros e. destruct (s_edges (srun ops) !! e) as [x|] eqn:Ex; [|done].
  destruct (core_edge _ _ _ _ (core_run _ _ V R) Ex) as (_ & [y Hy] & _). by rewrite E in Hy.
Qed.
Lemma copied_same s t t' m h : s_nodes t = ∅ -> s_edges t = ∅ -> copied (fun _ v => v) s t t' m h ->
  same_graph (fun n => default 0 (m !! n)) (fun e => default 0 (h !! e)) s t'.
Proof.
  intros En Ee Hc. destruct (copied_isomorphism (fun _ v => v) s t t' m h (fun _ _ => true) (fun _ _ => true) En Ee Hc) as (B1 & B2 & _); [done|done|].
  destruct Hc as ([X1 X2 X3 X4 X5 X6 X7 X8 X9] & Dm & Dh).
  assert (Hid : forall p q, mapped (fun _ v => v) p q -> q = p). { intros p q H. apply map_eq. intros k. rewrite (H k). by destruct (p !! k). }
  split; [done|done| |].
  - intros n x Hx. destruct (proj2 (Dm n)) as [n' E]; [by exists x|]. rewrite E. simpl.
    destruct (X4 _ _ E (lookup_empty _)) as (_ & x' & y & Hx' & Hy & Hl & Hp%Hid). assert (x' = x) as -> by congruence. rewrite Hy. destruct x, y; simpl in *; congruence.
  - intros e x Hx. destruct (proj2 (Dh e)) as [e' E]; [by exists x|]. rewrite E. simpl.
    destruct (X5 _ _ E) as (_ & x' & y & Hx' & Hy & C1 & C2 & C3 & C4%Hid). assert (x' = x) as -> by congruence. rewrite Hy, C1, C2. destruct x, y; simpl in *; congruence.
Qed.
Lemma clone_adds f s ops : Forall (clone_op f s) ops -> Forall adds ops.
Proof. intros H. eapply Forall_impl; [exact H|]. by intros []. Qed.
Lemma adds_add ops : Forall adds ops -> Forall (add_op (fun _ _ => True) (fun _ _ => True)) ops.
Proof. intros H. eapply Forall_impl; [exact H|]. by intros []. Qed.
Lemma node_list_safe_adds ops ops' : s_nodes (srun ops) = ∅ -> node_list_safe ops -> Forall adds ops' -> node_list_safe (ops ++ ops').
Proof.
  intros E Hs H. enough (node_list_safe (ops ++ ops') /\ (ng_stale (ng_run ng_init s_empty (ops ++ ops')) = true -> s_nodes (srun (ops ++ ops')) = ∅)) as [? _] by done.
  induction ops' as [|o ops' IH] using rev_ind; [by rewrite app_nil_r|]. apply Forall_app in H as [H1 H2]. apply Forall_cons in H2 as [Ho _].
  destruct (IH H1) as [I1 I2]. rewrite app_assoc. split.
  - apply node_list_safe_snoc. split; [done|]. destruct o; try done.
  - rewrite ng_run_snoc, srun_snoc. destruct o; try done.
Qed.
(** what a graph without nodes becomes *)
Lemma copy_of sops src tops ops' m h : valid_history sops -> run sops = Ok src ->
  valid_history tops -> (exists tgt, run tops = Ok tgt) -> s_nodes (srun tops) = ∅ -> node_list_safe tops -> edge_list_safe tops ->
  Forall adds ops' -> copied (fun _ v => v) (srun sops) (srun tops) (srun (tops ++ ops')) m h ->
  node_list_safe (tops ++ ops') /\ edge_list_safe (tops ++ ops') /\
  same_graph (fun n => default 0 (m !! n)) (fun e => default 0 (h !! e)) (srun sops) (srun (tops ++ ops')).
Proof.
  intros V R Vt [tgt Rt] E Ns Es Ha Hc. split; [by apply node_list_safe_adds|].
  split; [eapply edge_list_safe_adds; [by apply adds_add|done]|]. eapply copied_same; [done|by eapply edges_empty|done].
Qed.

Lemma no_index_askable ops pat : (forall k, node_index ops k = None) -> (forall k, edge_index ops k = None) -> pattern_askable ops pat.
Proof. intros H1 H2. split; intros i it _ k v x _ Hx; [rewrite H1 in Hx|rewrite H2 in Hx]; done. Qed.

Section made.
  Context (sops : list op) (src : graph) (tops : list op) (tgt : graph).
  Context (Hv : valid_history sops) (Hr : run sops = Ok src) (Hvt : valid_history tops) (Hrt : run tops = Ok tgt).
  Context (Hns : node_list_safe sops) (Hes : edge_list_safe sops) (Hnt : node_list_safe tops) (Het : edge_list_safe tops).
  Context (Hempty : s_nodes (srun tops) = ∅).

  (** [g'] is a copy of the source, made by adding to the target *)
  Definition made (g' : graph) (f h : nat -> nat) : Prop :=
    exists ops', valid_history (tops ++ ops') /\ run (tops ++ ops') = Ok g' /\ Forall adds ops' /\
      node_list_safe (tops ++ ops') /\ edge_list_safe (tops ++ ops') /\ same_graph f h (srun sops) (srun (tops ++ ops')).
  Lemma made_check g' f h ord k : made g' f h -> (forall m : gmap nat nat, ord m ≡ₚ (map_to_list m).*1) ->
    size (s_nodes (srun sops)) ^ size (s_nodes (srun sops)) <= k ->
    check_isomorphism src g' (nodes_equal src g') (edges_equal src g') ord k = Ok true /\
    check_isomorphism g' src (nodes_equal g' src) (edges_equal g' src) ord k = Ok true.
  Proof. intros (ops' & V & R & _ & N & E & HS). by apply (check_same f h sops (tops ++ ops')). Qed.
  Lemma made_search g' f h syms pat lord1 pord1 eord1 lord2 pord2 eord2 : made g' f h ->
    (forall k, node_index tops k = None) -> (forall k, edge_index tops k = None) ->
    well_formed pat -> item_orders pat lord1 pord1 eord1 -> item_orders pat lord2 pord2 eord2 ->
    pattern_askable sops pat -> names_ok (srun sops) syms pat -> one_edge_right pat -> repeated_fixed syms pat ->
    exists rs1 rs2 ms1 ms2, find_paths src syms pat lord1 pord1 eord1 = Ok (None, rs1) /\
      find_paths g' (move_sym f h <$> syms) pat lord2 pord2 eord2 = Ok (None, rs2) /\
      Forall2 (reported (edge_from src) (edge_to src) pat) ms1 rs1 /\ Forall2 (reported (edge_from g') (edge_to g') pat) ms2 rs2 /\
      ms2 ≡ₚ map (move_match f h) ms1.
  Proof.
    intros (ops' & V & R & Ha & N & E & HS) In Ie. intros. apply (find_paths_same_right f h sops (tops ++ ops')); try done.
    apply no_index_askable; intros k; [rewrite (node_index_adds (fun _ _ => True) (fun _ _ => True))|rewrite (edge_index_adds (fun _ _ => True) (fun _ _ => True))];
      try done; by apply adds_add.
  Qed.
  Lemma copy_graph_made ord m g' : (forall n x, s_nodes (srun sops) !! n = Some x -> order_of (sn_labels x) (ord n)) ->
    copy_graph src tgt (fun _ v => v) ord = Ok (m, g') -> exists h, made g' (fun n => default 0 (m !! n)) h.
  Proof.
    intros Ho Hc. destruct (copy_graph_sound sops tops src tgt (fun _ v => v) ord Hv Hr Hvt Hrt Ho m g' Hns Hes Hc) as (ops' & h & V & R & Ha%clone_adds & Hcp).
    exists (fun e => default 0 (h !! e)), ops'. destruct (copy_of sops src tops ops' m h) as (? & ? & ?); try done. by exists tgt.
  Qed.
  Lemma json_made pm pu sep ord lord lord' r ts g' b : (sep = true -> s_nodes (srun sops) <> ∅) ->
    writable pm pu (srun sops) -> node_order src ord -> label_order (srun sops) lord -> (forall i X, order_of X (lord' i X)) ->
    encode src pm sep ord lord = Ok (Some ts) -> decode pu lord' tgt (ts ++ r) = Ok (g', b) -> b = true /\ exists f h, made g' f h.
  Proof.
    intros Hne Hw%writable_turns Ho Hl Hl' He Hd.
    destruct (turns_order sops src tops tgt pm pu (srun sops) sep ord lord lord' r) as (ts' & He' & Hback & _); try done.
    { intros ->. destruct (map_choose _ (Hne eq_refl)) as (n & x & Hx). exists n. by exists x. }
    rewrite He in He'. injection He' as <-. destruct (Hback g' b Hd) as (-> & ops' & m & h & V & R & Ha & Hcp). split; [done|].
    exists (fun n => default 0 (m !! n)), (fun e => default 0 (h !! e)), ops'. destruct (copy_of sops src tops ops' m h) as (? & ? & ?); try done. by exists tgt.
  Qed.
End made.
