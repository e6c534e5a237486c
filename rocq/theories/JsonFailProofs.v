(** Proofs about what a Decode that fails leaves behind. *)
From Verif Require Import Base Value Graph GraphSpec CoreProofs CoreStep AdjProofs JsonText Json JsonSpec JsonDecProofs JsonAddProofs JsonFailSpec.
Local Open Scope string_scope.
Local Open Scope list_scope.

Lemma decoded_only_adds pu nds eds t t' ids es : decoded pu nds eds t t' ids es -> only_adds t t'.
Proof.
  intros [D1 D2 D3 D4 D5 D6 D7 D8 D9 D10]. split; [done|done|]. intros e x Hx Hn.
  assert (live_edge t' e) as Hl by (by exists x). destruct (D10 e Hl) as [?|Hin]; [done|].
  apply elem_of_list_lookup in Hin as [k Hk].
  destruct (Forall2_lookup_r _ _ _ _ _ D2 Hk) as (ed & _ & a & b & p & _ & Ha & Hb & Hq). rewrite Hx in Hq. injection Hq as ->.
  cbn [e_from e_to]. split; apply D5; by eapply stands_for_in.
Qed.

Section top.
  Context (pu : unmarshaler) (lord : nat -> gset string -> list string) (Hlord : forall i X, order_of X (lord i X)).
  Context (tops : list op) (g : graph) (Hv : valid_history tops) (Hr : run tops = Ok g).

  Lemma decode_only_adds ts g' b : decode pu lord g ts = Ok (g', b) ->
    exists ops', valid_history (tops ++ ops') /\ run (tops ++ ops') = Ok g' /\ only_adds (srun tops) (srun (tops ++ ops')).
  Proof.
    intros (ops' & nds & eds & ids & es & H1 & H2 & _ & H3)%(decode_adds pu lord Hlord tops g Hv Hr).
    exists ops'. split_and!; [done|done|by eapply decoded_only_adds].
  Qed.

  Lemma decode_begun ms r g' b : skippable ms -> decode pu lord g (toks (JObj ms) ++ r) = Ok (g', b) ->
    exists ops' nds eds ids es, valid_history (tops ++ ops') /\ run (tops ++ ops') = Ok g' /\ Forall adds ops' /\
      decoded pu nds eds (srun tops) (srun (tops ++ ops')) ids es /\ begun ms nds eds.
  Proof.
    intros Hs H. rewrite decode_process in H by done. apply rbind_Ok_inv in H as (x & H & [= <- <-]).
    set (T := fun (_ : string) (_ : value) => True).
    destruct (process_ok pu lord Hlord tops T T ms) with (nds0 := @nil jnode) (ids := @nil nat) (dn := @nil (jedge * nat)) (s := DState g ∅ []) as [Hp _].
    - split; [intros; split; done|done].
    - by apply inv_init.
    - by intros ed Hed%elem_of_nil.
    - destruct (Hp x H) as [(Hb & nds & es & ids & dn & Hn & He & Hi & E)|(Hb & _ & ops' & nds & ids & eds & es & (X1 & X2 & X3%add_adds) & Hd & HB)].
      + destruct Hi as ((ops' & (X1 & X2 & X3%add_adds) & Hd) & _). cbn [app fmap list_fmap d_queue] in *.
        exists ops', nds, dn.*1, ids, dn.*2. split_and!; try done. exists ms, nds, es. split_and!; try done. by rewrite E.
      + exists ops', nds, eds, ids, es. split_and!; try done.
        destruct HB as (ms1 & n & e & n1 & H1 & H2 & H3 & H4 & -> & H6). by exists ms1, n, e.
  Qed.
End top.

(** the edges at the old nodes *)
Lemma only_adds_edges ops ops' g g' n d : valid_history ops -> run ops = Ok g -> valid_history ops' -> run ops' = Ok g' ->
  only_adds (srun ops) (srun ops') -> live_node (srun ops) n ->
  exists xs ys, node_edges g n d = Ok xs /\ node_edges g' n d = Ok ys /\ xs ≡ₚ ys.
Proof.
  intros Hv Hr Hv' Hr' [O1 O2 O3] Hn.
  assert (Hn' : live_node (srun ops') n). { destruct Hn as [x Hx]. exists x. by eapply lookup_weaken. }
  pose proof (core_run _ _ Hv Hr) as Hc. pose proof (core_run _ _ Hv' Hr') as Hc'.
  assert (Hsame : forall (f : edge -> nat) xs ys, (f = e_from \/ f = e_to) ->
    lists (fun e => exists x, s_edges (srun ops) !! e = Some x /\ f x = n) xs ->
    lists (fun e => exists x, s_edges (srun ops') !! e = Some x /\ f x = n) ys -> xs ≡ₚ ys).
  { intros f xs ys Hf [N1 L1] [N2 L2]. apply NoDup_Permutation; [done|done|]. intros e. rewrite L1, L2. split.
    - intros (x & Hx & Hfx). exists x. split; [by eapply lookup_weaken|done].
    - intros (x & Hx & Hfx). destruct (s_edges (srun ops) !! e) as [y|] eqn:Ey.
      + exists y. split; [done|]. apply (lookup_weaken _ _ _ _ Ey) in O2. congruence.
      + exfalso. destruct (O3 e x Hx) as [A B]. { intros [y Hy]. congruence. }
        destruct Hf as [-> | ->]; rewrite Hfx in *; done. }
  destruct (node_edges_in g _ Hc n Hn) as (i & Hi & Li), (node_edges_out g _ Hc n Hn) as (o & Ho & Lo).
  destruct (node_edges_in g' _ Hc' n Hn') as (i' & Hi' & Li'), (node_edges_out g' _ Hc' n Hn') as (o' & Ho' & Lo').
  pose proof (Hsame e_to i i' (or_intror eq_refl) Li Li') as Pi. pose proof (Hsame e_from o o' (or_introl eq_refl) Lo Lo') as Po.
  destruct d.
  - by exists i, i'.
  - destruct (node_edges_any_occurs g _ Hc n Hn) as (a & b & Ha & Hb & E & _), (node_edges_any_occurs g' _ Hc' n Hn') as (a' & b' & Ha' & Hb' & E' & _).
    exists (a ++ b), (a' ++ b'). split; [done|]. split; [done|].
    rewrite Hi in Ha. rewrite Ho in Hb. rewrite Hi' in Ha'. rewrite Ho' in Hb'.
    injection Ha as <-. injection Hb as <-. injection Ha' as <-. injection Hb' as <-. by rewrite Pi, Po.
  - by exists o, o'.
Qed.
Lemma decode_old_edges pu lord (Hlord : forall i X, order_of X (lord i X)) tops g (Hv : valid_history tops) (Hr : run tops = Ok g) ts g' b n d :
  decode pu lord g ts = Ok (g', b) -> live_node (srun tops) n ->
  exists xs ys, node_edges g n d = Ok xs /\ node_edges g' n d = Ok ys /\ xs ≡ₚ ys.
Proof.
  intros (ops' & H1 & H2 & H3)%(decode_only_adds pu lord Hlord tops g Hv Hr) Hn.
  exact (only_adds_edges tops (tops ++ ops') g g' n d Hv Hr H1 H2 H3 Hn).
Qed.
