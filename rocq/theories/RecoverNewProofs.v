(** Proofs for C65: NewNode and NewEdge that panic in an index. *)
From Verif Require Import Base Assoc Value FastSet Links EdgeMap NodeMap Index Graph GraphSpec Recover RecoverSpec CoreProofs RecoverProofs.

Lemma loop_refused (f : index -> value -> index * bool) l : forall ixs ixs', NoDup l.*1 -> ixs_loop f l ixs = (ixs', false) ->
  exists k v ix ix', (k, v) ∈ l /\ ixs !! k = Some ix /\ f ix v = (ix', false) /\ ixs' !! k = Some ix'.
Proof.
  induction l as [|[k v] l IH]; intros ixs ixs' Hnd H; cbn [ixs_loop] in H; [done|]. cbn in Hnd. apply NoDup_cons in Hnd as [Hn Hnd].
  destruct (ixs !! k) as [ix|] eqn:E.
  - destruct (f ix v) as [ix1 b] eqn:Ef. destruct b.
    + destruct (IH _ _ Hnd H) as (k2 & v2 & ix2 & ix2' & Hin & E2 & Ef2 & E2'). exists k2, v2, ix2, ix2'. split; [by right|]. split; [|done].
      rewrite lookup_insert_ne in E2; [done|]. intros <-. apply Hn. by apply (elem_of_list_fmap_1 fst) in Hin.
    + injection H as <-. exists k, v, ix, ix1. split; [left|]. split; [done|]. split; [done|]. apply lookup_insert.
  - destruct (IH _ _ Hnd H) as (k2 & v2 & ix2 & ix2' & Hin & ?). exists k2, v2, ix2, ix2'. split; [by right|done].
Qed.
Lemma order_keys po id p : prop_order po -> NoDup (po id p).*1 /\ forall k v, (k, v) ∈ po id p -> is_Some (p !! k).
Proof.
  intros Hp. pose proof (Hp id p) as E. split.
  - rewrite E. apply NoDup_fst_map_to_list.
  - intros k v. rewrite E, elem_of_map_to_list. intros ->. by exists v.
Qed.
(** the index that refused a value of a new object *)
Lemma add_refused po id p ixs ixs' : prop_order po -> map_Forall (fun _ => ix_handles) ixs -> ixs_add_st ixs (po id p) id = (ixs', false) ->
  exists k ix ix', is_Some (p !! k) /\ ixs !! k = Some ix /\ ixs' !! k = Some ix' /\
    match ix with IHash _ _ _ => stale id ix' | IBtree _ => ix' = ix end.
Proof.
  intros Hp HF H. destruct (order_keys po id p Hp) as [Hnd Hk]. destruct (loop_refused _ _ _ _ Hnd H) as (k & v & ix & ix' & Hin & E & Ef & E').
  exists k, ix, ix'. split; [by eapply Hk|]. split; [done|]. split; [done|]. destruct ix as [t|vals els fresh].
  - unfold ix_add_st in Ef. destruct (ix_add (IBtree t) v id); by injection Ef as <-.
  - eapply add_stale; [by apply (HF k)|by eexists _, _, _|exact Ef].
Qed.

Lemma new_node_listed calls po g labels p ord g' : prop_order po -> run_st calls = Ok g -> step_st po g (ONewNode labels p ord) = Ok (g', false) ->
  exists k, is_Some (p !! k) /\ is_Some (g_nix g !! k) /\
    (hash_indexed (g_nix g) k -> forall rest g'', run_st_from g' rest = Ok g'' -> exists xs, get_nodes_with_property g'' k = Ok xs /\ g_next g ∈ xs) /\
    (~ hash_indexed (g_nix g) k -> get_nodes_with_property g' k = get_nodes_with_property g k).
Proof.
  intros Hp Hr Hs. cbn [step_st] in Hs. injection Hs as Hs. unfold new_node_st in Hs. destruct (nl_add _ _ _) as [l L]. cbn in Hs.
  destruct (ixs_add_st _ _ _) as [nix b] eqn:E in Hs. injection Hs as <- ->. destruct (run_handles _ _ Hr) as [HF _].
  destruct (add_refused po (g_next g) p _ _ Hp HF E) as (k & ix & ix' & Hk & Ei & Ei' & Hm). exists k. split; [done|]. split; [by exists ix|]. split.
  - intros (vals & els & fresh & Eh) rest g'' Hrest. rewrite Ei in Eh. injection Eh as ->. apply calls_move in Hrest as [R _]. specialize (R k). cbn in R. rewrite Ei' in R.
    destruct R as (ix'' & E'' & R). exists (ix_values ix'').1. unfold get_nodes_with_property. rewrite E''. split; [done|]. apply stale_values. by eapply moves_stale.
  - intros Hno. destruct ix as [t|vals els fresh]; [|exfalso; apply Hno; by eexists _, _, _]. subst ix'. unfold get_nodes_with_property. cbn. by rewrite Ei, Ei'.
Qed.
Lemma connect_eix g e g' : connect g e = Ok g' -> g_eix g' = g_eix g.
Proof. unfold connect. intros H. inv_ok H. by injection H as <-. Qed.
Lemma all_add_eix g e g' : all_add g e = Ok g' -> g_eix g' = g_eix g.
Proof. unfold all_add. intros H. inv_ok H. by injection H as <-. Qed.
Lemma new_edge_listed calls po g from to label p g' : prop_order po -> run_st calls = Ok g -> is_Some (g_nodes g !! from) -> is_Some (g_nodes g !! to) ->
  step_st po g (ONewEdge from to label p) = Ok (g', false) ->
  exists k, is_Some (p !! k) /\ is_Some (g_eix g !! k) /\
    (hash_indexed (g_eix g) k -> forall rest g'', run_st_from g' rest = Ok g'' -> exists xs, get_edges_with_property g'' k = Ok xs /\ g_next g ∈ xs) /\
    (~ hash_indexed (g_eix g) k -> get_edges_with_property g' k = get_edges_with_property g k).
Proof.
  intros Hp Hr [x Hx] [y Hy] Hs. cbn [step_st] in Hs. unfold new_edge_st in Hs. rewrite Hx, Hy in Hs. inv_ok Hs.
  match goal with H : connect _ _ = Ok _ |- _ => apply connect_eix in H as E1 end. match goal with H : all_add _ _ = Ok _ |- _ => apply all_add_eix in H as E2 end.
  destruct (ixs_add_st _ _ _) as [eix b] eqn:E in Hs. injection Hs as <- ->. rewrite E1, E2 in E. cbn in E. destruct (run_handles _ _ Hr) as [_ HF].
  destruct (add_refused po (g_next g) p _ _ Hp HF E) as (k & ix & ix' & Hk & Ei & Ei' & Hm). exists k. split; [done|]. split; [by exists ix|]. split.
  - intros (vals & els & fresh & Eh) rest g'' Hrest. rewrite Ei in Eh. injection Eh as ->. apply calls_move in Hrest as [_ R]. specialize (R k). cbn in R. rewrite Ei' in R.
    destruct R as (ix'' & E'' & R). exists (ix_values ix'').1. unfold get_edges_with_property. rewrite E''. split; [done|]. apply stale_values. by eapply moves_stale.
  - intros Hno. destruct ix as [t|vals els fresh]; [|exfalso; apply Hno; by eexists _, _, _]. subst ix'. unfold get_edges_with_property. cbn. by rewrite Ei, Ei'.
Qed.
