(** Proofs for C62: a loop whose label set is emptied on the way. *)
From Verif Require Import Base Assoc Value FastSet Links EdgeMap NodeMap Index Graph GraphSpec CoreProofs CoreStep NodeMapProofs LabelProofs ItrLive ItrLiveSpec SetLive.

Section loop.
  Context (src : graph -> option (list (nat * nat))) (P : graph -> nat -> bool) (body : list nat -> list op).
  Lemma src_false os : forall g s, rfold (src_step src) os (g, false) = Ok s -> s.2 = false.
  Proof.
    induction os as [|o os IH]; intros g s H; cbn [rfold] in H; [by injection H as <-|]. inv_ok H. unfold src_step in Ha. inv_ok Ha. injection Ha as <-. cbn in H. by eapply IH.
  Qed.
  Lemma src_step_run os : forall g b s, rfold (src_step src) os (g, b) = Ok s -> rfold step os g = Ok s.1.
  Proof.
    induction os as [|o os IH]; intros g b s H; cbn [rfold] in H |- *; [by injection H as <-|]. inv_ok H. unfold src_step in Ha. inv_ok Ha. injection Ha as <-. cbn in Ha0.
    rewrite Ha0. cbn [rbind]. by eapply IH.
  Qed.
  Lemma src_gone c1 : forall c2 g b s g1, rfold (src_step src) (c1 ++ c2) (g, b) = Ok s -> rfold step c1 g = Ok g1 -> c1 <> [] \/ b = false -> src g1 = None -> s.2 = false.
  Proof.
    induction c1 as [|o c1 IH]; intros c2 g b s g1 H H1 Hne Hg1.
    { destruct Hne as [?| ->]; [done|]. by eapply src_false. }
    cbn [app rfold] in H. cbn [rfold] in H1. inv_ok H. inv_ok H1. unfold src_step in Ha. inv_ok Ha. injection Ha as <-. cbn in Ha1.
    assert (a1 = a0) as -> by congruence. destruct (decide (c1 = [])) as [-> |Hc].
    - cbn in H1. injection H1 as ->. rewrite Hg1, andb_false_r in H. by eapply src_false.
    - eapply IH; [exact H|exact H1|by left|done].
  Qed.
  Lemma loop_grows f : forall g b next vis vis' g', s_loop src P body f g b next vis = Ok (vis', g') -> exists t, vis' = vis ++ t.
  Proof.
    induction f as [|f IH]; intros g b next vis vis' g' H; cbn [s_loop] in H; [done|]. destruct (l_next _ _).1 as [x|].
    - inv_ok H. destruct (IH _ _ _ _ _ _ H) as [t ->]. exists (x :: t). by rewrite <-app_assoc.
    - injection H as <- _. exists []. by rewrite app_nil_r.
  Qed.
  Lemma loop_gone f g next vis vis' g' : s_loop src P body f g false next vis = Ok (vis', g') -> length vis' <= S (length vis).
  Proof.
    destruct f as [|f]; cbn [s_loop]; [done|]. destruct next as [p|]; cbn; [|intros [= <- _]; lia]. destruct (P g p.2); cbn; [|intros [= <- _]; lia].
    intros H. inv_ok H. apply src_false in Ha. rewrite Ha in H. destruct f as [|f]; cbn in H; [done|]. injection H as <- _. rewrite app_length. cbn. lia.
  Qed.
  Lemma loop_ends f : forall g b next vis vis' g' d x r c1 c2 g1, s_loop src P body f g b next vis = Ok (vis', g') -> vis' = vis ++ d ++ x :: r ->
    body (vis ++ d ++ [x]) = c1 ++ c2 -> c1 <> [] -> rfold step (loop_calls body vis d ++ c1) g = Ok g1 -> src g1 = None -> length r <= 1.
  Proof.
    induction f as [|f IH]; intros g b next vis vis' g' d x r c1 c2 g1 H -> Hb Hc Hrun Hg; cbn [s_loop] in H; [done|].
    destruct (l_next _ _).1 as [y|] eqn:Ey.
    2: { injection H as H _. apply (f_equal length) in H. rewrite !app_length in H. cbn in H. lia. }
    inv_ok H. destruct (loop_grows _ _ _ _ _ _ _ H) as [t Et]. rewrite <-app_assoc in Et. apply app_inv_head in Et. destruct d as [|z d]; cbn in Et.
    - injection Et as <- <-. cbn [loop_calls app] in Hrun, Hb. rewrite Hb in Ha. assert (a.2 = false) as E by (eapply src_gone; [exact Ha|exact Hrun|by left|done]).
      rewrite E in H. apply loop_gone in H. rewrite !app_length in H. cbn in H. lia.
    - injection Et as <- Et. cbn [loop_calls] in Hrun. rewrite <-app_assoc, rfold_app in Hrun.
      pose proof (src_step_run _ _ _ _ Ha) as Hs. rewrite Hs in Hrun. cbn [rbind] in Hrun.
      eapply (IH a.1 a.2 _ (vis ++ [z]) _ _ d x r c1 c2 g1 H); [by rewrite <-app_assoc| |done|done|done]. by rewrite <-app_assoc.
  Qed.
End loop.

Lemma labels_loop_ends ops g l body k vis x r g' c1 c2 g1 m :
  run ops = Ok g -> labels_loop k body g {[l]} [l] = Ok (vis ++ x :: r, g') -> body (vis ++ [x]) = c1 ++ c2 -> c1 <> [] ->
  valid_history (ops ++ loop_calls body [] vis ++ c1) -> run (ops ++ loop_calls body [] vis ++ c1) = Ok g1 ->
  get_nodes_all_labels g1 {[l]} [l] = Ok (m, 0%Z) -> length r <= 1.
Proof.
  intros Hr Hl Hb Hc Hv Hr1 Hq. unfold labels_loop in Hl. cbn [nm_min_label] in Hl. destruct (bk_get (nm_m (g_lab g)) l) as [s|] eqn:E.
  2: { injection Hl as Hl _. by destruct vis. }
  cbn in Hl. destruct (lab_inv_run _ _ Hv Hr1) as [[_ Hwf] _].
  assert (lab_els l g1 = None) as Hg1.
  { unfold lab_els. destruct (bk_get (nm_m (g_lab g1)) l) as [s1|] eqn:E1; [|done]. exfalso. destruct (Hwf _ _ E1) as (xs & Hrep & Hne).
    unfold get_nodes_all_labels, nm_iter_all in Hq. cbn [nm_min] in Hq. rewrite E1 in Hq. cbn in Hq. injection Hq as _ Hq. rewrite (ns_size _ _ Hrep) in Hq. destruct xs; [done|]. cbn in Hq. lia. }
  unfold run in Hr, Hr1. rewrite rfold_app, Hr in Hr1. cbn [rbind] in Hr1.
  eapply (loop_ends _ _ _ _ _ _ _ [] _ _ vis x r c1 c2 g1 Hl); done.
Qed.
