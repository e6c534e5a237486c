(** Pattern matching: a run whose last step may panic, from one whose last step records the panic. *)
From Verif Require Import Base Value Graph GraphSpec Sizes Path PathSpec ItrSpec VPath Pattern PatternRunProofs.

Section sim.
  Variables (T : Type) (g : graph) (syms : symbols) (pat : list pitem) (eord : nat -> nat -> list string).
  Notation real := (mstate T).
  Notation total := (mstate (res T)).
  Definition raise (m : real) : total := MS (m_local m) (m_vnode m) (m_res m) (m_calls m) (Ok (m_acc m)).
  Definition set_acc {A B} (b : B) (m : mstate A) : mstate B := MS (m_local m) (m_vnode m) (m_res m) (m_calls m) b.
  Definition lower (M : total) : res (option string * real) :=
    match m_acc M with Ok t => Ok (None, set_acc t M) | Panic => Panic | Diverge => Diverge end.
  Definition bad (M : total) : Prop := forall t, m_acc M <> Ok t.
  Record sim (f : real -> res (option string * real)) (F : total -> res (option string * total)) : Prop := Sim {
    sim_live : forall m M', F (raise m) = Ok (None, M') -> f m = lower M';
    sim_bad : forall M M', bad M -> F M = Ok (None, M') -> m_acc M' = m_acc M }.

  Lemma live_or_bad (M : total) : (exists m, M = raise m) \/ bad M.
  Proof.
    destruct M as [a b c d [t| |]]; [left; by exists (MS a b c d t)|right|right]; by intros ?.
  Qed.
  Lemma lower_raise m : lower (raise m) = Ok (None, m).
  Proof. by destruct m. Qed.
  Lemma lower_bad M M' : bad M -> m_acc M' = m_acc M -> lower M' = lower M.
  Proof. intros H E. unfold lower. rewrite E. destruct (m_acc M) as [t| |] eqn:E2; [|done|done]. by destruct (H t). Qed.
  Lemma lower_bad_not M o : bad M -> lower M <> Ok o.
  Proof. intros H. unfold lower. destruct (m_acc M) as [t| |] eqn:E; [|done|done]. by destruct (H t). Qed.

  Section step.
    Variables (f : real -> res (option string * real)) (F : total -> res (option string * total)).
    Hypothesis Hsim : sim f F.

    Lemma visit_all_sim i rs : sim (visit_all T syms pat i f rs) (visit_all (res T) syms pat i F rs).
    Proof.
      induction rs as [|r rs [IH1 IH2]].
      { split; cbn [visit_all]; [intros m M' [= <-]; by rewrite lower_raise|by intros M M' _ [= <-]]. }
      split; cbn [visit_all].
      - intros m M' H. destruct (F (enter (res T) syms pat i r (raise m))) as [[[e|] M1]| |] eqn:E1; try done. cbn [rbind fst snd] in H.
        change (enter (res T) syms pat i r (raise m)) with (raise (enter T syms pat i r m)) in E1. apply Hsim in E1. rewrite E1.
        destruct (live_or_bad M1) as [[m1 ->]|Hb].
        + rewrite lower_raise. cbn [rbind fst snd]. apply (IH1 (leave T syms pat i m1) M' H).
        + assert (m_acc M' = m_acc M1) as E by (apply (IH2 (leave (res T) syms pat i M1) M'); [exact Hb|exact H]).
          rewrite (lower_bad M1 M') by done. destruct (lower M1) eqn:El; [by apply lower_bad_not in El|done|done].
      - intros M M' Hb H. destruct (F (enter (res T) syms pat i r M)) as [[[e|] M1]| |] eqn:E1; try done. cbn [rbind fst snd] in H.
        pose proof (sim_bad _ _ Hsim (enter (res T) syms pat i r M) M1 Hb E1) as E. cbn [m_acc enter] in E.
        rewrite <- E. apply (IH2 (leave (res T) syms pat i M1) M'); [intros t; cbn [leave m_acc]; rewrite E; apply Hb|exact H].
    Qed.

    (** CollectAllPaths with the accumulator of a step *)
    Section collect.
      Variables (n : nat) (filt : nat -> bool) (d : dir) (min max : Z) (i : nat).
      Notation accR := (visit_path T g syms pat i f).
      Notation accT := (visit_path (res T) g syms pat i F).
      Notation outR := (res (option string * real)).
      Notation outT := (res (option string * total)).
      (** the state [A'] after one with [M]; what the other run then gives *)
      Definition runs_on (M : total) (B : bool) (A' : outT) (o : real -> res (bool * outR)) : Prop :=
        (B = false /\ forall M', A' <> Ok (None, M')) \/
        (B = true /\ exists M', A' = Ok (None, M') /\ (bad M -> m_acc M' = m_acc M) /\
           forall m, M = raise m ->
             o m = Ok (match lower M' with Ok _ => true | _ => false end, lower M')).

      Lemma visit_path_runs p M : runs_on M (accT p (Ok (None, M))).1 (accT p (Ok (None, M))).2 (fun m => Ok (accR p (Ok (None, m)))).
      Proof.
        unfold visit_path. cbn [rbind fst snd].
        set (M0 := with_vnode (res T) _ (enter (res T) syms pat i (RPath p) M)).
        destruct (F M0) as [[[e|] M1]| |] eqn:E1; cbn [rbind fst snd]; [by left|right|by left|by left].
        split; [done|]. eexists. split; [done|]. split.
        - intros Hb. cbn [leave with_vnode m_acc]. apply (sim_bad _ _ Hsim M0 M1 Hb E1).
        - intros m ->. apply (sim_live _ _ Hsim (with_vnode T (path_last (edge_from g) (edge_to g) p) (enter T syms pat i (RPath p) m)) M1) in E1. rewrite E1.
          unfold lower. cbn [leave with_vnode m_acc m_local m_vnode m_res m_calls]. destruct (m_acc M1); done.
      Qed.
      Lemma runs_on_next (M : total) B A' B2 (k2 : outT -> res (bool * outT)) (o : real -> res (bool * outR)) k A'' :
        runs_on M B A' o ->
        (forall M', k2 (Ok (None, M')) = Ok (B2, A'') -> runs_on M' B2 A'' (fun m => k (Ok (None, m)))) ->
        (if B then k2 A' else Ok (false, A')) = Ok (B2, A'') ->
        runs_on M B2 A'' (fun m => let! b := o m in if b.1 : bool then k b.2 else Ok (false, b.2)).
      Proof.
        intros [[-> Hno]|(-> & M' & -> & Hb & Ho)] Hk H.
        - injection H as <- <-. by left.
        - destruct (Hk M' H) as [?|(-> & M2 & -> & Hb2 & Ho2)]; [by left|]. right. split; [done|].
          exists M2. split; [done|].
          assert (bad M' -> m_acc M2 = m_acc M') as Hb2' by done. split.
          + intros HbM. specialize (Hb HbM). rewrite <- Hb. apply Hb2. intros t. rewrite Hb. apply HbM.
          + intros m Hm. rewrite (Ho m Hm). cbn [rbind fst snd]. destruct (live_or_bad M') as [[m' ->]|Hbad].
            * rewrite lower_raise. cbn [rbind]. by apply Ho2.
            * rewrite (lower_bad M' M2) by auto. destruct (lower M') eqn:El; [by apply lower_bad_not in El|done|done].
      Qed.
      Lemma recurse_runs k : forall p M B A', vp_recurse _ g filt d min max accT k p (Ok (None, M)) = Ok (B, A') ->
        runs_on M B A' (fun m => vp_recurse _ g filt d min max accR k p (Ok (None, m))).
      Proof.
        induction k as [|k IH]; intros p M B A' H; [done|]. cbn [vp_recurse] in H |- *.
        set (bT := if in_bounds min max p then accT (path_clone p) (Ok (None, M)) else (true, Ok (None, M))) in *.
        assert (runs_on M bT.1 bT.2 (fun m => Ok (if in_bounds min max p then accR (path_clone p) (Ok (None, m)) else (true, Ok (None, m))))) as Hb.
        { unfold bT. destruct (in_bounds min max p); [apply visit_path_runs|]. right. split; [done|]. exists M. split; [done|].
          split; [done|]. intros m ->. by rewrite lower_raise. }
        set (kT := fun t : outT => if decide (max <> -1 /\ num_path_edges p >= max)%Z then Ok (true, t)
          else match path_last (edge_from g) (edge_to g) p with None => Panic | Some n =>
            let! es := node_edges g n d in vp_loop _ g (vp_recurse _ g filt d min max accT k) p n (firsts [] (filter (fun e => filt e = true) es)) t end).
        set (kR := fun t : outR => if decide (max <> -1 /\ num_path_edges p >= max)%Z then Ok (true, t)
          else match path_last (edge_from g) (edge_to g) p with None => Panic | Some n =>
            let! es := node_edges g n d in vp_loop _ g (vp_recurse _ g filt d min max accR k) p n (firsts [] (filter (fun e => filt e = true) es)) t end).
        apply (runs_on_next M bT.1 bT.2 B kT (fun m => Ok (if in_bounds min max p then accR (path_clone p) (Ok (None, m)) else (true, Ok (None, m)))) kR A' Hb); [|exact H].
        intros M' E. unfold kT in E. unfold kR. destruct (decide _).
        { injection E as <- <-. right. split; [done|]. exists M'. split; [done|]. split; [done|]. intros m ->. by rewrite lower_raise. }
        destruct (path_last _ _ p) as [n'|]; [|done]. destruct (node_edges g n' d) as [es| |]; [|done|done]. cbn [rbind] in E |- *.
        revert M' E. generalize (firsts [] (filter (fun e => filt e = true) es)). intros l. clear - IH.
        induction l as [|e l IHl]; intros M' E; cbn [vp_loop] in E |- *.
        { injection E as <- <-. right. split; [done|]. exists M'. split; [done|]. split; [done|]. intros m ->. by rewrite lower_raise. }
        destruct (is_loop p _); [by apply IHl|].
        destruct (path_append _ _ _ _) as [q| |]; [|done|done]. cbn [rbind] in E |- *.
        destruct (vp_recurse _ g filt d min max accT k q (Ok (None, M'))) as [[B1 A1]| |] eqn:E1; [|done|done]. cbn [rbind fst snd] in E.
        apply IH in E1.
        apply (runs_on_next M' B1 A1 B (fun t => vp_loop _ g (vp_recurse _ g filt d min max accT k) p n' l t)
          (fun m => vp_recurse _ g filt d min max accR k q (Ok (None, m))) (fun t => vp_loop _ g (vp_recurse _ g filt d min max accR k) p n' l t) A' E1); [|exact E].
        exact IHl.
      Qed.
      Lemma collect_sim k leg M M' : collect_all_paths _ g n filt d min max accT k leg (Ok (None, M)) = Ok (Ok (None, M')) ->
        (bad M -> m_acc M' = m_acc M) /\
        forall m, M = raise m -> collect_all_paths _ g n filt d min max accR k leg (Ok (None, m)) = Ok (lower M').
      Proof.
        unfold collect_all_paths. generalize (firsts [] leg). intros l. clear leg. revert M.
        induction l as [|e l IHl]; intros M H; cbn [vp_first] in H |- *.
        { injection H as ->. split; [done|]. intros m ->. by rewrite lower_raise. }
        destruct (vp_recurse _ g filt d min max accT k _ (Ok (None, M))) as [[B1 A1]| |] eqn:E1; [|done|done]. cbn [rbind fst snd] in H.
        apply recurse_runs in E1 as [[-> Hno]|(-> & M1 & -> & Hb & Ho)]; [injection H as ->; by destruct (Hno M')|].
        destruct (IHl M1 H) as [Hb1 Ho1]. split.
        - intros HbM. specialize (Hb HbM). rewrite <- Hb. apply Hb1. intros t. rewrite Hb. apply HbM.
        - intros m Hm. rewrite (Ho m Hm). cbn [rbind fst snd]. destruct (live_or_bad M1) as [[m1 ->]|Hbad].
          + rewrite lower_raise. by apply Ho1.
          + rewrite (lower_bad M1 M') by auto. destruct (lower M1) eqn:El; [by apply lower_bad_not in El|done|done].
      Qed.
    End collect.

    Lemma run_step_sim st : sim (run_step T g syms pat eord st f) (run_step (res T) g syms pat eord st F).
    Proof.
      destruct st as [i xs|i xs|i src d|i src u prev]; unfold run_step.
      - split.
        + intros m M'. cbn [raise m_local]. destruct (constrained syms (m_local m) (item pat i)) as [c|]; [|done]. apply visit_all_sim.
        + intros M M' Hb. destruct (constrained syms (m_local M) (item pat i)) as [c|]; [|done]. by apply visit_all_sim.
      - apply visit_all_sim.
      - split.
        + intros m M'. cbn [raise m_res m_calls]. destruct (m_res m !! src) as [[x|p]|]; [|done|done].
          destruct (node_edges_any _ _ _ _ _) as [es| |]; [|done|done]. cbn [rbind]. destruct (decide _).
          * apply (sim_live _ _ (visit_all_sim _ _) (called T 2 m)).
          * destruct (collect_all_paths (res (option string * total)) _ _ _ _ _ _ _ _ _ _) as [r| |] eqn:E; [|done|done]. cbn [rbind]. intros ->.
            apply collect_sim in E as [_ E]. by rewrite (E (called T 2 m) eq_refl).
        + intros M M' Hb. destruct (m_res M !! src) as [[x|p]|]; [|done|done].
          destruct (node_edges_any _ _ _ _ _) as [es| |]; [|done|done]. cbn [rbind]. destruct (decide _).
          * apply (sim_bad _ _ (visit_all_sim _ _) (called (res T) 2 M)). exact Hb.
          * destruct (collect_all_paths (res (option string * total)) _ _ _ _ _ _ _ _ _ _) as [r| |] eqn:E; [|done|done]. cbn [rbind]. intros ->.
            apply collect_sim in E as [E _]. by apply E.
      - split.
        + intros m M'. cbn [raise m_res m_vnode m_local]. destruct (m_res m !! src) as [[x|p]|]; [done| |done].
          destruct (path_get_edge _ _) as [eo| |]; [|done|done]. cbn [rbind].
          match goal with |- rbind ?A _ = _ -> _ => destruct A as [n| |]; [|done|done] end. cbn [rbind].
          destruct (item_nodes _ _ _); [|intros [= <-]; by rewrite lower_raise].
          destruct (constrained _ _ _) as [c|]; [|done].
          destruct (match c with None => true | Some ns => bool_decide (n ∈ ns) end); [|intros [= <-]; by rewrite lower_raise].
          destruct (F _) as [[[e|] M1]| |] eqn:E; cbn [rbind fst snd]; try done. intros [= <-].
          apply (sim_live _ _ Hsim (enter T syms pat i (RNode n) (with_vnode T None m)) M1) in E. rewrite E. unfold lower.
          destruct (m_vnode m); cbn [with_vnode leave m_acc m_local m_vnode m_res m_calls]; destruct (m_acc M1); done.
        + intros M M' Hb. destruct (m_res M !! src) as [[x|p]|]; [done| |done].
          destruct (path_get_edge _ _) as [eo| |]; [|done|done]. cbn [rbind].
          match goal with |- rbind ?A _ = _ -> _ => destruct A as [n| |]; [|done|done] end. cbn [rbind].
          destruct (item_nodes _ _ _); [|by intros [= <-]].
          destruct (constrained _ _ _) as [c|]; [|done].
          destruct (match c with None => true | Some ns => bool_decide (n ∈ ns) end); [|by intros [= <-]].
          destruct (F _) as [[[e|] M1]| |] eqn:E; cbn [rbind fst snd]; try done. intros [= <-].
          apply (sim_bad _ _ Hsim (enter (res T) syms pat i (RNode n) (with_vnode (res T) None M)) M1 Hb) in E. cbn in E.
          destruct (m_vnode M); exact E.
    Qed.
  End step.

  Variables (store : path -> gmap string sres -> T -> T) (pl : plan).
  Definition record_panic (R : gmap nat sres) (t : res T) : res T :=
    let! t := t in let! p := current_path g pl R in Ok (store p (capture pat pl R) t).
  Lemma run_steps_sim sts : sim (run_steps T g syms pat eord store pl sts) (run_total g syms pat eord (res T) record_panic sts).
  Proof.
    induction sts as [|st sts IH]; [|by apply run_step_sim]. cbn [run_steps run_total]. split.
    - intros m M' [= <-]. unfold lower, record_panic. cbn. destruct (current_path g pl (m_res m)); done.
    - intros M M' Hb [= <-]. cbn. unfold record_panic. destruct (m_acc M) as [t| |] eqn:E; [|done|done]. by destruct (Hb t).
  Qed.
End sim.
