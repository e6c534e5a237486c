(** Proofs about CollectAllPaths. *)
From Verif Require Import Base Graph GraphSpec CoreProofs CoreStep AdjProofs Sizes Path PathSpec PathProofs
  ItrSpec ItrProofs VPath VPathSpec.

Lemma feed_app {T} (acc : path -> T -> bool * T) xs ys t :
  feed acc (xs ++ ys) t = if (feed acc xs t).1 then feed acc ys (feed acc xs t).2 else feed acc xs t.
Proof.
  revert t. induction xs as [|x xs IH]; intros t; simpl; [done|].
  destruct (acc x t) as [[] t'] eqn:E; simpl; [apply IH|done].
Qed.

Section graph.
  Context (g : graph) (s : sgraph) (Hc : core g s).
  Notation from := (edge_from g).
  Notation to := (edge_to g).

  Lemma edge_ends e ed : s_edges s !! e = Some ed -> from e = e_from ed /\ to e = e_to ed.
  Proof. intros H. destruct (core_edge _ _ _ _ Hc H) as (H' & _). unfold edge_from, edge_to. by rewrite H'. Qed.
  Lemma node_edges_at n d : live_node s n ->
    exists xs, node_edges g n d = Ok xs /\ forall e, e ∈ xs <-> at_node s n d e.
  Proof.
    intros Hn. destruct (node_edges_both g s Hc n Hn) as (i & o & Hi & Ho & Hio & [_ Li] & [_ Lo]). destruct d.
    - eauto.
    - exists (i ++ o). split; [done|]. intros e. rewrite elem_of_app, Li, Lo. done.
    - eauto.
  Qed.
  Lemma follows_at d a x b : follows s d a x b ->
    at_node s a d (pe_edge x) /\ x = pe_at_node g a (pe_edge x) /\ b = pe_tgt from to x /\ a = pe_src from to x /\ live_node s b.
  Proof.
    destruct x as [e rev]. intros (ed & Hed & H). simpl in *. destruct (edge_ends _ _ Hed) as [Hf Ht].
    destruct (core_edge _ _ _ _ Hc Hed) as (_ & Lf & Lt & _).
    unfold pe_tgt, pe_src, pe_at_node. cbn [pe_edge pe_rev]. rewrite Hf, Ht. destruct rev.
    - destruct H as (<- & <- & Hne & Hd). split.
      { destruct d; simpl; [|left|done]; eexists; done. }
      split; [|done]. f_equal. symmetry. apply bool_decide_eq_true. done.
    - destruct H as (<- & <- & Hd). split.
      { destruct d; simpl; [|right|]; eexists; (split; [done|]); try done. symmetry. by apply Hd. }
      split; [|done]. f_equal. symmetry. apply bool_decide_eq_false. intros [? ?]. congruence.
  Qed.
  Lemma at_follows d a e : at_node s a d e -> follows s d a (pe_at_node g a e) (pe_tgt from to (pe_at_node g a e)).
  Proof.
    intros H. assert (exists ed, s_edges s !! e = Some ed /\ (e_to ed = a /\ d <> Outgoing \/ e_from ed = a /\ d <> Incoming)) as (ed & Hed & Hx).
    { destruct d; simpl in H; unfold is_in, is_out in H; naive_solver. }
    destruct (edge_ends _ _ Hed) as [Hf Ht]. exists ed. split; [done|].
    unfold pe_tgt, pe_at_node. cbn [pe_edge pe_rev]. rewrite Hf, Ht. case_bool_decide as Hb.
    - destruct Hb as [Hne Ha]. destruct Hx as [[_ Hd]|[Hx _]]; [|congruence]. split_and!; congruence.
    - destruct (decide (e_from ed = e_to ed)) as [E|E].
      + split; [|split; [done|]]; destruct Hx as [[? _]|[? _]]; congruence.
      + destruct Hx as [[? _]|[? Hd]]; [exfalso; by apply Hb|]. by split_and!.
  Qed.

  Section bounds.
    Context (filt : nat -> bool) (d : dir) (min max : Z).
    (** the full enumeration *)
    Definition adj (n : nat) : list nat := match node_edges g n d with Ok es => es | _ => [] end.
    Definition next_edges (n : nat) : list nat := firsts [] (filter (fun e => filt e = true) (adj n)).
    Fixpoint enum (k : nat) (l : list pelem) : list path :=
      match k with
      | O => []
      | S k =>
          (if in_bounds min max (Path None l) then [Path None l] else []) ++
          (if decide (max <> -1 /\ num_path_edges (Path None l) >= max)%Z then []
           else let n := end_of from to 0 l in
                concat (map (fun e => if is_loop (Path None l) (pe_at_node g n e) then [] else enum k (l ++ [pe_at_node g n e]))
                  (next_edges n)))
      end.
    (** partial paths of the recursion *)
    Definition good (l : list pelem) : Prop :=
      l <> [] /\ NoDup (map pe_edge l) /\ (forall x, x ∈ l -> live_edge s (pe_edge x)) /\
      live_node s (end_of from to 0 l) /\ exists a ss, takes from to a l ss.
    Lemma next_edges_in n e : live_node s n -> e ∈ next_edges n <-> at_node s n d e /\ filt e = true.
    Proof.
      intros Hn. destruct (node_edges_at n d Hn) as (xs & Hxs & Hin). unfold next_edges, adj. rewrite Hxs.
      rewrite firsts_in, elem_of_list_filter, Hin. set_solver.
    Qed.
    Lemma end_of_snoc a l x : end_of from to a (l ++ [x]) = pe_tgt from to x.
    Proof. unfold end_of. by rewrite last_snoc. Qed.
    Lemma good_snoc l e : good l -> at_node s (end_of from to 0 l) d e ->
      pe_edge (pe_at_node g (end_of from to 0 l) e) ∉ map pe_edge l ->
      good (l ++ [pe_at_node g (end_of from to 0 l) e]).
    Proof.
      intros (Hn & Hd & Hl & Hlv & a & ss & Ht) He Hnl. pose proof (at_follows _ _ _ He) as Hf.
      destruct (follows_at _ _ _ _ Hf) as (_ & _ & _ & Hsrc & Hlive). split_and!.
      - by destruct l.
      - rewrite map_app. apply NoDup_app. split; [done|]. split; [|apply NoDup_singleton].
        intros y Hy. simpl. intros ->%elem_of_list_singleton. done.
      - intros x [Hx| ->%elem_of_list_singleton]%elem_of_app; [by apply Hl|]. destruct Hf as (ed & Hed & _). by eexists.
      - by rewrite end_of_snoc.
      - exists a. eexists. apply (takes_app from to a l ss _ Ht). eexists. split; [done|].
        assert (end_of from to a l = end_of from to 0 l) as ->.
        { unfold end_of. destruct (last l) eqn:E; [done|]. by apply last_None in E. }
        rewrite Hsrc at 1. apply takes_cons'. constructor.
    Qed.
    Lemma good_length l : good l -> length l <= size (s_edges s).
    Proof.
      intros (_ & Hd & Hl & _). rewrite <-(map_length pe_edge). rewrite <-(size_list_to_set (C := gset nat)) by done.
      rewrite <-(size_dom (D := gset nat)). apply subseteq_size. intros e He. apply elem_of_list_to_set in He.
      apply elem_of_list_fmap in He as (x & -> & Hx). apply elem_of_dom. by apply Hl.
    Qed.
    Lemma good_append l e : good l -> at_node s (end_of from to 0 l) d e ->
      path_append from to (path_clone (Path None l)) [pe_at_node g (end_of from to 0 l) e]
      = Ok (Path None (l ++ [pe_at_node g (end_of from to 0 l) e])).
    Proof.
      intros (Hn & _ & _ & _ & _) He. pose proof (at_follows _ _ _ He) as Hf.
      destruct (follows_at _ _ _ _ Hf) as (_ & _ & _ & Hsrc & _).
      unfold path_append, path_clone. rewrite decide_False by done. cbn [p_only p_path].
      rewrite decide_False. 2:{ unfold num_path_nodes, num_path_edges. cbn [p_only p_path]. destruct l; [done|]. cbn [length]. case_decide; lia. }
      unfold path_last. cbn [p_only p_path]. destruct (last l) as [y|] eqn:E; [|by apply last_None in E].
      cbn [fmap option_fmap option_map]. assert (end_of from to 0 l = pe_tgt from to y) as Hend by (unfold end_of; by rewrite E).
      cbn [links_up]. rewrite decide_True; [done|]. by rewrite <-Hsrc, Hend.
    Qed.
    Lemma path_last_end l : good l -> path_last from to (Path None l) = Some (end_of from to 0 l).
    Proof. intros (Hn & _). unfold path_last, end_of. simpl. destruct (last l) eqn:E; [done|]. by apply last_None in E. Qed.

    Section acc.
      Context {T : Type} (acc : path -> T -> bool * T).
      Lemma recurse_enum k l t : good l -> size (s_edges s) < k + length l ->
        vp_recurse T g filt d min max acc k (Path None l) t = Ok (feed acc (enum k l) t).
      Proof.
        revert l t. induction k as [|k IH]; intros l t Hg Hk.
        { apply good_length in Hg. simpl in Hk. lia. }
        cbn [vp_recurse enum]. rewrite feed_app. unfold path_clone. cbn [p_only p_path].
        assert (Hb : (if in_bounds min max (Path None l) then acc (Path None l) t else (true, t))
          = feed acc (if in_bounds min max (Path None l) then [Path None l] else []) t).
        { destruct (in_bounds min max (Path None l)); [|done]. simpl. by destruct (acc (Path None l) t) as [[] ?]. }
        rewrite Hb. set (b := feed acc (if in_bounds min max (Path None l) then [Path None l] else []) t).
        destruct b as [[] t1]; cbn [fst snd]; [|done].
        case_decide as Hmax; [done|]. rewrite (path_last_end _ Hg).
        pose proof Hg as (_ & _ & _ & Hlv & _).
        assert (Hn : forall e, e ∈ next_edges (end_of from to 0 l) -> at_node s (end_of from to 0 l) d e).
        { intros e He. by apply next_edges_in in He as [? _]. }
        destruct (node_edges_at _ d Hlv) as (xs & Hxs & _). rewrite Hxs. cbn [rbind].
        assert (firsts [] (filter (fun e => filt e = true) xs) = next_edges (end_of from to 0 l)) as ->.
        { unfold next_edges, adj. by rewrite Hxs. }
        set (n := end_of from to 0 l) in *. revert t1 Hn. generalize (next_edges n). intros es.
        induction es as [|e es IHe]; intros t1 Hn; cbn [vp_loop map concat feed]; [done|].
        assert (Hes : forall e', e' ∈ es -> at_node s n d e') by (intros; apply Hn; by right).
        destruct (is_loop (Path None l) (pe_at_node g n e)) eqn:Hl; [by apply IHe|].
        pose proof (Hn e (elem_of_list_here _ _)) as He.
        pose proof (good_append l e Hg He) as Happ. fold n in Happ.
        change (path_clone (Path None l)) with (Path None l) in Happ. change (path_clone (Path None l)) with (Path None l). rewrite Happ. cbn [rbind].
        rewrite IH; [|apply good_snoc; [done|done|]|rewrite app_length; simpl; lia].
        2:{ unfold is_loop in Hl. apply bool_decide_eq_false in Hl. done. }
        cbn [rbind]. rewrite feed_app.
        destruct (feed acc (enum k (l ++ [pe_at_node g n e])) t1) as [[] t2]; cbn [fst snd]; [|done].
        by apply IHe.
      Qed.
    End acc.

    (** ** what the enumeration contains *)
    Lemma in_bounds_spec p : in_bounds min max p = true <->
      (min = -1 \/ num_path_edges p >= min)%Z /\ (max = -1 \/ num_path_edges p <= max)%Z.
    Proof. unfold in_bounds. by rewrite bool_decide_eq_true. Qed.
    Lemma continues_cons_inv a x l : continues s d filt a (x :: l) ->
      exists b, follows s d a x b /\ filt (pe_edge x) = true /\ continues s d filt b l.
    Proof. inversion 1; subst. eauto. Qed.
    Lemma enum_in k l p : good l -> size (s_edges s) < k + length l ->
      p ∈ enum k l <-> exists r, p = Path None (l ++ r) /\ continues s d filt (end_of from to 0 l) r /\
        NoDup (map pe_edge (l ++ r)) /\ in_bounds min max p = true.
    Proof.
      revert l. induction k as [|k IH]; intros l Hg Hk.
      { apply good_length in Hg. simpl in Hk. lia. }
      pose proof Hg as (_ & Hnd & _ & Hlv & _).
      cbn [enum]. rewrite elem_of_app. set (n := end_of from to 0 l) in *. split.
      - intros [H|H].
        + destruct (in_bounds min max (Path None l)) eqn:Hb; [|by apply elem_of_nil in H].
          apply elem_of_list_singleton in H as ->. exists []. rewrite app_nil_r. split_and!; try done. constructor.
        + case_decide as Hmax; [by apply elem_of_nil in H|].
          apply elem_of_list_In, in_concat in H as (ps & Hps & Hp%elem_of_list_In).
          apply elem_of_list_In, elem_of_list_fmap in Hps as (e & -> & He).
          apply (next_edges_in n e Hlv) in He as [He Hfe].
          destruct (is_loop _ _) eqn:Hl; [by apply elem_of_nil in Hp|].
          unfold is_loop in Hl. apply bool_decide_eq_false in Hl.
          apply IH in Hp as (r & -> & Hr & Hnd' & Hb); [|by apply good_snoc|rewrite app_length; simpl; lia].
          exists (pe_at_node g n e :: r). rewrite <-app_assoc in *. simpl in *. split_and!; try done.
          econstructor; [by apply at_follows|done|]. by rewrite end_of_snoc in Hr.
      - intros (r & -> & Hr & Hnd' & Hb). destruct r as [|x r].
        + left. rewrite app_nil_r in *. rewrite Hb. by apply elem_of_list_singleton.
        + right. apply continues_cons_inv in Hr as (b & Hf & Hfe & Hr).
          apply in_bounds_spec in Hb as Hb'. unfold num_path_edges in Hb'. cbn [p_path] in Hb'. rewrite app_length in Hb'. simpl in Hb'.
          rewrite decide_False.
          2:{ unfold num_path_edges. cbn [p_path]. lia. }
          destruct (follows_at _ _ _ _ Hf) as (Hat & Hx & -> & _ & _).
          assert (Hnl : pe_edge x ∉ map pe_edge l).
          { rewrite map_app in Hnd'. apply NoDup_app in Hnd' as (_ & Hdis & _). intros Hin. apply (Hdis _ Hin). simpl. left. }
          apply elem_of_list_In, in_concat. exists (enum k (l ++ [x])). split.
          * apply elem_of_list_In, elem_of_list_fmap. exists (pe_edge x). cbv beta zeta. split.
            { rewrite <-Hx. rewrite (bool_decide_eq_false_2 _ Hnl : is_loop (Path None l) x = false). done. }
            by apply next_edges_in.
          * apply elem_of_list_In. apply IH.
            -- pose proof (good_snoc l (pe_edge x) Hg Hat) as Hgs. fold n in Hgs. rewrite <-Hx in Hgs. by apply Hgs.
            -- rewrite app_length. simpl. lia.
            -- exists r. rewrite <-app_assoc, end_of_snoc. simpl. done.
    Qed.
    (** enumerations of the branches of a node are disjoint *)
    Lemma NoDup_branches {A} (f : nat -> list A) es :
      NoDup es -> (forall e, e ∈ es -> NoDup (f e)) ->
      (forall e e' x, e ∈ es -> e' ∈ es -> x ∈ f e -> x ∈ f e' -> e = e') -> NoDup (concat (map f es)).
    Proof.
      induction 1 as [|e es He Hes IH]; intros Hf Hd; simpl; [constructor|]. apply NoDup_app. split_and!.
      - apply Hf. left.
      - intros x Hx Hx'. apply elem_of_list_In, in_concat in Hx' as (ys & Hys & Hy%elem_of_list_In).
        apply elem_of_list_In, elem_of_list_fmap in Hys as (e' & -> & He').
        rewrite (Hd e e' x) in He; try done; [left|by right].
      - apply IH; [intros; apply Hf; by right|]. intros e1 e2 x ? ?. apply Hd; by right.
    Qed.
    Lemma enum_NoDup k l : good l -> size (s_edges s) < k + length l -> NoDup (enum k l).
    Proof.
      revert l. induction k as [|k IH]; intros l Hg Hk; cbn [enum]; [constructor|].
      pose proof Hg as (_ & Hnd & _ & Hlv & _). set (n := end_of from to 0 l) in *.
      assert (Hbr : forall e p, e ∈ next_edges n ->
        p ∈ (if is_loop (Path None l) (pe_at_node g n e) then [] else enum k (l ++ [pe_at_node g n e])) ->
        exists r, p = Path None (l ++ pe_at_node g n e :: r)).
      { intros e p [He _]%(next_edges_in n e Hlv) Hp. destruct (is_loop _ _) eqn:Hl; [by apply elem_of_nil in Hp|].
        apply bool_decide_eq_false in Hl.
        apply enum_in in Hp as (r & -> & _); [|by apply good_snoc|rewrite app_length; simpl; lia].
        exists r. by rewrite <-app_assoc. }
      apply NoDup_app. split_and!.
      - destruct (in_bounds min max (Path None l)); [apply NoDup_singleton|constructor].
      - intros p Hp. destruct (in_bounds min max (Path None l)); [|by apply elem_of_nil in Hp].
        apply elem_of_list_singleton in Hp as ->. case_decide; [apply not_elem_of_nil|].
        intros Hin. apply elem_of_list_In, in_concat in Hin as (ps & Hps & Hp%elem_of_list_In).
        apply elem_of_list_In, elem_of_list_fmap in Hps as (e & -> & He).
        apply Hbr in Hp as [r Hr]; [|done]. injection Hr as Hr. apply (f_equal length) in Hr. rewrite app_length in Hr. simpl in Hr. lia.
      - case_decide; [constructor|]. apply NoDup_branches.
        + apply firsts_NoDup.
        + intros e [He _]%(next_edges_in n e Hlv). destruct (is_loop _ _) eqn:Hl; [constructor|].
          apply bool_decide_eq_false in Hl. apply IH; [by apply good_snoc|rewrite app_length; simpl; lia].
        + intros e e' p He He' Hp Hp'. apply Hbr in Hp as [r ->]; [|done]. apply Hbr in Hp' as [r' Hr]; [|done].
          injection Hr as Hr. apply app_inv_head in Hr. unfold pe_at_node in Hr. by injection Hr.
    Qed.

    (** enough fuel is enough *)
    Lemma enum_more k k' l : good l -> size (s_edges s) < k + length l -> k <= k' -> enum k' l = enum k l.
    Proof.
      revert k' l. induction k as [|k IH]; intros k' l Hg Hk Hkk.
      { apply good_length in Hg. simpl in Hk. lia. }
      destruct k' as [|k']; [lia|]. cbn [enum]. f_equal. case_decide; [done|]. f_equal.
      pose proof Hg as (_ & _ & _ & Hlv & _). apply map_ext_in. intros e He%elem_of_list_In.
      apply next_edges_in in He as [He _]; [|done]. destruct (is_loop _ _) eqn:Hl; [done|].
      apply bool_decide_eq_false in Hl. apply IH; [by apply good_snoc|rewrite app_length; simpl; lia|lia].
    Qed.

    (** ** first leg *)
    Context (n : nat) (leg : list nat).
    Hypothesis (Hleg : forall e, e ∈ leg -> incident s n e).
    Definition enum_all (k : nat) : list path :=
      concat (map (fun e => enum k [pe_at_node g n e]) (firsts [] leg)).
    Lemma incident_at e : incident s n e -> at_node s n AnyDir e.
    Proof.
      unfold incident. destruct (s_edges s !! e) as [ed|] eqn:E; [|done].
      intros [H|H]; [right|left]; by exists ed.
    Qed.
    Lemma good_first e : e ∈ leg -> good [pe_at_node g n e].
    Proof.
      intros He%Hleg%incident_at. pose proof (at_follows _ _ _ He) as Hf.
      destruct (follows_at _ _ _ _ Hf) as (_ & _ & _ & Hsrc & Hlive). split_and!; try done.
      - apply NoDup_singleton.
      - intros x ->%elem_of_list_singleton. destruct Hf as (ed & Hed & _). by eexists.
      - exists (pe_src from to (pe_at_node g n e)). eexists. apply takes_cons'. constructor.
    Qed.
    Lemma collect_enum {T} (acc : path -> T -> bool * T) k t : size (s_edges s) <= k ->
      collect_all_paths T g n filt d min max acc k leg t = Ok (feed acc (enum_all k) t).2.
    Proof.
      intros Hk. unfold collect_all_paths, enum_all.
      assert (Hin : forall e, e ∈ firsts [] leg -> e ∈ leg) by (intros e [? _]%firsts_in; done).
      revert t Hin. generalize (firsts [] leg). intros es. induction es as [|e es IH]; intros t Hin; [done|].
      cbn [vp_first map concat]. rewrite recurse_enum; [|apply good_first, Hin; left|simpl; lia].
      cbn [rbind]. rewrite feed_app. destruct (feed acc (enum k _) t) as [[] t']; cbn [fst snd]; [|done].
      apply IH. intros e' He'. apply Hin. by right.
    Qed.
    Lemma enum_all_more k k' : size (s_edges s) <= k -> k <= k' -> enum_all k' = enum_all k.
    Proof.
      intros Hk Hkk. unfold enum_all. f_equal. apply map_ext_in. intros e He%elem_of_list_In.
      apply firsts_in in He as [He _]. apply enum_more; [by apply good_first|simpl; lia|done].
    Qed.
    Lemma enum_all_NoDup k : size (s_edges s) <= k -> NoDup (enum_all k).
    Proof.
      intros Hk. apply NoDup_branches.
      - apply firsts_NoDup.
      - intros e [He _]%firsts_in. apply enum_NoDup; [by apply good_first|simpl; lia].
      - intros e e' p [He _]%firsts_in [He' _]%firsts_in Hp Hp'.
        apply enum_in in Hp as (r & -> & _); [|by apply good_first|simpl; lia].
        apply enum_in in Hp' as (r' & Hr & _); [|by apply good_first|simpl; lia].
        simpl in Hr. unfold pe_at_node in Hr. by injection Hr.
    Qed.
    Lemma enum_all_in k p : size (s_edges s) <= k -> p ∈ enum_all k <-> trail s d filt n leg min max p.
    Proof.
      intros Hk. unfold enum_all. split.
      - intros H. apply elem_of_list_In, in_concat in H as (ps & Hps & Hp%elem_of_list_In).
        apply elem_of_list_In, elem_of_list_fmap in Hps as (e & -> & [He _]%firsts_in).
        apply enum_in in Hp as (r & -> & Hr & Hnd & Hb); [|by apply good_first|simpl; lia].
        apply in_bounds_spec in Hb as [Hb1 Hb2]. cbn [app] in *. econstructor; try done.
        by apply at_follows, incident_at, Hleg.
      - intros [x b l Hx Hf Hr Hnd Hb1 Hb2]. apply elem_of_list_In, in_concat.
        destruct (follows_at _ _ _ _ Hf) as (_ & Hx' & -> & _).
        exists (enum k [x]). split.
        + apply elem_of_list_In, elem_of_list_fmap. exists (pe_edge x). rewrite <-Hx'. split; [done|].
          apply firsts_in. set_solver.
        + apply elem_of_list_In. apply enum_in; [rewrite Hx'; by apply good_first|simpl; lia|].
          exists l. split_and!; try done. by apply in_bounds_spec.
    Qed.
  End bounds.
End graph.

Lemma collect_ok ops g filt d min max n leg :
  valid_history ops -> run ops = Ok g -> (forall e, e ∈ leg -> incident (srun ops) n e) ->
  exists all, NoDup all /\ (forall p, p ∈ all <-> trail (srun ops) d filt n leg min max p) /\
    forall (T : Type) (acc : path -> T -> bool * T) k t, size (s_edges (srun ops)) <= k ->
      collect_all_paths T g n filt d min max acc k leg t = Ok (feed acc all t).2.
Proof.
  intros Hv Hr Hleg. pose proof (core_run _ _ Hv Hr) as Hc.
  set (N := size (s_edges (srun ops))).
  exists (enum_all g filt d min max n leg N). split_and!.
  - by eapply enum_all_NoDup.
  - intros p. by eapply enum_all_in.
  - intros T acc k t Hk. rewrite (collect_enum g _ Hc filt d min max n leg Hleg acc k t Hk).
    by rewrite (enum_all_more g _ Hc filt d min max n leg Hleg N k).
Qed.

(** ** Accumulators that collect paths *)
Lemma feed_collecting stop xs ps : exists ys zs, xs = ys ++ zs /\ (feed (collecting stop) xs ps).2 = ps ++ ys /\
  (zs <> [] -> stop (ps ++ ys) = true) /\ forall qs r, ys = qs ++ r -> qs <> [] -> r <> [] -> stop (ps ++ qs) = false.
Proof.
  revert ps. induction xs as [|x xs IH]; intros ps; cbn [feed].
  { exists [], []. rewrite !app_nil_r. split; [done|]. split; [done|]. split; [done|]. by intros [] r. }
  unfold collecting at 1. cbn [fst snd]. destruct (stop (ps ++ [x])) eqn:E; cbn [negb].
  - exists [x], xs. split; [done|]. split; [done|]. split; [done|].
    intros qs r Hq Hqs Hr. destruct qs as [|q qs]; [done|]. injection Hq as -> Hq. by destruct qs, r.
  - change (collecting stop x ps).2 with (ps ++ [x]). destruct (IH (ps ++ [x])) as (ys & zs & -> & H1 & H2 & H3).
    exists (x :: ys), zs. rewrite <-!app_assoc in *. split; [done|]. split; [done|]. split; [done|].
    intros qs r Hq Hqs Hr. destruct qs as [|q qs]; [done|]. injection Hq as <- ->.
    destruct qs as [|q qs]; [done|]. specialize (H3 (q :: qs) r eq_refl). rewrite <-app_assoc in H3. by apply H3.
Qed.
Lemma feed_all xs ps : (feed (collecting (fun _ => false)) xs ps).2 = ps ++ xs.
Proof.
  revert ps. induction xs as [|x xs IH]; intros ps; cbn [feed collecting fst snd negb]; [by rewrite app_nil_r|].
  rewrite IH. by rewrite <-app_assoc.
Qed.
Lemma collect_sound ops g filt d min max n leg stop k :
  valid_history ops -> run ops = Ok g -> (forall e, e ∈ leg -> incident (srun ops) n e) ->
  size (s_edges (srun ops)) <= k ->
  exists ps, collect_all_paths _ g n filt d min max (collecting stop) k leg [] = Ok ps /\
    forall p, p ∈ ps -> trail (srun ops) d filt n leg min max p.
Proof.
  intros Hv Hr Hl Hk. destruct (collect_ok ops g filt d min max n leg Hv Hr Hl) as (all & _ & Hin & H).
  rewrite (H _ (collecting stop) k [] Hk). eexists. split; [done|].
  destruct (feed_collecting stop all []) as (ys & zs & -> & -> & _). intros p Hp. apply Hin. simpl in Hp. set_solver.
Qed.
Lemma collect_complete ops g filt d min max n leg k :
  valid_history ops -> run ops = Ok g -> (forall e, e ∈ leg -> incident (srun ops) n e) ->
  size (s_edges (srun ops)) <= k ->
  exists ps, collect_all_paths _ g n filt d min max (collecting (fun _ => false)) k leg [] = Ok ps /\
    NoDup ps /\ forall p, p ∈ ps <-> trail (srun ops) d filt n leg min max p.
Proof.
  intros Hv Hr Hl Hk. destruct (collect_ok ops g filt d min max n leg Hv Hr Hl) as (all & Hnd & Hin & H).
  rewrite (H _ _ k [] Hk), feed_all. eauto.
Qed.
Lemma collect_prefix ops g filt d min max n leg stop k :
  valid_history ops -> run ops = Ok g -> (forall e, e ∈ leg -> incident (srun ops) n e) ->
  size (s_edges (srun ops)) <= k ->
  exists ps all, collect_all_paths _ g n filt d min max (collecting stop) k leg [] = Ok ps /\
    collect_all_paths _ g n filt d min max (collecting (fun _ => false)) k leg [] = Ok all /\
    (exists r, all = ps ++ r /\ (r <> [] -> stop ps = true)) /\
    (forall qs r, ps = qs ++ r -> qs <> [] -> r <> [] -> stop qs = false).
Proof.
  intros Hv Hr Hl Hk. destruct (collect_ok ops g filt d min max n leg Hv Hr Hl) as (all & Hnd & Hin & H).
  rewrite !(H _ _ k [] Hk), feed_all. destruct (feed_collecting stop all []) as (ys & zs & -> & Hf & H1 & H2).
  exists ys, (ys ++ zs). rewrite Hf. split_and!; eauto.
Qed.
Lemma trail_denotes ops g filt d min max n leg p :
  valid_history ops -> run ops = Ok g -> trail (srun ops) d filt n leg min max p ->
  exists ss, denotes (edge_from g) (edge_to g) p (WalkFrom n ss) /\ forall e, e ∈ map fst ss -> live_edge (srun ops) e.
Proof.
  intros Hv Hr [x b l _ Hf Hcont _ _ _]. pose proof (core_run _ _ Hv Hr) as Hc.
  assert (exists ts, takes (edge_from g) (edge_to g) b l ts) as [ts Ht].
  { clear - Hcont Hc. induction Hcont as [a|a x b l Hf _ _ [ts IH]]; [eexists; constructor|].
    destruct (follows_at g _ Hc _ _ _ _ Hf) as (_ & _ & -> & -> & _). eexists. by apply takes_cons'. }
  assert (Hlive : forall y, y ∈ l -> live_edge (srun ops) (pe_edge y)).
  { clear - Hcont. induction Hcont as [a|a x b l (ed & Hed & _) _ _ IH]; intros y Hy; [by apply elem_of_nil in Hy|].
    apply elem_of_cons in Hy as [->|Hy]; [by eexists|by apply IH]. }
  pose proof Hf as (ed & Hed & _).
  destruct (follows_at g _ Hc _ _ _ _ Hf) as (_ & _ & -> & -> & _).
  eexists. split; [constructor; by apply takes_cons'|]. cbn [map fst]. rewrite (takes_edges _ _ _ _ _ Ht).
  intros e [->|(y & -> & Hy)%elem_of_list_fmap]%elem_of_cons; [by eexists|by apply Hlive].
Qed.
