(** Pattern matching: the search over the steps of a plan. *)
From Verif Require Import Base Value ValueProofs FastSet FastSetProofs Links EdgeMap NodeMap Index Graph GraphSpec Find Sizes.
From Verif Require Import LinksProofs EdgeMapProofs IndexProofs CoreProofs CoreStep AdjProofs ReadProofs NodeListProofs LabelProofs EdgeListProofs IndexGraphProofs FindProofs.
From Verif Require Import Path PathSpec PathProofs ItrSpec ItrProofs VPath VPathSpec VPathProofs Pattern PatternSpec PatternStartProofs.

Notation items sts := (map step_item sts).
Definition reads (st : pstep) : list nat :=
  match st with IterNodes _ _ | IterEdges _ _ => [] | ConnEdges _ src _ | ConnNodes _ src _ _ => [src] end.
Definition agree (D : list nat) (R R' : gmap nat sres) : Prop := forall i, i ∈ D -> R !! i = R' !! i.
Lemma agree_sym D R R' : agree D R R' -> agree D R' R.
Proof. intros H i Hi. symmetry. by apply H. Qed.
Lemma agree_trans D R1 R2 R3 : agree D R1 R2 -> agree D R2 R3 -> agree D R1 R3.
Proof. intros H1 H2 i Hi. rewrite H1 by done. by apply H2. Qed.
Lemma agree_sub D D' R R' : (forall i, i ∈ D -> i ∈ D') -> agree D' R R' -> agree D R R'.
Proof. intros H1 H2 i Hi. by apply H2, H1. Qed.

Section search.
  Variables (ops : list op) (g : graph).
  Hypotheses (Hv : valid_history ops) (Hr : run ops = Ok g).
  Notation s := (srun ops).
  Let Hc : core g s := core_run _ _ Hv Hr.
  Notation from := (edge_from g).
  Notation to := (edge_to g).
  Variables (syms : symbols) (pat : list pitem) (eord : nat -> nat -> list string).
  Hypothesis Hnames : names_apart s syms pat.
  Hypothesis Horders : forall i it, pat !! i = Some it -> forall c, order_of (pi_labels it) (eord c i).

  (** a path of a relationship, found from node [n] in direction [d] *)
  Definition leads (it : pitem) (d : dir) (n : nat) (p : path) : Prop :=
    exists l, p = Path None l /\ l <> [] /\ continues s d (item_edges g it) n l /\ NoDup (map pe_edge l) /\
      (pi_min it = -1 \/ pi_min it <= Z.of_nat (length l))%Z /\ (pi_max it = -1 \/ Z.of_nat (length l) <= pi_max it)%Z.
  Definition single (it : pitem) : Prop := pi_min it = 1%Z /\ pi_max it = 1%Z.
  Global Instance single_dec it : Decision (single it).
  Proof. unfold single. apply _. Defined.

  (** the edges found at a node *)
  Lemma legs_ok i it n d c1 c2 : pat !! i = Some it -> live_node s n ->
    exists es, node_edges_any g n d (eord c1 i) (eord c2 i) = Ok es /\
      (forall e, e ∈ filter (fun e => item_edges g it e = true) es <-> at_node s n d e /\ item_edges g it e = true) /\
      ((d = AnyDir -> forall e ed, s_edges s !! e = Some ed -> e_from ed <> e_to ed) -> NoDup (filter (fun e => item_edges g it e = true) es)).
  Proof.
    intros Hi Hn.
    destruct (node_edges_any_ok g s Hc n d (pi_labels it) (eord c1 i) (eord c2 i) Hn) as (xs & ys & Hxs & Hys & Hperm).
    { by eapply Horders. } { by eapply Horders. }
    assert ((forall e, e ∈ xs <-> at_node s n d e) /\
      ((d = AnyDir -> forall e ed, s_edges s !! e = Some ed -> e_from ed <> e_to ed) -> NoDup xs)) as [Hin Hnd].
    { destruct (node_edges_both g s Hc n Hn) as (ii & oo & H1 & H2 & H3 & [Nii Iii] & [Noo Ioo]). destruct d.
      - rewrite H1 in Hxs. injection Hxs as <-. done.
      - rewrite H3 in Hxs. injection Hxs as <-. split; [intros e; by rewrite elem_of_app, Iii, Ioo|].
        intros Hno. apply NoDup_app. split_and!; [done| |done]. intros e He1 He2. apply Iii in He1 as (ed & Hed & Ht).
        apply Ioo in He2 as (ed' & Hed' & Hf). specialize (Hno eq_refl e ed Hed). congruence.
      - rewrite H2 in Hxs. injection Hxs as <-. done. }
    exists ys. split; [done|]. split.
    - intros e. rewrite elem_of_list_filter, Hperm. split.
      + intros [Hf He]. split; [|done]. apply Hin. destruct (decide (pi_labels it = ∅)); [done|]. by apply elem_of_list_filter in He as [_ He].
      + intros [Ha Hf]. split; [done|]. apply Hin in Ha as Ha'. destruct (decide (pi_labels it = ∅)) as [|Hne]; [done|].
        apply elem_of_list_filter. split; [|done].
        assert (live_edge s e) as Hl.
        { destruct d; simpl in Ha; unfold is_in, is_out in Ha; unfold live_edge; naive_solver. }
        apply (item_edges_ok ops g Hv Hr it e Hl) in Hf as (x & Hx & HL & _). unfold label_in. rewrite Hx. by apply HL.
    - intros Hno. specialize (Hnd Hno). apply NoDup_filter. rewrite Hperm. destruct (decide (pi_labels it = ∅)); [done|]. by apply NoDup_filter.
  Qed.
  Lemma at_incident n d e : at_node s n d e -> incident s n e.
  Proof.
    intros H. assert (exists ed, s_edges s !! e = Some ed /\ (e_from ed = n \/ e_to ed = n)) as (ed & Hed & ?).
    { destruct d; simpl in H; unfold is_in, is_out in H; naive_solver. }
    unfold incident. by rewrite Hed.
  Qed.
  Lemma leads_trail it d n leg p : (forall e, e ∈ leg <-> at_node s n d e /\ item_edges g it e = true) ->
    trail s d (item_edges g it) n leg (pi_min it) (pi_max it) p <-> leads it d n p.
  Proof.
    intros Hleg. split.
    - intros [x b l Hx Hf Hcont Hnd Hmin Hmax]. exists (x :: l). split_and!; [done|done| |done|by destruct Hmin; [left|right; lia]|done].
      apply Hleg in Hx as [Hat Hflt]. destruct (follows_at g s Hc _ _ _ _ Hf) as (_ & Hxe & Hb & _ & _).
      econstructor; [|done|done]. pose proof (at_follows g s Hc _ _ _ Hat) as Hf'. rewrite <- Hxe, <- Hb in Hf'. exact Hf'.
    - intros (l & -> & Hne & Hcont & Hnd & Hmin & Hmax). destruct l as [|x l]; [done|].
      inversion Hcont as [|? ? b ? Hf Hflt Hcont']; subst.
      destruct (follows_at g s Hc _ _ _ _ Hf) as (Hat & Hxe & Hb & _ & _).
      econstructor; [apply Hleg; by split| |exact Hcont'|done|destruct Hmin; [by left|right; lia]|done].
      assert (at_node s n AnyDir (pe_edge x)) as Hat' by by eapply incident_at, at_incident.
      pose proof (at_follows g s Hc _ _ _ Hat') as Hf'. rewrite <- Hxe, <- Hb in Hf'. exact Hf'.
  Qed.
  Lemma leads_single it d n p : single it ->
    leads it d n p <-> exists e, p = Path None [pe_at_node g n e] /\ at_node s n d e /\ item_edges g it e = true.
  Proof.
    intros [Hmin Hmax]. split.
    - intros (l & -> & Hne & Hcont & Hnd & H1 & H2). destruct l as [|x [|y l]]; [done| |simpl in H2; lia].
      inversion Hcont as [|? ? b ? Hf Hflt Hcont']; subst. destruct (follows_at g s Hc _ _ _ _ Hf) as (Hat & Hxe & _).
      exists (pe_edge x). split; [by rewrite <- Hxe|]. done.
    - intros (e & -> & Hat & Hf). eexists. split; [done|]. split; [done|]. split_and!.
      + econstructor; [by apply at_follows|done|constructor].
      + apply NoDup_singleton.
      + right. simpl. lia.
      + right. simpl. lia.
  Qed.
  Lemma continues_end d filt n l : continues s d filt n l -> l <> [] ->
    exists b, path_last from to (Path None l) = Some b /\ live_node s b.
  Proof.
    induction 1 as [a|a x b l Hf _ Hcont IH]; [done|]. intros _. destruct (follows_at g s Hc _ _ _ _ Hf) as (_ & _ & Hb & _ & Hlive).
    destruct l as [|y l]; [exists b; by rewrite Hb in *|]. by apply IH.
  Qed.
  Lemma leads_end it d n p : leads it d n p -> exists b, path_last from to p = Some b /\ live_node s b.
  Proof. intros (l & -> & Hne & Hcont & _). by eapply continues_end. Qed.
  Lemma leads_last_edge it d n p : leads it d n p ->
    exists e, path_get_edge p (num_path_edges p - 1) = Ok (Some e) /\ (single it -> p = Path None [pe_at_node g n e] /\ at_node s n d e).
  Proof.
    intros Hl. pose proof Hl as (l & -> & Hne & Hcont & _). destruct (last l) as [x|] eqn:Hx; [|by apply last_None in Hx].
    exists (pe_edge x). split.
    - unfold path_get_edge, num_path_edges. cbn [p_only p_path]. rewrite decide_True by lia.
      rewrite last_lookup in Hx. assert (length l <> 0) by (by destruct l). replace (Z.of_nat (length l) - 1)%Z with (Z.of_nat (pred (length l))) by lia.
      rewrite pe_at_nat. cbn [p_path]. by rewrite Hx.
    - intros Hs. apply (leads_single _ _ _ _ Hs) in Hl as (e & [= ->] & Hat & _). simpl in Hx. by injection Hx as <-.
  Qed.

  (** ** Plans *)
  Variable start : nat.
  Definition node_at (src i : nat) (p : path) : option nat :=
    if decide (src = start /\ (i < src <-> pi_left (item pat src) = false)) then path_first from to p else path_last from to p.
  (** the possible results of a step, given those of earlier steps *)
  Definition cand (st : pstep) (R : gmap nat sres) (r : sres) : Prop :=
    match st with
    | IterNodes i _ => exists n, r = RNode n /\ node_ok s syms (item pat i) n
    | IterEdges i xs => exists e, r = RPath (Path None [PE e false]) /\ edge_match s (pi_labels (item pat i)) (pi_props (item pat i)) e /\ e ∈ xs
    | ConnEdges i src d => exists n p, R !! src = Some (RNode n) /\ r = RPath p /\ leads (item pat i) d n p
    | ConnNodes i src _ _ => exists p n, R !! src = Some (RPath p) /\ r = RNode n /\ node_at src i p = Some n /\ node_ok s syms (item pat i) n
    end.
  Definition ok_at (st : pstep) (R : gmap nat sres) : Prop := exists r, R !! step_item st = Some r /\ cand st R r.
  Definition var_step (st : pstep) : Prop := match st with ConnEdges i _ _ => ~ single (item pat i) | _ => False end.
  Global Instance var_step_dec st : Decision (var_step st).
  Proof. destruct st; apply _. Defined.
  Definition expects (pre : list pstep) (R : gmap nat sres) : option nat :=
    match last pre with
    | Some st => if decide (var_step st) then match R !! step_item st with Some (RPath p) => path_last from to p | _ => None end else None
    | None => None
    end.
  (** step [st] may come after the steps [pre] *)
  Definition scheduled (pre : list pstep) (st : pstep) : Prop :=
    step_item st ∉ items pre /\ step_item st < length pat /\ (forall j, j ∈ reads st -> j ∈ items pre) /\
    match st with
    | IterNodes i xs => pre = [] /\ Nat.even i = true /\ covers (live_node s) (node_ok s syms (item pat i)) xs
    | IterEdges i xs => pre = [] /\ Nat.even i = false /\ NoDup xs /\ (forall e, e ∈ xs -> live_edge s e)
    | ConnEdges i src d => Nat.even i = false /\ Nat.even src = true /\ (forall st', last pre = Some st' -> ~ var_step st') /\
        (d = AnyDir <-> pi_left (item pat i) = false /\ pi_undirected (item pat i) = true)
    | ConnNodes i src u prev => Nat.even i = true /\
        ((exists a d, last pre = Some (ConnEdges src a d) /\ src <> start /\
            match d with Outgoing => u = UseTo | Incoming => u = UseFrom | AnyDir => u = UseAny /\ prev = Some a end) \/
         (exists xs, IterEdges src xs ∈ pre /\ (forall st', last pre = Some st' -> ~ var_step st') /\ src = start /\
            i <> src /\ u = if decide (i < src <-> pi_left (item pat src) = false) then UseFrom else UseTo))
    end.
  Definition rdom (R : gmap nat sres) : Prop := forall i r, R !! i = Some r -> i < length pat.
  Definition closed (pre : list pstep) : Prop := forall st j, st ∈ pre -> j ∈ reads st -> j ∈ items pre.
  Definition typed (pre : list pstep) : Prop := forall st, st ∈ pre -> step_item st < length pat /\
    match st with IterNodes i _ | ConnNodes i _ _ _ => Nat.even i = true | IterEdges i _ | ConnEdges i _ _ => Nat.even i = false end.
  (** nodes under one name are the same *)
  Definition coherent (R : gmap nat sres) : Prop :=
    forall i j it jt, pat !! i = Some it -> pat !! j = Some jt -> Nat.even i = true -> Nat.even j = true ->
      pi_name it <> "" -> pi_name it = pi_name jt -> R !! i = R !! j.

  Lemma cand_agree st R R' r : agree (reads st) R R' -> cand st R r -> cand st R' r.
  Proof.
    intros Hag. destruct st as [i xs|i xs|i src d|i src u prev]; simpl; try done.
    - intros (n & p & H & ?). rewrite (Hag src) in H by set_solver. naive_solver.
    - intros (n & p & H & ?). rewrite (Hag src) in H by set_solver. naive_solver.
  Qed.
  Lemma ok_at_agree D st R R' : step_item st ∈ D -> (forall j, j ∈ reads st -> j ∈ D) -> agree D R R' -> ok_at st R -> ok_at st R'.
  Proof.
    intros Hi Hrd Hag (r & Hr' & Hcd). exists r. split; [by rewrite <- Hag|]. eapply cand_agree; [|done]. by eapply agree_sub.
  Qed.

  Section acc.
    Variables (T : Type) (fin : gmap nat sres -> T -> T).
    Notation mst := (mstate T).
    Definition stored (L : list (gmap nat sres)) (t : T) : T := fold_left (fun t R => fin R t) L t.
    (** [run_steps] with a last step that does not fail *)
    Fixpoint run_total (sts : list pstep) (m : mst) : res (option string * mst) :=
      match sts with
      | [] => Ok (None, MS (m_local m) (m_vnode m) (m_res m) (m_calls m) (fin (m_res m) (m_acc m)))
      | st :: r => run_step T g syms pat eord st (run_total r) m
      end.
    Definition sub_local (m' m : mst) : Prop := forall v x, m_local m' !! v = Some x -> m_local m !! v = Some x.

    Record inv (pre : list pstep) (m : mst) : Prop := {
      inv_dom : rdom (m_res m);
      inv_ok : forall st, st ∈ pre -> ok_at st (m_res m);
      inv_local : forall v x, m_local m !! v = Some x -> v <> "" /\ syms !! v = None /\
        exists j r, j ∈ items pre /\ pi_name (item pat j) = v /\ m_res m !! j = Some r /\ x = sym_of r;
      inv_vnode : m_vnode m = expects pre (m_res m) }.

    Record ends_in (sound complete : gmap nat sres -> Prop) (nd : Prop) (D : list nat) (m : mst) (o : res (option string * mst)) : Prop := Ends {
      ei_out : exists m' L, o = Ok (None, m') /\ sub_local m' m /\ m_vnode m' = m_vnode m /\ agree D (m_res m') (m_res m) /\ rdom (m_res m') /\
        m_acc m' = stored L (m_acc m) /\ (forall R, R ∈ L -> sound R) /\ (forall R, complete R -> R ∈ L) /\ (nd -> NoDup L) }.

    Definition extends (pre post : list pstep) (m : mst) (R : gmap nat sres) : Prop :=
      rdom R /\ agree (items pre) R (m_res m) /\ forall st, st ∈ post -> ok_at st R.
    Definition searches (pre post : list pstep) (m : mst) (o : res (option string * mst)) : Prop :=
      ends_in (extends pre post m) (fun R => extends pre post m R /\ coherent R) (no_undirected_loops s pat) (items pre) m o.

    Lemma expects_agree pre R R' : agree (items pre) R R' -> expects pre R = expects pre R'.
    Proof.
      intros Hag. unfold expects. destruct (last pre) as [st|] eqn:Hl; [|done]. destruct (decide _); [|done].
      rewrite (Hag (step_item st)); [done|]. apply elem_of_list_fmap. exists st. split; [done|]. rewrite last_lookup in Hl. by eapply elem_of_list_lookup_2.
    Qed.
    Lemma inv_sub pre m m' : closed pre -> inv pre m -> sub_local m' m -> agree (items pre) (m_res m') (m_res m) -> rdom (m_res m') ->
      m_vnode m' = m_vnode m -> inv pre m'.
    Proof.
      intros Hcl [H1 H2 H3 H4] Hsub Hag Hd Hvn. split.
      - done.
      - intros st Hst. eapply (ok_at_agree (items pre)); [by apply elem_of_list_fmap_1|by intros j; apply Hcl|by apply agree_sym|by apply H2].
      - intros v x Hx. apply Hsub in Hx as Hx'. destruct (H3 _ _ Hx') as (? & ? & j & r & Hj & ? & ? & ?). split_and!; try done.
        exists j, r. split_and!; try done. by rewrite Hag.
      - rewrite Hvn, H4. symmetry. by apply expects_agree.
    Qed.
    Lemma items_snoc pre st : items (pre ++ [st]) = items pre ++ [step_item st].
    Proof. by rewrite (map_app step_item). Qed.
    Lemma enter_agree pre st r (m : mst) : step_item st ∉ items pre -> agree (items pre) (<[step_item st := r]> (m_res m)) (m_res m).
    Proof. intros Hn i Hi. apply lookup_insert_ne. by intros <-. Qed.
    Lemma inv_enter pre st r v m : closed pre -> scheduled pre st -> inv pre m -> cand st (m_res m) r ->
      v = (if decide (var_step st) then match r with RPath p => path_last from to p | _ => None end else None) ->
      inv (pre ++ [st]) (with_vnode T v (enter T syms pat (step_item st) r m)).
    Proof.
      intros Hcl (Hni & Hlt & Hrd & _) [H1 H2 H3 H4] Hcd Hvn.
      pose proof (enter_agree pre st r m Hni) as Hag.
      split; cbn [m_res m_local m_vnode with_vnode enter].
      - intros i r' Hi. destruct (decide (i = step_item st)) as [->|Hne]; [done|]. rewrite lookup_insert_ne in Hi by done. by eapply H1.
      - intros st' [Hst|Hst]%elem_of_app.
        + eapply (ok_at_agree (items pre)); [by apply elem_of_list_fmap_1|by intros j; apply Hcl|by apply agree_sym|by apply H2].
        + apply elem_of_list_singleton in Hst as ->. exists r. split; [apply lookup_insert|]. eapply cand_agree; [|done].
          apply agree_sym. by eapply agree_sub.
      - intros w x Hx. rewrite items_snoc.
        assert (m_local m !! w = Some x \/ (w <> "" /\ syms !! w = None /\ pi_name (item pat (step_item st)) = w /\ x = sym_of r)) as [Hx'|(Hw & Hsy & Hnm & ->)].
        { unfold record_result in Hx. destruct (decide (pi_name (item pat (step_item st)) = "")) as [|Hne]; [by left|].
          destruct (syms !! pi_name (item pat (step_item st))) eqn:E; [by left|].
          apply lookup_insert_Some in Hx as [[Hw <-]|[_ Hx]]; [right|by left]. by rewrite <- Hw. }
        + destruct (H3 _ _ Hx') as (? & ? & j & r' & Hj & ? & ? & ?). split_and!; try done. exists j, r'.
          split_and!; try done; [apply elem_of_app; by left|]. by rewrite Hag.
        + split_and!; try done. exists (step_item st), r. split_and!; try done; [apply elem_of_app; right; by apply elem_of_list_singleton|apply lookup_insert].
      - unfold expects. rewrite last_snoc, lookup_insert, Hvn. by destruct (decide (var_step st)), r.
    Qed.
    Lemma leave_sub st r v (m m' : mst) : sub_local m' (with_vnode T v (enter T syms pat (step_item st) r m)) ->
      sub_local (leave T syms pat (step_item st) m') m.
    Proof.
      intros Hsub w x. cbn [leave m_local]. unfold reset_result. specialize (Hsub w x). cbn [with_vnode enter m_local] in Hsub.
      unfold record_result in Hsub. destruct (decide (pi_name (item pat (step_item st)) = "")); [by auto|].
      destruct (syms !! pi_name (item pat (step_item st))); [by auto|].
      rewrite lookup_delete_Some. intros [Hne Hx]. apply Hsub in Hx. by rewrite lookup_insert_ne in Hx.
    Qed.
    Lemma sub_refl m : sub_local m m.
    Proof. by intros v x. Qed.
    Lemma sub_trans (m1 m2 m3 : mst) : sub_local m1 m2 -> sub_local m2 m3 -> sub_local m1 m3.
    Proof. intros H1 H2 v x Hx. by apply H2, H1. Qed.

    Section step.
      Variables (pre post : list pstep) (st : pstep) (next : mst -> res (option string * mst)).
      Hypotheses (Hcl : closed pre) (Hsch : scheduled pre st).
      Hypothesis (Hnext : forall m, inv (pre ++ [st]) m -> searches (pre ++ [st]) post m (next m)).
      Notation i := (step_item st).
      Definition among (rs : list sres) (m : mst) (R : gmap nat sres) : Prop :=
        extends pre (st :: post) m R /\ exists r, r ∈ rs /\ R !! i = Some r.
      Definition visits (rs : list sres) (m : mst) (o : res (option string * mst)) : Prop :=
        ends_in (among rs m) (fun R => among rs m R /\ coherent R) (no_undirected_loops s pat /\ NoDup rs) (items pre) m o.
      Definition vnode_for (r : sres) : option nat := if decide (var_step st) then match r with RPath p => path_last from to p | _ => None end else None.

      (** one candidate *)
      Lemma visit_one m r : inv pre m -> cand st (m_res m) r ->
        exists m2 L, next (with_vnode T (vnode_for r) (enter T syms pat i r m)) = Ok (None, m2) /\
          sub_local (leave T syms pat i m2) m /\ m_vnode m2 = vnode_for r /\ agree (items pre) (m_res m2) (m_res m) /\ rdom (m_res m2) /\
          m_acc m2 = stored L (m_acc m) /\
          (forall R, R ∈ L -> extends pre (st :: post) m R /\ R !! i = Some r) /\
          (forall R, extends pre (st :: post) m R -> R !! i = Some r -> coherent R -> R ∈ L) /\ (no_undirected_loops s pat -> NoDup L).
      Proof.
        intros Hinv Hcd.
        pose proof (inv_enter pre st r (vnode_for r) m Hcl Hsch Hinv Hcd eq_refl) as Hinv'.
        destruct (Hnext _ Hinv') as [(m2 & L & Ho & Hsub & Hvn & Hag & Hd & Hacc & Hsound & Hcomp & Hnd)].
        pose proof Hsch as (Hni & Hlt & Hrd & _).
        pose proof (enter_agree pre st r m Hni) as Hage.
        exists m2, L. split; [done|]. split; [by eapply leave_sub|]. split; [done|]. split.
        { eapply agree_trans; [|exact Hage]. eapply agree_sub; [|exact Hag]. intros j Hj. rewrite items_snoc. apply elem_of_app. by left. }
        split; [done|]. split; [done|]. split_and!; [| |done].
        - intros R HR. destruct (Hsound R HR) as (Hd' & HagR & Hok). cbn [with_vnode enter m_res] in HagR. rewrite items_snoc in HagR.
          assert (R !! i = Some r) as HRi.
          { rewrite (HagR i) by (apply elem_of_app; right; by apply elem_of_list_singleton). apply lookup_insert. }
          assert (agree (items pre) R (m_res m)) as HagR'.
          { eapply agree_trans; [|exact Hage]. eapply agree_sub; [|exact HagR]. intros j Hj. apply elem_of_app. by left. }
          split; [|done]. split_and!; [done|done|]. intros st' [->|Hst]%elem_of_cons; [|by apply Hok].
          exists r. split; [done|]. eapply cand_agree; [|exact Hcd]. apply agree_sym. by eapply agree_sub.
        - intros R (Hd' & HagR & Hok) HRi Hco. apply Hcomp. split; [|done]. split_and!; [done| |].
          + rewrite items_snoc. cbn [with_vnode enter m_res]. intros j [Hj|Hj]%elem_of_app.
            * rewrite Hage by done. by apply HagR.
            * apply elem_of_list_singleton in Hj as ->. by rewrite lookup_insert.
          + intros st' Hst. apply Hok. by apply elem_of_cons; right.
      Qed.

      Lemma extends_agree m m' R : agree (items pre) (m_res m) (m_res m') -> extends pre (st :: post) m R -> extends pre (st :: post) m' R.
      Proof. intros Hag (? & ? & ?). split_and!; try done. by eapply agree_trans. Qed.

      Lemma visits_nil m : inv pre m -> visits [] m (Ok (None, m)).
      Proof.
        intros [Hd _ _ _]. split. exists m, []. split; [done|]. split; [apply sub_refl|]. split_and!; try done.
        - by intros R ?%elem_of_nil.
        - intros R [[_ (r & ?%elem_of_nil & _)] _]. done.
        - constructor.
      Qed.
      Lemma visits_cons r rs m m2 L o : inv pre m ->
        sub_local (leave T syms pat i m2) m -> agree (items pre) (m_res m2) (m_res m) ->
        m_acc m2 = stored L (m_acc m) ->
        (forall R, R ∈ L -> extends pre (st :: post) m R /\ R !! i = Some r) ->
        (forall R, extends pre (st :: post) m R -> R !! i = Some r -> coherent R -> R ∈ L) -> (no_undirected_loops s pat -> NoDup L) ->
        visits rs (leave T syms pat i (with_vnode T (m_vnode m) m2)) o -> visits (r :: rs) m o.
      Proof.
        intros Hinv Hsub Hag Hacc Hsound Hcomp Hnd [(m' & L' & -> & Hsub' & Hvn' & Hag' & Hd' & Hacc' & Hsound' & Hcomp' & Hnd')].
        split. exists m', (L ++ L'). cbn [leave with_vnode m_res m_acc m_local m_vnode] in *.
        split; [done|]. split; [by eapply sub_trans|]. split; [done|]. split; [by eapply agree_trans|]. split; [done|]. split.
        { rewrite Hacc', Hacc. unfold stored. by rewrite fold_left_app. }
        split_and!.
        - intros R [HR|HR]%elem_of_app.
          + destruct (Hsound R HR) as [H1 H2]. split; [done|]. exists r. split; [by apply elem_of_cons; left|done].
          + destruct (Hsound' R HR) as [H1 (r' & H2 & H3)]. split; [by eapply extends_agree|].
            exists r'. split; [by apply elem_of_cons; right|done].
        - intros R [[Hext (r' & [->|Hr']%elem_of_cons & HRi)] Hco]; apply elem_of_app.
          + left. by apply Hcomp.
          + right. apply Hcomp'. split; [|done]. split; [|by exists r']. eapply extends_agree; [|exact Hext]. by apply agree_sym.
        - intros [Hno Hndr]. apply NoDup_cons in Hndr as [Hnr Hndr]. apply NoDup_app. split_and!; [by apply Hnd| |by apply Hnd'].
          intros R HR1 HR2. destruct (Hsound R HR1) as [_ H1]. destruct (Hsound' R HR2) as [_ (r' & H2 & H3)]. by simplify_eq.
      Qed.
      Lemma visit_all_ok : ~ var_step st -> expects pre = (fun _ => None) ->
        forall rs m, inv pre m -> (forall r, r ∈ rs -> cand st (m_res m) r) -> visits rs m (visit_all T syms pat i next rs m).
      Proof.
        intros Hnv Hex. induction rs as [|r rs IH]; intros m Hinv Hrs; cbn [visit_all]; [by apply visits_nil|].
        destruct (visit_one m r Hinv) as (m2 & L & Ho & Hsub & Hvn & Hag & Hd & Hacc & Hsound & Hcomp & Hnd).
        { apply Hrs. by apply elem_of_cons; left. }
        assert (vnode_for r = None) as Hvf by (unfold vnode_for; by rewrite decide_False).
        assert (m_vnode m = None) as Hvm by (rewrite (inv_vnode _ _ Hinv); by rewrite Hex).
        rewrite Hvf in *. assert (with_vnode T None (enter T syms pat i r m) = enter T syms pat i r m) as E.
        { unfold with_vnode, enter. cbn. by rewrite Hvm. }
        rewrite E in Ho. rewrite Ho. cbn [rbind fst snd].
        assert (leave T syms pat i (with_vnode T (m_vnode m) m2) = leave T syms pat i m2) as E2.
        { unfold leave, with_vnode. cbn. by rewrite Hvm, Hvn. }
        eapply visits_cons; try done. rewrite E2. apply IH.
        - eapply inv_sub; [done|exact Hinv|done|done|done|]. cbn. by rewrite Hvm.
        - intros r' Hr'. cbn [leave m_res]. eapply cand_agree; [|apply Hrs; by apply elem_of_cons; right].
          apply agree_sym. eapply agree_sub; [|exact Hag]. by destruct Hsch as (_ & _ & ? & _).
      Qed.
      Lemma visit_path_ok : var_step st -> expects pre = (fun _ => None) ->
        forall ps m, inv pre m -> (forall p, p ∈ ps -> cand st (m_res m) (RPath p)) ->
        visits (map RPath ps) m (feed (visit_path T g syms pat i next) ps (Ok (None, m))).2.
      Proof.
        intros Hnv Hex. induction ps as [|p ps IH]; intros m Hinv Hrs; cbn [feed map]; [by apply visits_nil|].
        destruct (visit_one m (RPath p) Hinv) as (m2 & L & Ho & Hsub & Hvn & Hag & Hd & Hacc & Hsound & Hcomp & Hnd).
        { apply Hrs. by apply elem_of_cons; left. }
        assert (vnode_for (RPath p) = path_last from to p) as Hvf by (unfold vnode_for; by rewrite decide_True).
        assert (m_vnode m = None) as Hvm by (rewrite (inv_vnode _ _ Hinv); by rewrite Hex).
        rewrite Hvf in *. unfold visit_path at 1 2 3. cbn [rbind snd]. rewrite Ho. cbn [rbind fst snd].
        eapply visits_cons; try done. rewrite Hvm. apply IH.
        - eapply inv_sub; [done|exact Hinv|done|done|done|]. by rewrite Hvm.
        - intros r' Hr'. cbn [leave with_vnode m_res]. eapply cand_agree; [|apply Hrs; by apply elem_of_cons; right].
          apply agree_sym. eapply agree_sub; [|exact Hag]. by destruct Hsch as (_ & _ & ? & _).
      Qed.
      Lemma visits_searches rs m m0 o : m_local m = m_local m0 -> m_vnode m = m_vnode m0 -> m_res m = m_res m0 -> m_acc m = m_acc m0 ->
        visits rs m o ->
        (forall R, extends pre (st :: post) m R -> coherent R -> exists r, r ∈ rs /\ R !! i = Some r) -> (no_undirected_loops s pat -> NoDup rs) ->
        searches pre (st :: post) m0 o.
      Proof.
        intros E1 E2 E3 E4 [(m' & L & -> & Hsub & Hvn & Hag & Hd & Hacc & Hsound & Hcomp & Hnd)] Hall Hndr.
        split. exists m', L. split; [done|]. split; [intros v x Hx; rewrite <- E1; by apply Hsub|]. rewrite <- E2, <- E3, <- E4. split_and!; try done.
        - intros R HR. destruct (Hsound R HR) as [H1 _]. unfold extends in *. by rewrite <- E3.
        - intros R [Hext Hco]. assert (extends pre (st :: post) m R) as Hext' by (unfold extends in *; by rewrite E3).
          apply Hcomp. split; [|done]. split; [done|]. by apply Hall.
        - intros Hno. apply Hnd. split; [done|]. by apply Hndr.
      Qed.

      Lemma constrained_ok m it : typed pre -> inv pre m -> pat !! i = Some it -> Nat.even i = true ->
        exists c, constrained syms (m_local m) it = Some c /\
          (forall n, node_match s (pi_labels it) (pi_props it) n -> match c with None => True | Some ns => n ∈ ns end -> node_ok s syms it n) /\
          (forall R n, agree (items pre) R (m_res m) -> coherent R -> R !! i = Some (RNode n) -> node_ok s syms it n ->
             match c with None => True | Some ns => n ∈ ns end).
      Proof.
        intros Hty Hinv Hit Hev. unfold constrained. destruct (decide (pi_name it = "")) as [He|Hne].
        { exists None. by split_and!. }
        destruct (m_local m !! pi_name it) as [x|] eqn:Hloc.
        - destruct (inv_local _ _ Hinv _ _ Hloc) as (_ & Hsy & j & r & Hj & Hname & Hrj & ->).
          apply elem_of_list_fmap in Hj as (sj & Hj & Hsj). destruct (Hty _ Hsj) as [Hlt Htj].
          assert (pat !! j = Some (item pat j)) as Hpj by (apply item_in; by rewrite Hj).
          assert (Nat.even j = true) as Hevj.
          { destruct (Nat.even j) eqn:E; [done|]. exfalso.
            assert (Nat.odd j = true) as Ho by (by rewrite <- Nat.negb_even, E). apply Nat.odd_spec in Ho as [k Hk]. apply Nat.even_spec in Hev as [l Hl].
            destruct Hnames as [Hn _]. apply (Hn l k it (item pat j)); by rewrite <- ?Hk, <- ?Hl. }
          assert (exists k, r = RNode k) as [k ->].
          { destruct (inv_ok _ _ Hinv _ Hsj) as (r' & Hr' & Hcd). rewrite <- Hj in Hr'. assert (r' = r) as -> by congruence.
            destruct sj as [? ?|? ?|? ? ?|? ? ? ?]; simpl in *; [naive_solver|congruence|congruence|naive_solver]. }
          simpl. eexists. split; [done|]. split.
          + intros n Hn _. split; [done|]. intros _ x Hx. congruence.
          + intros R n Hag Hco HRi _. specialize (Hco i j it _ Hit Hpj Hev Hevj Hne (eq_sym Hname)).
            rewrite HRi, (Hag j), Hrj in Hco by (rewrite Hj; by apply elem_of_list_fmap_1). apply elem_of_list_singleton. congruence.
        - destruct (syms !! pi_name it) as [x|] eqn:Hsy.
          + assert (node_symbol s x) as (Hex & ns & Hns & _).
            { apply Nat.even_spec in Hev as [l Hl]. rewrite Hl in Hit. destruct Hnames as (_ & H & _). by eapply H. }
            rewrite Hex. exists (Some ns). split; [by rewrite Hns|]. split.
            * intros n Hn Hin. split; [done|]. intros _ x' Hx'. exists ns. split; [congruence|done].
            * intros R n _ _ _ [_ Hn]. destruct (Hn Hne x Hsy) as (ns' & Hns' & ?). congruence.
          + exists None. split_and!; try done. intros n Hn _. split; [done|]. intros _ x Hx. congruence.
      Qed.
    End step.

    Lemma not_var_expects pre : (forall st', last pre = Some st' -> ~ var_step st') -> expects pre = (fun _ => None).
    Proof. intros H. unfold expects. destruct (last pre) as [st'|]; [|done]. specialize (H _ eq_refl). by destruct (decide (var_step st')). Qed.
    Lemma vnode_none pre m : inv pre m -> (forall st', last pre = Some st' -> ~ var_step st') -> m_vnode m = None.
    Proof. intros Hinv H. rewrite (inv_vnode _ _ Hinv). by rewrite (not_var_expects _ H). Qed.

    Section steps.
      Variables (pre post : list pstep) (next : mst -> res (option string * mst)).
      Hypotheses (Hcl : closed pre) (Hty : typed pre).
      Definition nexts (st : pstep) : Prop := forall m, inv (pre ++ [st]) m -> searches (pre ++ [st]) post m (next m).

      Lemma run_iter_nodes i xs m : scheduled pre (IterNodes i xs) -> nexts (IterNodes i xs) -> inv pre m ->
        searches pre (IterNodes i xs :: post) m (run_step T g syms pat eord (IterNodes i xs) next m).
      Proof.
        intros Hsch Hnext Hinv. pose proof Hsch as (_ & Hlt & _ & Hpre & Hev & Hnd & Hlive & Hcov). cbn [step_item] in Hlt.
        pose proof (item_in pat i Hlt) as Hit.
        destruct (constrained_ok pre (IterNodes i xs) m (item pat i) Hty Hinv Hit Hev) as (c & Hcs & Hc1 & Hc2).
        cbn [run_step]. rewrite Hcs.
        set (zs := match c with None => _ | Some ns => _ end).
        assert (forall n, n ∈ zs <-> n ∈ xs /\ node_match s (pi_labels (item pat i)) (pi_props (item pat i)) n /\ match c with None => True | Some ns => n ∈ ns end) as Hzs.
        { intros n. unfold zs. destruct c as [ns|]; rewrite !elem_of_list_filter.
          - split.
            + intros (? & Hf & Hx). split_and!; try done. apply (item_nodes_ok ops g Hv Hr); [by apply Hlive|done].
            + intros (Hx & Hm & ?). split_and!; try done. apply (item_nodes_ok ops g Hv Hr); [by apply Hlive|done].
          - split.
            + intros (Hf & Hx). split_and!; try done. apply (item_nodes_ok ops g Hv Hr); [by apply Hlive|done].
            + intros (Hx & Hm & ?). split_and!; try done. apply (item_nodes_ok ops g Hv Hr); [by apply Hlive|done]. }
        eapply (visits_searches pre post (IterNodes i xs)) with (m := m); try done.
        - apply (visit_all_ok pre post (IterNodes i xs) next Hcl Hsch Hnext); try done.
          + by intros [].
          + apply not_var_expects. by rewrite Hpre.
          + intros r (n & -> & Hn)%elem_of_list_fmap. exists n. split; [done|]. apply Hzs in Hn as (_ & ? & ?). by apply Hc1.
        - intros R (HdR & HagR & HokR) Hco. destruct (HokR (IterNodes i xs)) as (r & HRi & n & -> & Hok); [by apply elem_of_cons; left|].
          exists (RNode n). split; [|done]. apply elem_of_list_fmap_1, Hzs. split_and!; [by apply Hcov|by destruct Hok|by eapply Hc2].
        - intros _. apply NoDup_fmap_2; [by intros ? ? [= ->]|]. unfold zs. destruct c; repeat apply NoDup_filter; done.
      Qed.
      Lemma run_iter_edges i xs m : scheduled pre (IterEdges i xs) -> nexts (IterEdges i xs) -> inv pre m ->
        searches pre (IterEdges i xs :: post) m (run_step T g syms pat eord (IterEdges i xs) next m).
      Proof.
        intros Hsch Hnext Hinv. pose proof Hsch as (_ & Hlt & _ & Hpre & Hev & Hnd & Hlive). cbn [step_item] in Hlt.
        cbn [run_step].
        set (zs := filter _ xs).
        assert (forall e, e ∈ zs <-> e ∈ xs /\ edge_match s (pi_labels (item pat i)) (pi_props (item pat i)) e) as Hzs.
        { intros e. unfold zs. rewrite elem_of_list_filter. split.
          - intros [Hf Hx]. split; [done|]. apply (item_edges_ok ops g Hv Hr); [by apply Hlive|done].
          - intros [Hx Hm]. split; [|done]. apply (item_edges_ok ops g Hv Hr); [by apply Hlive|done]. }
        eapply (visits_searches pre post (IterEdges i xs)) with (m := m); try done.
        - apply (visit_all_ok pre post (IterEdges i xs) next Hcl Hsch Hnext); try done.
          + by intros [].
          + apply not_var_expects. by rewrite Hpre.
          + intros r (e & -> & He)%elem_of_list_fmap. exists e. split; [done|]. by apply Hzs in He as [? ?].
        - intros R (HdR & HagR & HokR) Hco. destruct (HokR (IterEdges i xs)) as (r & HRi & e & -> & Hok & Hx); [by apply elem_of_cons; left|].
          eexists. split; [|done]. apply (elem_of_list_fmap_1 (fun e => RPath (Path None [PE e false]))), Hzs. by split.
        - intros _. apply NoDup_fmap_2; [by intros ? ? [= ->]|]. by apply NoDup_filter.
      Qed.
      Lemma read_node_result src m : typed pre -> inv pre m -> src ∈ items pre -> Nat.even src = true ->
        exists n, m_res m !! src = Some (RNode n) /\ live_node s n.
      Proof.
        intros _ Hinv (st & -> & Hst)%elem_of_list_fmap Hev. destruct (inv_ok _ _ Hinv _ Hst) as (r & -> & Hcd).
        destruct (Hty _ Hst) as [_ Hk]. destruct st as [? ?|? ?|? ? ?|? ? ? ?]; simpl in *; try congruence.
        - destruct Hcd as (n & -> & [(x & Hx & _) _]). exists n. split; [done|]. by exists x.
        - destruct Hcd as (_ & n & _ & -> & _ & [(x & Hx & _) _]). exists n. split; [done|]. by exists x.
      Qed.
      Lemma run_conn_edges i src d m : scheduled pre (ConnEdges i src d) -> nexts (ConnEdges i src d) -> inv pre m ->
        searches pre (ConnEdges i src d :: post) m (run_step T g syms pat eord (ConnEdges i src d) next m).
      Proof.
        intros Hsch Hnext Hinv. pose proof Hsch as (_ & Hlt & Hrd & Hevi & Hevs & Hnv & Hd). cbn [step_item reads] in Hlt, Hrd.
        pose proof (item_in pat i Hlt) as Hit.
        destruct (read_node_result src m Hty Hinv) as (n & Hsrc & Hn); [apply Hrd; set_solver|done|].
        cbn [run_step]. rewrite Hsrc.
        destruct (legs_ok i (item pat i) n d (m_calls m) (S (m_calls m)) Hit Hn) as (es & -> & Hleg & Hndl). cbn [rbind].
        set (leg := filter _ es) in *.
        assert (inv pre (called T 2 m)) as Hinv2 by (destruct Hinv; by split).
        assert (forall R, agree (items pre) R (m_res m) -> R !! src = Some (RNode n)) as HR.
        { intros R HagR. rewrite HagR; [done|]. apply Hrd. set_solver. }
        destruct (decide _) as [Hs|Hs].
        - eapply (visits_searches pre post (ConnEdges i src d)) with (m := called T 2 m); try done.
          + apply (visit_all_ok pre post (ConnEdges i src d) next Hcl Hsch Hnext); try done.
            * simpl. intros H. by apply H.
            * by apply not_var_expects.
            * intros r (e & -> & He)%elem_of_list_fmap. eexists n, _. cbn [called m_res]. split_and!; [done|done|]. apply leads_single; [done|].
              exists e. split; [done|]. by apply Hleg.
          + intros R (HdR & HagR & HokR) Hco. destruct (HokR (ConnEdges i src d)) as (r & HRi & n' & p & HRs & -> & Hl); [by apply elem_of_cons; left|].
            rewrite (HR R HagR) in HRs. injection HRs as <-. eexists. split; [|done]. apply (leads_single _ _ _ _ Hs) in Hl as (e & -> & Hl).
            apply (elem_of_list_fmap_1 (fun e => RPath (Path None [pe_at_node g n e]))). by apply Hleg.
          + intros Hno. apply NoDup_fmap_2; [by intros ? ? [= ->]|]. apply Hndl. intros [Hl Hu]%Hd e ed Hed.
            assert (Nat.odd i = true) as Ho by (by rewrite <- Nat.negb_even, Hevi). apply Nat.odd_spec in Ho as [k ->].
            destruct Hs. by eapply Hno.
        - destruct (collect_ok ops g (item_edges g (item pat i)) d (pi_min (item pat i)) (pi_max (item pat i)) n leg Hv Hr) as (all & Hnd & Hall & Hcol).
          { intros e [He _]%Hleg. by eapply at_incident. }
          rewrite Hcol. 2:{ rewrite <- size_dom. apply (edges_fuel _ _ Hc). }
          cbn [rbind].
          assert (forall p, p ∈ all <-> leads (item pat i) d n p) as Hall'.
          { intros p. rewrite Hall. by apply leads_trail. }
          eapply (visits_searches pre post (ConnEdges i src d)) with (m := called T 2 m); try done.
          + apply (visit_path_ok pre post (ConnEdges i src d) next Hcl Hsch Hnext); try done.
            * by apply not_var_expects.
            * intros p Hp. eexists n, _. cbn [called m_res]. split_and!; [done|done|]. by apply Hall'.
          + intros R (HdR & HagR & HokR) Hco. destruct (HokR (ConnEdges i src d)) as (r & HRi & n' & p & HRs & -> & Hl); [by apply elem_of_cons; left|].
            rewrite (HR R HagR) in HRs. injection HRs as <-. eexists. split; [|done]. by apply elem_of_list_fmap_1, Hall'.
          + intros Hno. apply NoDup_fmap_2; [by intros ? ? [= ->]|done].
      Qed.

      Lemma conn_tail i src u prev m p n : scheduled pre (ConnNodes i src u prev) -> nexts (ConnNodes i src u prev) -> inv pre m ->
        m_res m !! src = Some (RPath p) -> node_at src i p = Some n -> live_node s n ->
        searches pre (ConnNodes i src u prev :: post) m
          (if item_nodes g (item pat i) n then
              match constrained syms (m_local m) (item pat i) with
              | None => Ok (Some (pi_name (item pat i)), m)
              | Some c =>
                  if (match c with None => true | Some ns => bool_decide (n ∈ ns) end) then
                    let! y := next (enter T syms pat i (RNode n) (with_vnode T None m)) in
                    Ok (match y.1 with
                        | Some e => (Some e, match m_vnode m with Some _ => with_vnode T (m_vnode m) y.2 | None => y.2 end)
                        | None => (None, match m_vnode m with Some _ => with_vnode T (m_vnode m) (leave T syms pat i y.2) | None => leave T syms pat i y.2 end)
                        end)
                  else Ok (None, m)
              end
            else Ok (None, m)).
      Proof.
        intros Hsch Hnext Hinv Hsrc Hna Hn. pose proof Hsch as (_ & Hlt & Hrd & Hev & _). cbn [step_item reads] in Hlt, Hrd.
        pose proof (item_in pat i Hlt) as Hit. set (st := ConnNodes i src u prev) in *.
        destruct (constrained_ok pre st m (item pat i) Hty Hinv Hit Hev) as (c & Hcs & Hc1 & Hc2).
        assert (forall R, agree (items pre) R (m_res m) -> ok_at st R -> R !! i = Some (RNode n) /\ node_ok s syms (item pat i) n) as HR.
        { intros R HagR (r & HRi & p' & n' & HRs & -> & Hna' & Hok). rewrite HagR in HRs by (apply Hrd; set_solver).
          assert (p' = p) as -> by congruence. assert (n' = n) as -> by congruence. done. }
        destruct (item_nodes g (item pat i) n) eqn:Hf.
        2:{ eapply (visits_searches pre post st) with (m := m) (rs := []); try done.
            - by apply (visits_nil pre post st).
            - intros R (_ & HagR & Hok) _. destruct (HR R HagR) as [_ [Hm _]]; [apply Hok; by apply elem_of_cons; left|].
              apply (item_nodes_ok ops g Hv Hr _ _ Hn) in Hm. congruence.
            - intros _. constructor. }
        apply (item_nodes_ok ops g Hv Hr _ _ Hn) in Hf as Hm. rewrite Hcs.
        destruct (match c with None => true | Some ns => bool_decide (n ∈ ns) end) eqn:Hcc.
        2:{ eapply (visits_searches pre post st) with (m := m) (rs := []); try done.
            - by apply (visits_nil pre post st).
            - intros R (_ & HagR & Hok) Hco. destruct (HR R HagR) as [HRi Hnok]; [apply Hok; by apply elem_of_cons; left|].
              specialize (Hc2 R n HagR Hco HRi Hnok). destruct c; [|done]. by apply bool_decide_eq_false in Hcc.
            - intros _. constructor. }
        assert (node_ok s syms (item pat i) n) as Hnok.
        { apply Hc1; [done|]. destruct c; [|done]. by apply bool_decide_eq_true in Hcc. }
        destruct (visit_one pre post st next Hcl Hsch Hnext m (RNode n) Hinv) as (m2 & L & Ho & Hsub & Hvn & Hag & Hd & Hacc & Hsound & Hcomp & Hnd).
        { by exists p, n. }
        change (vnode_for st (RNode n)) with (if decide False then None else None : option nat) in *.
        assert ((if decide False then None else None : option nat) = None) as Evn by by destruct (decide False).
        rewrite Evn in *. change (with_vnode T None (enter T syms pat (step_item st) (RNode n) m)) with (enter T syms pat i (RNode n) (with_vnode T None m)) in Ho.
        rewrite Ho. cbn [rbind fst snd].
        assert (match m_vnode m with Some _ => with_vnode T (m_vnode m) (leave T syms pat i m2) | None => leave T syms pat i m2 end
          = leave T syms pat i (with_vnode T (m_vnode m) m2)) as E.
        { unfold with_vnode, leave. cbn. destruct (m_vnode m); [done|]. by rewrite Hvn. }
        rewrite E. eapply (visits_searches pre post st) with (m := m) (rs := [RNode n]); try done.
        - eapply (visits_cons pre post st); try done. apply visits_nil. eapply inv_sub; done.
        - intros R (_ & HagR & Hok) Hco. destruct (HR R HagR) as [HRi _]; [apply Hok; by apply elem_of_cons; left|].
          exists (RNode n). split; [by apply elem_of_list_singleton|done].
        - intros _. apply NoDup_singleton.
      Qed.
      Lemma run_conn_nodes i src u prev m : scheduled pre (ConnNodes i src u prev) -> nexts (ConnNodes i src u prev) -> inv pre m ->
        searches pre (ConnNodes i src u prev :: post) m (run_step T g syms pat eord (ConnNodes i src u prev) next m).
      Proof.
        intros Hsch Hnext Hinv. pose proof Hsch as (_ & Hlt & Hrd & Hev & Hcase). cbn [step_item reads] in Hlt, Hrd.
        destruct Hcase as [(a & d & Hlast & Hns & Hu)|(xs & Hst & Hnv & Hsrc & Hu)].
        - assert (ConnEdges src a d ∈ pre) as Hst by (rewrite last_lookup in Hlast; by eapply elem_of_list_lookup_2).
          destruct (inv_ok _ _ Hinv _ Hst) as (r & Hres & x & p & Hra & -> & Hl). cbn [step_item] in Hres.
          destruct (leads_end _ _ _ _ Hl) as (b & Hb & Hlive). destruct (leads_last_edge _ _ _ _ Hl) as (e & He & Hsingle).
          assert (node_at src i p = Some b) as Hna by (unfold node_at; by rewrite decide_False by (by intros [? _])).
          pose proof (conn_tail i src u prev m p b Hsch Hnext Hinv Hres Hna Hlive) as Htail.
          cbn [run_step]. rewrite Hres, He. cbn [rbind].
          pose proof (inv_vnode _ _ Hinv) as Hvn. unfold expects in Hvn. rewrite Hlast in Hvn. cbn [step_item] in Hvn. rewrite Hres in Hvn.
          destruct (decide (var_step (ConnEdges src a d))) as [Hvar|Hnv].
          + rewrite Hb in Hvn. rewrite Hvn. rewrite Hvn in Htail. cbn [rbind]. exact Htail.
          + simpl in Hnv. assert (single (item pat src)) as Hs by (destruct (decide (single (item pat src))); tauto).
            destruct (Hsingle Hs) as [-> Hat]. rewrite Hvn. rewrite Hvn in Htail.
            unfold path_last in Hb. cbn [p_only p_path last fmap option_fmap option_map] in Hb. injection Hb as Hb.
            assert ((match u, prev with
              | UseTo, _ => Ok (to e) | UseFrom, _ => Ok (from e) | UseAny, None => Panic
              | UseAny, Some j => match m_res m !! j with Some (RNode x) => Ok (if decide (to e = x) then from e else to e) | _ => Panic end
              end) = Ok b) as ->; [|exact Htail].
            unfold pe_tgt, pe_at_node in Hb. cbn [pe_rev pe_edge] in Hb.
            destruct d; simpl in Hat.
            * subst u. destruct Hat as (ed & Hed & Ht). destruct (edge_ends g s Hc _ _ Hed) as [Ef Et]. rewrite Ef, Et in *.
              case_bool_decide as Hbd; [congruence|]. destruct (decide (e_from ed = e_to ed)) as [|Hne]; [congruence|]. by destruct Hbd.
            * destruct Hu as [-> ->]. rewrite Hra. f_equal. rewrite <- Hb.
              case_bool_decide as Hbd; [by rewrite decide_True by apply Hbd|].
              destruct (decide (to e = x)); [|done]. destruct (decide (from e = to e)) as [|Hne]; [congruence|]. by destruct Hbd.
            * subst u. destruct Hat as (ed & Hed & Ht). destruct (edge_ends g s Hc _ _ Hed) as [Ef Et]. rewrite Ef, Et in *.
              case_bool_decide as Hbd; [|congruence]. destruct Hbd. congruence.
        - destruct (inv_ok _ _ Hinv _ Hst) as (r & Hres & e & -> & (ed & Hed & _) & _). cbn [step_item] in Hres.
          destruct (edge_ends g s Hc _ _ Hed) as [Ef Et]. destruct (core_edge _ _ _ _ Hc Hed) as (_ & Lf & Lt & _).
          pose proof (vnode_none pre m Hinv Hnv) as Hvn.
          cbn [run_step]. rewrite Hres. unfold path_get_edge, num_path_edges, pe_at. cbn [p_only p_path length Z.of_nat Z.sub Z.add Z.opp Z.pos_sub Pos.of_succ_nat].
          cbn [rbind]. rewrite Hvn. destruct Hu as [Hi ->].
          match goal with |- context [decide ?P] => destruct (decide P) as [Hd|Hd] end.
          + pose proof (conn_tail i src UseFrom prev m _ (from e) Hsch Hnext Hinv Hres) as Htail. rewrite Hvn in Htail.
            apply Htail; [|by rewrite Ef]. unfold node_at. by rewrite decide_True.
          + pose proof (conn_tail i src UseTo prev m _ (to e) Hsch Hnext Hinv Hres) as Htail. rewrite Hvn in Htail.
            apply Htail; [|by rewrite Et]. unfold node_at. rewrite decide_False; [done|]. by intros [_ ?].
      Qed.
      Lemma run_step_ok st m : scheduled pre st -> nexts st -> inv pre m ->
        searches pre (st :: post) m (run_step T g syms pat eord st next m).
      Proof. destruct st; [apply run_iter_nodes|apply run_iter_edges|apply run_conn_edges|apply run_conn_nodes]. Qed.
    End steps.

    Variable all : list pstep.
    Hypothesis Hplan : forall pre st post, all = pre ++ st :: post -> scheduled pre st.
    Hypothesis Hcover : forall i, i < length pat -> i ∈ items all.

    Lemma plan_step pre post st : all = pre ++ post -> st ∈ pre ->
      exists pre1 pre2, pre = pre1 ++ st :: pre2 /\ scheduled pre1 st.
    Proof.
      intros E (p1 & p2 & Ep)%elem_of_list_split. exists p1, p2. split; [done|]. apply (Hplan _ _ (p2 ++ post)). by rewrite E, Ep, <- app_assoc.
    Qed.
    Lemma plan_closed pre post : all = pre ++ post -> closed pre.
    Proof.
      intros E st j Hst Hj. destruct (plan_step _ _ _ E Hst) as (p1 & p2 & -> & _ & _ & Hrd & _).
      apply Hrd in Hj. rewrite (map_app step_item). apply elem_of_app. by left.
    Qed.
    Lemma plan_typed pre post : all = pre ++ post -> typed pre.
    Proof.
      intros E st Hst. destruct (plan_step _ _ _ E Hst) as (p1 & p2 & _ & _ & Hlt & _ & Hk). split; [done|].
      destruct st; naive_solver.
    Qed.
    Lemma run_steps_ok post : forall pre m, all = pre ++ post -> inv pre m ->
      searches pre post m (run_total post m).
    Proof.
      induction post as [|st post IH]; intros pre m E Hinv; cbn [run_total].
      - rewrite app_nil_r in E. subst pre. split. eexists _, [m_res m]. split; [done|]. cbn [m_local m_vnode m_res m_acc].
        split; [by intros v x|]. split; [done|]. split; [by intros ??|]. split; [apply (inv_dom _ _ Hinv)|].
        split; [done|]. split_and!.
        + intros R ->%elem_of_list_singleton. split_and!; [apply (inv_dom _ _ Hinv)|by intros ??|by intros ? ?%elem_of_nil].
        + intros R [(HdR & HagR & _) _]. apply elem_of_list_singleton, map_eq. intros i.
          destruct (decide (i < length pat)) as [Hi|Hi]; [by apply HagR, Hcover|].
          pose proof (inv_dom _ _ Hinv) as Hd.
          destruct (R !! i) eqn:E1; [by apply HdR in E1|]. destruct (m_res m !! i) eqn:E2; [by apply Hd in E2|]. done.
        + intros _. apply NoDup_singleton.
      - apply run_step_ok.
        + by eapply plan_closed.
        + by eapply plan_typed.
        + by eapply Hplan.
        + intros m' Hinv'. apply IH; [|done]. by rewrite E, <- app_assoc.
        + done.
    Qed.
    (** the whole search *)
    Lemma search_ok t : exists m' L, run_total all (MS ∅ None ∅ 0 t) = Ok (None, m') /\
      m_acc m' = stored L t /\
      (forall R, R ∈ L -> rdom R /\ forall st, st ∈ all -> ok_at st R) /\
      (forall R, rdom R -> (forall st, st ∈ all -> ok_at st R) -> coherent R -> R ∈ L) /\
      (no_undirected_loops s pat -> NoDup L).
    Proof.
      assert (inv [] (MS ∅ None ∅ 0 t)) as Hinv.
      { split; cbn.
        - by intros ? ? ?.
        - by intros ? ?%elem_of_nil.
        - by intros ? ? ?.
        - done. }
      destruct (run_steps_ok all [] _ eq_refl Hinv) as [(m' & L & Ho & _ & _ & _ & _ & Hacc & Hsound & Hcomp & Hnd)].
      exists m', L. split_and!; try done.
      - by intros R [? [_ ?]]%Hsound.
      - intros R H1 H2 H3. apply Hcomp. split; [|done]. split_and!; [done|by intros ? ?%elem_of_nil|done].
    Qed.
  End acc.
End search.
