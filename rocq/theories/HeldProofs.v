(** Proofs for C92. *)
From Verif Require Import Base Value ValueProofs FastSet FastSetProofs Links EdgeMap NodeMap Index Graph GraphSpec.
From Verif Require Import LinksProofs EdgeMapProofs IndexProofs CoreProofs CoreStep AdjProofs ReadProofs NodeListProofs EdgeListProofs IndexGraphProofs ListedSpec ListedProofs HeldSpec GhostProofs.

(** ** Taking out what is not in *)
Section absent.
  Context {K : Type} `{EqDecision K} (κ κe : value -> K).
  Lemma bk_keep P c t t' i w s :
    bk_inv κ κe P c t -> c !! i = None -> get_spec κe t w (Some s) -> put_spec κe t w (fs_remove s i).1 t' -> bk_inv κ κe P c t'.
  Proof.
    intros [H1 H2] Hc (k0 & Hk0 & Hkv0) (Hp1 & Hp2 & Hp3). destruct (H1 _ _ Hk0) as (xs & Hxs & Hin). destruct (fs_remove_ok _ _ i Hxs) as [_ Hrep].
    split.
    - intros k s' Hks. destruct (Hp1 _ _ Hks) as [[Hold Hne]|[-> Hk]]; [by apply H1|].
      eexists. split; [exact Hrep|]. intros j y. rewrite fs_without_elem, Hin. simpl. rewrite Hk, Hkv0.
      split; [tauto|]. intros (? & v & Hv & ?). split; [eauto|]. intros ->. congruence.
    - intros j v Hj. destruct (decide (κ v = w)) as [E|E].
      + destruct Hp3 as (k' & Hk' & Ek'). exists k'. eexists. split; [exact Hk'|]. congruence.
      + destruct (H2 _ _ Hj) as (k & s' & Hks & E'). exists k, s'. split; [|done]. apply Hp2; [done|]. congruence.
  Qed.
  Lemma bk_drop P c t t' i w s :
    (forall j v, c !! j = Some v -> exists x, P j x) ->
    bk_inv κ κe P c t -> c !! i = None -> get_spec κe t w (Some s) -> fs_size (fs_remove s i).1 = 0 -> del_spec κe t w t' -> bk_inv κ κe P c t'.
  Proof.
    intros Htot [H1 H2] Hc (k0 & Hk0 & Hkv0) Hsz Hdel. destruct (H1 _ _ Hk0) as (xs & Hxs & Hin). destruct (fs_remove_ok _ _ i Hxs) as [_ Hrep].
    rewrite (fs_size_ok _ _ Hrep) in Hsz. apply nil_length_inv in Hsz.
    split.
    - intros k s' Hks. apply Hdel in Hks as [Hold Hne]. by apply H1.
    - intros j v Hj. destruct (H2 _ _ Hj) as (k & s' & Hks & E'). exists k, s'. split; [|done]. apply Hdel. split; [done|]. intros E.
      destruct (Htot _ _ Hj) as [x Hx]. assert ((j, x) ∈ fs_without xs i) as Hx'; [|rewrite Hsz in Hx'; by apply elem_of_nil in Hx'].
      apply fs_without_elem. split; [|simpl; intros ->; congruence]. apply Hin. split; [done|]. exists v. split; [done|]. congruence.
  Qed.
End absent.
Lemma ix_remove_absent D ix c id v :
  ix_domain (ix_type ix) D -> ix_rep D ix c -> D v -> c !! id = None ->
  exists ix', ix_remove ix v id = Ok ix' /\ ix_rep D ix' c /\ ix_type ix' = ix_type ix.
Proof.
  intros HD [Hc Hrep] Hv Hid. destruct ix as [[t|]|vals els fresh]; simpl in HD |- *.
  - destruct Hrep as [Hok Hbk]. destruct (bt_get_spec D _ v HD Hok Hv) as (o & Hget & Hspec). rewrite Hget. simpl.
    destruct o as [s|]; [|by exists (IBtree (Some t))].
    destruct (bt_put_spec D t v (fs_remove s id).1 HD Hok Hv) as [Hok' Hput]. destruct (bt_del_spec D t v HD Hok Hv) as [Hokd Hdel].
    destruct (decide (fs_size (fs_remove s id).1 = 0)) as [Hz|Hz].
    + eexists. split; [done|]. split; [|done]. split; [done|]. split; [done|].
      eapply bk_drop; [|exact Hbk|done|exact Hspec|exact Hz|done]. intros j w _. by exists j.
    + eexists. split; [done|]. split; [|done]. split; [done|]. split; [done|]. eapply bk_keep; [exact Hbk|done|exact Hspec|done].
  - by exists (IBtree None).
  - destruct Hrep as (Hnd & He1 & Hf & He2 & Hdom & Hbk).
    destruct (decide (fresh = 0)) as [->|_]; [by exists (IHash vals els 0)|]. rewrite (HD v Hv). pose proof (h_get_spec vals (hkey v) Hnd) as Hget.
    destruct (h_get vals (hkey v)) as [s|] eqn:Hg; [|by exists (IHash vals els fresh)].
    destruct (bk_get _ _ _ _ _ _ _ Hbk Hget) as (xs & Hxs & Hin).
    destruct (fs_get s id) as [h|] eqn:E; [|by exists (IHash vals els fresh)].
    exfalso. apply (fs_get_ok _ _ _ _ Hxs) in E. apply Hin in E as (_ & w & Hw & _). congruence.
Qed.

(** [holds] for removals of what may be absent *)
Section holds.
  Context (D : value -> Prop).
  Lemma holds_remove' ix P id v : ix_domain (ix_type ix) D -> holds D ix P -> D v -> (forall w, P id w -> w = v) ->
    exists ix', ix_remove ix v id = Ok ix' /\ ix_type ix' = ix_type ix /\ holds D ix' (fun i w => i <> id /\ P i w).
  Proof.
    intros HD Hh Hv Hid. pose proof Hh as (c & Hc & H). destruct (c !! id) as [w|] eqn:E.
    - apply H in E. pose proof (Hid _ E) as ->. by apply holds_remove.
    - destruct (ix_remove_absent D ix c id v HD Hc Hv E) as (ix' & Ha & Hr & Ht). exists ix'. split; [done|]. split; [done|]. exists c. split; [done|].
      intros i w. rewrite H. split; [|tauto]. intros HP. split; [|done]. intros ->. apply H in HP. congruence.
  Qed.
End holds.
Section key.
  Context (D : value -> Prop) (k : string).
  Lemma kix_remove' ixs it P p id ixs' :
    ixs_remove ixs p id = Ok ixs' -> kix D ixs k it P -> (forall w, P id w -> p !! k = Some w) -> (forall v, p !! k = Some v -> D v) ->
    kix D ixs' k it (fun i w => i <> id /\ P i w).
  Proof.
    intros Ha Hk Hid HD. pose proof (props_loop_key (fun ix v => ix_remove ix v id) _ _ _ k Ha) as H.
    destruct it as [t|]; simpl in *; [|by rewrite Hk in H].
    intros Hd. destruct (Hk Hd) as (ix & Hix & Ht & Hh). rewrite Hix in H.
    destruct (p !! k) as [v|] eqn:E.
    - destruct H as (ix' & Hadd & ->). rewrite <- Ht in Hd.
      destruct (holds_remove' D ix P id v Hd Hh) as (ix2 & Hadd2 & Ht2 & Hh2); [by apply HD|intros w Hw; apply Hid in Hw; by injection Hw|].
      assert (ix2 = ix') as -> by congruence. exists ix'. split; [done|]. split; [congruence|done].
    - exists ix. split; [done|]. split; [done|]. eapply holds_ext; [exact Hh|].
      intros i w. split; [|naive_solver]. intros HP. split; [|done]. intros ->. apply Hid in HP. done.
  Qed.
  Lemma kix_update' ixs it P k' old new id ixs' :
    ix_update ixs k' old new id = Ok ixs' -> kix D ixs k it P ->
    (k' = k -> (forall w, P id w -> old = Some w) /\ (forall v, old = Some v -> D v) /\ (forall v, is_Some it -> new = Some v -> D v)) ->
    kix D ixs' k it (fun i w => if decide (k' = k) then i = id /\ new = Some w \/ i <> id /\ P i w else P i w).
  Proof.
    unfold ix_update. intros Hu Hk Hold. destruct (decide (k' = k)) as [->|Hne].
    - destruct (Hold eq_refl) as (Hid & HDo & HD). destruct it as [t|]; simpl in *.
      2: { rewrite Hk in Hu. by injection Hu as <-. }
      intros Hd. destruct (Hk Hd) as (ix & Hix & Ht & Hh). rewrite Hix in Hu.
      apply rbind_Ok_inv in Hu as (ix1 & H1 & Hu). apply rbind_Ok_inv in Hu as (ix2 & H2 & [= <-]).
      exists ix2. rewrite lookup_insert. split; [done|].
      assert (ix_type ix1 = t /\ holds D ix1 (fun i w => i <> id /\ P i w)) as [Ht1 Hh1].
      { destruct old as [v|].
        - rewrite <- Ht in Hd. destruct (holds_remove' D ix P id v Hd Hh) as (ix' & ? & ? & ?); [by apply HDo|intros w Hw; apply Hid in Hw; by injection Hw|].
          assert (ix1 = ix') as -> by congruence. split; [congruence|done].
        - injection H1 as <-. split; [done|]. eapply holds_ext; [exact Hh|]. intros i w. split; [|naive_solver].
          intros HP. split; [|done]. intros ->. by apply Hid in HP. }
      destruct new as [v|].
      + rewrite <- Ht1 in Hd. destruct (holds_add D ix1 _ id v Hd Hh1) as (ix' & ? & ? & Hh'); [by apply HD; [eexists|]|naive_solver|].
        assert (ix2 = ix') as -> by congruence. split; [congruence|]. eapply holds_ext; [exact Hh'|]. naive_solver.
      + injection H2 as <-. split; [done|]. eapply holds_ext; [exact Hh1|]. naive_solver.
    - assert (ixs' !! k = ixs !! k) as E.
      { destruct (ixs !! k') as [ix|]; [|by injection Hu as <-].
        apply rbind_Ok_inv in Hu as (ix1 & H1 & Hu). apply rbind_Ok_inv in Hu as (ix2 & H2 & [= <-]).
        by rewrite lookup_insert_ne. }
      unfold kix in *. by rewrite E.
  Qed.
End key.

(** ** The index *)
Lemma rfold_weaken {A S} (f h : S -> A -> res S) l s r :
  (forall s x s', x ∈ l -> f s x = Ok s' -> h s x = Ok s') -> rfold f l s = Ok r -> rfold h l s = Ok r.
Proof.
  revert s. induction l as [|x l IH]; intros s Hfh; simpl; [done|]. intros (s' & Hs & Hr)%rbind_Ok_inv. rewrite (Hfh s x s'); [|left|done]. simpl.
  apply IH; [|done]. intros ? ? ? ?. apply Hfh. by right.
Qed.
Lemma set_in_snoc ops o k n : set_in (ops ++ [o]) k n <-> set_in ops k n \/ exists v, o = OSetNodeProp n k v.
Proof.
  unfold set_in. setoid_rewrite elem_of_app. setoid_rewrite elem_of_list_singleton. split; [intros (v & [?|<-]); eauto|]. intros [(v & ?)|(v & ->)]; eauto.
Qed.

Section index.
  Context (D : value -> Prop) (k : string) (ops1 : list op) (it : index_type).
  Let full (ops2 : list op) : list op := ops1 ++ OAddNodeIndex k it :: ops2.
  Lemma held_new g1 g : valid_history ops1 -> run ops1 = Ok g1 -> node_index ops1 k = None -> step g1 (OAddNodeIndex k it) = Ok g ->
    (forall v, given ops1 k v -> D v) -> kix D (g_nix g) k (Some it) (held ops1 [] it k).
  Proof.
    intros Hv Hr Hi Hs HD Hd. pose proof (nix_run (fun _ => True) k ops1 g1 Hv Hr (fun _ _ => I) (node_index_none_safe _ _ Hi)) as Hk.
    rewrite Hi in Hk. simpl in Hk, Hs. unfold add_node_index in Hs. rewrite Hk, (get_nodes_listed _ _ Hv Hr) in Hs. simpl in Hs. apply rbind_Ok_inv in Hs as (a & Ha & Hs). injection Hs as <-.
    simpl. rewrite lookup_insert. destruct (listed_parts _ _ Hv Hr) as (Hnd & _ & Hh & Hde & Hl). apply NoDup_app in Hnd as (Hnd & _ & _).
    eapply (rfold_weaken _ (fun ix n => match last_value ops1 k n with Some v => ix_add ix v n | None => Ok ix end)) in Ha.
    2: { intros ix n ix' Hn Hix. inv_ok Hix. rewrite <- (last_prop _ _ k n Hv Hr (listed_created _ _ Hv Hr n Hn)). unfold node_prop. unfold deref_node in Ha0.
         destruct (g_nodes g1 !! n) as [nd|]; [|done]. injection Ha0 as ->. exact Hix. }
    destruct (scan_index D it (last_value ops1 k) (listed ops1)) with (ix0 := ix_new it) (P := fun (_ : nat) (_ : value) => False)
      as (ix & Hix & Ht & Hho); try done.
    { intros n v _ Hv'. by eapply HD, last_given. }
    { by destruct it. }
    { apply holds_new. by intros ? ? []. }
    { by intros ? ? ? []. }
    assert (ix = a) as -> by congruence. exists a. split; [done|]. split; [done|]. eapply holds_ext; [exact Hho|]. intros n v. unfold held.
    rewrite srun_snoc. change (sstep (srun ops1) (OAddNodeIndex k it)) with (srun ops1) at 1.
    assert (set_in [] k n <-> False) as -> by (split; [by intros (w & ?%elem_of_nil)|done]).
    specialize (Hh n). specialize (Hde n). specialize (Hl n). split.
    - intros [[]|[Hi' Hv']]. destruct (decide (n ∈ l_live (rows_of ops1))) as [Hx|Hx].
      + left. split; [apply (last_live _ k v n); [by apply Hl|done]|]. by intros [_ ?]%Hh.
      + right. split; [|done]. apply elem_of_app in Hi'. tauto.
    - intros [[Hn Hx]|[Hx Hv']]; right.
      + assert (live_node (srun ops1) n) as Hlv by (destruct Hn as (x & ? & _); by exists x). split; [|by apply (last_live _ k v n)].
        destruct (decide (n ∈ listed ops1)) as [|Hnl]; [done|]. exfalso. apply Hx, Hh. done.
      + split; [|done]. by apply Hde.
  Qed.
  Lemma held_step ops2 g o g' : valid_history (full ops2) -> run (full ops2) = Ok g -> valid (srun (full ops2)) o -> step g o = Ok g' ->
    (forall v, given (full (ops2 ++ [o])) k v -> D v) ->
    kix D (g_nix g) k (Some it) (held ops1 ops2 it k) -> kix D (g_nix g') k (Some it) (held ops1 (ops2 ++ [o]) it k).
  Proof.
    intros Hv Hr Ho Hs HD Hk. pose proof (core_run _ _ Hv Hr) as Hc. pose proof Hc as (_ & Hnext & _).
    assert (full (ops2 ++ [o]) = full ops2 ++ [o]) as Ef by (unfold full; by rewrite <- app_assoc).
    assert (forall v, given (full ops2) k v -> D v) as HD0. { intros v (o' & ? & ?). apply HD. rewrite Ef. exists o'. split; [|done]. apply elem_of_app. by left. }
    assert (forall v, writes_node o k v -> D v) as HDo. { intros v Hw. apply HD. rewrite Ef. exists o. split; [|done]. apply elem_of_app. right. left. }
    assert (forall v n, node_has (srun (full ops2)) k v n -> D v) as HDn.
    { intros v n Hn. apply HD0. eapply (last_given _ k n). apply (last_live _ k v n); [destruct Hn as (x & ? & _); by exists x|done]. }
    assert (forall n, n ∈ l_dead (rows_of ops1) -> ~ live_node (srun (full ops2)) n) as Hdead. { intros n Hn. by eapply listed_forever. }
    assert (forall n, n ∈ l_dead (rows_of ops1) \/ n ∈ hidden ops1 -> n < g_next g) as Hold.
    { intros n Hn. assert (exists g1, run ops1 = Ok g1 /\ valid_history ops1) as (g1 & Hr1 & Hv1).
      { clear -Hv Hr. subst full. simpl in *. revert g Hv Hr. induction ops2 as [|o' ops2 IH] using rev_ind; intros g Hv Hr.
        - apply valid_history_snoc in Hv as [? _]. apply run_snoc_inv in Hr as (g1 & ? & _). eauto.
        - rewrite app_comm_cons, app_assoc in Hv, Hr. apply valid_history_snoc in Hv as [? _]. apply run_snoc_inv in Hr as (g1 & ? & _). eauto. }
      assert (n < s_next (srun ops1)) as Hlt. { eapply everyone_lt; [done|done|]. destruct Hn as [Hn|?]; [left|by right]. by apply elem_of_app; left. }
      destruct (listed_later ops1 (OAddNodeIndex k it :: ops2) g n Hv Hr Hlt) as [Hle _]. rewrite Hnext. unfold full. lia. }
    assert (forall n v, held ops1 (ops2 ++ [o]) it k n v <-> node_has (sstep (srun (full ops2)) o) k v n /\ (n ∈ hidden ops1 -> set_in ops2 k n \/ exists v, o = OSetNodeProp n k v) \/
       n ∈ l_dead (rows_of ops1) /\ last_value ops1 k n = Some v) as Hheld.
    { intros n v. unfold held. fold (full (ops2 ++ [o])). rewrite Ef, srun_snoc, set_in_snoc. done. }
    assert (forall n v, held ops1 ops2 it k n v <-> node_has (srun (full ops2)) k v n /\ (n ∈ hidden ops1 -> set_in ops2 k n) \/
       n ∈ l_dead (rows_of ops1) /\ last_value ops1 k n = Some v) as Hheld0 by done.
    set (s := srun (full ops2)) in *. clearbody s.
    assert (g_nix g' = g_nix g -> (forall i v, node_has (sstep s o) k v i <-> node_has s k v i) -> (forall i v, o <> OSetNodeProp i k v) ->
      kix D (g_nix g') k (Some it) (held ops1 (ops2 ++ [o]) it k)) as Hsame.
    { intros -> Hns Hno. eapply kix_ext; [exact Hk|]. intros i v. rewrite Hheld, Hheld0, Hns. naive_solver. }
    destruct o; simpl in Hs, Ho.
    - inv_ok Hs. destruct a as [g1 n]. injection Hs as <-. apply new_node_shape in Ha as (->&_&_&_&_&_&_&_&_&Hix&_).
      assert (forall w, ~ node_has s k w (g_next g)) as Hnn. { intros w (x & Hx & _). assert (g_next g < s_next s); [|lia]. eapply core_live_lt; [done|]. by eexists. }
      assert (forall w, ~ held ops1 ops2 it k (g_next g) w) as Hnh.
      { intros w. rewrite Hheld0. intros [[Hn _]|[Hn _]]; [by eapply Hnn|]. assert (g_next g < g_next g); [auto|lia]. }
      eapply kix_ext; [eapply kix_add; [exact Hix|exact Hk|done|]|].
      + intros v _ Hpv. by apply HDo.
      + intros i v. rewrite Hheld, Hheld0. simpl. unfold node_has at 2. simpl. rewrite <- Hnext. destruct (decide (i = g_next g)) as [->|].
        * rewrite lookup_insert. assert (g_next g ∉ hidden ops1) by (intros H; assert (g_next g < g_next g); [auto|lia]).
          assert (g_next g ∉ l_dead (rows_of ops1)) by (intros H'; assert (g_next g < g_next g); [auto|lia]). naive_solver.
        * rewrite lookup_insert_ne by done. unfold node_has. clear -n. naive_solver.
    - inv_ok Hs. destruct a as [g1 e]. injection Hs as <-. apply new_edge_shape in Ha as (->&_&_&_&_&_&Hix&_). by apply Hsame.
    - apply Hsame; [|intros i v; unfold node_has; simpl; destruct (decide (i = n)) as [->|]; [rewrite lookup_alter; destruct (s_nodes s !! n); simpl; naive_solver|by rewrite lookup_alter_ne]|done].
      unfold set_labels in Hs. inv_ok Hs. injection Hs as <-. done.
    - unfold set_node_prop in Hs. inv_ok Hs. injection Hs as <-. cbn [g_nix set_nodes set_nix].
      destruct Ho as [x Hx]. destruct (core_props _ _ _ _ Hc Hx) as (nd & Hnd & Hp & _). assert (a = nd) as -> by congruence.
      assert (n ∉ l_dead (rows_of ops1)) as Hnd'. { intros H. apply (Hdead n H). by exists x. }
      eapply kix_ext; [eapply kix_update'; [exact Ha0|exact Hk|]|].
      + intros ->. split; [|split].
        * intros w. rewrite Hheld0, Hp. unfold node_has. rewrite Hx. naive_solver.
        * intros w. rewrite Hp. intros Hw. apply (HDn w n). by exists x.
        * intros w _ [= <-]. by apply HDo.
      + intros i w. rewrite Hheld. cbv beta. pose proof (Hheld0 i w) as Hh0.
        assert (i <> n \/ k0 <> k -> forall A : Prop, (A \/ exists v0, OSetNodeProp n k0 v = OSetNodeProp i k v0) <-> A) as HA by (intros Hne A; split; [intros [?|(? & [= -> ->])]; [done|by destruct Hne]|tauto]).
        simpl. unfold node_has in Hh0 |- *. simpl. destruct (decide (i = n)) as [->|Hne].
        * rewrite lookup_alter, Hx in *. simpl. destruct (decide (k0 = k)) as [->|Hk0].
          -- split.
             ++ intros [[_ [= ->]]|[? _]]; [|done]. left. split; [|intros _; right; eauto]. eexists. split; [done|]. simpl. by rewrite lookup_insert.
             ++ intros [[(y & [= <-] & Hy) _]|[? _]]; [|done]. simpl in Hy. rewrite lookup_insert in Hy. by left.
          -- rewrite HA, Hh0 by (by right). split; (intros [[(y & [= <-] & Hy) Hz]|?]; [|by right]; left; (split; [|done])).
             ++ eexists. split; [done|]. simpl. by rewrite lookup_insert_ne.
             ++ exists x. split; [done|]. simpl in Hy. by rewrite lookup_insert_ne in Hy.
        * rewrite lookup_alter_ne by done. rewrite HA by (by left). destruct (decide (k0 = k)); tauto.
    - unfold rem_node_prop in Hs. inv_ok Hs.
      destruct Ho as [x Hx]. destruct (core_props _ _ _ _ Hc Hx) as (nd & Hnd & Hp & _). assert (a = nd) as -> by congruence.
      assert (n ∉ l_dead (rows_of ops1)) as Hnd'. { intros H. apply (Hdead n H). by exists x. }
      assert (kix D (g_nix g') k (Some it) (fun i w => if decide (k0 = k) then i <> n /\ held ops1 ops2 it k i w else held ops1 ops2 it k i w)) as Hk'.
      { destruct (n_props nd !! k0) as [v|] eqn:Hv0.
        - inv_ok Hs. injection Hs as <-. cbn [g_nix set_nodes set_nix].
          eapply kix_ext; [eapply kix_update'; [exact Ha0|exact Hk|]|].
          + intros ->. split; [|split; [|done]].
            * intros w. rewrite Hheld0. rewrite Hp in Hv0. unfold node_has. rewrite Hx. naive_solver.
            * intros w [= <-]. apply (HDn v n). exists x. split; [done|]. congruence.
          + intros i w. simpl. destruct (decide (k0 = k)); naive_solver.
        - injection Hs as <-. eapply kix_ext; [exact Hk|]. intros i w. destruct (decide (k0 = k)) as [->|]; [|done].
          split; [|naive_solver]. intros Hh. split; [|done]. intros ->. apply Hheld0 in Hh as [[(y & Hy & Hw) _]|[? _]]; [|done].
          rewrite Hx in Hy. injection Hy as <-. congruence. }
      eapply kix_ext; [exact Hk'|]. intros i w. rewrite Hheld.
      assert (forall A : Prop, (A \/ exists v0, ORemNodeProp n k0 = OSetNodeProp i k v0) <-> A) as HA by (intros A; split; [intros [?|(? & ?)]; congruence|tauto]).
      rewrite HA. pose proof (Hheld0 i w) as Hh0. simpl. unfold node_has in Hh0 |- *. simpl. destruct (decide (i = n)) as [->|].
      + rewrite lookup_alter, Hx in *. simpl. destruct (decide (k0 = k)) as [->|].
        * split; [by intros [? _]|]. intros [[(y & [= <-] & Hy) _]|[? _]]; [|done]. simpl in Hy. by rewrite lookup_delete in Hy.
        * rewrite Hh0. split; (intros [[(y & [= <-] & Hy) Hz]|?]; [|by right]; left; (split; [|done])).
          ++ eexists. split; [done|]. simpl. by rewrite lookup_delete_ne.
          ++ exists x. split; [done|]. simpl in Hy. by rewrite lookup_delete_ne in Hy.
      + rewrite lookup_alter_ne by done. destruct (decide (k0 = k)); tauto.
    - apply detach_shape in Hs as (_&_&_&_&E&_). by apply Hsame.
    - apply detach_remove_shape in Hs as (g1 & nd & Hd & Hnd & _&_&_&_&_&_&_&_&_&_& Hix).
      apply detach_shape in Hd as (_&_&_&_&E&_&Hdata). rewrite E in Hix.
      destruct Ho as (x & Hx & _). destruct (core_props _ _ _ _ Hc Hx) as (nd0 & Hnd0 & Hp & _).
      assert (n_props nd = sn_props x) as Hp'.
      { specialize (Hdata n). unfold data, deref_node in *. rewrite Hnd in Hdata. destruct (g_nodes g !! n) as [y|]; [|done].
        injection Hnd0 as ->. simpl in Hdata. injection Hdata as _ ?. congruence. }
      assert (n ∉ l_dead (rows_of ops1)) as Hnd'. { intros H. apply (Hdead n H). by exists x. }
      eapply kix_ext; [eapply kix_remove'; [exact Hix|exact Hk| |]|].
      + intros w. rewrite Hheld0, Hp'. unfold node_has. rewrite Hx. naive_solver.
      + intros w. rewrite Hp'. intros Hw. apply (HDn w n). by exists x.
      + intros i w. rewrite Hheld.
        assert (forall A : Prop, (A \/ exists v0, ODetachRemove n ord = OSetNodeProp i k v0) <-> A) as HA by (intros A; split; [intros [?|(? & ?)]; congruence|tauto]).
        rewrite HA, Hheld0. simpl. unfold node_has. simpl. setoid_rewrite lookup_delete_Some. clear -Hnd'. naive_solver.
    - apply set_edge_label_shape in Hs as (?&_&_&_&_&_&_&_&_&E&_). by apply Hsame.
    - unfold set_edge_prop in Hs. inv_ok Hs. injection Hs as <-. by apply Hsame.
    - unfold rem_edge_prop in Hs. inv_ok Hs. apply Hsame; [|done|done]. destruct (e_props _ !! _); [inv_ok Hs|]; injection Hs as <-; done.
    - apply remove_edge_shape in Hs as ((_&_&_&_&E&_) & _). by apply Hsame.
    - intros Hd. destruct (Hk Hd) as (ix & Hix & Ht & Hho). exists ix. split; [|split; [done|]].
      + unfold add_node_index in Hs. destruct (g_nix g !! k0) eqn:E; [by injection Hs as <-|]. inv_ok Hs. injection Hs as <-. simpl.
        rewrite lookup_insert_ne; [done|]. intros ->. congruence.
      + eapply holds_ext; [exact Hho|]. intros i v. rewrite Hheld, Hheld0. change (sstep s (OAddNodeIndex k0 it0)) with s.
        assert (forall A : Prop, (A \/ exists v0, OAddNodeIndex k0 it0 = OSetNodeProp i k v0) <-> A) as HA by (intros A; split; [intros [?|(? & ?)]; congruence|tauto]).
        by rewrite HA.
    - unfold add_edge_index in Hs. apply Hsame; [|done|done].
      destruct (g_eix g !! _); [injection Hs as <-; done|]. inv_ok Hs. injection Hs as <-. done.
  Qed.
  Lemma held_run ops2 g : node_index ops1 k = None -> valid_history (full ops2) -> run (full ops2) = Ok g -> (forall v, given (full ops2) k v -> D v) ->
    kix D (g_nix g) k (Some it) (held ops1 ops2 it k).
  Proof.
    intros Hi. revert g. induction ops2 as [|o ops2 IH] using rev_ind; intros g Hv Hr HD.
    - apply valid_history_snoc in Hv as [Hv Ho]. apply run_snoc_inv in Hr as (g1 & Hr & Hs). eapply held_new; [done|done|done|done|].
      intros v (o & ? & ?). apply HD. exists o. split; [|done]. apply elem_of_app. by left.
    - assert (full (ops2 ++ [o]) = full ops2 ++ [o]) as Ef by (unfold full; by rewrite <- app_assoc). pose proof HD as HD'. rewrite Ef in Hv, Hr, HD.
      apply valid_history_snoc in Hv as [Hv Ho]. apply run_snoc_inv in Hr as (g1 & Hr & Hs). eapply held_step; [done..|]. apply IH; [done|done|].
      intros v (o' & ? & ?). apply HD. exists o'. split; [|done]. apply elem_of_app. by left.
  Qed.
End index.

Lemma with_property_scan ops g k : valid_history ops -> run ops = Ok g -> node_index ops k = None ->
  get_nodes_with_property g k = Ok (filter (fun n => is_Some (last_value ops k n)) (listed ops)).
Proof.
  intros Hv Hr Hi. pose proof (nix_run (fun _ => True) k ops g Hv Hr (fun _ _ => I) (node_index_none_safe _ _ Hi)) as Hk.
  rewrite Hi in Hk. simpl in Hk. unfold get_nodes_with_property. rewrite Hk, (get_nodes_listed _ _ Hv Hr). simpl. f_equal.
  pose proof (listed_created _ _ Hv Hr) as Hc. induction (listed ops) as [|n ns IH]; [done|]. rewrite !filter_cons.
  rewrite IH by (intros m Hm; apply Hc; by right).
  assert (is_Some (node_prop g n k) <-> is_Some (last_value ops k n)) as H by (rewrite (last_prop _ _ k n Hv Hr); [done|apply Hc; left]).
  destruct (decide (is_Some (node_prop g n k))), (decide (is_Some (last_value ops k n))); tauto.
Qed.
Lemma with_property_held ops1 it ops2 k g : let ops := ops1 ++ OAddNodeIndex k it :: ops2 in
  valid_history ops -> run ops = Ok g -> node_index ops1 k = None -> storable it (given ops k) ->
  exists xs, get_nodes_with_property g k = Ok xs /\ lists (fun n => exists v, held ops1 ops2 it k n v) xs.
Proof.
  intros ops Hv Hr Hi Hst. pose proof (held_run (given ops k) k ops1 it ops2 g Hi Hv Hr (fun v H => H)) as Hk.
  apply storable_domain in Hst. destruct (Hk Hst) as (ix & Hix & _ & Hh). unfold get_nodes_with_property. rewrite Hix.
  eexists. split; [done|]. eapply holds_values. exact Hh.
Qed.
(** when the answer is right *)
Lemma with_property_right ops1 it ops2 k g xs : let ops := ops1 ++ OAddNodeIndex k it :: ops2 in
  valid_history ops -> run ops = Ok g -> node_index ops1 k = None -> storable it (given ops k) -> get_nodes_with_property g k = Ok xs ->
  (lists (fun n => exists v, node_has (srun ops) k v n) xs <->
   (forall n v, n ∈ hidden ops1 -> node_has (srun ops) k v n -> set_in ops2 k n) /\ (forall n, n ∈ l_dead (rows_of ops1) -> last_value ops1 k n = None)).
Proof.
  intros ops Hv Hr Hi Hst Hxs. destruct (with_property_held ops1 it ops2 k g Hv Hr Hi Hst) as (ys & Hys & [Hnd Hin]). rewrite Hxs in Hys. injection Hys as <-.
  assert (forall n, n ∈ l_dead (rows_of ops1) -> ~ live_node (srun ops) n) as Hdead. { intros n Hn. by eapply listed_forever. }
  clear Hxs Hr Hv Hst Hi g. split.
  - intros [_ Hin']. split.
    + intros n v Hh Hn. assert (exists v, held ops1 ops2 it k n v) as (w & [[_ Hw]|[Hw _]]); [apply Hin, Hin'; eauto|auto|]. exfalso. apply (Hdead _ Hw). destruct Hn as (x & Hx & _). by exists x.
    + intros n Hn. destruct (last_value ops1 k n) as [v|] eqn:E; [|done]. exfalso. assert (exists v, node_has (srun ops) k v n) as (w & x & Hx & _).
      { apply Hin', Hin. exists v. by right. } apply (Hdead _ Hn). by exists x.
  - intros [H1 H2]. split; [done|]. intros n. rewrite Hin. split; intros [v Hw]; exists v.
    + destruct Hw as [[? _]|[Hn Hl]]; [done|]. by rewrite H2 in Hl.
    + left. split; [done|]. intros Hh. by eapply H1.
Qed.
