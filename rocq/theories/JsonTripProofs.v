(** Proofs about reading back what Encode writes. *)
From Verif Require Import Base Value Index Graph GraphSpec CoreProofs CoreStep AdjProofs NodeListProofs EdgeListProofs
  ProgressProofs Sizes CloneSpec CloneProofs JsonText JsonTextProofs Json JsonSpec JsonEncProofs JsonDecProofs JsonAddProofs JsonUtf8Proofs.
From Coq Require Import Ascii NArith.
Local Open Scope string_scope.
Local Open Scope list_scope.

(** ** Properties *)
Definition collect {A B} (f : string -> A -> option (option (string * B))) (l : list (string * A)) (acc : option (gmap string B)) : option (gmap string B) :=
  foldl (fun acc kv =>
    match acc with
    | None => None
    | Some m => match f kv.1 kv.2 with
                | None => None
                | Some None => Some m
                | Some (Some (k, d)) => Some (<[k := d]> m)
                end
    end) acc l.
Lemma collect_ok {A B} (f : string -> A -> option (option (string * B))) l : forall r0,
  (forall k a, (k, a) ∈ l -> is_Some (f k a)) ->
  (forall k1 a1 k2 a2 k' b1 b2, (k1, a1) ∈ l -> (k2, a2) ∈ l -> f k1 a1 = Some (Some (k', b1)) -> f k2 a2 = Some (Some (k', b2)) -> k1 = k2) ->
  NoDup l.*1 -> (forall k a k' b, (k, a) ∈ l -> f k a = Some (Some (k', b)) -> r0 !! k' = None) ->
  exists r, collect f l (Some r0) = Some r /\
    forall k' b, r !! k' = Some b <-> r0 !! k' = Some b \/ exists k a, (k, a) ∈ l /\ f k a = Some (Some (k', b)).
Proof.
  induction l as [|[k a] l IH]; intros r0 Hall Hinj Hnd Hnew.
  { exists r0. split; [done|]. intros k' b. split; [by left|]. intros [?|(k & a & Hin & _)]; [done|]. by apply elem_of_nil in Hin. }
  cbn [fmap list_fmap fst] in Hnd. apply NoDup_cons in Hnd as [Hk Hnd].
  destruct (Hall k a) as [[[k' b]|] E]; [left| |]; unfold collect; cbn [foldl fst snd]; rewrite E; cycle 1.
  { destruct (IH r0) as (r & Hr & Hspec); [intros; apply Hall; by right|intros; eapply Hinj; [by right|by right|done|done]|done|intros; eapply Hnew; [by right|done]|].
    exists r. split; [exact Hr|]. intros k3 b3. rewrite Hspec. split.
    - intros [H|(k1 & a1 & H1 & E1)]; [by left|]. right. exists k1, a1. split; [by right|done].
    - intros [H|(k1 & a1 & H1 & E1)]; [by left|]. apply elem_of_cons in H1 as [[= -> ->]|H1]; [congruence|]. right. by exists k1, a1. }
  destruct (IH (<[k' := b]> r0)) as (r & Hr & Hspec).
  - intros k1 a1 H1. apply Hall. by right.
  - intros k1 a1 k2 a2 k3 b1 b2 H1 H2. apply Hinj; by right.
  - done.
  - intros k1 a1 k3 b1 H1 E1. destruct (decide (k3 = k')) as [->|Hne].
    + exfalso. apply Hk. assert (k1 = k) as ->; [|apply elem_of_list_fmap; by exists (k, a1)].
      eapply (Hinj k1 a1 k a); [by right|left|exact E1|exact E].
    + rewrite lookup_insert_ne by done. eapply Hnew; [by right|exact E1].
  - exists r. split; [exact Hr|]. intros k3 b3. rewrite Hspec. split.
    + intros [H|(k1 & a1 & H1 & E1)].
      * destruct (decide (k3 = k')) as [->|Hne]; [|rewrite lookup_insert_ne in H by done; by left].
        rewrite lookup_insert in H. injection H as <-. right. exists k, a. split; [left|done].
      * right. exists k1, a1. split; [by right|done].
    + intros [H|(k1 & a1 & H1 & E1)].
      * left. destruct (decide (k3 = k')) as [->|Hne]; [|by rewrite lookup_insert_ne].
        exfalso. rewrite (Hnew k a k' b) in H; [done|left|done].
      * apply elem_of_cons in H1 as [[= -> ->]|H1]; [|right; by exists k1, a1].
        left. rewrite E in E1. injection E1 as -> ->. by rewrite lookup_insert.
Qed.
Lemma collect_map {A B} (f : string -> A -> option (option (string * B))) (m : gmap string A) :
  (forall k a, m !! k = Some a -> is_Some (f k a)) ->
  (forall k1 a1 k2 a2 k' b1 b2, m !! k1 = Some a1 -> m !! k2 = Some a2 -> f k1 a1 = Some (Some (k', b1)) -> f k2 a2 = Some (Some (k', b2)) -> k1 = k2) ->
  exists r, collect f (map_to_list m) (Some ∅) = Some r /\ forall k' b, r !! k' = Some b <-> exists k a, m !! k = Some a /\ f k a = Some (Some (k', b)).
Proof.
  intros H1 H2. destruct (collect_ok f (map_to_list m) ∅) as (r & Hr & Hs).
  - intros k a H%elem_of_map_to_list. by apply H1.
  - intros k1 a1 k2 a2 k' b1 b2 Ha%elem_of_map_to_list Hb%elem_of_map_to_list. by apply H2.
  - apply NoDup_fst_map_to_list.
  - intros. apply lookup_empty.
  - exists r. split; [done|]. intros k' b. rewrite Hs, lookup_empty. setoid_rewrite elem_of_map_to_list. naive_solver.
Qed.
Lemma unmarshal_collect pu m : unmarshal_props pu m =
  collect (fun k d => match pu k d with None => None | Some (k, v) => Some (if decide (k = "") then None else Some (k, v)) end) (map_to_list m) (Some ∅).
Proof.
  unfold unmarshal_props, collect. generalize (Some (∅ : props)). induction (map_to_list m) as [|[k d] l IH]; intros acc; [done|].
  cbn [foldl fst snd]. rewrite IH. f_equal. destruct acc; [|done]. destruct (pu k d) as [[k' v]|]; [|done]. by case_decide.
Qed.
(** [p] is written, and read as [q] *)
Definition turns (pm : marshaler) (pu : unmarshaler) (p q : props) : Prop :=
  exists m, marshal_props pm p = Some m /\ (forall k d, m !! k = Some d -> utf8 k) /\ unmarshal_props pu m = Some q.
Definition turns_graph (pm : marshaler) (pu : unmarshaler) (s s2 : sgraph) : Prop :=
  (forall n, live_node s2 n -> live_node s n) /\ (forall e, live_edge s2 e -> live_edge s e) /\
  (forall n x, s_nodes s !! n = Some x -> exists y, s_nodes s2 !! n = Some y /\
     (forall l, l ∈ sn_labels x -> utf8 l) /\ sn_labels y = sn_labels x /\ turns pm pu (sn_props x) (sn_props y)) /\
  (forall e x, s_edges s !! e = Some x -> exists y, s_edges s2 !! e = Some y /\
     utf8 (e_label x) /\ e_from y = e_from x /\ e_to y = e_to x /\ e_label y = e_label x /\ turns pm pu (e_props x) (e_props y)).
Definition writes (pm : marshaler) (pu : unmarshaler) (k : string) (v : value) (k2 : string) (v2 : value) : Prop :=
  k2 <> "" /\ exists k' d, pm k v = Some (Some (k', d)) /\ pu k' d = Some (k2, v2).
Lemma turns_intro pm pu p q :
  (forall k v, p !! k = Some v -> exists o, pm k v = Some o /\ forall k' d, o = Some (k', d) -> utf8 k' /\ is_Some (pu k' d)) ->
  (forall k1 v1 k2 v2 k' d1 d2, p !! k1 = Some v1 -> p !! k2 = Some v2 -> pm k1 v1 = Some (Some (k', d1)) -> pm k2 v2 = Some (Some (k', d2)) -> k1 = k2) ->
  (forall k1 v1 k2 v2 k w1 w2, p !! k1 = Some v1 -> p !! k2 = Some v2 -> writes pm pu k1 v1 k w1 -> writes pm pu k2 v2 k w2 -> k1 = k2) ->
  (forall k v, q !! k = Some v <-> exists k0 v0, p !! k0 = Some v0 /\ writes pm pu k0 v0 k v) -> turns pm pu p q.
Proof.
  intros Hs Hinj Hinj2 Hq. destruct (collect_map pm p) as (m & Hm & Hspec).
  { intros k a Ha. destruct (Hs k a Ha) as (o & E & _). eauto. }
  { exact Hinj. }
  exists m. split; [exact Hm|].
  assert (Hback : forall k' d, m !! k' = Some d -> utf8 k' /\ exists k v k2 v2, p !! k = Some v /\ pu k' d = Some (k2, v2) /\ pm k v = Some (Some (k', d))).
  { intros k' d H. apply Hspec in H as (k & v & Hp & E). destruct (Hs k v Hp) as (o & E2 & Ho). rewrite E in E2. injection E2 as <-.
    destruct (Ho k' d eq_refl) as [Hu [[k2 v2] Hpu]]. split; [done|]. by exists k, v, k2, v2. }
  split; [intros k d H; by apply Hback in H as [? _]|].
  rewrite unmarshal_collect. destruct (collect_map (fun k d => match pu k d with None => None | Some (k, v) => Some (if decide (k = "") then None else Some (k, v)) end) m) as (q' & Hq' & Hqs).
  { intros k' d H. apply Hback in H as (_ & k & v & k2 & v2 & _ & E & _). rewrite E. by eexists. }
  { intros k1 d1 k2 d2 k v1 v2 H1 H2 E1 E2. apply Hback in H1 as (_ & ka & va & ka2 & va2 & Ha & Eka & Ma), H2 as (_ & kb & vb & kb2 & vb2 & Hb & Ekb & Mb).
    rewrite Eka in E1. rewrite Ekb in E2. destruct (decide (ka2 = "")) as [|Ha2]; [done|]. destruct (decide (kb2 = "")) as [|Hb2]; [done|].
    injection E1 as -> ->. injection E2 as -> ->.
    assert (ka = kb) as ->. { apply (Hinj2 ka va kb vb k v1 v2 Ha Hb); (split; [done|]); eauto. }
    congruence. }
  rewrite Hq'. f_equal. apply map_eq. intros k. apply option_eq. intros v. rewrite Hqs, Hq. split.
  - intros (k' & d & H & E). apply Hback in H as (_ & k1 & v1 & k2 & v2 & Hp & E1 & M1). rewrite E1 in E. destruct (decide (k2 = "")) as [|Hk2]; [done|].
    injection E as -> ->. exists k1, v1. split; [done|]. split; [done|]. by exists k', d.
  - intros (k0 & v0 & Hp & Hk & k' & d & E & Hpu). exists k', d. split; [apply Hspec; by exists k0, v0|].
    by rewrite Hpu, decide_False.
Qed.
Lemma survives_turns pm pu p : survives pm pu p -> turns pm pu p p.
Proof.
  intros [Hs Hinj]. assert (Hw : forall k v k2 v2, p !! k = Some v -> writes pm pu k v k2 v2 -> k2 = k /\ v2 = v).
  { intros k v k2 v2 Hp (_ & k' & d & E & Hpu). destruct (Hs k v Hp) as (_ & k3 & d3 & E3 & _ & Hpu3). rewrite E in E3. injection E3 as -> ->.
    rewrite Hpu in Hpu3. by injection Hpu3. }
  apply turns_intro.
  - intros k v Hp. destruct (Hs k v Hp) as (_ & k' & d & E & Hu & Hpu). eexists. split; [exact E|]. intros k2 d2 [= <- <-]. split; [done|]. rewrite Hpu. by eexists.
  - exact Hinj.
  - intros k1 v1 k2 v2 k w1 w2 H1 H2 W1 W2. apply Hw in W1 as [-> _], W2 as [-> _]; done.
  - intros k v. split.
    + intros Hp. destruct (Hs k v Hp) as (Hk & k' & d & E & Hu & Hpu). exists k, v. split; [done|]. split; [done|]. by exists k', d.
    + intros (k0 & v0 & Hp & W). by apply Hw in W as [-> ->].
Qed.
Lemma writable_turns pm pu s : writable pm pu s -> turns_graph pm pu s s.
Proof.
  intros [H1 H2]. split; [done|]. split; [done|]. split.
  - intros n x Hx. exists x. destruct (H1 n x Hx) as [? ?%survives_turns]. done.
  - intros n x Hx. exists x. destruct (H2 n x Hx) as [? ?%survives_turns]. done.
Qed.
Lemma insert_all (l : list (string * json)) : forall m : gmap string json, NoDup l.*1 -> (forall k v, (k, v) ∈ l -> m !! k = None) ->
  foldl (fun m p => <[p.1 := p.2]> m) m l = (list_to_map l : gmap string json) ∪ m.
Proof.
  induction l as [|[k v] l IH]; intros m Hnd Hnew; [cbn; by rewrite (left_id_L ∅ (∪))|].
  cbn [fmap list_fmap fst] in Hnd. apply NoDup_cons in Hnd as [Hk Hnd]. cbn [foldl fst snd list_to_map].
  rewrite IH; [|done|].
  - change (list_to_map (M := gmap string json) ((k, v) :: l)) with (<[k := v]> (list_to_map l : gmap string json)).
    rewrite <-insert_union_l. symmetry. rewrite insert_union_r; [done|]. by apply not_elem_of_list_to_map_1.
  - intros k1 v1 H1. rewrite lookup_insert_ne; [apply (Hnew k1 v1); by right|]. intros ->. apply Hk. apply elem_of_list_fmap. by exists (k1, v1).
Qed.
Lemma read_map_json m : (forall k d, m !! k = Some d -> utf8 k) -> read_map (map_json m) = Some m.
Proof.
  intros Hu. unfold map_json, read_map. f_equal.
  pose proof (merge_sort_Permutation key_le (map_to_list m)) as Hp. set (l := merge_sort key_le (map_to_list m)) in *.
  assert (map (fun p => (json_str p.1, p.2)) l = l) as ->.
  { assert (forall p, p ∈ l -> json_str p.1 = p.1) as H.
    { intros [k d] Hin. rewrite Hp in Hin. apply elem_of_map_to_list in Hin. apply json_str_utf8. by eapply Hu. }
    clear - H. induction l as [|[k d] l IH]; [done|]. cbn [map fst snd]. f_equal; [f_equal; apply (H (k, d)); left|]. apply IH. intros p Hin. apply H. by right. }
  rewrite insert_all.
  - rewrite (right_id_L ∅ (∪)). etrans; [|apply (list_to_map_to_list m)]. apply list_to_map_proper; [|done]. rewrite Hp. apply NoDup_fst_map_to_list.
  - rewrite Hp. apply NoDup_fst_map_to_list.
  - intros. apply lookup_empty.
Qed.

(** ** Nodes and edges *)
Lemma field_skip l k p : p.1 <> k -> field (l ++ [p]) k = field l k.
Proof. intros H. unfold field. rewrite foldl_app. cbn [foldl]. by rewrite decide_False. Qed.
Ltac fields := unfold field; cbn [app foldl fst snd];
  repeat first [rewrite decide_True by done | rewrite decide_False by done].
Lemma read_edge_json ix from f t l p : utf8 l -> (forall k d, p !! k = Some d -> utf8 k) ->
  read_edge from (edge_json ix from f t l p) = Some (JEdge (if from then index_of ix f else 0%Z) (index_of ix t) l p).
Proof.
  intros Hl Hp. unfold read_edge, edge_json. cbn [members mbind option_bind]. rewrite (json_str_utf8 _ Hl).
  pose proof (read_map_json p Hp) as Em.
  destruct from, (decide (l = "")) as [->|], (decide (p = ∅)) as [->|]; fields; cbn [read_int read_str mbind option_bind]; rewrite ?Em; done.
Qed.
Lemma read_labels ord : (forall l, l ∈ ord -> utf8 l) -> mapM read_str (map (fun l => JS (SStr (json_str l))) ord) = Some ord.
Proof.
  intros H. induction ord as [|l ord IH]; [done|]. cbn [map mapM read_str mbind option_bind].
  rewrite (json_str_utf8 l) by (apply H; left). cbn. rewrite IH; [done|]. intros x Hx. apply H. by right.
Qed.
Lemma read_node_json ix n ord nd p es eds : (forall l, l ∈ ord -> utf8 l) -> (forall k d, p !! k = Some d -> utf8 k) ->
  (n_labels nd = ∅ -> ord = []) -> (n_props nd = ∅ -> p = ∅) -> mapM (read_edge false) es = Some eds ->
  read_node (node_json ix n ord nd p es) = Some (JNode (index_of ix n) ord p eds).
Proof.
  intros Hl Hp Hl0 Hp0 He. unfold read_node, node_json. cbn [members mbind option_bind].
  pose proof (read_map_json p Hp) as Em. pose proof (read_labels ord Hl) as El.
  destruct (decide (n_labels nd = ∅)) as [E1|]; [rewrite (Hl0 E1) in *|];
  (destruct (decide (n_props nd = ∅)) as [E2|]; [rewrite (Hp0 E2) in *|]);
  (destruct (decide (es = [])) as [->|]; [injection He as <-|]);
  fields; cbn [read_int read_list mbind option_bind]; rewrite ?El; cbn [mbind option_bind]; rewrite ?Em; cbn [mbind option_bind]; rewrite ?He; done.
Qed.

(** ** Node indexes *)
Lemma number_lookup ns n i : NoDup ns -> number ns !! n = Some i <-> ns !! i = Some n.
Proof.
  intros Hnd. unfold number. rewrite <-elem_of_list_to_map.
  - rewrite elem_of_lookup_imap. split; [intros (j & x & [= -> ->] & H); done|]. intros H. by exists i, n.
  - replace ((imap (fun i n => (n, i)) ns).*1) with ns; [done|].
    rewrite fmap_imap. apply list_eq. intros k. rewrite list_lookup_imap. by destruct (ns !! k).
Qed.
Lemma index_inj ns a b : NoDup ns -> a ∈ ns -> b ∈ ns -> index_of (number ns) a = index_of (number ns) b -> a = b.
Proof.
  intros Hnd [i Hi]%elem_of_list_lookup [j Hj]%elem_of_list_lookup. unfold index_of.
  rewrite (proj2 (number_lookup ns a i Hnd) Hi), (proj2 (number_lookup ns b j Hnd) Hj). intros H%Nat2Z.inj. cbn in H. subst j. congruence.
Qed.
Lemma zip_lookup (l k : list nat) n n' : NoDup l -> length l = length k ->
  (list_to_map (zip l k) : gmap nat nat) !! n = Some n' <-> exists i, l !! i = Some n /\ k !! i = Some n'.
Proof.
  intros Hnd Hl. rewrite <-elem_of_list_to_map.
  - rewrite elem_of_list_lookup. split; intros [i H]; exists i; by apply lookup_zip_with_Some in H as (x & y & [= -> ->] & ?) || (apply lookup_zip_with_Some; naive_solver).
  - rewrite fst_zip by lia. done.
Qed.

Section trip.
  Context (sops : list op) (src : graph) (Hv : valid_history sops) (Hr : run sops = Ok src).
  Context (pm : marshaler) (pu : unmarshaler) (s2 : sgraph) (Hw : turns_graph pm pu (srun sops) s2).
  Context (sep : bool) (ns ord : list nat) (lord : nat -> list string).
  Context (Hns : get_nodes src = Ok ns) (Hlist : lists_nodes (srun sops) ns) (Hord : lists (live_node (srun sops)) ord).
  Context (Hlord : forall n x, s_nodes (srun sops) !! n = Some x -> order_of (sn_labels x) (lord n)).
  Context (Hes : sep = true -> edge_list_safe sops).
  Notation s := (srun sops).
  Notation ix := (number ns).
  Definition edge_back (e : nat) (ed : jedge) : Prop := exists x y, s_edges s !! e = Some x /\ je_from ed = index_of ix (e_from x) /\
    je_to ed = index_of ix (e_to x) /\ je_label ed = e_label x /\ unmarshal_props pu (je_props ed) = Some (e_props y) /\
    s_edges s2 !! e = Some y /\ e_from y = e_from x /\ e_to y = e_to x /\ e_label y = e_label x.
  Definition node_back (n : nat) (nd : jnode) : Prop := exists x, s_nodes s2 !! n = Some x /\ jn_n nd = index_of ix n /\
    list_to_set (jn_labels nd) = sn_labels x /\ unmarshal_props pu (jn_props nd) = Some (sn_props x) /\
    exists oes, (if sep then oes = [] else lists (is_out s n) oes) /\ Forall2 edge_back oes (embedded nd).
  Lemma edge_reads_back from e v : live_edge s e -> edge_written_as src pm ix from e v ->
    exists ed, read_edge from v = Some ed /\ forall f x, s_edges s !! e = Some x -> f = index_of ix (e_from x) ->
      edge_back e (JEdge (if from then je_from ed else f) (je_to ed) (je_label ed) (je_props ed)).
  Proof.
    intros [x Hx] (ed & p & He & Hp & ->). pose proof (core_run _ _ Hv Hr) as Hc.
    destruct (core_edge _ _ _ _ Hc Hx) as (He' & _). assert (ed = x) as -> by congruence.
    destruct (proj2 (proj2 (proj2 Hw)) e x Hx) as (z & Hz & Hl & F1 & F2 & F3 & m & Hm & Hu & Hb). assert (m = p) as -> by congruence.
    eexists. split; [by apply read_edge_json|]. intros f y Hy Hf. assert (y = x) as -> by congruence. exists x, z. split; [done|].
    cbn [je_from je_to je_label je_props]. split; [by destruct from|done].
  Qed.
  Lemma edges_read_back from es vs : Forall (live_edge s) es -> Forall2 (edge_written_as src pm ix from) es vs ->
    exists eds, mapM (read_edge from) vs = Some eds /\ Forall2 (fun e ed => forall f x, s_edges s !! e = Some x -> f = index_of ix (e_from x) ->
      edge_back e (JEdge (if from then je_from ed else f) (je_to ed) (je_label ed) (je_props ed))) es eds.
  Proof.
    intros Hl H. induction H as [|e v es vs Hev H IH]; [by exists []|]. apply Forall_cons in Hl as [Hl0 Hl].
    destruct (IH Hl) as (eds & E & HF). destruct (edge_reads_back _ _ _ Hl0 Hev) as (ed & E1 & H1). exists (ed :: eds).
    split; [|by constructor]. cbn [mapM]. rewrite E1. cbn. by rewrite E.
  Qed.
  Lemma node_reads_back n v : live_node s n -> node_written_as src pm sep ix lord n v -> exists nd, read_node v = Some nd /\ node_back n nd.
  Proof.
    intros [x Hx] (nd & p & oes & es & Hnd & Hp & Hoes & HF & ->). pose proof (core_run _ _ Hv Hr) as Hc.
    destruct (core_node _ _ _ _ Hc Hx) as (nd' & Hnd' & EL & EP). assert (nd' = nd) as -> by congruence.
    destruct (proj1 (proj2 (proj2 Hw)) n x Hx) as (z & Hz & Hl & F1 & m & Hm & Hu & Hb).
    assert (m = p) as -> by congruence. destruct (Hlord n x Hx) as [Ho1 Ho2].
    assert (Hout : if sep then oes = [] else lists (is_out s n) oes).
    { destruct sep; [done|]. destruct (node_edges_out src s Hc n (ex_intro _ x Hx)) as (xs & E & H). assert (xs = oes) as -> by congruence. done. }
    assert (Hlive : Forall (fun e => exists y, s_edges s !! e = Some y /\ e_from y = n) oes).
    { apply Forall_forall. intros e He. destruct sep; [subst oes; by apply elem_of_nil in He|]. apply Hout in He. exact He. }
    destruct (edges_read_back false oes es) as (eds & E & Hback); [|done|].
    { eapply Forall_impl; [exact Hlive|]. intros e (y & Hy & _). by exists y. }
    eexists. split.
    - apply read_node_json; try done.
      + intros l Hin. apply Hl, Ho2, Hin.
      + intros E0. rewrite EL in E0. destruct (lord n) as [|l ls]; [done|]. exfalso. assert (l ∈ sn_labels x) as H by (apply Ho2; left). rewrite E0 in H. set_solver.
      + intros E0. rewrite EP in E0. rewrite EP, E0 in Hp. by injection Hp as <-.
    - exists z. split; [done|]. cbn [jn_n jn_labels jn_props]. split; [done|]. split.
      { rewrite F1. apply set_eq. intros l. rewrite elem_of_list_to_set. apply Ho2. }
      split; [done|]. exists oes. split; [done|]. unfold embedded. cbn [jn_n jn_edges].
      clear - Hback Hlive. induction Hback as [|e ed oes eds H _ IH]; [constructor|]. apply Forall_cons in Hlive as [(y & Hy & Hf) Hlive].
      cbn [map]. constructor; [|by apply IH]. apply (H _ y Hy). by rewrite Hf.
  Qed.
  Lemma nodes_read_back l vn : Forall (live_node s) l -> Forall2 (node_written_as src pm sep ix lord) l vn ->
    exists nds, mapM read_node vn = Some nds /\ Forall2 node_back l nds.
  Proof.
    intros Hl H. induction H as [|n v l vs Hnv H IH]; [by exists []|]. apply Forall_cons in Hl as [Hl0 Hl].
    destruct (IH Hl) as (eds & E & HF). destruct (node_reads_back _ _ Hl0 Hnv) as (ed & E1 & H1). exists (ed :: eds).
    split; [|by constructor]. cbn [mapM]. rewrite E1. cbn. by rewrite E.
  Qed.
  Lemma embedded_back l nds : NoDup l -> Forall2 node_back l nds -> exists oes, Forall2 edge_back oes (mjoin (map embedded nds)) /\ NoDup oes /\
    forall e, e ∈ oes <-> sep = false /\ exists x, s_edges s !! e = Some x /\ e_from x ∈ l.
  Proof.
    intros Hnd H. induction H as [|n nd l nds Hn H IH].
    { exists []. split; [constructor|]. split; [constructor|]. intros e. split; [by intros ?%elem_of_nil|]. intros (_ & x & _ & Hin). by apply elem_of_nil in Hin. }
    apply NoDup_cons in Hnd as [Hnl Hnd]. destruct (IH Hnd) as (oes & HF & HN & Hspec).
    destruct Hn as (x & Hx & _ & _ & _ & oes1 & Ho1 & HF1). exists (oes1 ++ oes). split; [by apply Forall2_app|].
    assert (Hspec1 : forall e, e ∈ oes1 <-> sep = false /\ is_out s n e).
    { intros e. destruct sep; [subst oes1; split; [by intros ?%elem_of_nil|by intros [? _]]|]. destruct Ho1 as [_ Ho1]. rewrite Ho1. tauto. }
    split.
    - apply NoDup_app. split; [|split; [|done]].
      + destruct sep; [subst; constructor|apply Ho1].
      + intros e [_ (y & Hy & Ef)]%Hspec1 (_ & y' & Hy' & Hin)%Hspec. apply Hnl. assert (y' = y) as -> by congruence. by subst n.
    - intros e. rewrite elem_of_app, Hspec, Hspec1. split.
      + intros [(? & y & Hy & Ef)|(? & y & Hy & Hin)]; (split; [done|]); exists y; (split; [done|]); [subst n; left|by right].
      + intros (? & y & Hy & Hin). apply elem_of_cons in Hin as [Ef|Hin]; [left; split; [done|]; by exists y|right; split; [done|]; by exists y].
  Qed.

  Definition doc_back (nds : list jnode) (eds : list jedge) : Prop :=
    Forall2 node_back ord nds /\ exists oes, lists (live_edge s) oes /\ Forall2 edge_back oes eds.
  Lemma document_back ts : ns <> [] \/ sep = false -> encode src pm sep ord lord = Ok (Some ts) ->
    exists ms nds eds, ts = toks (JObj ms) /\ skippable ms /\ declares ms nds eds /\ doc_back nds eds.
  Proof.
    intros Hne H. destruct (encode_ok _ _ _ _ _ _ H) as (ns' & Hns' & vn & oes & ve & Hvn & Hoes & Hve & _ & Hts).
    assert (ns' = ns) as -> by congruence. clear Hns'. destruct Hord as [Ho1 Ho2].
    assert (Forall2 (node_written_as src pm sep ix lord) ord vn /\ (ns = [] -> ord = [])) as [Hvn' Hord0].
    { destruct (decide (ns = [])) as [E|E]; [|done]. assert (ord = []) as ->.
      { destruct ord as [|n l]; [done|]. exfalso. assert (n ∈ ns) as Hin by (apply Hlist, Ho2; left). rewrite E in Hin. by apply elem_of_nil in Hin. }
      subst vn. done. }
    destruct (nodes_read_back ord vn) as (nds & En & Hnb); [apply Forall_forall; intros n Hn; by apply Ho2|done|].
    destruct (embedded_back ord nds Ho1 Hnb) as (oes1 & HF1 & HN1 & Hspec1).
    assert (Hoes' : if sep then lists (live_edge s) oes else oes = []).
    { destruct sep; [|done]. destruct (get_edges_ok sops src Hv Hr (Hes eq_refl)) as ((xs & E & Hx) & _). assert (xs = oes) as -> by congruence. done. }
    destruct (edges_read_back true oes ve) as (es & Ees & Heb); [apply Forall_forall; intros e He; destruct sep; [by apply Hoes'|subst; by apply elem_of_nil in He]|done|].
    assert (Heb' : Forall2 edge_back oes es).
    { assert (Forall (live_edge s) oes) as Hl by (apply Forall_forall; intros e He; destruct sep; [by apply Hoes'|subst; by apply elem_of_nil in He]).
      clear - Heb Hl. induction Heb as [|e ed oes es H _ IH]; [constructor|]. apply Forall_cons in Hl as [[x Hx] Hl]. constructor; [|by apply IH].
      specialize (H _ x Hx eq_refl). by destruct ed. }
    exists ((if decide (ns = []) then [] else [("nodes", JArr vn)]) ++ (if sep then [("edges", JArr ve)] else [])), nds, (mjoin (map embedded nds) ++ es).
    split; [by apply Hts|]. split.
    { intros key v Hin. destruct (decide (ns = [])), sep; cbn [app] in Hin; repeat (apply elem_of_cons in Hin as [[= -> ->]|Hin]); try done; by apply elem_of_nil in Hin. }
    split.
    - exists es. split; [|split; [|done]].
      + unfold doc_nodes. destruct (decide (ns = [])) as [E|E].
        * rewrite (Hord0 E) in Hnb. inversion Hnb; subst nds. by destruct sep.
        * assert (filter (fun p : string * json => p.1 = "nodes") ([("nodes", JArr vn)] ++ (if sep then [("edges", JArr ve)] else [])) = [("nodes", JArr vn)]) as -> by (by destruct sep).
          cbn [mapM snd read_list]. rewrite En. cbn. by rewrite app_nil_r.
      + unfold doc_edges. assert (filter (fun p : string * json => p.1 = "edges") ((if decide (ns = []) then [] else [("nodes", JArr vn)]) ++ (if sep then [("edges", JArr ve)] else [])) =
          if sep then [("edges", JArr ve)] else []) as -> by (by destruct (decide (ns = [])), sep).
        destruct sep.
        * cbn [mapM snd read_list]. rewrite Ees. cbn. by rewrite app_nil_r.
        * subst oes. inversion Heb'. done.
    - split; [done|]. exists (oes1 ++ oes). split; [|by apply Forall2_app]. destruct sep.
      + destruct oes1 as [|e oes1]; [done|]. exfalso. by destruct (proj1 (Hspec1 e) (elem_of_list_here _ _)).
      + subst oes. rewrite app_nil_r. split; [done|]. intros e. rewrite Hspec1. split; [by intros (_ & x & Hx & _); exists x|].
        intros [x Hx]. split; [done|]. exists x. split; [done|]. apply Ho2. by apply (core_edge _ _ _ _ (core_run _ _ Hv Hr) Hx).
  Qed.
  Lemma ord_ns n : n ∈ ord <-> n ∈ ns.
  Proof. destruct Hord as [_ H1], Hlist as [[_ H2] _]. by rewrite H1, H2. Qed.
  Lemma back_declared nds n : Forall2 node_back ord nds -> live_node s n -> declared nds (index_of ix n).
  Proof.
    intros HF Hn. apply Hord in Hn. apply elem_of_list_lookup in Hn as [k Hk]. destruct (Forall2_lookup_l _ _ _ _ _ HF Hk) as (nd & Hnd & x & Hx & E & _).
    exists nd. split; [by apply elem_of_list_lookup_2 in Hnd|done].
  Qed.
  Lemma back_sound nds eds : doc_back nds eds -> sound_doc pu nds eds.
  Proof.
    intros (HF & oes & Hoes & HE). split.
    - intros nd Hnd. apply elem_of_list_lookup in Hnd as [k Hk]. destruct (Forall2_lookup_r _ _ _ _ _ HF Hk) as (n & _ & x & _ & _ & _ & E & _). by exists (sn_props x).
    - intros ed Hed. apply elem_of_list_lookup in Hed as [k Hk]. destruct (Forall2_lookup_r _ _ _ _ _ HE Hk) as (e & _ & x & y & Hx & E1 & E2 & _ & E & _).
      split; [by exists (e_props y)|]. destruct (core_edge _ _ _ _ (core_run _ _ Hv Hr) Hx) as (_ & L1 & L2 & _). rewrite E1, E2. split; by apply back_declared.
  Qed.
  Lemma back_stands nds ids n n' : length ids = length nds -> Forall2 node_back ord nds -> live_node s n -> stands_for nds ids (index_of ix n) n' ->
    (list_to_map (zip ord ids) : gmap nat nat) !! n = Some n'.
  Proof.
    intros Hl HF Hn (k & nd & Hk & E & Hid). destruct (Forall2_lookup_r _ _ _ _ _ HF Hk) as (n1 & Hn1 & x & Hx & E1 & _).
    assert (n1 = n) as ->.
    { apply (index_inj ns); [apply Hlist| | |congruence]; apply Hlist; [apply Hw; by exists x|done]. }
    apply zip_lookup; [apply Hord| |by exists k]. rewrite (Forall2_length _ _ _ HF). done.
  Qed.
  Lemma back_copied nds eds t t' ids es : doc_back nds eds -> decoded pu nds eds t t' ids es ->
    exists m h, copied (fun _ v => v) s2 t t' m h.
  Proof.
    intros (HF & oes & Hoes & HE) [D1 D2 D3 D4 D5 D6 D7 D8 D9 D10].
    pose proof (Forall2_length _ _ _ HF) as L1. pose proof (Forall2_length _ _ _ D1) as L2.
    pose proof (Forall2_length _ _ _ HE) as L3. pose proof (Forall2_length _ _ _ D2) as L4.
    set (m := list_to_map (zip ord ids) : gmap nat nat). set (h := list_to_map (zip oes es) : gmap nat nat).
    assert (Hm : forall n n', m !! n = Some n' <-> exists i, ord !! i = Some n /\ ids !! i = Some n') by (intros; apply zip_lookup; [apply Hord|lia]).
    assert (Hh : forall n n', h !! n = Some n' <-> exists i, oes !! i = Some n /\ es !! i = Some n') by (intros; apply zip_lookup; [apply Hoes|lia]).
    exists m, h. split; [|split].
    - split; try done.
      + apply map_empty_subseteq.
      + intros n n' (i & Hi & Hi')%Hm _. split; [destruct (s_nodes t !! n') eqn:E; [|done]; exfalso; apply (D5 n'); [by apply elem_of_list_lookup_2 in Hi'|by eexists]|].
        destruct (Forall2_lookup_l _ _ _ _ _ HF Hi) as (nd & Hnd & x & Hx & _ & EL & EP & _).
        destruct (Forall2_lookup_l _ _ _ _ _ D1 Hnd) as (n2 & Hn2 & p & Hp & Hy). assert (n2 = n') as -> by congruence.
        exists x. eexists. split; [done|]. split; [exact Hy|]. split; [done|]. intros k. cbn [sn_props]. assert (p = sn_props x) as -> by congruence.
        by destruct (sn_props x !! k).
      + intros e e' (i & Hi & Hi')%Hh. split; [destruct (s_edges t !! e') eqn:E; [|done]; exfalso; apply (D6 e'); [by apply elem_of_list_lookup_2 in Hi'|by eexists]|].
        destruct (Forall2_lookup_l _ _ _ _ _ HE Hi) as (ed & Hed & x & z & Hx & E1 & E2 & E3 & E4 & Hz & G1 & G2 & G3).
        destruct (Forall2_lookup_l _ _ _ _ _ D2 Hed) as (e2 & He2 & from & to & p & Hp & S1 & S2 & Hy). assert (e2 = e') as -> by congruence.
        destruct (core_edge _ _ _ _ (core_run _ _ Hv Hr) Hx) as (_ & LF & LT & _). rewrite E1 in S1. rewrite E2 in S2.
        exists z. eexists. split; [done|]. split; [exact Hy|]. unfold edge_copy. cbn [e_from e_to e_label e_props]. rewrite G1, G2, G3. split; [|split; [|split; [done|]]].
        * by apply (back_stands nds ids).
        * by apply (back_stands nds ids).
        * intros k. cbn [e_props]. assert (p = e_props z) as -> by congruence. by destruct (e_props z !! k).
      + intros n1 n2 n' (i & Hi & Hi')%Hm (j & Hj & Hj')%Hm _. pose proof (NoDup_lookup _ _ _ _ D3 Hi' Hj') as ->. congruence.
      + intros n1 n2 n' (i & Hi & Hi')%Hh (j & Hj & Hj')%Hh. pose proof (NoDup_lookup _ _ _ _ D4 Hi' Hj') as ->. congruence.
      + intros n' Hn'. destruct (D9 n' Hn') as [?|Hin]; [by left|right]. apply elem_of_list_lookup in Hin as [i Hi].
        destruct (lookup_lt_is_Some_2 ord i) as [n Hn]; [apply lookup_lt_Some in Hi; lia|]. exists n. split; [apply Hm; by exists i|done].
      + intros n' Hn'. destruct (D10 n' Hn') as [?|Hin]; [by left|right]. apply elem_of_list_lookup in Hin as [i Hi].
        destruct (lookup_lt_is_Some_2 oes i) as [n Hn]; [apply lookup_lt_Some in Hi; lia|]. exists n. apply Hh; by exists i.
    - intros n. split.
      + intros [n' (i & Hi & _)%Hm]. apply elem_of_list_lookup_2 in Hi. apply Hord in Hi as [x Hx]. destruct (proj1 (proj2 (proj2 Hw)) n x Hx) as (y & Hy & _). by exists y.
      + intros Hn%Hw. apply Hord in Hn. apply elem_of_list_lookup in Hn as [i Hi]. destruct (lookup_lt_is_Some_2 ids i) as [n' Hn']; [apply lookup_lt_Some in Hi; lia|].
        exists n'. apply Hm. by exists i.
    - intros e. split.
      + intros [n' (i & Hi & _)%Hh]. apply elem_of_list_lookup_2 in Hi. apply Hoes in Hi as [x Hx]. destruct (proj2 (proj2 (proj2 Hw)) e x Hx) as (y & Hy & _). by exists y.
      + intros He. apply (proj1 (proj2 Hw)) in He. apply Hoes in He. apply elem_of_list_lookup in He as [i Hi]. destruct (lookup_lt_is_Some_2 es i) as [n' Hn']; [apply lookup_lt_Some in Hi; lia|].
        exists n'. apply Hh. by exists i.
  Qed.
  (** Encode succeeds *)
  Lemma edges_written from l : forall first, (forall e, e ∈ l -> live_edge s e) -> exists ts, encode_edges src pm ix from first l = Ok (Some ts).
  Proof.
    induction l as [|e l IH]; intros first Hl; cbn [encode_edges]; [by eexists|].
    destruct (Hl e) as [x Hx]; [left|]. destruct (core_edge _ _ _ _ (core_run _ _ Hv Hr) Hx) as (He & _).
    destruct (proj2 (proj2 (proj2 Hw)) e x Hx) as (z & _ & _ & _ & _ & _ & m & Hm & _).
    unfold encode_edge, deref_edge. rewrite He. cbn [rbind]. rewrite Hm. cbn [mbind option_bind rbind].
    destruct (IH [TComma]) as [ts ->]; [intros; apply Hl; by right|]. cbn [rbind]. by eexists.
  Qed.
  Lemma nodes_written l : forall first, (forall n, n ∈ l -> live_node s n) -> exists ts, encode_nodes src pm sep ix lord first l = Ok (Some ts).
  Proof.
    induction l as [|n l IH]; intros first Hl; cbn [encode_nodes]; [by eexists|].
    destruct (Hl n) as [x Hx]; [left|]. destruct (core_node _ _ _ _ (core_run _ _ Hv Hr) Hx) as (nd & Hnd & _ & EP).
    destruct (proj1 (proj2 (proj2 Hw)) n x Hx) as (z & _ & _ & _ & m & Hm & _). rewrite <-EP in Hm.
    assert (exists t, encode_node src pm sep ix n (lord n) = Ok (Some t)) as [t ->].
    { unfold encode_node, deref_node. rewrite Hnd. cbn [rbind]. rewrite Hm.
      destruct (node_edges_out src s (core_run _ _ Hv Hr) n (ex_intro _ x Hx)) as (es & Ees & Hl1).
      destruct (edges_written false es (TComma :: tkey "edges" ++ [TArr])) as [te Ete]; [intros e He; apply Hl1 in He as (y & Hy & _); by exists y|].
      destruct (decide (n_props nd = ∅)), sep; cbn [mbind option_bind rbind]; rewrite ?Ees; cbn [rbind]; rewrite ?Ete; cbn [rbind]; by eexists. }
    cbn [rbind]. destruct (IH [TComma]) as [ts ->]; [intros; apply Hl; by right|]. cbn [rbind]. by eexists.
  Qed.
  Lemma encode_succeeds : exists ts, encode src pm sep ord lord = Ok (Some ts).
  Proof.
    unfold encode. rewrite Hns. cbn [rbind].
    destruct (nodes_written ord []) as [tn Etn]; [intros n Hn; by apply Hord|].
    assert (exists te, (if sep then let! es := get_edges src in let? x := encode_edges src pm ix true [] es in
        Ok (Some (TComma :: tkey "edges" ++ [TArr] ++ x ++ [TArrEnd])) else Ok (Some [])) = Ok (Some te)) as [te Ete].
    { destruct sep; [|by eexists]. destruct (get_edges_ok sops src Hv Hr (Hes eq_refl)) as ((es & E & Hl) & _). rewrite E. cbn [rbind].
      destruct (edges_written true es []) as [t ->]; [intros e He; by apply Hl|]. cbn [rbind]. by eexists. }
    destruct (decide (ns = [])); cbn [rbind].
    - rewrite Ete. cbn [rbind]. by eexists.
    - rewrite Etn. cbn [rbind]. rewrite Ete. cbn [rbind]. by eexists.
  Qed.
End trip.

Lemma json_trip_turns sops src tops tgt pm pu s2 sep ord lord lord' r :
  valid_history sops -> run sops = Ok src -> valid_history tops -> run tops = Ok tgt ->
  node_list_safe sops -> (sep = true -> edge_list_safe sops) -> (sep = true -> exists n, live_node (srun sops) n) ->
  turns_graph pm pu (srun sops) s2 -> lists (live_node (srun sops)) ord ->
  (forall n x, s_nodes (srun sops) !! n = Some x -> order_of (sn_labels x) (lord n)) -> (forall i X, order_of X (lord' i X)) ->
  exists ts, encode src pm sep ord lord = Ok (Some ts) /\
    (forall g' b, decode pu lord' tgt (ts ++ r) = Ok (g', b) -> b = true /\
       exists ops' m h, valid_history (tops ++ ops') /\ run (tops ++ ops') = Ok g' /\ Forall adds ops' /\ copied (fun _ v => v) s2 (srun tops) (srun (tops ++ ops')) m h) /\
    (calls_safe tops -> can_hold tops (fun _ v => v) s2 -> exists x, decode pu lord' tgt (ts ++ r) = Ok x).
Proof.
  intros Hv Hr Hvt Hrt Hns Hes Hne Hw Hord Hlord Hlord'. destruct (get_nodes_ok sops src Hv Hr Hns) as (ns & Ens & Hl).
  destruct (encode_succeeds sops src Hv Hr pm pu s2 Hw sep ns ord lord Ens Hord Hes) as [ts Ets]. exists ts. split; [done|].
  destruct (document_back sops src Hv Hr pm pu s2 Hw sep ns ord lord Ens Hl Hord Hlord Hes ts) as (ms & nds & eds & -> & Hsk & Hdec & Hback); [|done|].
  { destruct sep; [left|by right]. destruct (Hne eq_refl) as [n Hn]. intros ->. apply Hl in Hn. by apply elem_of_nil in Hn. }
  split.
  - intros g' b Hd. destruct (decode_sound pu lord' Hlord' tops tgt Hvt Hrt ms r g' b Hsk Hd) as (ops' & V1 & V2 & V3 & Hb & Hdd).
    assert (b = true) as ->. { apply Hb. exists nds, eds. split; [done|]. exact (back_sound sops src Hv Hr pu s2 sep ns ord Hord nds eds Hback). }
    split; [done|]. destruct (Hdd eq_refl) as (nds' & eds' & ids & es & Hdec' & Hd').
    assert (nds' = nds /\ eds' = eds) as [-> ->].
    { destruct Hdec as (x & A1 & A2 & A3), Hdec' as (y & B1 & B2 & B3). assert (nds' = nds) as -> by congruence. assert (x = y) as -> by congruence. by subst. }
    destruct (back_copied sops src Hv Hr pm pu s2 Hw sep ns ord Hl Hord nds eds _ _ ids es Hback Hd') as (m & h & Hc). by exists ops', m, h.
  - intros Hsafe [Hh1 Hh2]. destruct Hback as (HF & oes & Hoes & HE).
    apply (decode_progress pu lord' Hlord' tops tgt Hvt Hrt ms r nds eds Hsk Hdec Hsafe). split.
    + intros k it Hit. eapply storable_mono; [|apply (Hh1 k it Hit)]. intros v [?|(nd & p & Hnd & Hp & Hk)]; [by left|right].
      apply elem_of_list_lookup in Hnd as [i Hi]. destruct (Forall2_lookup_r _ _ _ _ _ HF Hi) as (n & _ & x & Hx & _ & _ & E & _).
      exists n, v. split; [|done]. exists x. split; [done|]. congruence.
    + intros k it Hit. eapply storable_mono; [|apply (Hh2 k it Hit)]. intros v [?|(nd & p & Hnd & Hp & Hk)]; [by left|right].
      apply elem_of_list_lookup in Hnd as [i Hi]. destruct (Forall2_lookup_r _ _ _ _ _ HE Hi) as (e & _ & x & y & _ & _ & _ & _ & E & Hy & _).
      exists e, v. split; [|done]. exists y. split; [done|]. congruence.
Qed.

(** ** Without marshalers *)
Lemma plain_trip other other' v : plain v -> json_value other' (value_json other v) = v.
Proof.
  revert v. fix IH 2. intros v [|s Hs|l Hl]; [done| |].
  - cbn. by rewrite json_str_utf8.
  - cbn. f_equal. induction Hl as [|w l Hw Hl IHl]; [done|]. cbn [map]. by rewrite IH, IHl.
Qed.
Lemma plain_survives other other' p : (forall k v, p !! k = Some v -> k <> "" /\ utf8 k /\ plain v) ->
  survives (default_marshal other) (default_unmarshal other') p.
Proof.
  intros H. split.
  - intros k v Hk. destruct (H k v Hk) as (H1 & H2 & H3). split; [done|]. exists k, (value_json other v). split; [done|]. split; [done|].
    unfold default_unmarshal. by rewrite plain_trip.
  - intros k1 v1 k2 v2 k' d1 d2 _ _ [= -> _] [= -> _]. done.
Qed.
(** ASCII strings *)
Lemma utf8_ascii s : Forall (fun c => (N_of_ascii c < 128)%N) (list_ascii_of_string s) -> utf8 s.
Proof.
  intros H. exists (map N_of_ascii (list_ascii_of_string s)). split.
  - induction H; constructor; [|done]. left. lia.
  - induction s as [|c s IH]; [done|]. cbn in H. apply Forall_cons in H as [Hc H]. cbn [list_ascii_of_string map].
    change (mjoin (?x :: ?l)) with (x ++ mjoin l).
    unfold utf8_bytes at 1. destruct (N.ltb_spec (N_of_ascii c) 128); [|lia].
    change (String c s = String (ascii_of_N (N_of_ascii c)) (bytes (mjoin (map utf8_bytes (map N_of_ascii (list_ascii_of_string s)))))).
    rewrite ascii_N_embedding. f_equal. by apply IH.
Qed.
Lemma turns_order sops src tops tgt pm pu s2 sep ord lord lord' r :
  valid_history sops -> run sops = Ok src -> valid_history tops -> run tops = Ok tgt ->
  node_list_safe sops -> (sep = true -> edge_list_safe sops) -> (sep = true -> exists n, live_node (srun sops) n) ->
  turns_graph pm pu (srun sops) s2 -> node_order src ord -> label_order (srun sops) lord -> (forall i X, order_of X (lord' i X)) ->
  exists ts, encode src pm sep ord lord = Ok (Some ts) /\
    (forall g' b, decode pu lord' tgt (ts ++ r) = Ok (g', b) -> b = true /\
       exists ops' m h, valid_history (tops ++ ops') /\ run (tops ++ ops') = Ok g' /\ Forall adds ops' /\ copied (fun _ v => v) s2 (srun tops) (srun (tops ++ ops')) m h) /\
    (calls_safe tops -> can_hold tops (fun _ v => v) s2 -> exists x, decode pu lord' tgt (ts ++ r) = Ok x).
Proof.
  intros Hv Hr Hvt Hrt Hns Hes Hne Hw (ns & Ens & Hp) Hl Hl'. apply (json_trip_turns sops); try done.
  destruct (get_nodes_ok sops src Hv Hr Hns) as (ns' & Ens' & [[H1 H2] _]). assert (ns' = ns) as -> by congruence.
  split; [by rewrite Hp|]. intros n. by rewrite Hp.
Qed.
Lemma turns_embedded sops src tops tgt pm pu s2 ord lord lord' r :
  valid_history sops -> run sops = Ok src -> valid_history tops -> run tops = Ok tgt ->
  node_list_safe sops -> turns_graph pm pu (srun sops) s2 -> node_order src ord -> label_order (srun sops) lord -> (forall i X, order_of X (lord' i X)) ->
  exists ts, encode src pm false ord lord = Ok (Some ts) /\
    (forall g' b, decode pu lord' tgt (ts ++ r) = Ok (g', b) -> b = true /\
       exists ops' m h, valid_history (tops ++ ops') /\ run (tops ++ ops') = Ok g' /\ Forall adds ops' /\ copied (fun _ v => v) s2 (srun tops) (srun (tops ++ ops')) m h) /\
    (calls_safe tops -> can_hold tops (fun _ v => v) s2 -> exists x, decode pu lord' tgt (ts ++ r) = Ok x).
Proof. intros. by eapply (turns_order sops). Qed.
Lemma turns_separate sops src tops tgt pm pu s2 ord lord lord' r :
  valid_history sops -> run sops = Ok src -> valid_history tops -> run tops = Ok tgt ->
  node_list_safe sops -> edge_list_safe sops -> s_nodes (srun sops) <> ∅ ->
  turns_graph pm pu (srun sops) s2 -> node_order src ord -> label_order (srun sops) lord -> (forall i X, order_of X (lord' i X)) ->
  exists ts, encode src pm true ord lord = Ok (Some ts) /\
    (forall g' b, decode pu lord' tgt (ts ++ r) = Ok (g', b) -> b = true /\
       exists ops' m h, valid_history (tops ++ ops') /\ run (tops ++ ops') = Ok g' /\ Forall adds ops' /\ copied (fun _ v => v) s2 (srun tops) (srun (tops ++ ops')) m h) /\
    (calls_safe tops -> can_hold tops (fun _ v => v) s2 -> exists x, decode pu lord' tgt (ts ++ r) = Ok x).
Proof.
  intros ? ? ? ? ? ? Hne. intros. eapply (turns_order sops); try done.
  intros _. apply map_choose in Hne as (n & x & Hx). exists n. by exists x.
Qed.
Lemma json_trip_embedded sops src tops tgt pm pu ord lord lord' r :
  valid_history sops -> run sops = Ok src -> valid_history tops -> run tops = Ok tgt ->
  node_list_safe sops -> writable pm pu (srun sops) -> node_order src ord -> label_order (srun sops) lord -> (forall i X, order_of X (lord' i X)) ->
  exists ts, encode src pm false ord lord = Ok (Some ts) /\
    (forall g' b, decode pu lord' tgt (ts ++ r) = Ok (g', b) -> b = true /\
       exists ops' m h, valid_history (tops ++ ops') /\ run (tops ++ ops') = Ok g' /\ Forall adds ops' /\ copied (fun _ v => v) (srun sops) (srun tops) (srun (tops ++ ops')) m h) /\
    (calls_safe tops -> can_hold tops (fun _ v => v) (srun sops) -> exists x, decode pu lord' tgt (ts ++ r) = Ok x).
Proof. intros ? ? ? ? ? ?%writable_turns. by eapply (turns_embedded sops). Qed.
Lemma json_trip_separate sops src tops tgt pm pu ord lord lord' r :
  valid_history sops -> run sops = Ok src -> valid_history tops -> run tops = Ok tgt ->
  node_list_safe sops -> edge_list_safe sops -> s_nodes (srun sops) <> ∅ ->
  writable pm pu (srun sops) -> node_order src ord -> label_order (srun sops) lord -> (forall i X, order_of X (lord' i X)) ->
  exists ts, encode src pm true ord lord = Ok (Some ts) /\
    (forall g' b, decode pu lord' tgt (ts ++ r) = Ok (g', b) -> b = true /\
       exists ops' m h, valid_history (tops ++ ops') /\ run (tops ++ ops') = Ok g' /\ Forall adds ops' /\ copied (fun _ v => v) (srun sops) (srun tops) (srun (tops ++ ops')) m h) /\
    (calls_safe tops -> can_hold tops (fun _ v => v) (srun sops) -> exists x, decode pu lord' tgt (ts ++ r) = Ok x).
Proof. intros ? ? ? ? ? ? ? ?%writable_turns. by eapply (turns_separate sops). Qed.
(** Decode fails on what Encode writes for a graph without nodes, with separate edges *)
Lemma encode_empty pm lord : encode new_graph pm true [] lord = Ok (Some [TObj; TComma; TS (SStr "edges"); TColon; TArr; TArrEnd; TObjEnd]).
Proof. done. Qed.
Lemma elements_order (i : nat) X : order_of X (elements X).
Proof. split; [apply NoDup_elements|]. intros x. apply elem_of_elements. Qed.
