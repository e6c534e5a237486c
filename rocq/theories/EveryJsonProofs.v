(** Proofs for C96: what Encode writes in every graph, read back; as JsonTripProofs.v, for lists of nodes that may be wrong. *)
From Verif Require Import Base Value Index Graph GraphSpec CoreProofs CoreStep AdjProofs NodeListProofs EdgeListProofs
  ProgressProofs Sizes CloneSpec CloneProofs JsonText JsonTextProofs Json JsonSpec JsonEncProofs JsonDecProofs JsonAddProofs JsonUtf8Proofs JsonTripProofs.
From Verif Require Import ListedSpec ListedProofs HeldSpec GhostProofs EverySpec.
From Coq Require Import Ascii NArith.
Local Open Scope string_scope.
Local Open Scope list_scope.

Section trip.
  Context (src : graph) (s : sgraph) (Hc : core src s).
  Context (pm : marshaler) (pu : unmarshaler) (Hw : turns_graph pm pu s s).
  Context (sep : bool) (ns ord : list nat) (lord : nat -> list string).
  Context (Hns : get_nodes src = Ok ns) (Hndup : NoDup ns) (Hlive : forall n, n ∈ ns -> live_node s n) (Hord : lists (fun n => n ∈ ns) ord).
  Context (Hlord : forall n x, s_nodes s !! n = Some x -> order_of (sn_labels x) (lord n)).
  Context (Hes : sep = true -> exists es, get_edges src = Ok es /\ lists (live_edge s) es).
  Notation ix := (number ns).
  Definition written_edge (e : nat) : Prop := exists x, s_edges s !! e = Some x /\ (sep = true \/ e_from x ∈ ns).
  Definition edge_back (e : nat) (ed : jedge) : Prop := exists x y, s_edges s !! e = Some x /\ je_from ed = index_of ix (e_from x) /\
    je_to ed = index_of ix (e_to x) /\ je_label ed = e_label x /\ unmarshal_props pu (je_props ed) = Some (e_props y) /\
    s_edges s !! e = Some y /\ e_from y = e_from x /\ e_to y = e_to x /\ e_label y = e_label x.
  Definition node_back (n : nat) (nd : jnode) : Prop := exists x, s_nodes s !! n = Some x /\ jn_n nd = index_of ix n /\
    list_to_set (jn_labels nd) = sn_labels x /\ unmarshal_props pu (jn_props nd) = Some (sn_props x) /\
    exists oes, (if sep then oes = [] else lists (is_out s n) oes) /\ Forall2 edge_back oes (embedded nd).
  Lemma edge_reads_back from e v : live_edge s e -> edge_written_as src pm ix from e v ->
    exists ed, read_edge from v = Some ed /\ forall f x, s_edges s !! e = Some x -> f = index_of ix (e_from x) ->
      edge_back e (JEdge (if from then je_from ed else f) (je_to ed) (je_label ed) (je_props ed)).
  Proof.
    intros [x Hx] (ed & p & He & Hp & ->). 
    destruct (core_edge _ _ _ _ Hc Hx) as (He' & _). assert (ed = x) as -> by congruence.
    destruct (proj2 (proj2 (proj2 Hw)) e x Hx) as (z & Hz & Hl & F1 & F2 & F3 & m & Hm & Hu & Hb). assert (m = p) as -> by congruence.
    eexists. split; [by apply read_edge_json|]. intros f y Hy Hf. assert (y = x) as -> by congruence. exists x, z. split; [done|].
    cbn [je_from je_to je_label je_props]. split; [by destruct from|done].
  Qed.
  Lemma edges_read_back from es vs : Forall (live_edge s) es -> Forall2 (edge_written_as src pm ix from) es vs ->
    exists eds, mapM (read_edge from) vs = Some eds /\ Forall2 (fun e ed => forall f x, s_edges s !! e = Some x -> f = index_of ix (e_from x) ->
      edge_back e (JEdge (if from then je_from ed else f) (je_to ed) (je_label ed) (je_props ed))) es eds.
  Proof.
    intros Hl H. induction H as [|e v es vs Hev H IH]; [by exists []|]. apply Forall_cons in Hl as [Hl0 Hl].
    destruct (IH Hl) as (eds & E & HF). destruct (edge_reads_back _ _ _ Hl0 Hev) as (ed & E1 & H1). exists (ed :: eds).
    split; [|by constructor]. cbn [mapM]. rewrite E1. cbn. by rewrite E.
  Qed.
  Lemma node_reads_back n v : live_node s n -> node_written_as src pm sep ix lord n v -> exists nd, read_node v = Some nd /\ node_back n nd.
  Proof.
    intros [x Hx] (nd & p & oes & es & Hnd & Hp & Hoes & HF & ->). 
    destruct (core_node _ _ _ _ Hc Hx) as (nd' & Hnd' & EL & EP). assert (nd' = nd) as -> by congruence.
    destruct (proj1 (proj2 (proj2 Hw)) n x Hx) as (z & Hz & Hl & F1 & m & Hm & Hu & Hb).
    assert (m = p) as -> by congruence. destruct (Hlord n x Hx) as [Ho1 Ho2].
    assert (Hout : if sep then oes = [] else lists (is_out s n) oes).
    { destruct sep; [done|]. destruct (node_edges_out src s Hc n (ex_intro _ x Hx)) as (xs & E & H). assert (xs = oes) as -> by congruence. done. }
    assert (Hlv : Forall (fun e => exists y, s_edges s !! e = Some y /\ e_from y = n) oes).
    { apply Forall_forall. intros e He. destruct sep; [subst oes; by apply elem_of_nil in He|]. apply Hout in He. exact He. }
    destruct (edges_read_back false oes es) as (eds & E & Hback); [|done|].
    { eapply Forall_impl; [exact Hlv|]. intros e (y & Hy & _). by exists y. }
    eexists. split.
    - apply read_node_json; try done.
      + intros l Hin. apply Hl, Ho2, Hin.
      + intros E0. rewrite EL in E0. destruct (lord n) as [|l ls]; [done|]. exfalso. assert (l ∈ sn_labels x) as H by (apply Ho2; left). rewrite E0 in H. set_solver.
      + intros E0. rewrite EP in E0. rewrite EP, E0 in Hp. by injection Hp as <-.
    - exists z. split; [done|]. cbn [jn_n jn_labels jn_props]. split; [done|]. split.
      { rewrite F1. apply set_eq. intros l. rewrite elem_of_list_to_set. apply Ho2. }
      split; [done|]. exists oes. split; [done|]. unfold embedded. cbn [jn_n jn_edges].
      clear - Hback Hlv. induction Hback as [|e ed oes eds H _ IH]; [constructor|]. apply Forall_cons in Hlv as [(y & Hy & Hf) Hlv].
      cbn [map]. constructor; [|by apply IH]. apply (H _ y Hy). by rewrite Hf.
  Qed.
  Lemma nodes_read_back l vn : Forall (live_node s) l -> Forall2 (node_written_as src pm sep ix lord) l vn ->
    exists nds, mapM read_node vn = Some nds /\ Forall2 node_back l nds.
  Proof.
    intros Hl H. induction H as [|n v l vs Hnv H IH]; [by exists []|]. apply Forall_cons in Hl as [Hl0 Hl].
    destruct (IH Hl) as (eds & E & HF). destruct (node_reads_back _ _ Hl0 Hnv) as (ed & E1 & H1). exists (ed :: eds).
    split; [|by constructor]. cbn [mapM]. rewrite E1. cbn. by rewrite E.
  Qed.
  Lemma embedded_back l nds : NoDup l -> Forall2 node_back l nds -> exists oes, Forall2 edge_back oes (mjoin (map embedded nds)) /\ NoDup oes /\
    forall e, e ∈ oes <-> sep = false /\ exists x, s_edges s !! e = Some x /\ e_from x ∈ l.
  Proof.
    intros Hnd H. induction H as [|n nd l nds Hn H IH].
    { exists []. split; [constructor|]. split; [constructor|]. intros e. split; [by intros ?%elem_of_nil|]. intros (_ & x & _ & Hin). by apply elem_of_nil in Hin. }
    apply NoDup_cons in Hnd as [Hnl Hnd]. destruct (IH Hnd) as (oes & HF & HN & Hspec).
    destruct Hn as (x & Hx & _ & _ & _ & oes1 & Ho1 & HF1). exists (oes1 ++ oes). split; [by apply Forall2_app|].
    assert (Hspec1 : forall e, e ∈ oes1 <-> sep = false /\ is_out s n e).
    { intros e. destruct sep; [subst oes1; split; [by intros ?%elem_of_nil|by intros [? _]]|]. destruct Ho1 as [_ Ho1]. rewrite Ho1. tauto. }
    split.
    - apply NoDup_app. split; [|split; [|done]].
      + destruct sep; [subst; constructor|apply Ho1].
      + intros e [_ (y & Hy & Ef)]%Hspec1 (_ & y' & Hy' & Hin)%Hspec. apply Hnl. assert (y' = y) as -> by congruence. by subst n.
    - intros e. rewrite elem_of_app, Hspec, Hspec1. split.
      + intros [(? & y & Hy & Ef)|(? & y & Hy & Hin)]; (split; [done|]); exists y; (split; [done|]); [subst n; left|by right].
      + intros (? & y & Hy & Hin). apply elem_of_cons in Hin as [Ef|Hin]; [left; split; [done|]; by exists y|right; split; [done|]; by exists y].
  Qed.

  Definition doc_back (nds : list jnode) (eds : list jedge) : Prop :=
    Forall2 node_back ord nds /\ exists oes, lists written_edge oes /\ Forall2 edge_back oes eds.
  Lemma document_back ts : ns <> [] \/ sep = false -> encode src pm sep ord lord = Ok (Some ts) ->
    exists ms nds eds, ts = toks (JObj ms) /\ skippable ms /\ declares ms nds eds /\ doc_back nds eds.
  Proof.
    intros Hne H. destruct (encode_ok _ _ _ _ _ _ H) as (ns' & Hns' & vn & oes & ve & Hvn & Hoes & Hve & _ & Hts).
    assert (ns' = ns) as -> by congruence. clear Hns'. destruct Hord as [Ho1 Ho2].
    assert (Forall2 (node_written_as src pm sep ix lord) ord vn /\ (ns = [] -> ord = [])) as [Hvn' Hord0].
    { destruct (decide (ns = [])) as [E|E]; [|done]. assert (ord = []) as ->.
      { destruct ord as [|n l]; [done|]. exfalso. assert (n ∈ ns) as Hin by (apply Ho2; left). rewrite E in Hin. by apply elem_of_nil in Hin. }
      subst vn. done. }
    destruct (nodes_read_back ord vn) as (nds & En & Hnb); [apply Forall_forall; intros n Hn; by apply Hlive, Ho2|done|].
    destruct (embedded_back ord nds Ho1 Hnb) as (oes1 & HF1 & HN1 & Hspec1).
    assert (Hoes' : if sep then lists (live_edge s) oes else oes = []).
    { destruct sep; [|done]. destruct (Hes eq_refl) as (xs & E & Hx). assert (xs = oes) as -> by congruence. done. }
    destruct (edges_read_back true oes ve) as (es & Ees & Heb); [apply Forall_forall; intros e He; destruct sep; [by apply Hoes'|subst; by apply elem_of_nil in He]|done|].
    assert (Heb' : Forall2 edge_back oes es).
    { assert (Forall (live_edge s) oes) as Hl by (apply Forall_forall; intros e He; destruct sep; [by apply Hoes'|subst; by apply elem_of_nil in He]).
      clear - Heb Hl. induction Heb as [|e ed oes es H _ IH]; [constructor|]. apply Forall_cons in Hl as [[x Hx] Hl]. constructor; [|by apply IH].
      specialize (H _ x Hx eq_refl). by destruct ed. }
    exists ((if decide (ns = []) then [] else [("nodes", JArr vn)]) ++ (if sep then [("edges", JArr ve)] else [])), nds, (mjoin (map embedded nds) ++ es).
    split; [by apply Hts|]. split.
    { intros key v Hin. destruct (decide (ns = [])), sep; cbn [app] in Hin; repeat (apply elem_of_cons in Hin as [[= -> ->]|Hin]); try done; by apply elem_of_nil in Hin. }
    split.
    - exists es. split; [|split; [|done]].
      + unfold doc_nodes. destruct (decide (ns = [])) as [E|E].
        * rewrite (Hord0 E) in Hnb. inversion Hnb; subst nds. by destruct sep.
        * assert (filter (fun p : string * json => p.1 = "nodes") ([("nodes", JArr vn)] ++ (if sep then [("edges", JArr ve)] else [])) = [("nodes", JArr vn)]) as -> by (by destruct sep).
          cbn [mapM snd read_list]. rewrite En. cbn. by rewrite app_nil_r.
      + unfold doc_edges. assert (filter (fun p : string * json => p.1 = "edges") ((if decide (ns = []) then [] else [("nodes", JArr vn)]) ++ (if sep then [("edges", JArr ve)] else [])) =
          if sep then [("edges", JArr ve)] else []) as -> by (by destruct (decide (ns = [])), sep).
        destruct sep.
        * cbn [mapM snd read_list]. rewrite Ees. cbn. by rewrite app_nil_r.
        * subst oes. inversion Heb'. done.
    - split; [done|]. exists (oes1 ++ oes). split; [|by apply Forall2_app]. unfold written_edge. destruct sep.
      + destruct oes1 as [|e oes1]; [|exfalso; by destruct (proj1 (Hspec1 e) (elem_of_list_here _ _))]. destruct Hoes' as [H1 H2]. split; [done|].
        intros e. cbn [app]. rewrite H2. split; [intros [x Hx]; exists x; by split; [|left]|]. intros (x & Hx & _). by exists x.
      + subst oes. rewrite app_nil_r. split; [done|]. intros e. rewrite Hspec1. split.
        * intros (_ & x & Hx & Hin). exists x. split; [done|]. right. by apply Ho2.
        * intros (x & Hx & [?|Hin]); [done|]. split; [done|]. exists x. split; [done|]. by apply Ho2.
  Qed.
  Lemma redirect_in n : ns <> [] -> redirect ns n ∈ ns /\ index_of ix (redirect ns n) = index_of ix n.
  Proof.
    intros Hne. unfold redirect. case_decide as Hin; [done|].
    assert (exists a, ns !! 0 = Some a /\ default 0 (head ns) = a) as (a & Ha & ->) by (destruct ns as [|a l]; [done|by exists a]).
    split; [by apply elem_of_list_lookup_2 in Ha|]. apply (number_lookup ns) in Ha; [|done]. unfold index_of. rewrite Ha. cbn.
    destruct (number ns !! n) as [k|] eqn:E; [|done]. apply number_lookup in E; [|done]. by apply elem_of_list_lookup_2 in E.
  Qed.
  Lemma back_declared nds n : Forall2 node_back ord nds -> ns <> [] -> declared nds (index_of ix n).
  Proof.
    intros HF Hne. destruct (redirect_in n Hne) as [Hn Ei]. apply Hord in Hn. apply elem_of_list_lookup in Hn as [k Hk].
    destruct (Forall2_lookup_l _ _ _ _ _ HF Hk) as (nd & Hnd' & x & Hx & E & _).
    exists nd. split; [by apply elem_of_list_lookup_2 in Hnd'|congruence].
  Qed.
  Context (Hne : sep = true -> ns <> []).
  Lemma back_ne e : written_edge e -> ns <> [].
  Proof. intros (x & _ & [?|Hin]); [by apply Hne|]. intros E. rewrite E in Hin. by apply elem_of_nil in Hin. Qed.
  Lemma back_sound nds eds : doc_back nds eds -> sound_doc pu nds eds.
  Proof.
    intros (HF & oes & Hoes & HE). split.
    - intros nd Hnd'. apply elem_of_list_lookup in Hnd' as [k Hk]. destruct (Forall2_lookup_r _ _ _ _ _ HF Hk) as (n & _ & x & _ & _ & _ & E & _). by exists (sn_props x).
    - intros ed Hed. apply elem_of_list_lookup in Hed as [k Hk]. destruct (Forall2_lookup_r _ _ _ _ _ HE Hk) as (e & He & x & y & Hx & E1 & E2 & _ & E & _).
      split; [by exists (e_props y)|]. assert (ns <> []) as Hn by (apply (back_ne e), Hoes; by apply elem_of_list_lookup_2 in He). rewrite E1, E2. split; by apply back_declared.
  Qed.
  Lemma back_stands nds ids n n' : ns <> [] -> length ids = length nds -> Forall2 node_back ord nds -> stands_for nds ids (index_of ix n) n' ->
    (list_to_map (zip ord ids) : gmap nat nat) !! redirect ns n = Some n'.
  Proof.
    intros Hn0 Hl HF (k & nd & Hk & E & Hid). destruct (Forall2_lookup_r _ _ _ _ _ HF Hk) as (n1 & Hn1 & x & Hx & E1 & _).
    destruct (redirect_in n Hn0) as [Hr1 Hr2]. assert (n1 = redirect ns n) as <-.
    { apply (index_inj ns); [done| |done|congruence]. apply Hord. by apply elem_of_list_lookup_2 in Hn1. }
    apply zip_lookup; [apply Hord| |by exists k]. rewrite (Forall2_length _ _ _ HF). done.
  Qed.
  Lemma back_copied nds eds t t' ids es : doc_back nds eds -> decoded pu nds eds t t' ids es ->
    exists m h, extended (fun _ v => v) (redirected ns s) t t' ∅ m h /\ (forall n, is_Some (m !! n) <-> n ∈ ns) /\ (forall e, is_Some (h !! e) <-> written_edge e).
  Proof.
    intros (HF & oes & Hoes & HE) [D1 D2 D3 D4 D5 D6 D7 D8 D9 D10].
    pose proof (Forall2_length _ _ _ HF) as L1. pose proof (Forall2_length _ _ _ D1) as L2.
    pose proof (Forall2_length _ _ _ HE) as L3. pose proof (Forall2_length _ _ _ D2) as L4.
    set (m := list_to_map (zip ord ids) : gmap nat nat). set (h := list_to_map (zip oes es) : gmap nat nat).
    assert (Hm : forall n n', m !! n = Some n' <-> exists i, ord !! i = Some n /\ ids !! i = Some n') by (intros; apply zip_lookup; [apply Hord|lia]).
    assert (Hh : forall n n', h !! n = Some n' <-> exists i, oes !! i = Some n /\ es !! i = Some n') by (intros; apply zip_lookup; [apply Hoes|lia]).
    exists m, h. split; [|split].
    - split; try done.
      + apply map_empty_subseteq.
      + intros n n' (i & Hi & Hi')%Hm _. split; [destruct (s_nodes t !! n') eqn:E; [|done]; exfalso; apply (D5 n'); [by apply elem_of_list_lookup_2 in Hi'|by eexists]|].
        destruct (Forall2_lookup_l _ _ _ _ _ HF Hi) as (nd & Hnd & x & Hx & _ & EL & EP & _).
        destruct (Forall2_lookup_l _ _ _ _ _ D1 Hnd) as (n2 & Hn2 & p & Hp & Hy). assert (n2 = n') as -> by congruence.
        exists x. eexists. split; [done|]. split; [exact Hy|]. split; [done|]. intros k. cbn [sn_props]. assert (p = sn_props x) as -> by congruence.
        by destruct (sn_props x !! k).
      + intros e e' (i & Hi & Hi')%Hh. split; [destruct (s_edges t !! e') eqn:E; [|done]; exfalso; apply (D6 e'); [by apply elem_of_list_lookup_2 in Hi'|by eexists]|].
        destruct (Forall2_lookup_l _ _ _ _ _ HE Hi) as (ed & Hed & x & z & Hx & E1 & E2 & E3 & E4 & Hz & G1 & G2 & G3).
        destruct (Forall2_lookup_l _ _ _ _ _ D2 Hed) as (e2 & He2 & from & to & p & Hp & S1 & S2 & Hy). assert (e2 = e') as -> by congruence.
        assert (ns <> []) as Hn by (apply (back_ne e), Hoes; by apply elem_of_list_lookup_2 in Hi). rewrite E1 in S1. rewrite E2 in S2.
        eexists. eexists. split; [unfold redirected; cbn [s_edges]; by rewrite lookup_fmap, Hz|]. split; [exact Hy|]. unfold edge_copy. cbn [e_from e_to e_label e_props]. rewrite G1, G2, G3. split; [|split; [|split; [done|]]].
        * by apply (back_stands nds ids).
        * by apply (back_stands nds ids).
        * intros k. cbn [e_props]. assert (p = e_props z) as -> by congruence. by destruct (e_props z !! k).
      + intros n1 n2 n' (i & Hi & Hi')%Hm (j & Hj & Hj')%Hm _. pose proof (NoDup_lookup _ _ _ _ D3 Hi' Hj') as ->. congruence.
      + intros n1 n2 n' (i & Hi & Hi')%Hh (j & Hj & Hj')%Hh. pose proof (NoDup_lookup _ _ _ _ D4 Hi' Hj') as ->. congruence.
      + intros n' Hn'. destruct (D9 n' Hn') as [?|Hin]; [by left|right]. apply elem_of_list_lookup in Hin as [i Hi].
        destruct (lookup_lt_is_Some_2 ord i) as [n Hn]; [apply lookup_lt_Some in Hi; lia|]. exists n. split; [apply Hm; by exists i|done].
      + intros n' Hn'. destruct (D10 n' Hn') as [?|Hin]; [by left|right]. apply elem_of_list_lookup in Hin as [i Hi].
        destruct (lookup_lt_is_Some_2 oes i) as [n Hn]; [apply lookup_lt_Some in Hi; lia|]. exists n. apply Hh; by exists i.
    - intros n. split.
      + intros [n' (i & Hi & _)%Hm]. apply elem_of_list_lookup_2 in Hi. by apply Hord.
      + intros Hn. apply Hord in Hn. apply elem_of_list_lookup in Hn as [i Hi]. destruct (lookup_lt_is_Some_2 ids i) as [n' Hn']; [apply lookup_lt_Some in Hi; lia|].
        exists n'. apply Hm. by exists i.
    - intros e. split.
      + intros [n' (i & Hi & _)%Hh]. apply elem_of_list_lookup_2 in Hi. by apply Hoes.
      + intros He. apply Hoes in He. apply elem_of_list_lookup in He as [i Hi]. destruct (lookup_lt_is_Some_2 es i) as [n' Hn']; [apply lookup_lt_Some in Hi; lia|].
        exists n'. apply Hh. by exists i.
  Qed.
  (** Encode succeeds *)
  Lemma edges_written from l : forall first, (forall e, e ∈ l -> live_edge s e) -> exists ts, encode_edges src pm ix from first l = Ok (Some ts).
  Proof.
    induction l as [|e l IH]; intros first Hl; cbn [encode_edges]; [by eexists|].
    destruct (Hl e) as [x Hx]; [left|]. destruct (core_edge _ _ _ _ Hc Hx) as (He & _).
    destruct (proj2 (proj2 (proj2 Hw)) e x Hx) as (z & _ & _ & _ & _ & _ & m & Hm & _).
    unfold encode_edge, deref_edge. rewrite He. cbn [rbind]. rewrite Hm. cbn [mbind option_bind rbind].
    destruct (IH [TComma]) as [ts ->]; [intros; apply Hl; by right|]. cbn [rbind]. by eexists.
  Qed.
  Lemma nodes_written l : forall first, (forall n, n ∈ l -> live_node s n) -> exists ts, encode_nodes src pm sep ix lord first l = Ok (Some ts).
  Proof.
    induction l as [|n l IH]; intros first Hl; cbn [encode_nodes]; [by eexists|].
    destruct (Hl n) as [x Hx]; [left|]. destruct (core_node _ _ _ _ Hc Hx) as (nd & Hnd & _ & EP).
    destruct (proj1 (proj2 (proj2 Hw)) n x Hx) as (z & _ & _ & _ & m & Hm & _). rewrite <-EP in Hm.
    assert (exists t, encode_node src pm sep ix n (lord n) = Ok (Some t)) as [t ->].
    { unfold encode_node, deref_node. rewrite Hnd. cbn [rbind]. rewrite Hm.
      destruct (node_edges_out src s Hc n (ex_intro _ x Hx)) as (es & Ees & Hl1).
      destruct (edges_written false es (TComma :: tkey "edges" ++ [TArr])) as [te Ete]; [intros e He; apply Hl1 in He as (y & Hy & _); by exists y|].
      destruct (decide (n_props nd = ∅)), sep; cbn [mbind option_bind rbind]; rewrite ?Ees; cbn [rbind]; rewrite ?Ete; cbn [rbind]; by eexists. }
    cbn [rbind]. destruct (IH [TComma]) as [ts ->]; [intros; apply Hl; by right|]. cbn [rbind]. by eexists.
  Qed.
  Lemma encode_succeeds : exists ts, encode src pm sep ord lord = Ok (Some ts).
  Proof.
    unfold encode. rewrite Hns. cbn [rbind].
    destruct (nodes_written ord []) as [tn Etn]; [intros n Hn; by apply Hlive, Hord|].
    assert (exists te, (if sep then let! es := get_edges src in let? x := encode_edges src pm ix true [] es in
        Ok (Some (TComma :: tkey "edges" ++ [TArr] ++ x ++ [TArrEnd])) else Ok (Some [])) = Ok (Some te)) as [te Ete].
    { destruct sep; [|by eexists]. destruct (Hes eq_refl) as (es & E & Hl). rewrite E. cbn [rbind].
      destruct (edges_written true es []) as [t ->]; [intros e He; by apply Hl|]. cbn [rbind]. by eexists. }
    destruct (decide (ns = [])); cbn [rbind].
    - rewrite Ete. cbn [rbind]. by eexists.
    - rewrite Etn. cbn [rbind]. rewrite Ete. cbn [rbind]. by eexists.
  Qed.
End trip.

Lemma json_every sops src tops tgt pm pu sep ord lord lord' r :
  valid_history sops -> run sops = Ok src -> valid_history tops -> run tops = Ok tgt ->
  (sep = true -> edge_list_safe sops /\ listed sops <> []) ->
  writable pm pu (srun (ghosts sops)) -> ord ≡ₚ listed sops -> label_order (srun (ghosts sops)) lord -> (forall i X, order_of X (lord' i X)) ->
  exists ts, encode src pm sep ord lord = Ok (Some ts) /\
    (forall g' b, decode pu lord' tgt (ts ++ r) = Ok (g', b) -> b = true /\
       exists ops' m h, valid_history (tops ++ ops') /\ run (tops ++ ops') = Ok g' /\ Forall adds ops' /\
         extended (fun _ v => v) (redirected (listed sops) (srun (ghosts sops))) (srun tops) (srun (tops ++ ops')) ∅ m h /\
         (forall n, is_Some (m !! n) <-> n ∈ listed sops) /\
         (forall e, is_Some (h !! e) <-> exists x, s_edges (srun sops) !! e = Some x /\ (sep = true \/ e_from x ∈ listed sops))) /\
    (calls_safe tops -> can_hold tops (fun _ v => v) (srun (ghosts sops)) -> exists x, decode pu lord' tgt (ts ++ r) = Ok x).
Proof.
  intros Hv Hr Hvt Hrt Hsep Hw%writable_turns Hord Hlord Hlord'. pose proof (ghosts_core sops src Hv Hr) as Hc. destruct (ghosts_over sops) as (Ee & _ & _).
  pose proof (get_nodes_listed sops src Hv Hr) as Ens. destruct (listed_parts _ _ Hv Hr) as (Hnd & _). apply NoDup_app in Hnd as (Hnd & _ & _).
  pose proof (listed_created _ _ Hv Hr) as Hlive.
  assert (lists (fun n => n ∈ listed sops) ord) as Hord'. { split; [by rewrite Hord|]. intros n. by rewrite Hord. }
  assert (sep = true -> exists es, get_edges src = Ok es /\ lists (live_edge (srun (ghosts sops))) es) as Hes.
  { intros E. destruct (Hsep E) as [H1 _]. destruct (get_edges_ok sops src Hv Hr H1) as ((xs & E1 & Hx) & _). exists xs. split; [done|].
    destruct Hx as [Hx1 Hx2]. split; [done|]. intros e. rewrite Hx2. unfold live_edge. by rewrite Ee. }
  assert (sep = true -> listed sops <> []) as Hne by (intros E; by apply Hsep).
  destruct (encode_succeeds src (srun (ghosts sops)) Hc pm pu Hw sep (listed sops) ord lord Ens Hlive Hord' Hes Hne) as [ts Ets]. exists ts. split; [done|].
  destruct (document_back src (srun (ghosts sops)) Hc pm pu Hw sep (listed sops) ord lord Ens Hnd Hlive Hord' Hlord Hes ts) as (ms & nds & eds & -> & Hsk & Hdec & Hback); [|done|].
  { destruct sep; [left; by apply Hne|by right]. }
  split; [|
  intros Hsafe [Hh1 Hh2]; destruct Hback as (HF & oes & Hoes & HE);
    apply (decode_progress pu lord' Hlord' tops tgt Hvt Hrt ms r nds eds Hsk Hdec Hsafe); split].
  2: { intros k it Hit. eapply storable_mono; [|apply (Hh1 k it Hit)]. intros v [?|(nd & p & Hnd' & Hp & Hk)]; [by left|right].
      apply elem_of_list_lookup in Hnd' as [i Hi]. destruct (Forall2_lookup_r _ _ _ _ _ HF Hi) as (n & _ & x & Hx & _ & _ & E & _).
      exists n, v. split; [|done]. exists x. split; [done|]. congruence. }
  2: { intros k it Hit. eapply storable_mono; [|apply (Hh2 k it Hit)]. intros v [?|(nd & p & Hnd' & Hp & Hk)]; [by left|right].
      apply elem_of_list_lookup in Hnd' as [i Hi]. destruct (Forall2_lookup_r _ _ _ _ _ HE Hi) as (e & _ & x & y & _ & _ & _ & _ & E & Hy & _).
      exists e, v. split; [|done]. exists y. split; [done|]. congruence. }
  intros g' b Hd. destruct (decode_sound pu lord' Hlord' tops tgt Hvt Hrt ms r g' b Hsk Hd) as (ops' & V1 & V2 & V3 & Hb & Hdd).
  assert (b = true) as ->. { apply Hb. exists nds, eds. split; [done|]. exact (back_sound src (srun (ghosts sops)) pu sep (listed sops) ord Ens Hnd Hlive Hord' Hne nds eds Hback). }
  split; [done|]. destruct (Hdd eq_refl) as (nds' & eds' & ids & es & Hdec' & Hd').
  assert (nds' = nds /\ eds' = eds) as [-> ->].
  { destruct Hdec as (x & A1 & A2 & A3), Hdec' as (y & B1 & B2 & B3). assert (nds' = nds) as -> by congruence. assert (x = y) as -> by congruence. by subst. }
  destruct (back_copied src (srun (ghosts sops)) pu sep (listed sops) ord Ens Hnd Hlive Hord' Hne nds eds _ _ ids es Hback Hd') as (m & h & H1 & H2 & H3).
  exists ops', m, h. do 4 (split; [done|]). split; [done|]. intros e. rewrite H3. unfold written_edge. by rewrite Ee.
Qed.
