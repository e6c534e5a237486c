(** Proofs about Decode. *)
From Verif Require Import Base Value Index Graph GraphSpec CoreProofs CoreStep AdjProofs NodeListProofs EdgeListProofs
  ProgressProofs Sizes VPathProofs CloneProofs JsonText JsonTextProofs Json JsonSpec.
Local Open Scope string_scope.
Local Open Scope list_scope.

(** ** Decode, on the members of the document *)
Fixpoint process (pu : unmarshaler) (lord : nat -> gset string -> list string) (ms : list (string * json)) (s : dstate) : res (dstate * bool) :=
  match ms with
  | [] => dfold (add_queued pu) (d_queue s) s
  | (key, v) :: ms =>
      if decide (key = "nodes") then
        match read_list read_node v with
        | None => Ok (s, false)
        | Some nds => let! r := dfold (add_node pu lord) nds s in if r.2 then process pu lord ms r.1 else Ok r
        end
      else if decide (key = "edges") then
        match read_list (read_edge true) v with
        | None => Ok (s, false)
        | Some eds => let! r := dfold (add_jedge pu) eds s in if r.2 then process pu lord ms r.1 else Ok r
        end
      else process pu lord ms s
  end.
(** unknown keys have values Decode skips correctly *)
Definition skippable (ms : list (string * json)) : Prop :=
  forall key v, (key, v) ∈ ms -> key <> "nodes" -> key <> "edges" -> skip 1 (dtoks v) = Some 0.

Lemma token_key t p r st : t = ObjectStart \/ t = ObjectKey ->
  token (Decoder (member p ++ r) t st) = Some (DS (SStr p.1), Decoder (TColon :: toks p.2 ++ r) ObjectColon st).
Proof. by intros [-> | ->]. Qed.
Lemma loop_skip pu lord ts : forall k d d' depth depth' s, reads d ts d' -> skip depth ts = Some depth' -> length (dc_in d) < k ->
  exists k', length (dc_in d') < k' /\ decode_loop pu lord k d depth s = decode_loop pu lord k' d' depth' s.
Proof.
  induction ts as [|t ts IH]; intros k d d' depth depth' s Hr Hs Hk; inversion Hr; subst.
  { injection Hs as <-. eauto. }
  destruct k as [|k]; [lia|]. cbn [decode_loop]. rewrite H2. pose proof (token_shorter _ _ _ H2) as Hl.
  cbn [skip] in Hs. destruct depth as [|n].
  - destruct t as [| | | |sc]; try done; try (by eapply IH; [| |lia]).
    destruct sc as [| | | |key]; try (by eapply IH; [| |lia]).
    destruct (decide (key = "nodes")) as [?|N1]; [done|].
    destruct (decide (key = "edges")) as [?|N2]; [done|].
    by eapply IH; [| |lia].
  - destruct t; by eapply IH; [| |lia].
Qed.
Lemma loop_members pu lord ms : skippable ms -> forall k r st t s, t = ObjectStart \/ t = ObjectComma ->
  let ts := match t with ObjectComma => if decide (ms = []) then [] else TComma :: commas (map (fun p => member p) ms) | _ => commas (map (fun p => member p) ms) end in
  length (ts ++ TObjEnd :: r) < k -> st <> [] ->
  decode_loop pu lord k (Decoder (ts ++ TObjEnd :: r) t st) 0 s = process pu lord ms s.
Proof.
  induction ms as [|[key v] ms IH]; intros Hsk k r st t s Ht ts Hk Hst; (destruct k as [|k]; [lia|]); cbn [decode_loop process].
  { unfold ts. destruct st as [|u st]; [done|]. destruct Ht as [-> | ->]; cbn [map commas]; [|rewrite (decide_True (P := [] = [])) by done]; done. }
  assert (Hsk' : skippable ms) by (intros k0 v0 Hin; apply (Hsk k0 v0); by right).
  set (ts' := (if decide (ms = []) then [] else TComma :: commas (map (fun p => member p) ms)) ++ TObjEnd :: r).
  assert (Etok : token (Decoder (ts ++ TObjEnd :: r) t st) = Some (DS (SStr key), Decoder (TColon :: toks v ++ ts') ObjectColon st)).
  { assert (E : commas (map (fun p => member p) ((key, v) :: ms)) ++ TObjEnd :: r = member (key, v) ++ ts').
    { unfold ts'. destruct ms as [|q ms].
      - rewrite decide_True by done. done.
      - rewrite decide_False by done. 
        change (commas (map (fun p => member p) ((key, v) :: q :: ms))) with (member (key, v) ++ TComma :: commas (map (fun p => member p) (q :: ms))).
        by rewrite <-app_assoc. }
    unfold ts. destruct Ht as [-> | ->].
    - rewrite E. by apply token_key; left.
    - rewrite decide_False by done. rewrite <-app_comm_cons, E. etrans; [|apply (token_key ObjectKey (key, v)); by right]. done. }
  rewrite Etok. pose proof (token_shorter _ _ _ Etok) as Hlen. cbn [dc_in] in Hlen.
  assert (Hrest : forall s', decode_loop pu lord k (Decoder ts' ObjectComma st) 0 s' = process pu lord ms s').
  { intros s'. refine (IH Hsk' k r st ObjectComma s' (or_intror eq_refl) _ Hst). cbn [length] in Hlen. rewrite app_length in Hlen. fold ts'. lia. }
  destruct (decide (key = "nodes")) as [->|N1].
  { rewrite decode_value_ok. destruct (read_list read_node v); [|done].
    destruct (dfold (add_node pu lord) l s) as [[s' []]| |]; cbn [rbind fst snd]; auto. }
  destruct (decide (key = "edges")) as [->|N2].
  { rewrite decode_value_ok. destruct (read_list (read_edge true) v); [|done].
    destruct (dfold (add_jedge pu) l s) as [[s' []]| |]; cbn [rbind fst snd]; auto. }
  assert (Hr : reads (Decoder (TColon :: toks v ++ ts') ObjectColon st) (dtoks v) (Decoder ts' ObjectComma st)).
  { pose proof (reads_value v ts' ObjectValue st eq_refl) as Hr. destruct (dtoks_cons v) as (a & b & E). rewrite E in *. by eapply reads_step; [|exact Hr]. }
  destruct (loop_skip pu lord _ k _ _ 1 0 s Hr) as (k' & Hk' & ->); [apply (Hsk key); [left|done|done]|cbn [dc_in]; lia|].
  refine (IH Hsk' k' r st ObjectComma s (or_intror eq_refl) _ Hst). done.
Qed.
Lemma decode_process pu lord g ms r : skippable ms ->
  decode pu lord g (toks (JObj ms) ++ r) = let! x := process pu lord ms (DState g ∅ []) in Ok (d_graph x.1, x.2).
Proof.
  intros Hs. unfold decode. cbn [toks]. rewrite <-app_comm_cons.
  replace (token (new_decoder (TObj :: (commas (map (fun p => member p) ms) ++ [TObjEnd]) ++ r)))
    with (Some (DObj, Decoder ((commas (map (fun p => member p) ms) ++ [TObjEnd]) ++ r) ObjectStart [TopValue])) by done.
  rewrite <-app_assoc. cbn [app]. f_equal.
  refine (loop_members pu lord ms Hs _ r [TopValue] ObjectStart _ (or_introl eq_refl) _ _); [|done]. cbn [length]. lia.
Qed.
(** without the unknown keys *)
Definition known (ms : list (string * json)) : list (string * json) := filter (fun p => p.1 = "nodes" \/ p.1 = "edges") ms.
Lemma process_known pu lord ms s : process pu lord (known ms) s = process pu lord ms s.
Proof.
  revert s. induction ms as [|[key v] ms IH]; intros s; [done|]. unfold known in *. rewrite filter_cons. cbn [process fst].
  destruct (decide (key = "nodes")) as [->|N1].
  { rewrite decide_True by tauto. cbn [process]. rewrite decide_True by done. destruct (read_list read_node v); [|done].
    destruct (dfold (add_node pu lord) l s) as [[s' []]| |]; cbn [rbind fst snd]; auto. }
  destruct (decide (key = "edges")) as [->|N2].
  { rewrite decide_True by tauto. cbn [process]. rewrite decide_False, decide_True by done. destruct (read_list (read_edge true) v); [|done].
    destruct (dfold (add_jedge pu) l s) as [[s' []]| |]; cbn [rbind fst snd]; auto. }
  rewrite decide_False by tauto. apply IH.
Qed.
Lemma known_skippable ms : skippable (known ms).
Proof. intros key v Hin N1 N2. unfold known in Hin. apply elem_of_list_filter in Hin as [[?|?] _]; done. Qed.
Lemma decode_known pu lord g ms r : skippable ms -> decode pu lord g (toks (JObj ms) ++ r) = decode pu lord g (toks (JObj (known ms)) ++ r).
Proof. intros H. rewrite !decode_process by (done || apply known_skippable). by rewrite process_known. Qed.
