(** Proofs for C97: Decode. *)
From Verif Require Import Base Value Index Graph GraphSpec Sizes JsonText Json JsonSpec JsonDecProofs JsonAddProofs JsonValSpec JsonValProofs.
Lemma decode_reads pu lord tops g ms r g' b : (forall i X, order_of X (lord i X)) ->
  valid_history tops -> run tops = Ok g -> skippable ms -> decode pu lord g (toks (JObj ms) ++ r) = Ok (g', b) ->
  exists ops', valid_history (tops ++ ops') /\ run (tops ++ ops') = Ok g' /\
    (b = true <-> exists nds eds, document_is ms nds eds /\ (forall nd, nd ∈ nds -> all_read pu (jn_props nd)) /\
       (forall ed, ed ∈ eds -> all_read pu (je_props ed) /\ declared nds (je_from ed) /\ declared nds (je_to ed))) /\
    (b = true -> exists nds eds ids es, document_is ms nds eds /\ decoded pu nds eds (srun tops) (srun (tops ++ ops')) ids es).
Proof.
  intros Hl Hv Hr Hs Hd. destruct (decode_sound pu lord Hl tops g Hv Hr ms r g' b Hs Hd) as (ops' & V1 & V2 & _ & Hb & Hdd).
  exists ops'. split; [done|]. split; [done|]. split.
  - rewrite Hb. setoid_rewrite declares_is. by setoid_rewrite sound_is.
  - intros Eb. destruct (Hdd Eb) as (nds & eds & ids & es & H1 & H2). exists nds, eds, ids, es. split; [by apply declares_is|done].
Qed.
