(** Proofs about UTF-8 in JSON strings. *)
From Verif Require Import Base JsonText JsonSpec.
From Coq Require Import Ascii NArith Lia ZArith.
Local Open Scope string_scope.
Local Open Scope list_scope.

Lemma within_of a b n : (n < 256)%N -> within a b (ascii_of_N n) = (a <=? n)%N && (n <=? b)%N.
Proof. intros H. unfold within. by rewrite N_ascii_embedding. Qed.
Ltac Zify.zify_post_hook ::= Z.to_euclidean_division_equations.
Ltac decide_bytes := 
  repeat match goal with
  | |- context [(?a <=? ?b)%N] =>
      first [ replace (a <=? b)%N with true by (symmetry; apply N.leb_le; lia)
            | replace (a <=? b)%N with false by (symmetry; apply N.leb_gt; lia) ]
  end.
Ltac test_bytes := repeat (rewrite within_of by lia; decide_bytes; cbn [andb orb]).
Lemma json_str_rune c r : code_point c -> json_str (bytes (utf8_bytes c ++ r)) = bytes (utf8_bytes c) +:+ json_str (bytes r).
Proof.
  intros Hc. unfold code_point in Hc. unfold utf8_bytes.
  destruct (N.ltb_spec c 128).
  { cbn [app bytes]. unfold json_str. cbn [json_str_at rune_len]. test_bytes; done. }
  destruct (N.ltb_spec c 2048).
  { cbn [app bytes]. unfold json_str. cbn [json_str_at rune_len]. test_bytes; done. }
  destruct (N.ltb_spec c 65536).
  { cbn [app bytes]. unfold json_str. cbn [json_str_at rune_len]. assert (c < 4096 \/ 4096 <= c < 53248 \/ 53248 <= c < 55296 \/ 57344 <= c)%N as [?|[?|[?|?]]] by lia; test_bytes; done. }
  cbn [app bytes]. unfold json_str. cbn [json_str_at rune_len]. assert (c < 262144 \/ 262144 <= c < 1048576 \/ 1048576 <= c)%N as [?|[?|?]] by lia; test_bytes; done.
Qed.
Lemma bytes_app l k : bytes (l ++ k) = bytes l +:+ bytes k.
Proof. induction l as [|b l IH]; [done|]. cbn [app bytes]. by rewrite IH. Qed.
Lemma json_str_utf8 s : utf8 s -> json_str s = s.
Proof.
  intros (cs & Hcs & ->). induction Hcs as [|c cs Hc _ IH]; [done|]. cbn [map].
  change (mjoin (utf8_bytes c :: map utf8_bytes cs)) with (utf8_bytes c ++ mjoin (map utf8_bytes cs)).
  by rewrite json_str_rune, IH, bytes_app.
Qed.
Lemma within_spec a b c : within a b c = true -> (a <= N_of_ascii c <= b)%N.
Proof. unfold within. intros [H1%N.leb_le H2%N.leb_le]%andb_true_iff. lia. Qed.
Lemma string_cons n a r s : N_of_ascii a = n -> r = s -> String a r = String (ascii_of_N n) s.
Proof. intros <- ->. by rewrite ascii_N_embedding. Qed.
(** [rune_len] accepts only encodings of code points *)
Lemma rune_len_sound s k : rune_len s = S k -> exists c r, code_point c /\ s = bytes (utf8_bytes c) +:+ r /\ length (utf8_bytes c) = S k.
Proof.
  unfold rune_len. destruct s as [|a s]; [done|]. destruct (within 0 127 a) eqn:E1.
  { apply within_spec in E1. intros [= <-]. exists (N_of_ascii a), s. unfold code_point, utf8_bytes. rewrite (proj2 (N.ltb_lt _ _)) by lia.
    split; [lia|]. cbn [bytes length String.append]. by rewrite ascii_N_embedding. }
  destruct s as [|b s]; [done|]. destruct (within 194 223 a && within 128 191 b) eqn:E2.
  { apply andb_true_iff in E2 as [Ha%within_spec Hb%within_spec]. intros [= <-].
    set (x := N_of_ascii a) in *. set (y := N_of_ascii b) in *. exists ((x - 192) * 64 + (y - 128))%N, s. unfold code_point, utf8_bytes.
    rewrite (proj2 (N.ltb_ge _ _)) by lia. rewrite (proj2 (N.ltb_lt _ _)) by lia. split; [lia|]. cbn [bytes length String.append].
    split; [|done]. repeat (apply string_cons; [try fold x; try fold y; try fold z; lia|]). done. }
  destruct s as [|c s]; [done|].
  match goal with |- (if ?t then _ else _) = _ -> _ => destruct t eqn:E3 end.
  { apply andb_true_iff in E3 as [E3 Hc%within_spec]. intros [= <-].
    set (x := N_of_ascii a) in *. set (y := N_of_ascii b) in *. set (z := N_of_ascii c) in *.
    assert ((x = 224 /\ 160 <= y <= 191) \/ (225 <= x <= 236 /\ 128 <= y <= 191) \/ (x = 237 /\ 128 <= y <= 159) \/ (238 <= x <= 239 /\ 128 <= y <= 191))%N as Hxy.
    { rewrite !orb_true_iff, !andb_true_iff in E3. destruct E3 as [[[[H1 H2]|[H1 H2]]|[H1 H2]]|[H1 H2]]; apply within_spec in H1; apply within_spec in H2; fold x in H1; fold y in H2; lia. }
    clear E1 E2 E3. exists ((x - 224) * 4096 + (y - 128) * 64 + (z - 128))%N, s. unfold code_point, utf8_bytes.
    rewrite !(proj2 (N.ltb_ge _ _)) by lia. rewrite (proj2 (N.ltb_lt _ _)) by lia. split; [lia|]. cbn [bytes length String.append].
    split; [|done]. repeat (apply string_cons; [try fold x; try fold y; try fold z; lia|]). done. }
  destruct s as [|d s]; [done|].
  match goal with |- (if ?t then _ else _) = _ -> _ => destruct t eqn:E4 end; [|done].
  apply andb_true_iff in E4 as [E4 Hd%within_spec]. apply andb_true_iff in E4 as [E4 Hc%within_spec]. intros [= <-].
  set (x := N_of_ascii a) in *. set (y := N_of_ascii b) in *. set (z := N_of_ascii c) in *. set (w := N_of_ascii d) in *.
  assert ((x = 240 /\ 144 <= y <= 191) \/ (241 <= x <= 243 /\ 128 <= y <= 191) \/ (x = 244 /\ 128 <= y <= 143))%N as Hxy.
  { rewrite !orb_true_iff, !andb_true_iff in E4. destruct E4 as [[[H1 H2]|[H1 H2]]|[H1 H2]]; apply within_spec in H1; apply within_spec in H2; fold x in H1; fold y in H2; lia. }
  clear E1 E2 E3 E4. exists ((x - 240) * 262144 + (y - 128) * 4096 + (z - 128) * 64 + (w - 128))%N, s. unfold code_point, utf8_bytes.
  rewrite !(proj2 (N.ltb_ge _ _)) by lia. split; [lia|]. cbn [bytes length String.append].
  split; [|done]. repeat (apply string_cons; [try fold x; try fold y; try fold z; try fold w; lia|]). done.
Qed.
Ltac Zify.zify_post_hook ::= idtac.

Lemma bytes_all s : exists l, s = bytes l.
Proof. induction s as [|a s [l ->]]; [by exists []|]. exists (N_of_ascii a :: l). cbn. by rewrite ascii_N_embedding. Qed.
Theorem json_str_keeps c s : code_point c -> json_str (bytes (utf8_bytes c) +:+ s) = bytes (utf8_bytes c) +:+ json_str s.
Proof. intros Hc. destruct (bytes_all s) as [l ->]. rewrite <-bytes_app. by apply json_str_rune. Qed.
Theorem json_str_replaces a s : (forall c r, code_point c -> String a s <> bytes (utf8_bytes c) +:+ r) ->
  json_str (String a s) = bytes (utf8_bytes 65533) +:+ json_str s.
Proof.
  intros H. unfold json_str. cbn [json_str_at]. destruct (rune_len (String a s)) as [|k] eqn:E; [done|].
  destruct (rune_len_sound _ _ E) as (c & r & Hc & Hs & _). by destruct (H c r Hc).
Qed.
Lemma utf8_cons c s : code_point c -> utf8 s -> utf8 (bytes (utf8_bytes c) +:+ s).
Proof. intros Hc (cs & Hcs & ->). exists (c :: cs). split; [by constructor|]. cbn [map]. rewrite <-bytes_app. done. Qed.
Lemma str_length_app s t : String.length (s +:+ t) = String.length s + String.length t.
Proof. induction s as [|a s IH]; [done|]. change (S (String.length (s +:+ t)) = S (String.length s) + String.length t). lia. Qed.
Lemma bytes_length l : String.length (bytes l) = length l.
Proof. induction l as [|b l IH]; [done|]. cbn. by rewrite IH. Qed.
Theorem json_str_valid s : utf8 (json_str s).
Proof.
  remember (String.length s) as n eqn:Hn. revert s Hn. induction (lt_wf n) as [n _ IH]. intros s ->. destruct s as [|a s]; [by exists []|].
  destruct (rune_len (String a s)) as [|k] eqn:E.
  - assert (json_str (String a s) = bytes (utf8_bytes 65533) +:+ json_str s) as -> by (unfold json_str; cbn [json_str_at]; by rewrite E).
    apply utf8_cons; [unfold code_point; lia|]. eapply IH; [|done]. cbn. lia.
  - destruct (rune_len_sound _ _ E) as (c & r & Hc & Hs & Hl). rewrite Hs, json_str_keeps by done. apply utf8_cons; [done|]. eapply IH; [|done].
    rewrite Hs, str_length_app, bytes_length, Hl. lia.
Qed.
