(** Programs with shared sets and maps, for the examples of PropertiesSharing.v. *)
From Verif Require Import Base Value Index Graph GraphSpec Sharing SharingSpec SharingProofs GraphExamples.
Local Open Scope string_scope.
Local Open Scope list_scope.

Definition sh_result (p : list call) : shared := match sh_run p with Ok st => st | _ => sh_start end.
Definition v_result (p : list call) : vals := match v_run p with Ok w => w | _ => v_start end.
Lemma sh_returns p : match sh_run p with Ok _ => true | _ => false end = true -> sh_run p = Ok (sh_result p).
Proof. unfold sh_result. by destruct (sh_run p). Qed.
Lemma v_returns p : match v_run p with Ok _ => true | _ => false end = true -> v_run p = Ok (v_result p).
Proof. unfold v_result. by destruct (v_run p). Qed.
Ltac returns := first [apply sh_returns | apply v_returns]; vm_compute; reflexivity.

(** a set built by hand and given to the graph; the labels of the node, extended, given to it *)
Definition by_methods : list call :=
  [CSet 0 {["A"]}; CAdd 0 {["B"]}; CFastNode 0 0 ["A"; "B"]; CGetLabels 1 0; CAdd 1 {["C"]}; CRemove 1 {["A"]};
   CSetLabels 0 1 ["A"; "B"] ["B"; "C"]; CGetLabels 2 0; CAdd 2 {["D"]}; CCall (OSetNodeProp 0 "k" (VInt 1))].
(** maps changed before they are given *)
Definition by_hand : list call :=
  [CSet 0 {["A"]}; CInsert 0 "B"; CMap 0 {["k" := VInt 1]}; CPut 0 "k" (VInt 2); CFastNode 0 0 ["A"; "B"]].

(** a test for [quiet] *)
Definition only_at (m : gmap nat nat) (v r : nat) : bool := bool_decide (map_Forall (fun u r' => r' = r -> u = v) m).
Definition nowhere (m : gmap nat nat) (r : nat) : bool := bool_decide (map_Forall (fun _ r' => r' <> r) m).
Definition fine_test (st : shared) (c : call) : bool :=
  match c with
  | CInsert v _ => match sh_vset st !! v with Some r => only_at (sh_vset st) v r && nowhere (sh_nset st) r | None => false end
  | CDelete v _ => match sh_vset st !! v with Some r => only_at (sh_vset st) v r && nowhere (sh_nset st) r | None => true end
  | CPut p _ _ => match sh_vmap st !! p with Some r => only_at (sh_vmap st) p r && nowhere (sh_nmap st) r && nowhere (sh_emap st) r | None => false end
  | CUnput p _ => match sh_vmap st !! p with Some r => only_at (sh_vmap st) p r && nowhere (sh_nmap st) r && nowhere (sh_emap st) r | None => true end
  | CCall (OSetNodeProp n _ _) | CCall (ORemNodeProp n _) =>
      match sh_nmap st !! n with Some r => nowhere (sh_vmap st) r && only_at (sh_nmap st) n r && nowhere (sh_emap st) r | None => true end
  | CCall (OSetEdgeProp e _ _) | CCall (ORemEdgeProp e _) =>
      match sh_emap st !! e with Some r => nowhere (sh_vmap st) r && nowhere (sh_nmap st) r && only_at (sh_emap st) e r | None => true end
  | _ => true
  end.
Fixpoint quiet_test (st : shared) (p : list call) : bool :=
  match p with [] => true | c :: p => fine_test st c && match sh_step st c with Ok st' => quiet_test st' p | _ => true end end.
Lemma only_at_ok m v r : only_at m v r = true -> forall u, m !! u = Some r -> u = v.
Proof. intros H%bool_decide_eq_true u Hu. by apply (H u r Hu). Qed.
Lemma nowhere_ok m r : nowhere m r = true -> forall u, m !! u <> Some r.
Proof. intros H%bool_decide_eq_true u Hu. by apply (H u r Hu). Qed.
Lemma fine_test_ok st c : fine_test st c = true -> fine st c.
Proof.
  destruct c as [v ls|v u|v ls|v u|v ls|v n|v x|v x|n v ordo ordn|p ps|p q|p k x|p k|v p ord|from to label p|n fp ord|o]; cbn; try done.
  5: destruct o as [ls ps ord|from to label ps|n ls ordo ordn|n k x|n k|n|n ord|e label|e k x|e k|e|k it|k it]; try done.
  all: destruct (_ !! _) as [r|] eqn:Hr; [|done]; intros H; repeat apply andb_prop in H as [H ?].
  all: try (exists r; split; [done|]); try (intros ? [= <-]).
  all: split_and!; first [by apply only_at_ok | by apply nowhere_ok].
Qed.
Lemma quiet_test_ok p : forall st, quiet_test st p = true -> quiet st p.
Proof.
  induction p as [|c p IH]; intros st H; [done|]. cbn [quiet_test] in H. apply andb_prop in H as [Hf H]. split; [by apply fine_test_ok|].
  intros st' Hs. rewrite Hs in H. by apply IH.
Qed.
