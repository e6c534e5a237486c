(** C91: what GetNodes lists in every graph, also after the histories of C01 (list.go:87-150, graph.go:114-128). *)
From Verif Require Import Base Value Graph GraphSpec NodeListProofs ListedSpec ListedProofs GraphExamples.

(** After every history GetNodes lists [listed], and never diverges. *)
Theorem C91_get_nodes ops g : valid_history ops -> run ops = Ok g -> get_nodes g = Ok (listed ops).
Proof. exact (get_nodes_listed ops g). Qed.
Print Assumptions C91_get_nodes.
(** Never a node twice, always in the order of creation; the live nodes left out are [hidden], the removed ones listed [l_dead]. *)
Theorem C91_parts ops g : valid_history ops -> run ops = Ok g ->
  NoDup (listed ops ++ hidden ops) /\ StronglySorted lt (listed ops) /\
  (forall n, n ∈ hidden ops <-> live_node (srun ops) n /\ n ∉ listed ops) /\
  (forall n, n ∈ l_dead (rows_of ops) <-> n ∈ listed ops /\ ~ live_node (srun ops) n) /\
  (forall n, n ∈ l_live (rows_of ops) <-> n ∈ listed ops /\ live_node (srun ops) n).
Proof. exact (listed_parts ops g). Qed.
Print Assumptions C91_parts.
(** NumNodes counts the live ones, listed or not. *)
Theorem C91_num ops g : valid_history ops -> run ops = Ok g ->
  num_nodes g = Z.of_nat (length (l_live (rows_of ops)) + length (hidden ops)).
Proof. exact (listed_num ops g). Qed.
Print Assumptions C91_num.
(** When GetNodes is right. *)
Theorem C91_exact ops g : valid_history ops -> run ops = Ok g ->
  lists_nodes (srun ops) (listed ops) <-> l_dead (rows_of ops) = [] /\ hidden ops = [].
Proof. exact (listed_exact ops g). Qed.
Print Assumptions C91_exact.
(** What goes wrong stays wrong, whatever is called later: a removed node that is listed is listed for ever, a node that is not listed
    never will be, and a node that is listed stays so as long as it lives. *)
Theorem C91_forever ops ops' g n : valid_history (ops ++ ops') -> run (ops ++ ops') = Ok g ->
  (n ∈ l_dead (rows_of ops) -> n ∈ listed (ops ++ ops') /\ ~ live_node (srun (ops ++ ops')) n) /\
  (n ∈ hidden ops -> n ∉ listed (ops ++ ops')) /\
  (live_node (srun ops) n -> live_node (srun (ops ++ ops')) n -> (n ∈ listed ops <-> n ∈ listed (ops ++ ops'))).
Proof. exact (listed_forever ops ops' g n). Qed.
Print Assumptions C91_forever.

(** 2 is removed while it is the newest, so 3 and 4 are lost; when 0 and 1 are gone too the list starts anew with 5; 5 and 6 stay in it
    after they are removed, and 7 comes behind them. *)
Definition C91_ops : list op :=
  [ONewNode ∅ ∅ []; ONewNode ∅ ∅ []; ONewNode ∅ ∅ []; ODetachRemove 2 []; ONewNode ∅ ∅ []; ONewNode ∅ ∅ []; ODetachRemove 0 []; ODetachRemove 1 [];
   ONewNode ∅ ∅ []; ONewNode ∅ ∅ []; ODetachRemove 5 []; ODetachRemove 6 []; ONewNode ∅ ∅ []].
Example C91_ex : let o := C91_ops in
  valid_history o /\ run o = Ok (result o) /\ get_nodes (result o) = Ok [5; 6; 7] /\ listed o = [5; 6; 7] /\ l_dead (rows_of o) = [5; 6] /\
  hidden o = [3; 4] /\ num_nodes (result o) = 3%Z /\
  listed (take 6 o) = [0; 1] /\ hidden (take 6 o) = [3; 4] /\ live_node (srun (take 6 o)) 3 /\ live_node (srun o) 3 /\
  listed (take 3 o) = [0; 1; 2] /\ l_dead (rows_of (take 3 o)) = [] /\ hidden (take 3 o) = [].
Proof. intros o. split; [by_compute|]. split; [apply run_result; vm_compute; reflexivity|]. by_compute. Qed.
