(** Specification: what a Decode that fails leaves behind (json.go:455-532). *)
From Verif Require Import Base Value Graph GraphSpec JsonText Json JsonSpec.
Local Open Scope string_scope.
Local Open Scope list_scope.

(** [t'] is [t] and more: new edges run between new nodes *)
Record only_adds (t t' : sgraph) : Prop := OnlyAdds {
  oa_nodes : s_nodes t ⊆ s_nodes t';
  oa_edges : s_edges t ⊆ s_edges t';
  oa_apart : forall e x, s_edges t' !! e = Some x -> ~ live_edge t e -> ~ live_node t (e_from x) /\ ~ live_node t (e_to x)
}.
(** [nds] and [eds] are part of what [ms] declares: of the members up to some point, the nodes up to some point and
    some of the edges *)
Definition begun (ms : list (string * json)) (nds : list jnode) (eds : list jedge) : Prop :=
  exists ms1 n e, ms1 `prefix_of` ms /\ doc_nodes ms1 = Some n /\ doc_edges ms1 = Some e /\
    nds `prefix_of` n /\ eds ⊆+ mjoin (map embedded nds) ++ e.
