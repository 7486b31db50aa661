(** Property C126: equality of graphs. *)
From Verif Require Export EqThms.
From Verif Require Import PGRun.

(** C126 does not hold as stated: a graph from which a node was removed does not equal the
graph it was before, although nothing can be seen of the node. *)
Theorem C126_equal_refuted :
exists g g', reach 16 g /\ reach 16 g' /\ same_graph g g' /\ pg_eqb g g' = false.
Proof. exact C126_equal_refuted_pf. Qed.
Print Assumptions C126_equal_refuted.

(** C126 where slots that are no longer used were compacted away: equality is
an equivalence; equal graphs cannot be told apart, now or after further calls; and graphs
that cannot be told apart are equal if the nodes of both were compacted after the last
removal, and the ports after the last removal or change of a number of ports
(in particular, if nothing was ever removed). Missing: other graphs. *)
Theorem C126_equal_partial :
forall w ops ops' g g', hist w ops g -> hist w ops' g' ->
  pg_eqb g g = true /\ pg_eqb g g' = pg_eqb g' g /\
  (forall g2, pg_eqb g g' = true -> pg_eqb g' g2 = pg_eqb g g2) /\
  (pg_eqb g g' = true -> same_graph g g' /\ forall o, step w g o = step w g' o) /\
  (tidy ops -> tidy ops' -> same_graph g g' -> pg_eqb g g' = true).
Proof. exact C126_equal_partial_pf. Qed.
Print Assumptions C126_equal_partial.

Example C126_case : exists g g' ops ops',
  ops = [OAdd 0 1; OAdd 1 1; ORemove 0; OSetPorts 1 1 0; OCompactNodes; OCompactPorts] /\ ops' = [OAdd 1 0] /\
  hist 16 ops g /\ hist 16 ops' g' /\ tidy ops /\ tidy ops' /\ pg_eqb g g' = true /\ node_count g = 1.
Proof.
  eexists _, _, _, _. split; [reflexivity|]. split; [reflexivity|]. split; [apply run_hist; vm_compute; reflexivity|]. split; [apply run_hist; vm_compute; reflexivity|].
  split; [vm_compute; reflexivity|]. split; [vm_compute; reflexivity|]. split; vm_compute; reflexivity.
Qed.
