(** Property C19 of properties.jsonl; the abstract port graph is in AGSpec.v. *)
From Verif Require Export PG4Props AGThms.


(** C19. Every history is a history of the abstract port graph, call by call and
    answer by answer, ending in a well-formed abstract graph that shows exactly
    what the code's observers show. *)
Theorem C19_refinement :
  forall w tr g, (1 < w <= 63)%N -> htrace w tr g -> exists A, atrace tr A /\ wfA A /\ shows w g A.
Proof. exact C19_refinement_pf. Qed.
Print Assumptions C19_refinement.

(** The history [ex_ops] has a trace of calls and answers. *)
Example C19_refinement_nonvacuous : exists tr, htrace 16 tr ex_g /\ tr.*1 = ex_ops /\ link_count ex_g = 2.
Proof. destruct (hist_htrace _ _ _ ex_hist) as (tr & H1 & H2). exists tr. split_and!; [done|done|]. vm_compute. done. Qed.
