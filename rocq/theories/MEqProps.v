(** Property C128: equality of multigraphs. *)
From Verif Require Export MEqThms.
From Verif Require Import MultiRun.

(** C128 does not hold as stated: if two ports get two links each, the order in which the ports get
theirs decides which hidden copy node belongs to which, and the multigraphs differ although no
query tells them apart; nothing was removed, and compaction does not help. *)
Theorem C128_multi_equal_refuted :
exists ops ops' m m', mhist 16 ops m /\ mhist 16 ops' m' /\ forallb m_adds ops = true /\ forallb m_adds ops' = true /\
  ops ≡ₚ ops' /\ drop 6 ops = [MCompactNodes; MCompactPorts] /\ drop 6 ops' = [MCompactNodes; MCompactPorts] /\
  m_same 16 m m' /\ mpg_eqb m m' = false.
Proof. exact C128_multi_equal_refuted_pf. Qed.
Print Assumptions C128_multi_equal_refuted.

(** C128 in part: equality of multigraphs is an equivalence; equal multigraphs cannot be told apart and the
same further call does the same on both; multigraphs made of tidy graphs (C126) that cannot be told apart
are equal, and stay equal under the same calls. Missing: multigraphs that reached the same state by other calls. *)
Theorem C128_multi_equal_partial :
(forall m, mpg_eqb m m = true) /\ (forall m m', mpg_eqb m m' = mpg_eqb m' m) /\
(forall m m' m2, mpg_eqb m m' = true -> mpg_eqb m' m2 = mpg_eqb m m2) /\
(forall w m m', mpg_eqb m m' = true -> m_same w m m' /\ forall o, mstep w m o = mstep w m' o) /\
(forall w gops gops' g g' ops m, hist w gops g -> hist w gops' g' -> tidy gops -> tidy gops' -> same_graph g g' ->
   mpg_eqb (m_from g) (m_from g') = true /\
   (rfold (fun m o => '(m, _) ← mstep w m o; Ok m) ops (m_from g) = Ok m ->
    exists m', rfold (fun m o => '(m, _) ← mstep w m o; Ok m) ops (m_from g') = Ok m' /\ mpg_eqb m m' = true)).
Proof. exact C128_multi_equal_partial_pf. Qed.
Print Assumptions C128_multi_equal_partial.

Example C128_case : exists gops gops' g g' m,
  gops = [OAdd 0 1; OAdd 1 1; ORemove 0; OCompactNodes; OCompactPorts; OAdd 2 0] /\ gops' = [OAdd 1 1; OAdd 2 0] /\
  hist 16 gops g /\ hist 16 gops' g' /\ tidy gops /\ tidy gops' /\ same_graph g g' /\
  rfold (fun m o => '(m, _) ← mstep 16 m o; Ok m) [MLink 1 2; MLink 1 3] (m_from g) = Ok m /\ m_ccount m = 1.
Proof.
  eexists _, _, _, _, _. split; [reflexivity|]. split; [reflexivity|]. split; [apply run_hist; vm_compute; reflexivity|]. split; [apply run_hist; vm_compute; reflexivity|].
  split; [vm_compute; reflexivity|]. split; [vm_compute; reflexivity|]. split; [split; [|split]; done|]. split; vm_compute; reflexivity.
Qed.
