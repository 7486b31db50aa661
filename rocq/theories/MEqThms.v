(** Proofs of C128. *)
From Verif Require Export MEqSpec EqThms.
From Verif Require Import MultiRun.

Definition meq_a : list mop := [MAdd 0 2; MAdd 4 0; MLink 0 2; MLink 0 3; MLink 1 4; MLink 1 5; MCompactNodes; MCompactPorts].
Definition meq_b : list mop := [MAdd 0 2; MAdd 4 0; MLink 1 4; MLink 1 5; MLink 0 2; MLink 0 3; MCompactNodes; MCompactPorts].
Definition meq_m (ops : list mop) : mpg := default m_new (mrun 16 ops m_new).
Definition meq_graph (l : list (option nat)) : pg :=
  PG [NNode (NM 0 0 2 2); NNode (NM 2 4 0 4); NNode (NM 6 1 2 3); NNode (NM 9 1 2 3)] l
     [PPort 0 Outgoing; PPort 0 Outgoing; PPort 1 Incoming; PPort 1 Incoming; PPort 1 Incoming; PPort 1 Incoming;
      PPort 2 Incoming; PPort 2 Outgoing; PPort 2 Outgoing; PPort 3 Incoming; PPort 3 Outgoing; PPort 3 Outgoing] None [] 4 12 6.
Definition meq_mpg (l : list (option nat)) : mpg :=
  MPG (meq_graph l) [true; true; false; false; false; false; true; false; false; true] [false; false; true; true] 2 4.

Lemma C128_multi_equal_refuted_pf :
exists ops ops' m m', mhist 16 ops m /\ mhist 16 ops' m' /\ forallb m_adds ops = true /\ forallb m_adds ops' = true /\
  ops ≡ₚ ops' /\ drop 6 ops = [MCompactNodes; MCompactPorts] /\ drop 6 ops' = [MCompactNodes; MCompactPorts] /\
  m_same 16 m m' /\ mpg_eqb m m' = false.
Proof.
exists meq_a, meq_b, (meq_m meq_a), (meq_m meq_b).
split; [apply mrun_hist; vm_compute; reflexivity|]. split; [apply mrun_hist; vm_compute; reflexivity|].
split; [reflexivity|]. split; [reflexivity|]. split.
{ change (([MAdd 0 2; MAdd 4 0] ++ ([MLink 0 2; MLink 0 3] ++ [MLink 1 4; MLink 1 5]) ++ [MCompactNodes; MCompactPorts]) ≡ₚ
    ([MAdd 0 2; MAdd 4 0] ++ ([MLink 1 4; MLink 1 5] ++ [MLink 0 2; MLink 0 3]) ++ [MCompactNodes; MCompactPorts])).
  apply Permutation_app_head, Permutation_app_tail, Permutation_app_comm. }
split; [reflexivity|]. split; [reflexivity|]. split; [|vm_compute; reflexivity].
assert (meq_m meq_a = meq_mpg [Some 6; Some 9; Some 7; Some 8; Some 10; Some 11; Some 0; Some 2; Some 3; Some 1; Some 4; Some 5]) as -> by (vm_compute; reflexivity).
assert (meq_m meq_b = meq_mpg [Some 9; Some 6; Some 10; Some 11; Some 7; Some 8; Some 1; Some 4; Some 5; Some 0; Some 2; Some 3]) as -> by (vm_compute; reflexivity).
split; [split|split; [|done]].
- intros n. split; [reflexivity|]. intros _ d. reflexivity.
- intros p. split; [reflexivity|]. intros _. split; reflexivity.
- intros p Hp. destruct (decide (p < 12)) as [Hlt|Hge].
  + do 12 (destruct p as [|p]; [first [discriminate Hp | split; vm_compute; reflexivity]|]). lia.
  + exfalso. do 12 (destruct p as [|p]; [lia|]). discriminate Hp.
Qed.

Lemma mpg_eqb_eq m m' : mpg_eqb m m' = true <-> m = m'.
Proof.
  unfold mpg_eqb. rewrite !andb_true_iff, !bool_decide_eq_true, pg_eqb_eq. split.
  - destruct m, m'. cbn. by intros ((((-> & ->) & ->) & ->) & ->).
  - by intros ->.
Qed.

Lemma C128_multi_equal_partial_pf :
(forall m, mpg_eqb m m = true) /\ (forall m m', mpg_eqb m m' = mpg_eqb m' m) /\
(forall m m' m2, mpg_eqb m m' = true -> mpg_eqb m' m2 = mpg_eqb m m2) /\
(forall w m m', mpg_eqb m m' = true -> m_same w m m' /\ forall o, mstep w m o = mstep w m' o) /\
(forall w gops gops' g g' ops m, hist w gops g -> hist w gops' g' -> tidy gops -> tidy gops' -> same_graph g g' ->
   mpg_eqb (m_from g) (m_from g') = true /\
   (rfold (fun m o => '(m, _) ← mstep w m o; Ok m) ops (m_from g) = Ok m ->
    exists m', rfold (fun m o => '(m, _) ← mstep w m o; Ok m) ops (m_from g') = Ok m' /\ mpg_eqb m m' = true)).
Proof.
split; [intros m; by apply mpg_eqb_eq|]. split; [|split; [|split]].
- intros m m'. apply eq_bool_prop_intro. rewrite !Is_true_true, !mpg_eqb_eq. done.
- intros m m' m2 E. apply mpg_eqb_eq in E as ->. done.
- intros w m m' E. apply mpg_eqb_eq in E as ->. split; [|done]. split; [split|split; done]; intros ?; split; done.
- intros w gops gops' g g' ops m Hh Hh' Ht Ht' Hs.
  destruct (C126_equal_partial_pf _ _ _ _ _ Hh Hh') as (_ & _ & _ & _ & H). apply H in Hs as E; [|done..]. apply pg_eqb_eq in E as <-.
  split; [by apply mpg_eqb_eq|]. intros Hr. exists m. split; [done|]. by apply mpg_eqb_eq.
Qed.
