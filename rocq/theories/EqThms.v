(** Proofs of C126. *)
From Verif Require Export EqProofs.
From Verif Require Import PGRun.

Definition eq_g (ops : list op) : pg := default pg_new (run 16 ops pg_new).

Lemma C126_equal_refuted_pf :
exists g g', reach 16 g /\ reach 16 g' /\ same_graph g g' /\ pg_eqb g g' = false.
Proof.
exists (eq_g [OAdd 0 1; OAdd 0 0; ORemove 1]), (eq_g [OAdd 0 1]).
split; [exists [OAdd 0 1; OAdd 0 0; ORemove 1]; apply run_hist; vm_compute; reflexivity|]. split; [exists [OAdd 0 1]; apply run_hist; vm_compute; reflexivity|].
split; [|vm_compute; reflexivity].
assert (eq_g [OAdd 0 1; OAdd 0 0; ORemove 1] = PG [NNode (NM 0 0 1 1); NFree None None] [None] [PPort 0 Outgoing] (Some 1) [] 1 1 0) as -> by (vm_compute; reflexivity).
assert (eq_g [OAdd 0 1] = PG [NNode (NM 0 0 1 1)] [None] [PPort 0 Outgoing] None [] 1 1 0) as -> by (vm_compute; reflexivity).
split; [|split; [|done]].
- intros [|[|n]]; (split; [reflexivity|]); intros []; reflexivity.
- intros [|p]; done.
Qed.

Lemma C126_equal_partial_pf :
forall w ops ops' g g', hist w ops g -> hist w ops' g' ->
  pg_eqb g g = true /\ pg_eqb g g' = pg_eqb g' g /\
  (forall g2, pg_eqb g g' = true -> pg_eqb g' g2 = pg_eqb g g2) /\
  (pg_eqb g g' = true -> same_graph g g' /\ forall o, step w g o = step w g' o) /\
  (tidy ops -> tidy ops' -> same_graph g g' -> pg_eqb g g' = true).
Proof.
intros w ops ops' g g' Hh Hh'. split; [by apply (proj2 (pg_eqb_eq g g))|]. split; [|split; [|split]].
- apply eq_bool_prop_intro. rewrite !Is_true_true, !pg_eqb_eq. done.
- intros g2 E. apply (proj1 (pg_eqb_eq _ _)) in E as ->. done.
- intros E. apply (proj1 (pg_eqb_eq _ _)) in E as ->. done.
- intros Ht Ht' Hs. apply (proj2 (pg_eqb_eq g g')). destruct (hist_clean _ _ _ Hh) as [H1 H2], (hist_clean _ _ _ Hh') as [H1' H2'].
  unfold tidy in *. rewrite Ht in *. rewrite Ht' in *. eapply (tight_eq w w); [by eexists|by eexists|auto..|done].
Qed.
