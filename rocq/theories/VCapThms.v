(** Proofs of C132 for views. *)
From Verif Require Export VCapSpec RegionThms ViewThms.

Lemma C132_part_capacity_pf :
forall E (V F : lview E) N R cn cp kn kp, shows V N R -> part_of V N F ->
  lv_node_count V = HOk kn -> lv_port_count V = HOk kp -> kn <= cn -> kp <= cp ->
  exists N' R' on op xn xp, shows F N' R' /\ lv_node_count F = HOk on /\ lv_port_count F = HOk op /\
    view_capacity cn kn on = Ok xn /\ view_capacity cp kp op = Ok xp /\ on <= xn <= cn /\ op <= xp <= cp.
Proof.
intros E V F N R cn cp kn kp HV HF Ekn Ekp Hn Hp.
assert (H : exists N' R', shows F N' R' /\ (forall n, N' n -> N n) /\ lv_pnode F = lv_pnode V).
{ destruct HF as [h root memb Hh HN Hm|h root ir Hh H1 H2|nodes Hd HN].
  - destruct (C78_region_view_pf E V N R h root memb HV Hh HN Hm) as (Hs & _). eexists _, _. split; [exact Hs|]. split; [exact HN|done].
  - destruct (C78_flat_region_view_pf E V N R h root ir HV Hh H1 H2) as (Hs & _). eexists _, _. split; [exact Hs|]. split; [|done].
    cbn beta. intros n [[? ->]|?]; auto.
  - destruct (C78_subgraph_view_pf E V N R nodes HV Hd HN) as (Hs & _). eexists _, _. split; [exact Hs|]. split; [exact HN|done]. }
destruct H as (N' & R' & Hs & HN & Hpn).
destruct (lvs_nodes _ _ _ HV) as (L & _ & HdL & HL & EL). destruct (lvs_nodes _ _ _ Hs) as (L' & _ & HdL' & HL' & EL').
destruct (lvs_port_list _ _ _ HV) as (P & _ & HdP & HP & EP). destruct (lvs_port_list _ _ _ Hs) as (P' & _ & HdP' & HP' & EP').
rewrite Ekn in EL. injection EL as ->. rewrite Ekp in EP. injection EP as ->.
assert (Hl : length L' <= length L). { apply submseteq_length, NoDup_submseteq; [done|]. intros n Hi. apply HL, HN, HL', Hi. }
assert (Hq : length P' <= length P).
{ apply submseteq_length, NoDup_submseteq; [done|]. intros p Hi. apply HP. apply HP' in Hi as (n & E1 & E2). exists n. rewrite <- Hpn. split; [done|]. by apply HN. }
exists N', R', (length L'), (length P'), (cn - length L + length L'), (cp - length P + length P').
unfold view_capacity, usub. rewrite !decide_True by lia. cbn [mbind res_bind]. repeat (split; [done || lia|]). lia.
Qed.
