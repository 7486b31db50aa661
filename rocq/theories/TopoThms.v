(** Proofs of properties C45, C47 and C69. *)
From Verif Require Export AlgPG.
Ltac vmdec := apply (bool_decide_unpack _); vm_compute; exact I.

Lemma before_app l1 n l2 a : a ∈ l1 -> before (l1 ++ n :: l2) a n.
Proof.
  intros [i Hi]%elem_of_list_lookup_1. exists i, (length l1). apply lookup_lt_Some in Hi as Hlt. split; [done|].
  split; [by rewrite lookup_app_l|]. by apply list_lookup_middle.
Qed.
Definition tt1 : nat -> bool := fun _ => true.
Definition tt2 : nat -> nat -> bool := fun _ _ => true.
Lemma filter_tt (src : list nat) : filter (fun n => tt1 n = true) src = src.
Proof. induction src as [|x l IH]; [done|]. rewrite filter_cons, decide_True by done. by rewrite IH. Qed.

Lemma C45_toposort_pf :
forall w g d src, reach w g -> NoDup src ->
  exists l,
    (forall fuel, length l < fuel ->
       topo_collect (gv_of g) d (fun _ => true) (fun _ _ => true) fuel
         (topo_new (gv_of g) d (fun _ => true) src) = HOk l)
    /\ NoDup l
    /\ (exists rest, l = src ++ rest)
    /\ (forall n, n ∈ l -> n ∉ src ->
          (exists a, pedge g d a n) /\ forall a, pedge g d a n -> before l a n)
    /\ (forall n, (exists a, pedge g d a n) -> (forall a, pedge g d a n -> a ∈ l) -> n ∈ l)
    /\ (pacyclic g -> (forall n, n ∈ src -> contains_node g n = true) ->
        (forall n, contains_node g n = true -> (~ exists a, pedge g d a n) -> n ∈ src) ->
        l ≡ₚ nodes_iter g).
Proof.
  intros w g d src Hr Hnd. destruct (reach_inv _ _ Hr) as (fnl & F & I).
  pose proof (gv_wf g fnl F I) as W.
  destruct (topo_gen (gv_of g) d tt1 tt2 W src Hnd (gv_single g fnl F I _))
    as (l & x & Hx & Hrun & Hndl & Hel & Hord).
  exists l. split.
  { intros fuel Hf. unfold topo_new. change (fun n => true = true) with (fun n => tt1 n = true). rewrite filter_tt. by apply Hrun. }
  split; [done|]. split; [by exists x|].
  assert (Hin : forall n, (exists a, pedge g d a n) -> (forall a, pedge g d a n -> a ∈ l) -> n ∈ l).
  { intros n (a & p & q & Hpq) Hall. apply Hel. right. split; [done|]. split.
    - exists a, p, q. split; [apply Hall; by exists p, q|]. split; [by apply (glink_iff g fnl F I)|done].
    - intros u p' q' Hl%(glink_iff g fnl F I) _. split; [|done]. apply Hall. by exists p', q'. }
  split; [|split; [done|]].
  - intros n Hn Hns. apply elem_of_list_split in Hn as (L1 & L2 & ->).
    destruct (Hord L1 n L2 eq_refl Hns) as [(u & p & q & Hl%(glink_iff g fnl F I) & _) Hall]. split; [exists u; by exists p, q|].
    intros a (p' & q' & Hpq). apply before_app. eapply (Hall a p' q'); [by apply (glink_iff g fnl F I)|done].
  - intros Hac Hsrc Hroots. apply NoDup_Permutation; [done|by apply nodes_iter_nd|].
    assert (Hsub : forall n, n ∈ l -> n ∈ nodes_iter g).
    { intros n [Hn|(_ & (u & p & q & _ & (_ & _ & Hq) & _) & _)]%Hel.
      - apply nodes_iter_elem. by apply Hsrc.
      - by eapply (wf_nodes _ W q n (rev_dir d)). }
    intros n. split; [apply Hsub|].
    pose proof (pedge_acc g fnl F I d Hac n) as Hacc. induction Hacc as [n _ IH]. intros Hn.
    destruct (decide (n ∈ l)) as [|Hnl]; [done|]. exfalso. apply Hnl.
    destruct (decide (n ∈ src)) as [Hs|Hs]; [rewrite Hx; set_solver|].
    assert (Hpred : ~ ~ exists a, pedge g d a n) by (intros Hno; apply Hs, Hroots; [by apply nodes_iter_elem|done]).
    exfalso. apply Hpred. intros Hex. apply Hnl, Hin; [done|].
    intros a Ha. apply IH; [done|]. exact (proj1 (pedge_nodes g fnl F I d _ _ Ha)).
Qed.

Lemma C47_target_port_refuted_pf :
exists g nf pf, reach 16 g /\ (forall n p q, plink_via g Outgoing n p q 1 -> pf 1 q = false)
  /\ topo_collect (gv_of g) Outgoing nf pf 9 (topo_new (gv_of g) Outgoing nf [0]) = HOk [0; 1].
Proof.
  exists (default pg_new (run 16 [OAdd 0 1; OAdd 1 0; OLink 0 1] pg_new)), (fun _ => true), (fun n _ => bool_decide (n <> 1)).
  split; [|split; [intros n p q _; reflexivity|vm_compute; reflexivity]].
  exists [OAdd 0 1; OAdd 1 0; OLink 0 1]. apply run_hist. vm_compute. reflexivity.
Qed.

Lemma C47_filtered_pred_refuted_pf :
exists g nf, reach 16 g /\ pacyclic g /\ nf 1 = false /\ nf 2 = true
  /\ (forall n p q, plink_via g Outgoing n p q 2 -> n = 0 \/ n = 1)
  /\ (exists p q, plink_via g Outgoing 0 p q 2)
  /\ topo_collect (gv_of g) Outgoing nf (fun _ _ => true) 9 (topo_new (gv_of g) Outgoing nf [0]) = HOk [0].
Proof.
  set (ops := [OAdd 0 1; OAdd 0 1; OAdd 2 0; OLink 0 2; OLink 1 3]).
  assert (Hr : reach 16 (default pg_new (run 16 ops pg_new))).
  { exists ops. apply run_hist. vm_compute. reflexivity. }
  exists (default pg_new (run 16 ops pg_new)), (fun n => bool_decide (n <> 1)).
  split; [done|]. split; [apply (acyclic_check 16); [done|vm_compute; reflexivity]|]. split; [reflexivity|]. split; [reflexivity|]. split.
  { intros n p q Hv. assert (He : pedge (default pg_new (run 16 ops pg_new)) Outgoing n 2) by (by exists p, q).
    apply (edges_list_spec 16) in He; [|done].
    replace (edges_list _) with [(0,2);(1,2)] in He by (vm_compute; reflexivity).
    apply elem_of_cons in He as [[= ->]|He]; [by left|]. apply elem_of_list_singleton in He as [= ->]. by right. }
  split; [|vm_compute; reflexivity]. exists 0, 2. split; [vmdec|split; [vm_compute; reflexivity|vmdec]].
Qed.

Lemma C47_toposort_filtered_partial_pf :
forall w g d nf pf src, reach w g -> NoDup src ->
  exists l,
    (forall fuel, length l < fuel -> topo_collect (gv_of g) d nf pf fuel (topo_new (gv_of g) d nf src) = HOk l)
    /\ NoDup l
    /\ (exists rest, l = filter (fun n => nf n = true) src ++ rest)
    /\ (forall n, n ∈ l <-> nf n = true /\ (n ∈ src \/
          (exists u p q, u ∈ l /\ plink_via g d u p q n /\ pf u p = true)
          /\ forall u p q, plink_via g d u p q n -> pf n q = true -> u ∈ l /\ pf u p = true))
    /\ (forall n u p q, n ∈ l -> n ∉ src -> plink_via g d u p q n -> pf n q = true -> before l u n).
Proof.
  intros w g d nf pf src Hr Hnd. destruct (reach_inv _ _ Hr) as (fnl & F & I).
  pose proof (gv_wf g fnl F I) as W.
  destruct (topo_gen (gv_of g) d nf pf W (filter (fun n => nf n = true) src) (NoDup_filter _ _ Hnd) (gv_single g fnl F I _))
    as (l & x & Hx & Hrun & Hndl & Hel & Hord).
  exists l. split; [exact Hrun|]. split; [done|]. split; [by exists x|]. split.
  - intros n. rewrite Hel, elem_of_list_filter. split.
    + intros [[? ?]|(H1 & (u & p & q & H2 & H3 & H4) & H5)]; [by split; [|left]|]. split; [done|]. right. split.
      * exists u, p, q. split_and!; [done|by apply (glink_iff g fnl F I)|done].
      * intros u' p' q' H6%(glink_iff g fnl F I). by apply H5.
    + intros [H1 [?|((u & p & q & H2 & H3 & H4) & H5)]]; [by left|]. right. split; [done|]. split.
      * exists u, p, q. split_and!; [done|by apply (glink_iff g fnl F I)|done].
      * intros u' p' q' H6%(glink_iff g fnl F I). by apply H5.
  - intros n u p q Hn Hns Hv Hpf. apply elem_of_list_split in Hn as (L1 & L2 & ->). apply before_app.
    apply (Hord L1 n L2 eq_refl) with (p := p) (q := q); [|by apply (glink_iff g fnl F I)|done].
    intros [_ ?]%elem_of_list_filter. done.
Qed.

(** A link accepted by the filters. *)
Definition flink (g : pg) (d : dir) (nf : nat -> bool) (pf : nat -> nat -> bool) (u p q n : nat) : Prop :=
  plink_via g d u p q n /\ nf u = true /\ pf u p = true /\ pf n q = true /\ nf n = true.

Lemma C47_symmetric_filters_partial_pf :
forall w g d nf pf src, reach w g -> NoDup src ->
  (forall u p q n, plink_via g d u p q n -> pf n q = true <-> pf u p = true /\ nf u = true) ->
  exists l,
    (forall fuel, length l < fuel -> topo_collect (gv_of g) d nf pf fuel (topo_new (gv_of g) d nf src) = HOk l)
    /\ NoDup l
    /\ (forall n, n ∈ l -> nf n = true)
    /\ (forall n, n ∈ l -> n ∉ src ->
          (exists u p q, flink g d nf pf u p q n) /\ forall u p q, flink g d nf pf u p q n -> before l u n)
    /\ (forall n, (exists u p q, flink g d nf pf u p q n) -> (forall u p q, flink g d nf pf u p q n -> u ∈ l) -> n ∈ l).
Proof.
  intros w g d nf pf src Hr Hnd Hc.
  destruct (C47_toposort_filtered_partial_pf w g d nf pf src Hr Hnd) as (l & Hrun & Hndl & _ & Hel & Hord).
  exists l. split; [done|]. split; [done|]. split; [by intros n [? _]%Hel|]. split.
  - intros n Hn Hns. split.
    + apply Hel in Hn as [Hnf [?|[(u & p & q & Hu & Hv & Hpf) _]]]; [done|].
      apply Hel in Hu as [Hnu _]. exists u, p, q. split_and!; try done. by apply (Hc u p q n).
    + intros u p q (Hv & ? & ? & Hq & ?). by eapply Hord.
  - intros n (u & p & q & Hv & Hu & Hp & Hq & Hn) Hall. apply Hel. split; [done|]. right. split.
    + exists u, p, q. split_and!; try done. by eapply Hall.
    + intros u' p' q' Hv' Hq'. destruct (proj1 (Hc _ _ _ _ Hv') Hq') as [Hp' Hu']. split; [|done].
      eapply Hall. by split_and!.
Qed.

(** The iterator after [k] calls of [next]. *)
Fixpoint topo_after (v : gview) (d : dir) (nf : nat -> bool) (pf : nat -> nat -> bool) (k : nat) (s : topo_st) : res topo_st :=
  match k with
  | 0 => Ok s
  | S k => '(_, s) ← topo_next v d nf pf s; topo_after v d nf pf k s
  end.

Lemma C69_toposort_size_hint_pf :
forall w g d src k, reach w g -> NoDup src -> (forall n, n ∈ src -> contains_node g n = true) ->
  exists s lo hi rest,
    topo_after (gv_of g) d (fun _ => true) (fun _ _ => true) k (topo_new (gv_of g) d (fun _ => true) src) = Ok s
    /\ topo_size_hint (gv_of g) s = Ok (lo, hi)
    /\ (forall fuel, length rest < fuel ->
          topo_collect (gv_of g) d (fun _ => true) (fun _ _ => true) fuel s = HOk rest)
    /\ lo <= length rest <= hi.
Proof.
  intros w g d src k Hr Hnd Hsrc. destruct (reach_inv _ _ Hr) as (fnl & F & I).
  pose proof (gv_wf g fnl F I) as W. pose proof (gv_single g fnl F I (rev_dir d)) as Sg.
  assert (Hgo : forall k Y C V, K (gv_of g) d tt1 tt2 src Y C V ->
    exists s Y' C' V', topo_after (gv_of g) d tt1 tt2 k (TS V C (length Y)) = Ok s /\ s = TS V' C' (length Y')
      /\ K (gv_of g) d tt1 tt2 src Y' C' V').
  { clear k. induction k as [|k IH]; intros Y C V HK; [by exists (TS V C (length Y)), Y, C, V|].
    cbn [topo_after]. destruct C as [|n C].
    - rewrite next_nil. cbn [mbind res_bind]. by apply IH.
    - destruct (next_ok (gv_of g) d tt1 tt2 W src Y n C V (length Y) HK) as (V' & C' & -> & HK' & _). cbn [mbind res_bind].
      replace (length Y + 1) with (length (Y ++ [n])) by (rewrite app_length; cbn; lia). by apply IH. }
  destruct (Hgo k [] src _ (init_ok (gv_of g) d tt1 tt2 W src Hnd)) as (s & Y & C & V & Hrun & -> & HK).
  destruct (collect_ok (gv_of g) d tt1 tt2 W src _ Y C V (length Y) HK (le_n _)) as (rest & V' & Hcol & HK' & x & Hx).
  assert (Hsub : forall Y C V, K (gv_of g) d tt1 tt2 src Y C V -> length (Y ++ C) <= length (nodes_iter g)).
  { clear -Hsrc W. intros Y C V ((A & HJ & _) & _). apply submseteq_length, NoDup_submseteq; [apply HJ|].
    intros n [Hn|(_ & (q & Hq & _) & _)]%(j5 _ _ _ _ _ _ _ _ HJ).
    - by apply nodes_iter_elem, Hsrc.
    - by eapply (wf_nodes _ W). }
  pose proof (Hsub _ _ _ HK) as H1. pose proof (Hsub _ _ _ HK') as H2. rewrite app_nil_r in H2. rewrite app_length in H1, H2.
  exists (TS V C (length Y)), (length C), (length (nodes_iter g) - length Y), rest. split.
  { unfold topo_new. change (fun n => true = true) with (fun n => tt1 n = true). rewrite filter_tt. exact Hrun. }
  split.
  { unfold topo_size_hint, usub. cbn [ts_seen ts_cand gv_of gv_nodes]. by rewrite decide_True by lia. }
  split; [exact Hcol|]. split; [rewrite Hx, app_length; lia|lia].
Qed.
