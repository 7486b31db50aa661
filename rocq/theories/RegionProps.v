(** Properties C61, C62 and C78: regions. *)
From Verif Require Export RegionThms ViewProps.

(** C61: after any queries, [is_descendant], which is [contains_node], neither panics nor
hangs, and tells whether the node is the root or a descendant of it. The
iterator [nodes_iter] lists exactly these nodes, each once. Whether the node is in the
graph is not looked at. *)
Theorem C61_region_membership :
forall h root c n, hreach h -> rg_reach h root c ->
  (exists b c', rg_is_descendant h root c n = HOk (b, c') /\ (b = true <-> anc h root n)) /\
  (exists D, rg_nodes h root = HOk D /\ NoDup D /\ (n ∈ D <-> anc h root n)).
Proof. exact C61_region_membership_pf. Qed.
Print Assumptions C61_region_membership.

(** Asking for 5 first stores the answers for 5 and 2 (the region of 0). *)
Example C61_case : exists c c', rg_is_descendant exh 0 (rg_new 0) 5 = HOk (true, c) /\ rg_reach exh 0 c /\ c !! 2 = Some true /\
  rg_is_descendant exh 0 c 4 = HOk (true, c') /\ rg_reach exh 0 c' /\ hreach exh /\ exists c2, rg_is_descendant exh 2 (rg_new 2) 6 = HOk (false, c2) /\ c2 !! 0 = Some false.
Proof.
  destruct (rg_is_descendant exh 0 (rg_new 0) 5) as [[b c]| |] eqn:E; [|vm_compute in E; discriminate E|vm_compute in E; discriminate E].
  pose proof (rg_reach_query exh 0 _ 5 b c (rg_reach_new exh 0) E) as Hc.
  destruct (rg_is_descendant exh 0 c 4) as [[b' c']| |] eqn:E'; [|vm_compute in E; injection E as <- <-; vm_compute in E'; discriminate E'|vm_compute in E; injection E as <- <-; vm_compute in E'; discriminate E'].
  pose proof (rg_reach_query exh 0 c 4 b' c' Hc E') as Hc'.
  exists c, c'. vm_compute in E. injection E as <- <-. vm_compute in E'. injection E' as <- <-.
  split; [reflexivity|]. split; [exact Hc|]. split; [reflexivity|]. split; [vm_compute; reflexivity|]. split; [exact Hc'|]. split; [exact exh_hreach|]. eexists. split; vm_compute; reflexivity.
Qed.

(** C62 does not hold: a clone made while another thread writes to the cache starts with an
empty cache, without the entry for the root, and then denies that a child of the
root belongs to the region. *)
Theorem C62_region_clone_refuted :
exists h root tr s t c tr' s' u n, hreach h /\
  rexec h root (rs_start (rg_new root)) tr s /\ EClone t c ∈ tr /\
  rexec h root (rs_start c) tr' s' /\ EAnswer u n false ∈ tr' /\ anc h root n.
Proof. exact C62_region_clone_refuted_pf. Qed.
Print Assumptions C62_region_clone_refuted.

(** C62, what holds: whatever the threads do, and in whatever order their steps come, all
answers of a region are right, and so are all answers of its clones that managed to
read the cache, of such clones of these, and so on. A clone made while no thread waits
for the write lock or holds it always manages to read the cache. *)
Theorem C62_region_clone_partial :
forall h root c tr s, hreach h -> rg_family h root c -> rexec h root (rs_start c) tr s ->
  (forall t n b, EAnswer t n b ∈ tr -> (b = true <-> anc h root n)) /\
  (forall t c' s', (forall u, rs_phase s u = RIdle) -> rstep h root s (Some (EClone t c')) s' -> c' = rs_cache s /\ c' <> ∅).
Proof. exact C62_region_clone_partial_pf. Qed.
Print Assumptions C62_region_clone_partial.

(** Two threads ask for 4 and 5 at the same time; then the region is cloned. *)
Example C62_case : exists tr s, rexec exh 0 (rs_start (rg_new 0)) tr s /\ hreach exh /\ rg_family exh 0 (rg_new 0) /\
  tr = [EAnswer 1 5 true; EAnswer 0 4 true; EClone 0 (<[2:=true]> (<[4:=true]> (<[2:=true]> (<[5:=true]> (rg_new 0)))))].
Proof.
  set (c0 := rg_new 0). set (s1 := rs_set (rs_start c0) c0 0 (RWait 4 [4; 2] true)). set (s2 := rs_set s1 c0 1 (RWait 5 [5; 2] true)).
  set (s3 := rs_set s2 c0 1 (RWrite 5 [5; 2] true)). set (c1 := <[5:=true]> c0). set (s4 := rs_set s3 c1 1 (RWrite 5 [2] true)).
  set (c2 := <[2:=true]> c1). set (s5 := rs_set s4 c2 1 (RWrite 5 [] true)). set (s6 := rs_set s5 c2 1 RIdle).
  set (s7 := rs_set s6 c2 0 (RWrite 4 [4; 2] true)). set (c3 := <[4:=true]> c2). set (s8 := rs_set s7 c3 0 (RWrite 4 [2] true)).
  set (c4 := <[2:=true]> c3). set (s9 := rs_set s8 c4 0 (RWrite 4 [] true)). set (s10 := rs_set s9 c4 0 RIdle).
  exists [EAnswer 1 5 true; EAnswer 0 4 true; EClone 0 c4], s10. split; [|split; [exact exh_hreach|split; [apply rg_fam_new|reflexivity]]].
  change [EAnswer 1 5 true; EAnswer 0 4 true; EClone 0 c4] with (option_list None ++ (option_list None ++ (option_list None ++ (option_list None ++ (option_list None ++ (option_list (Some (EAnswer 1 5 true)) ++
    (option_list None ++ (option_list None ++ (option_list None ++ (option_list (Some (EAnswer 0 4 true)) ++ (option_list (Some (EClone 0 c4)) ++ []))))))))))).
  apply (re_step exh 0 _ None s1); [apply (rs_miss exh 0 (rs_start c0) 0 4 [4; 2] true); [reflexivity|discriminate|intros t n l b; discriminate|vm_compute; reflexivity]|].
  apply (re_step exh 0 _ None s2); [apply (rs_miss exh 0 s1 1 5 [5; 2] true); [reflexivity|discriminate| |vm_compute; reflexivity]|].
  { intros t n l b. unfold s1, rs_set. cbn [rs_phase]. destruct (decide (t = 0)); discriminate. }
  apply (re_step exh 0 _ None s3); [apply (rs_lock exh 0 s2 1 5 [5; 2] true); [reflexivity|]|].
  { intros t n l b. unfold s2, s1, rs_set. cbn [rs_phase]. destruct (decide (t = 1)); [discriminate|]. destruct (decide (t = 0)); discriminate. }
  apply (re_step exh 0 _ None s4); [apply (rs_insert exh 0 s3 1 5 5 [2] true); reflexivity|].
  apply (re_step exh 0 _ None s5); [apply (rs_insert exh 0 s4 1 5 2 [] true); reflexivity|].
  apply (re_step exh 0 _ _ s6); [apply (rs_done exh 0 s5 1 5 true); reflexivity|].
  assert (Hph : forall t, t <> 0 -> rs_phase s6 t = RIdle).
  { intros t Ht. unfold s6, s5, s4, s3, s2, s1, rs_set. cbn [rs_phase]. destruct (decide (t = 1)); [reflexivity|]. destruct (decide (t = 0)); [contradiction|reflexivity]. }
  assert (Hf : rs_free s6). { intros t n l b Hw. destruct (decide (t = 0)) as [->|Ht]; [discriminate Hw|]. rewrite Hph in Hw by exact Ht. discriminate Hw. }
  apply (re_step exh 0 _ None s7); [apply (rs_lock exh 0 s6 0 4 [4; 2] true); [reflexivity|exact Hf]|].
  apply (re_step exh 0 _ None s8); [apply (rs_insert exh 0 s7 0 4 4 [2] true); reflexivity|].
  apply (re_step exh 0 _ None s9); [apply (rs_insert exh 0 s8 0 4 2 [] true); reflexivity|].
  apply (re_step exh 0 _ _ s10); [apply (rs_done exh 0 s9 0 4 true); reflexivity|].
  apply (re_step exh 0 _ _ s10); [|apply re_refl]. apply (rs_clone exh 0 s10 0); [reflexivity|].
  intros t n l b Hw. destruct (decide (t = 0)) as [->|Ht]; [discriminate Hw|].
  assert (E : rs_phase s10 t = rs_phase s6 t). { unfold s10, s9, s8, s7, rs_set at 1 2 3 4. cbn [rs_phase]. destruct (decide (t = 0)); [contradiction|reflexivity]. }
  rewrite E, Hph in Hw by exact Ht. discriminate Hw.
Qed.

(** C62: in every state that finitely many threads can bring about, all pending queries
can be completed, each with the right answer. *)
Theorem C62_no_deadlock :
forall h root c tr s (T : list nat), hreach h -> rg_family h root c -> rexec h root (rs_start c) tr s ->
  (forall u, u ∉ T -> rs_phase s u = RIdle) ->
  exists tr' s', rexec h root s tr' s' /\ (forall u, rs_phase s' u = RIdle) /\
    forall t n l b, rs_phase s t = RWait n l b \/ rs_phase s t = RWrite n l b ->
      exists b', EAnswer t n b' ∈ tr' /\ (b' = true <-> anc h root n).
Proof. exact C62_no_deadlock_pf. Qed.
Print Assumptions C62_no_deadlock.

Example C62_no_deadlock_case : exists s, rexec exh 0 (rs_start (rg_new 0)) [] s /\ rs_phase s 0 = RWait 4 [4; 2] true /\
  (forall u, u ∉ [0] -> rs_phase s u = RIdle).
Proof.
  exists (rs_set (rs_start (rg_new 0)) (rg_new 0) 0 (RWait 4 [4; 2] true)). split; [|split; [reflexivity|]].
  - change (@nil revent) with (option_list (@None revent) ++ []). eapply re_step; [|apply re_refl].
    apply (rs_miss exh 0 (rs_start (rg_new 0)) 0 4 [4; 2] true); [reflexivity|discriminate|intros t n l b; discriminate|vm_compute; reflexivity].
  - intros u Hu. cbn. destruct (decide (u = 0)) as [->|]; [|reflexivity]. destruct Hu. by left.
Qed.

(** C78: if the root and its descendants are nodes of the graph, then a [Region] with any
answers to its membership queries that can occur shows the induced graph, counts
its links and tells whether it is empty. *)
Theorem C78_region_view :
forall E (V : lview E) N R h root (memb : nat -> bool), shows V N R -> hreach h -> (forall n, anc h root n -> N n) ->
  (forall n, exists c c', rg_reach h root c /\ rg_is_descendant h root c n = HOk (memb n, c')) ->
  let F := region V h root memb in
  let S n := anc h root n in
  shows F S (link_inside V S R) /\ counts_links F (link_inside V S R) /\ tells_empty F S.
Proof. exact C78_region_view_pf. Qed.
Print Assumptions C78_region_view.

Definition ex_memb (n : nat) : bool := match rg_is_descendant exh 2 (rg_new 2) n with HOk (b, _) => b | _ => false end.
Example C78_region_view_case : let F := region (lv_of_pg vx_g) exh 2 ex_memb in
  shows (lv_of_pg vx_g) (fun n => contains_node vx_g n = true) (linked vx_g) /\ hreach exh /\
  (forall n, exists c c', rg_reach exh 2 c /\ rg_is_descendant exh 2 c n = HOk (ex_memb n, c')) /\
  lv_nodes F = HOk [2; 4; 5] /\ lv_link_count F = HOk 2 /\ lv_links F 2 Outgoing = HOk [(7, 12); (8, 6)].
Proof.
  intros F. split; [exact (pg_shows 16 vx_g vx_reach)|]. split; [exact exh_hreach|]. split; [|vm_compute; repeat split].
  intros n. exists (rg_new 2). destruct (rg_query_ok exh 2 exh_hreach (rg_new 2) n (rg_new_good exh 2)) as (b & c' & E & _). exists c'.
  split; [apply rg_reach_new|]. unfold ex_memb. rewrite E. reflexivity.
Qed.

(** C78: [subports], [all_subports] and [subport_link] of regions. *)
Theorem C78_region_subports :
forall E (V : mview E) N R h root (memb : nat -> bool), shows (mv_view V) N R -> shows_sub V N R -> hreach h -> (forall n, anc h root n -> N n) ->
  (forall n, exists c c', rg_reach h root c /\ rg_is_descendant h root c n = HOk (memb n, c')) ->
  let S n := anc h root n in
  shows_sub (region_m V h root memb) S (link_inside (mv_view V) S R).
Proof. exact C78_region_subports_pf. Qed.
Print Assumptions C78_region_subports.

Example C78_region_subports_case : shows (mv_view (mv_of_m 16 vx_m)) (fun n => m_contains_node vx_m n = true) (mlinked 16 vx_m)
  /\ mv_sublink (region_m (mv_of_m 16 vx_m) exh 2 ex_memb) (8, 0) = HOk (Some (6, 0)).
Proof. split; [exact (m_shows 16 ltac:(lia) vx_m vx_mreach)|vm_compute; reflexivity]. Qed.
