(** Proofs of properties C61, C62 and, for [Region], C78. *)
From Verif Require Export RegionProofs ViewThms.

Lemma rg_reach_good h root c : hreach h -> rg_reach h root c -> rg_good h root c.
Proof.
  intros Hr. induction 1 as [|c n b c' _ IH E]; [apply rg_new_good|]. destruct (rg_query_ok h root Hr c n IH) as (b' & c2 & E' & _ & Hg).
  rewrite E in E'. by injection E' as <- <-.
Qed.
Lemma rg_family_good h root c : hreach h -> rg_family h root c -> rg_good h root c.
Proof.
  intros Hr. induction 1 as [|c tr s t c' _ IH Hx Hin Hne]; [apply rg_new_good|].
  eapply (rexec_clone h root Hr); [by apply rs_start_ok|exact Hx|exact Hin|exact Hne].
Qed.

Lemma C61_region_membership_pf :
forall h root c n, hreach h -> rg_reach h root c ->
  (exists b c', rg_is_descendant h root c n = HOk (b, c') /\ (b = true <-> anc h root n)) /\
  (exists D, rg_nodes h root = HOk D /\ NoDup D /\ (n ∈ D <-> anc h root n)).
Proof.
  intros h root c n Hr Hc. split.
  - destruct (rg_query_ok h root Hr c n (rg_reach_good h root c Hr Hc)) as (b & c' & E & Hb & _). by exists b, c'.
  - destruct (rg_nodes_ok h root Hr) as (D & ED & Hnd & HD). exists D. split; [done|]. split; [done|apply HD].
Qed.

Lemma C62_region_clone_refuted_pf :
exists h root tr s t c tr' s' u n, hreach h /\
  rexec h root (rs_start (rg_new root)) tr s /\ EClone t c ∈ tr /\
  rexec h root (rs_start c) tr' s' /\ EAnswer u n false ∈ tr' /\ anc h root n.
Proof.
  set (s1 := rs_set (rs_start (rg_new 0)) (rg_new 0) 1 (RWait 3 [3] true)).
  set (s2 := rs_set s1 (rg_new 0) 1 (RWrite 3 [3] true)).
  set (t0 := rs_start ∅). set (t1 := rs_set t0 ∅ 0 (RWait 3 [3; 0] false)). set (t2 := rs_set t1 ∅ 0 (RWrite 3 [3; 0] false)).
  set (t3 := rs_set t2 (<[3:=false]> ∅) 0 (RWrite 3 [0] false)). set (t4 := rs_set t3 (<[0:=false]> (<[3:=false]> ∅)) 0 (RWrite 3 [] false)).
  exists exh, 0, [EClone 0 ∅], s2, 0, ∅, [EAnswer 0 3 false], (rs_set t4 (rs_cache t4) 0 RIdle), 0, 3.
  split; [exact exh_hreach|]. split; [|split; [by left|split; [|split; [by left|]]]].
  - change [EClone 0 ∅] with (option_list None ++ (option_list None ++ (option_list (Some (EClone 0 ∅)) ++ []))).
    apply (re_step exh 0 _ None s1); [apply (rs_miss exh 0 (rs_start (rg_new 0)) 1 3 [3] true); [reflexivity|discriminate|intros t n l b; discriminate|vm_compute; reflexivity]|].
    apply (re_step exh 0 _ None s2).
    { apply (rs_lock exh 0 s1 1 3 [3] true); [reflexivity|]. intros t n l b. unfold s1, rs_set. cbn [rs_phase]. destruct (decide (t = 1)); discriminate. }
    apply (re_step exh 0 _ (Some (EClone 0 ∅)) s2); [|apply re_refl]. apply (rs_clone_busy exh 0 s2 0 1 3 [3] true); [reflexivity|right; reflexivity].
  - change [EAnswer 0 3 false] with (option_list None ++ (option_list None ++ (option_list None ++ (option_list None ++ (option_list (Some (EAnswer 0 3 false)) ++ []))))).
    apply (re_step exh 0 _ None t1); [apply (rs_miss exh 0 t0 0 3 [3; 0] false); [reflexivity|discriminate|intros t n l b; discriminate|vm_compute; reflexivity]|].
    apply (re_step exh 0 _ None t2).
    { apply (rs_lock exh 0 t1 0 3 [3; 0] false); [reflexivity|]. intros t n l b. unfold t1, rs_set. cbn [rs_phase]. destruct (decide (t = 0)); discriminate. }
    apply (re_step exh 0 _ None t3); [apply (rs_insert exh 0 t2 0 3 3 [0] false); reflexivity|].
    apply (re_step exh 0 _ None t4); [apply (rs_insert exh 0 t3 0 3 0 [] false); reflexivity|].
    apply (re_step exh 0 _ _ (rs_set t4 (rs_cache t4) 0 RIdle)); [apply (rs_done exh 0 t4 0 3 false); reflexivity|apply re_refl].
  - apply rtc_once. vm_compute. reflexivity.
Qed.

Lemma C62_region_clone_partial_pf :
forall h root c tr s, hreach h -> rg_family h root c -> rexec h root (rs_start c) tr s ->
  (forall t n b, EAnswer t n b ∈ tr -> (b = true <-> anc h root n)) /\
  (forall t c' s', (forall u, rs_phase s u = RIdle) -> rstep h root s (Some (EClone t c')) s' -> c' = rs_cache s /\ c' <> ∅).
Proof.
  intros h root c tr s Hr Hf Hx. destruct (rexec_ok h root Hr _ _ _ Hx (rs_start_ok h root c (rg_family_good h root c Hr Hf))) as [Hs Hev]. split.
  - intros t n b Hin. rewrite Forall_forall in Hev. exact (Hev _ Hin).
  - intros t c' s' Hid Hst. inversion Hst as [| | | | | |? ? ? ?|? ? u n l b ? Hu]; subst.
    + split; [done|]. destruct Hs as ((Hroot & _) & _). intros E. rewrite E in Hroot. done.
    + rewrite Hid in Hu. by destruct Hu.
Qed.

Lemma C62_no_deadlock_pf :
forall h root c tr s (T : list nat), hreach h -> rg_family h root c -> rexec h root (rs_start c) tr s ->
  (forall u, u ∉ T -> rs_phase s u = RIdle) ->
  exists tr' s', rexec h root s tr' s' /\ (forall u, rs_phase s' u = RIdle) /\
    forall t n l b, rs_phase s t = RWait n l b \/ rs_phase s t = RWrite n l b ->
      exists b', EAnswer t n b' ∈ tr' /\ (b' = true <-> anc h root n).
Proof.
  intros h root c tr s T Hr Hf Hx HT. destruct (rexec_ok h root Hr _ _ _ Hx (rs_start_ok h root c (rg_family_good h root c Hr Hf))) as [Hs _].
  destruct (rs_finish h root s T HT Hs) as (tr' & s' & Hx' & Ha & Hid). exists tr', s'. split; [done|]. split; [done|].
  intros t n l b Hw. exists b. split; [by eapply Ha|]. destruct Hs as (_ & H2 & _). by destruct (H2 t n l b Hw).
Qed.

Lemma C78_region_view_pf :
forall E (V : lview E) N R h root (memb : nat -> bool), shows V N R -> hreach h -> (forall n, anc h root n -> N n) ->
  (forall n, exists c c', rg_reach h root c /\ rg_is_descendant h root c n = HOk (memb n, c')) ->
  let F := region V h root memb in
  let S n := anc h root n in
  shows F S (link_inside V S R) /\ counts_links F (link_inside V S R) /\ tells_empty F S.
Proof.
  intros E V N R h root memb H Hr HN Hmemb F S.
  assert (Hm : forall n, memb n = true <-> S n).
  { intros n. destruct (Hmemb n) as (c & c' & Hc & Ec). destruct (rg_query_ok h root Hr c n (rg_reach_good h root c Hr Hc)) as (b & c2 & E2 & Hb & _).
    rewrite Ec in E2. injection E2 as -> _. exact Hb. }
  destruct (rg_nodes_ok h root Hr) as (D & ED & Hnd & HD).
  assert (Hin : forall n, memb n = true -> N n) by (intros n Hn%Hm; auto).
  assert (HX : forall x y, link_inside V (Ns memb) R x y <-> link_inside V S R x y).
  { intros x y. unfold link_inside, port_in, Ns. setoid_rewrite Hm. done. }
  assert (HL : forall n, n ∈ D <-> memb n = true) by (intros n; by rewrite Hm, HD).
  assert (EL : (l ← rg_nodes h root; HOk (length l)) = HOk (length D)) by (by rewrite ED, hbind_Ok).
  split; [|split].
  - eapply shows_ext; [exact Hm|exact HX|]. exact (sub_shows V N R H _ _ _ (HOk false) D Hin ED Hnd HL EL).
  - destruct (sub_counts V N R H _ _ _ (HOk false) D Hin ED Hnd HL EL) as (X & [HX1 HX2] & HX3). exists X. split; [|exact HX3]. split; [done|].
    intros x y. rewrite HX2, HX. done.
  - exists false. split; [done|]. split; [done|]. intros HH. exfalso. apply (HH root). apply rtc_refl.
Qed.

Lemma C78_region_subports_pf :
forall E (V : mview E) N R h root (memb : nat -> bool), shows (mv_view V) N R -> shows_sub V N R -> hreach h -> (forall n, anc h root n -> N n) ->
  (forall n, exists c c', rg_reach h root c /\ rg_is_descendant h root c n = HOk (memb n, c')) ->
  let S n := anc h root n in
  shows_sub (region_m V h root memb) S (link_inside (mv_view V) S R).
Proof.
  intros E V N R h root memb H HM Hr HN Hmemb S.
  assert (Hm : forall n, memb n = true <-> S n).
  { intros n. destruct (Hmemb n) as (c & c' & Hc & Ec). destruct (rg_query_ok h root Hr c n (rg_reach_good h root c Hr Hc)) as (b & c2 & E2 & Hb & _).
    rewrite Ec in E2. injection E2 as -> _. exact Hb. }
  assert (Hin : forall n, memb n = true -> N n) by (intros n Hn%Hm; auto).
  eapply shows_sub_ext; [exact Hm| |exact (sub_mview_shows V N R H HM _ (region (mv_view V) h root memb) Hin (fun _ => eq_refl) (fun _ _ => eq_refl))].
  intros x y. unfold link_inside, port_in. setoid_rewrite Hm. done.
Qed.
