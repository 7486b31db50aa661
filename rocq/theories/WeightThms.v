(** Proofs of properties C94 to C97. *)
From Verif Require Export WeightProofs.

Lemma C94_weights_follow_pf :
forall (A B : Type) (adef : A) (bdef : B) w sty s, wreach adef bdef w sty s ->
  (forall o, step w s.1 o <> Panic -> wstep adef bdef w sty s (WCall o) <> Panic) /\
  (forall n v, exists ws, w_set_node s.2 n v = Ok ws) /\ (forall p v, exists ws, w_set_port s.2 p v = Ok ws) /\
  (forall n s' n' v', node_path adef bdef w sty s n (w_node s.2 n) s' n' v' -> w_node s'.2 n' = v') /\
  (forall p s' p' v', port_path adef bdef w sty s p (w_port s.2 p) s' p' v' -> w_port s'.2 p' = v').
Proof.
  intros A B adef bdef w sty s Hs. destruct (wreach_ok adef bdef w sty s Hs) as [Hok R]. pose proof (wok_shows adef bdef _ Hok) as S.
  split_and!.
  - intros o Ho. cbn. destruct (step w s.1 o) as [[g r]|]; [|done]. cbn.
    destruct (update_shows adef bdef sty (pg_news o r) _ _ _ S) as (ws & -> & _). done.
  - intros n v. destruct (set_node_shows adef bdef _ _ _ n v S) as (ws & -> & _). eauto.
  - intros p v. destruct (set_port_shows adef bdef _ _ _ p v S) as (ws & -> & _). eauto.
  - intros n s' n' v' Hp. assert (H : wreach adef bdef w sty s' /\ w_node s'.2 n' = v'); [|by destruct H].
    remember (w_node s.2 n) as v eqn:Ev. induction Hp as [s n v|s n v s1 n1 v1 x s2 n2 Hp IH Ha E Hg]; [done|].
    destruct (IH Hs Hok R S Ev) as [H1 H2]. destruct (wreach_ok _ _ _ _ _ H1) as [Hok1 R1]. pose proof (wok_shows adef bdef _ Hok1) as S1.
    split; [by eapply wreach_step|]. destruct x as [o|k u|k u]; cbn [wstep] in E.
    + apply bind_inv in E as ([g r] & Eg & E). destruct (update_shows adef bdef sty (pg_news o r) _ _ _ S1) as (ws & Ew & S2).
      rewrite Ew, bind_Ok in E. injection E as <-. apply wshows_ok in S2 as (_ & Hn & _). cbn [fst snd] in *. rewrite Hn.
      cbn [wnode_goes] in Hg. rewrite (node_follow w _ R1 adef sty o g r _ _ _ Ha Eg Hg). done.
    + destruct (set_node_shows adef bdef _ _ _ k u S1) as (ws & Ew & S2). rewrite Ew, bind_Ok in E. injection E as <-.
      apply wshows_ok in S2 as (_ & Hn & _). cbn [fst snd wnode_goes] in *. rewrite Hn, Hg. cbn. unfold tset.
      destruct (decide (n1 = k)) as [->|Hne]; [by rewrite decide_True|]. rewrite decide_False by congruence. done.
    + destruct (set_port_shows adef bdef _ _ _ k u S1) as (ws & Ew & S2). rewrite Ew, bind_Ok in E. injection E as <-.
      apply wshows_ok in S2 as (_ & Hn & _). cbn [fst snd wnode_goes] in *. by rewrite Hn, Hg.
  - intros n s' n' v' Hp. assert (H : wreach adef bdef w sty s' /\ w_port s'.2 n' = v'); [|by destruct H].
    remember (w_port s.2 n) as v eqn:Ev. induction Hp as [s n v|s n v s1 n1 v1 x s2 n2 Hp IH Ha E Hg]; [done|].
    destruct (IH Hs Hok R S Ev) as [H1 H2]. destruct (wreach_ok _ _ _ _ _ H1) as [Hok1 R1]. pose proof (wok_shows adef bdef _ Hok1) as S1.
    split; [by eapply wreach_step|]. destruct x as [o|k u|k u]; cbn [wstep] in E.
    + apply bind_inv in E as ([g r] & Eg & E). destruct (update_shows adef bdef sty (pg_news o r) _ _ _ S1) as (ws & Ew & S2).
      rewrite Ew, bind_Ok in E. injection E as <-. apply wshows_ok in S2 as (_ & _ & Hn). cbn [fst snd] in *. rewrite Hn.
      cbn [wport_goes] in Hg. rewrite (port_follow w _ R1 bdef sty o g r _ _ _ Ha Eg Hg). done.
    + destruct (set_node_shows adef bdef _ _ _ k u S1) as (ws & Ew & S2). rewrite Ew, bind_Ok in E. injection E as <-.
      apply wshows_ok in S2 as (_ & _ & Hn). cbn [fst snd wport_goes] in *. by rewrite Hn, Hg.
    + destruct (set_port_shows adef bdef _ _ _ k u S1) as (ws & Ew & S2). rewrite Ew, bind_Ok in E. injection E as <-.
      apply wshows_ok in S2 as (_ & _ & Hn). cbn [fst snd wport_goes] in *. rewrite Hn, Hg. cbn. unfold tset.
      destruct (decide (n1 = k)) as [->|Hne]; [by rewrite decide_True|]. rewrite decide_False by congruence. done.
Qed.

Lemma C95_unset_weights_refuted_pf :
exists (s s' : pg * weights nat nat) n i j p, wreach 0 0 16 BySwap s /\ wstep 0 0 16 BySwap s (WCall (OSetPorts n i j)) = Ok s' /\
  contains_port s'.1 p = true /\ (forall q, ~ survives s.1 s'.1 n q p) /\ w_port s'.2 p = 5.
Proof.
  set (s := default (pg_new, w_new 0 0) (wrun 0 0 16 BySwap [WCall (OAdd 3 0); WPort 1 5; WCall (OSetPorts 0 1 0)] (pg_new, w_new 0 0))).
  exists s. eexists. exists 0, 2, 0, 1. split; [eapply (wrun_reach _ _ _ _ [WCall (OAdd 3 0); WPort 1 5; WCall (OSetPorts 0 1 0)]); [apply wreach_new|vm_compute; reflexivity]|].
  split; [vm_compute; reflexivity|]. split; [vm_compute; reflexivity|]. split; [|vm_compute; reflexivity].
  intros q [([] & k & H1 & H2)|(H1 & H2 & <-)].
  - unfold port_at in *. vm_compute in H1, H2. destruct k as [|k]; [done|]. destruct k; done.
  - unfold port_at in *. vm_compute in H1. done.
  - vm_compute in H1. done.
Qed.

Lemma C95_unset_weights_partial_pf :
forall (A B : Type) (adef : A) (bdef : B) w s o s', (1 < w <= 63)%N -> wreach adef bdef w ByRekey s ->
  tidy adef bdef s.1 s.2 -> allowed s.1 o -> told o -> wstep adef bdef w ByRekey s (WCall o) = Ok s' ->
  tidy adef bdef s'.1 s'.2 /\
  (forall n', (forall n, ~ node_goes o s.1 s'.1 n n') -> w_node s'.2 n' = adef) /\
  (forall p', (forall p, ~ port_goes o s.1 s'.1 p p') -> w_port s'.2 p' = bdef).
Proof.
  intros A B adef bdef w [g ws] o [g' ws'] Hw Hs [Tn Tp] Ha Ht E. destruct (wreach_ok adef bdef w _ _ Hs) as [Hok R]. cbn [fst snd] in *.
  pose proof (wok_shows adef bdef _ Hok) as S. cbn [wstep fst snd] in E. apply bind_inv in E as ([g1 r] & Eg & E).
  destruct (update_shows adef bdef ByRekey (pg_news o r) _ _ _ S) as (ws1 & Ew & S1).
  rewrite Ew, bind_Ok in E. injection E as <- <-. apply wshows_ok in S1 as (_ & Hn & Hp).
  assert (R1 : reach w g1) by (by eapply reach_step).
  assert (Hgn : forall n', (forall n, ~ node_goes o g g1 n n') -> w_node ws1 n' = adef).
  { intros n' Hno. rewrite Hn.
    assert (Htriv : (contains_node g n' = true -> contains_node g1 n' = true -> node_goes o g g1 n' n') ->
      (contains_node g n' = true -> contains_node g1 n' = true) -> w_node ws n' = adef).
    { intros H1 H2. destruct (contains_node g n') eqn:Hc; [|by apply Tn]. exfalso. apply (Hno n'). auto. }
    destruct o as [i j|k|a b|p|k i j|a b| | | |x y|]; cbn in Eg, Ht, Ha; try done.
    - apply bind_inv in Eg as ([g2 n] & E2 & Eg). injection Eg as <- <-. cbn. apply Htriv; [by intros ? ?; split_and!|].
      destruct (C04_add_node_pf w g i j g2 n R Ha E2) as (N1 & N2 & _ & _ & _ & N3 & _). intros Hc.
      destruct (decide (n' = n)) as [->|Hne]; [done|]. destruct (N3 n' Hne) as [-> _]. done.
    - apply bind_inv in Eg as ([g2 r2] & E2 & Eg). injection Eg as <- <-. cbn. apply Htriv; [by intros ? ?; split_and!|].
      destruct (C07_link_ports_pf w g a b R) as (g3 & r3 & E3 & _ & L1 & L2). rewrite E2 in E3. injection E3 as <- <-.
      destruct r2 as [e|x]; [by destruct (L2 e eq_refl) as [-> _]|]. destruct (L1 x eq_refl) as (_ & _ & _ & _ & Hsn & _). by destruct (Hsn n') as [-> _].
    - apply bind_inv in Eg as ([g2 r2] & E2 & Eg). injection Eg as <- <-. cbn. apply Htriv; [by intros ? ?; split_and!|].
      destruct (C09_unlink_port_pf w g p R) as (g3 & r3 & E3 & _ & L1 & L2). rewrite E2 in E3. injection E3 as <- <-.
      destruct r2 as [q|]; [|by rewrite (L1 eq_refl)]. destruct (L2 q eq_refl) as (_ & _ & _ & _ & Hsn & _). by destruct (Hsn n') as [-> _].
    - apply bind_inv in Eg as ([g2 log] & E2 & Eg). injection Eg as <- <-. cbn. apply Htriv; [by intros ? ?; split_and!|].
      destruct (contains_node g k) eqn:Hk.
      + destruct (v_snp w g R k i j g2 log Hk E2) as (_ & _ & _ & Hc & _). by rewrite Hc.
      + by destruct (snp_missing _ _ _ _ _ _ Hk E2) as [-> _].
    - apply bind_inv in Eg as (g2 & E2 & Eg). injection Eg as <- <-. cbn. unfold tswap.
      assert (Hsw : forall x, contains_node g2 x = contains_node g (if decide (x = a) then b else if decide (x = b) then a else x)).
      { by apply (swap_live w g a b g2 R). }
      set (sw := fun x => if decide (x = a) then b else if decide (x = b) then a else x).
      assert (Esw : (if decide (n' = a) then w_node ws b else if decide (n' = b) then w_node ws a else w_node ws n') = w_node ws (sw n')) by (unfold sw; repeat case_decide; done).
      rewrite Esw. apply Tn. apply not_true_iff_false. intros Hc. apply (Hno (sw n')). split; [done|]. split.
      + rewrite Hsw. exact Hc.
      + unfold sw. repeat case_decide; congruence.
    - apply bind_inv in Eg as ([g2 log] & E2 & Eg). injection Eg as <- <-. cbn.
      destruct (C12_compact_nodes_pf w g R) as (g3 & l3 & E3 & _ & _ & _ & _ & Hin & Hc' & _). rewrite E2 in E3. injection E3 as <- <-.
      assert (Hlog : forall x, contains_node g x = true -> exists x', (x, x') ∈ log).
      { intros x Hx. apply Hin in Hx. apply elem_of_list_fmap in Hx as ([u v] & -> & ?). eauto. }
      apply (renum_tidy adef _ (contains_node g)); [|done|].
      + intros x Hx. destruct (Hlog x Hx) as [x' Hx']. exists x'. split; [done|]. intros U du h.
        destruct (C67_side_tables_pf w g U du h R) as [H _]. by apply (H g2 log E2).
      + intros x Hx. apply (Hno x). apply (compact_nodes_log w g R _ _ _ _ E2) in Hx as Hx'. destruct Hx' as [H1 H2].
        split; [done|]. split; [|done]. destruct (C12_compact_nodes_pf w g R) as (g3 & l3 & E3 & _ & _ & L2 & _). rewrite E2 in E3. injection E3 as <- <-.
        apply Hc'. apply (elem_of_list_fmap_1 snd) in Hx. rewrite L2 in Hx. apply elem_of_seq in Hx. cbn in Hx. lia.
    - apply bind_inv in Eg as ([g2 log] & E2 & Eg). injection Eg as <- <-. cbn. apply Htriv; [by intros ? ?; split_and!|].
      destruct (C13_compact_ports_pf w g R Ha) as (g3 & l3 & E3 & _ & _ & _ & _ & _ & _ & Hc & _). rewrite E2 in E3. injection E3 as <- <-. by rewrite Hc.
    - injection Eg as <- <-. cbn. apply Htriv; [by intros ? ?; split_and!|done].
    - injection Eg as <- <-. cbn. apply Htriv; [by intros ? ?; split_and!|done]. }
  assert (Hgp : forall p', (forall p, ~ port_goes o g g1 p p') -> w_port ws1 p' = bdef).
  { intros p' Hno. rewrite Hp.
    assert (Htriv : (contains_port g p' = true -> contains_port g1 p' = true -> port_goes o g g1 p' p') ->
      (contains_port g p' = true -> contains_port g1 p' = true) -> w_port ws p' = bdef).
    { intros H1 H2. destruct (contains_port g p') eqn:Hc; [|by apply Tp]. exfalso. apply (Hno p'). auto. }
    destruct o as [i j|k|a b|p|k i j|a b| | | |x y|]; cbn in Eg, Ht, Ha; try done.
    - apply bind_inv in Eg as ([g2 n] & E2 & Eg). injection Eg as <- <-. cbn. apply Htriv; [by intros ? ?; split_and!|].
      destruct (C04_add_node_pf w g i j g2 n R Ha E2) as (_ & _ & _ & _ & N0 & _ & N3 & _). intros Hc.
      destruct (decide (port_node g2 p' = Some n)) as [Hpn|Hpn].
      + unfold contains_port. apply bool_decide_eq_true. unfold port_node in Hpn. destruct (pmeta g2 p'); [eauto|done].
      + destruct (N3 p' Hpn) as [-> _]. done.
    - apply bind_inv in Eg as ([g2 r2] & E2 & Eg). injection Eg as <- <-. cbn. apply Htriv; [by intros ? ?; split_and!|].
      destruct (C07_link_ports_pf w g a b R) as (g3 & r3 & E3 & _ & L1 & L2). rewrite E2 in E3. injection E3 as <- <-.
      destruct r2 as [e|x]; [by destruct (L2 e eq_refl) as [-> _]|]. destruct (L1 x eq_refl) as (_ & _ & _ & _ & _ & Hsn & _). by destruct (Hsn p') as [-> _].
    - apply bind_inv in Eg as ([g2 r2] & E2 & Eg). injection Eg as <- <-. cbn. apply Htriv; [by intros ? ?; split_and!|].
      destruct (C09_unlink_port_pf w g p R) as (g3 & r3 & E3 & _ & L1 & L2). rewrite E2 in E3. injection E3 as <- <-.
      destruct r2 as [q|]; [|by rewrite (L1 eq_refl)]. destruct (L2 q eq_refl) as (_ & _ & _ & Hsn & _). by destruct (Hsn p') as [-> _].
    - apply bind_inv in Eg as ([g2 log] & E2 & Eg). injection Eg as <- <-. cbn. by apply (snp_tidy w Hw g R bdef _ k i j g2 log).
    - apply bind_inv in Eg as (g2 & E2 & Eg). injection Eg as <- <-. cbn. apply Htriv; [by intros ? ?; split_and!|].
      destruct (swap_live w g a b g2 R Ha E2) as [_ Hsw]. by rewrite Hsw.
    - apply bind_inv in Eg as ([g2 log] & E2 & Eg). injection Eg as <- <-. cbn. apply Htriv; [by intros ? ?; split_and!|].
      destruct (C12_compact_nodes_pf w g R) as (g3 & l3 & E3 & _ & _ & _ & _ & _ & _ & _ & Hc & _). rewrite E2 in E3. injection E3 as <- <-.
      by destruct (Hc p') as [-> _].
    - apply bind_inv in Eg as ([g2 log] & E2 & Eg). injection Eg as <- <-. cbn.
      destruct (C13_compact_ports_pf w g R Ha) as (g3 & l3 & E3 & _ & _ & _ & _ & Hin & _). rewrite E2 in E3. injection E3 as <- <-.
      apply (renum_tidy bdef _ (contains_port g)); [|done|].
      + intros x Hx. apply Hin in Hx. apply elem_of_list_fmap in Hx as ([u v] & -> & Hx). exists v. split; [done|]. intros U du h.
        destruct (C67_side_tables_pf w g U du h R) as [_ H]. by apply (H Ha g2 log E2).
      + intros x Hx. apply (Hno x). by apply (compact_ports_log w g R _ _ _ _ Ha E2).
    - injection Eg as <- <-. cbn. apply Htriv; [by intros ? ?; split_and!|done].
    - injection Eg as <- <-. cbn. apply Htriv; [by intros ? ?; split_and!|done]. }
  split; [|by split]. split.
  - intros n Hc. apply Hgn. intros x (_ & Hx & _). congruence.
  - intros p Hc. apply Hgp. intros x Hx. assert (contains_port g1 p = true); [|congruence].
    assert (Hat : forall k d i, port_at g1 k d i p -> contains_port g1 p = true).
    { intros k d i Hk. apply contains_port_true. eexists. by eapply (r_look w g1 R1). }
    destruct o as [i j|k|a b|q|k i j|a b| | | |y z|]; cbn in Hx; try (by destruct Hx as (_ & H & ->)).
    + destruct Hx as [(d & i' & _ & H)|(H1 & H2 & ->)]; [by eapply Hat|].
      cbn in Eg. apply bind_inv in Eg as ([g2 log] & E2 & Eg). injection Eg as <- <-.
      destruct (contains_node g k) eqn:Hk; [|by destruct (snp_missing _ _ _ _ _ _ Hk E2) as [-> _]].
      destruct (v_snp w g R k i j g2 log Hk E2) as (_ & _ & _ & _ & _ & Hpm & _). apply contains_port_true in H1 as [[y d] H1].
      apply contains_port_true. exists (y, d). apply Hpm; [|done]. intros ->. by rewrite (pm_node _ _ _ _ H1) in H2.
    + destruct Hx as (k & d & i & _ & H). by eapply Hat.
Qed.

Lemma C96_shrink_weights_refuted_pf :
exists (s : pg * weights nat nat) n, wreach 0 0 16 BySwap s /\ contains_node s.1 n = true /\ w_node s.2 n = 2 /\
  w_node (w_shrink s.2 (node_count s.1) (port_count s.1)) n = 0.
Proof.
  set (l := [WCall (OAdd 0 0); WCall (OAdd 0 0); WNode 0 1; WNode 1 2; WCall (ORemove 0)] : list (wop nat nat op)).
  exists (default (pg_new, w_new 0 0) (wrun 0 0 16 BySwap l (pg_new, w_new 0 0))), 1.
  split; [eapply (wrun_reach _ _ _ _ l); [apply wreach_new|vm_compute; reflexivity]|].
  vm_compute. repeat split.
Qed.

Lemma C96_shrink_weights_partial_pf :
forall (A B : Type) (adef : A) (bdef : B) w sty s s1 s2, wreach adef bdef w sty s -> (forall n, ~ hollow s.1 n) ->
  wstep adef bdef w sty s (WCall OCompactNodes) = Ok s1 -> wstep adef bdef w sty s1 (WCall OCompactPorts) = Ok s2 ->
  let ws := w_shrink s2.2 (node_count s2.1) (port_count s2.1) in
  (forall n, contains_node s2.1 n = true -> w_node ws n = w_node s2.2 n) /\
  (forall p, contains_port s2.1 p = true -> w_port ws p = w_port s2.2 p) /\
  tidy adef bdef s2.1 ws /\ length (um_data (w_nodes ws)) <= node_count s.1 /\ length (um_data (w_ports ws)) <= port_count s.1.
Proof.
  intros A B adef bdef w sty [g ws] [g1 ws1] [g2 ws2] Hs Hh E1 E2. cbn zeta. cbn [fst snd] in *.
  assert (Hs1 : wreach adef bdef w sty (g1, ws1)) by (eapply (wreach_step _ _ _ _ _ (WCall OCompactNodes)); [exact Hs|exact I|exact E1]).
  destruct (wreach_ok adef bdef w sty _ Hs) as [Hok R]. destruct (wreach_ok adef bdef w sty _ Hs1) as [Hok1 R1]. cbn [fst snd] in *.
  pose proof (wstep_ok adef bdef w sty (g1, ws1) _ (g2, ws2) Hok1 E2) as Hok2. cbn [snd] in Hok2.
  cbn [wstep fst snd step] in E1, E2. apply bind_inv in E1 as ([g3 r] & Eg & E1). apply bind_inv in E1 as (ws3 & _ & E1). injection E1 as -> ->.
  apply bind_inv in Eg as ([g3 log] & Eg & E1). injection E1 as -> <-.
  destruct (C12_compact_nodes_pf w g R) as (g3 & l3 & E3 & _ & L1 & L2 & Hst & Hin & Hc & Hpo & Hpm & _ & N1 & N2 & _). rewrite Eg in E3. injection E3 as <- <-.
  assert (Hh1 : forall n, ~ hollow g1 n).
  { intros n' (Hn' & Hcap & H1 & H2).
    destruct (reach_inv _ _ R) as (fnl & F & I). destruct (compact_nodes_spec g fnl F I) as (g4 & l4 & E4 & _ & P).
    rewrite Eg in E4. injection E4 as <- <-. pose proof (cn_nmeta _ _ _ P n') as Hm.
    apply contains_node_true in Hn' as [me Hme]. rewrite Hme in Hm. destruct (node_ids g !! n') as [n|]; [|done]. cbn in Hm.
    apply (Hh n). unfold node_port_capacity, num_ports in *. rewrite Hme in Hcap, H1, H2. split; [apply contains_node_true; eauto|].
    unfold node_port_capacity, num_ports. by rewrite <- Hm. }
  apply bind_inv in E2 as ([g4 r] & Eg2 & E2). apply bind_inv in E2 as (ws4 & _ & E2). injection E2 as -> ->.
  apply bind_inv in Eg2 as ([g4 log2] & Eg2 & E2). injection E2 as -> <-.
  destruct (C13_compact_ports_pf w g1 R1 Hh1) as (g4 & l4 & E4 & _ & _ & _ & _ & _ & Hcp & Hcn & _ & _ & _ & _ & N3 & N4 & _). rewrite Eg2 in E4. injection E4 as <- <-.
  assert (Hn : forall n, contains_node g2 n = true <-> n < node_count g2) by (intros n; rewrite Hcn, N3, N1; apply Hc).
  assert (Hp : forall p, contains_port g2 p = true <-> p < port_count g2) by (intros p; rewrite N4; apply Hcp).
  destruct (C32_shrink_to_pf A (w_nodes ws2) (node_count g2)) as (D1 & G1 & G2). destruct (C32_shrink_to_pf B (w_ports ws2) (port_count g2)) as (D2 & G3 & G4).
  destruct Hok2 as [O1 O2]. split_and!.
  - intros n H. apply G1. by apply Hn.
  - intros p H. apply G3. by apply Hp.
  - split.
    + intros n H. unfold w_node. cbn. rewrite G2; [done|]. apply Nat.nlt_ge. intros Hlt. apply Hn in Hlt. congruence.
    + intros p H. unfold w_port. cbn. rewrite G4; [done|]. apply Nat.nlt_ge. intros Hlt. apply Hp in Hlt. congruence.
  - cbn. rewrite take_length. rewrite N3, N1. lia.
  - cbn. rewrite take_length. rewrite N4, N2. lia.
Qed.

Lemma C97_multi_weights_pf :
forall (A B : Type) (adef : A) (bdef : B) w sty s o m' r, (2 < w <= 63)%N -> mwreach adef bdef w sty s ->
  mallowed w s.1 o -> mstep w s.1 o = Ok (m', r) ->
  exists ws', mwstep adef bdef w sty s (WCall o) = Ok (m', ws') /\
    (forall n n', mnode_goes o r s.1 m' n n' -> w_node ws' n' = w_node s.2 n) /\
    (forall p p', mport_goes o s.1 m' p p' -> w_port ws' p' = w_port s.2 p).
Proof.
  intros A B adef bdef w sty [m ws] o m' r Hw Hs Ha E. assert (Hw1 : (1 < w <= 63)%N) by lia.
  destruct (mwreach_ok adef bdef w sty _ Hs) as [Hok Rm]. cbn [fst snd] in *.
  pose proof (mreach_minv w Hw m Rm) as I. pose proof (mi_reach _ _ _ I) as R. pose proof (wok_shows adef bdef _ Hok) as S.
  destruct (update_shows adef bdef sty (m_news o r) _ _ _ S) as (ws' & Ew & S').
  exists ws'. cbn [mwstep fst snd]. rewrite E, bind_Ok, Ew, bind_Ok. split; [done|]. apply wshows_ok in S' as (_ & Hn & Hp). split.
  - intros n n' (Hc & Hc' & Hg). rewrite Hn.
    destruct o as [i j|k|a b|p|a b|s0|k i j|a b| | | |x y|]; cbn in E, Hg.
    1-7: apply bind_inv in E as ([??] & _ & E) || apply bind_inv in E as (? & _ & E); injection E as <- <-; cbn; by rewrite Hg.
    + apply bind_inv in E as (? & _ & E). injection E as <- <-. cbn. rewrite Hg. unfold tswap. repeat case_decide; congruence.
    + apply bind_inv in E as ([m1 log] & E1 & E). injection E as <- <-. cbn in Hg |- *. unfold m_compact_nodes in E1.
      apply bind_inv in E1 as ([g1 log1] & E1 & E2). apply bind_inv in E2 as (cp & _ & E2). injection E2 as _ ->.
      destruct (C67_side_tables_pf w (m_graph m) A adef (w_node ws) R) as [H _].
      destruct (H g1 log E1 n n' Hg) as [H1 H2]. by destruct sty.
    + apply bind_inv in E as ([m1 log] & E1 & E). injection E as <- <-. cbn. by rewrite Hg.
    + injection E as <- <-. cbn. by rewrite Hg.
    + injection E as <- <-. cbn. by rewrite Hg.
    + injection E as <- <-. cbn. by rewrite Hg.
  - intros p p' (Hc & Hc' & Hg). rewrite Hp.
    destruct o as [i j|k|a b|q|a b|s0|k i j|a b| | | |x y|]; cbn in E, Hg.
    1-6: apply bind_inv in E as ([??] & _ & E) || apply bind_inv in E as (? & _ & E); injection E as <- <-; cbn; by rewrite Hg.
    + apply bind_inv in E as ([m1 log] & E1 & E). injection E as <- <-. cbn in Ha, Hg |- *. destruct Ha as [Ha1 Ha2].
      pose proof E1 as E1'. unfold m_set_num_ports in E1'. apply bind_inv in E1' as ([g1 log1] & E2 & E3).
      apply bind_inv in E3 as ([fl dr] & E4 & E3). apply bind_inv in E3 as (m2 & E5 & E3). injection E3 as -> ->.
      destruct (contains_node (m_graph m) k) eqn:Hk.
      * destruct (m_snp_ok w Hw1 m I k i j g1 log Hk Ha1 E2 Ha2) as (m3 & E6 & _ & _ & _ & Hpo & _). rewrite E1 in E6. injection E6 as <-.
        assert (Hsv : survives (m_graph m) g1 k p p').
        { destruct Hg as [(d & x & G1 & G2)|Hg]; [left; exists d, x; split; [done|]|by right]. unfold port_at in *. by rewrite <- Hpo. }
        destruct (C11_set_num_ports_callbacks_pf w _ k i j g1 log R Hk E2) as (_ & H1 & H2). destruct sty; [by apply H1|by apply H2].
      * destruct (snp_missing _ _ _ _ _ _ Hk E2) as [-> ->]. cbn in E4. injection E4 as <- <-. cbn in E5. injection E5 as <-.
        assert (p' = p) as ->; [|by destruct sty]. destruct Hg as [(d & x & G1 & G2)|(_ & _ & ->)]; [|done]. unfold port_at in *. cbn in G2. congruence.
    + apply bind_inv in E as (? & _ & E). injection E as <- <-. cbn. by rewrite Hg.
    + apply bind_inv in E as ([m1 log] & E1 & E). injection E as <- <-. cbn. by rewrite Hg.
    + apply bind_inv in E as ([m1 log] & E1 & E). injection E as <- <-. cbn in Hg |- *. unfold m_compact_ports in E1.
      apply bind_inv in E1 as ([g1 log1] & E1 & E2). apply bind_inv in E2 as (fl & _ & E2). injection E2 as E2 ->. subst m1. cbn in Hg.
      destruct (C67_side_tables_pf w (m_graph m) B bdef (w_port ws) R) as [_ H].
      destruct (H Ha g1 log E1 p p') as [H1 H2]; [by apply (compact_ports_log w (m_graph m) R _ _ _ _ Ha E1)|]. by destruct sty.
    + injection E as <- <-. cbn. by rewrite Hg.
    + injection E as <- <-. cbn. by rewrite Hg.
    + injection E as <- <-. cbn. by rewrite Hg.
Qed.
