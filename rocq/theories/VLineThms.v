(** Proofs of properties C102 to C104. *)
From Verif Require Export VLineModel LineProofs VAlgProofs MTopoThms BoundThms VAlgThms ConvexProps.

Lemma C102_view_intervals_pf :
forall E (V : lview E) N R rnd, shows V N R -> vacyclic V R -> one_node V R Incoming ->
  (forall low high low_pos high_pos pos, low < high -> low_pos < pos < high_pos ->
     low <= rnd low high low_pos high_pos pos <= high) ->
  exists c K, (forall fuel, K < fuel -> lcc_new (gv_of_lv V) (lv_nb V) fuel = HOk c) /\
  forall S fuel, (forall n, n ∈ S -> N n) -> K < fuel ->
    (NoDup S -> exists r, lcc_get_intervals rnd c fuel S = HOk r /\ (is_Some r <-> contiguous_in N c S) /\
       forall ivs, r = Some ivs -> intervals_of c S ivs) /\
    (vconvex V R S -> contiguous_in N c S) /\
    forall ivs, contiguous_in N c S -> intervals_of c S ivs ->
      (exists l, nodes_in_intervals rnd c fuel ivs = HOk l /\ StronglySorted (node_before c) l /\ forall n, n ∈ l <-> n ∈ S) /\
      forall n, N n -> exists b ivs', try_extend_intervals rnd c fuel ivs n = HOk (b, ivs') /\
        (b = true <-> contiguous_in N c (n :: S)) /\ (b = true -> intervals_of c (n :: S) ivs') /\ (b = false -> ivs' = ivs).
Proof.
  intros E V N R rnd H Hac Hone Hrnd. destruct (vlcc_new_ok V N R H Hac Hone) as (c & K & G & Hnew). exists c, (K `max` lbd c).
  split; [intros fuel Hf; apply Hnew; lia|]. intros S fuel HS Hf. split; [|split].
  - intros Hnd. destruct (get_intervals_ok _ _ rnd Hrnd c G fuel S Hnd HS) as (r & E0 & Hr'); [lia|]. exists r. split; [done|]. destruct r as [ivs|].
    + destruct Hr' as [H1 H2]. split; [split; [done|eauto]|]. by intros ivs' [= <-].
    + split; [split; [by intros [? ?]|done]|done].
  - intros Hcv. by apply (convex_ctg _ _ rnd Hrnd c G).
  - intros ivs Hct Hiv. split; [apply (nodes_in_ok _ _ rnd Hrnd c G S); try done; lia|].
    intros n Hn. apply (try_extend_ok _ _ rnd Hrnd c G S); try done. lia.
Qed.

Lemma C103_convex_by_intervals_pf :
forall E (V : lview E) N R rnd, shows V N R -> vacyclic V R -> one_node V R Incoming ->
  (forall low high low_pos high_pos pos, low < high -> low_pos < pos < high_pos ->
     low <= rnd low high low_pos high_pos pos <= high) ->
  exists c K, (forall fuel, K < fuel -> lcc_new (gv_of_lv V) (lv_nb V) fuel = HOk c) /\
  forall S ivs fuel, S <> [] -> (forall n, n ∈ S -> N n) -> contiguous_in N c S -> intervals_of c S ivs -> K < fuel ->
    exists r, lcc_is_convex_by_intervals (lv_nb V) rnd c fuel ivs = HOk r /\ (r = true <-> vconvex V R S).
Proof.
  intros E V N R rnd H Hac Hone Hrnd. destruct (vlcc_new_ok V N R H Hac Hone) as (c & K & G & Hnew).
  destruct (nodes_N V N R H) as (L & _ & _ & HL). exists c, (K `max` ibd c L (lv_nb V)).
  split; [intros fuel Hf; apply Hnew; lia|]. intros S ivs fuel Hne HS Hct Hiv Hf.
  apply (by_intervals_ok N (vdedge V R Outgoing) rnd Hrnd c G L (lv_nb V) (fun a b Hab => proj2 (dedge_N V N R H Outgoing a b Hab)) (fun n => proj2 (HL n))
    (fun n Hn => lv_nb_ok V N R H n Outgoing Hn) S ivs fuel Hne HS Hct Hiv). lia.
Qed.

Lemma vac_no_loops {E} (V : lview E) N R : shows V N R -> vacyclic V R -> no_loops V R.
Proof.
  intros H Hac x y Hr Hn. destruct (lvs_end _ _ _ H _ _ Hr) as (u & Hu & _).
  destruct (lv_pdir V (lv_port V x)) as [d|] eqn:Hd; [|by apply (lvs_dir _ _ _ H (lv_port V x)) in Hd; rewrite ?Hu].
  assert (Hv : lv_pnode V (lv_port V y) = Some u) by congruence. apply (Hac u), tc_once. destruct d.
  - exists y, x. split; [by apply (lvs_sym _ _ _ H)|]. split; [done|]. split; [|done]. exact (lvs_opp _ _ _ H _ _ _ Hr Hd).
  - by exists x, y.
Qed.
Lemma pg_vacyclic w g : reach w g -> pacyclic g -> vacyclic (lv_of_pg g) (linked g).
Proof.
  intros Hr Hac. pose proof (pg_shows w g Hr) as H. assert (Hsub : forall u v, vdedge (lv_of_pg g) (linked g) Outgoing u v -> pedge g Outgoing u v).
  { intros u v (p & q & Hl & Hu & Hd & Hv).
    assert (HN : contains_node g u = true) by (destruct (lvs_end _ _ _ H _ _ Hl) as (u' & Hu' & ?); congruence).
    assert (HM : contains_node g v = true) by (destruct (lvs_end _ _ _ H _ _ (lvs_sym _ _ _ H _ _ Hl)) as (v' & Hv' & ?); congruence).
    exists p, q. split; [by apply (proj2 (lvs_ports _ _ _ H u Outgoing HN))|]. split; [done|].
    apply (proj2 (lvs_ports _ _ _ H v Incoming HM)). split; [done|]. exact (lvs_opp _ _ _ H _ _ _ Hl Hd). }
  intros a Ha. apply (Hac a). clear -Ha Hsub. assert (Hg : forall x y, tc (vdedge (lv_of_pg g) (linked g) Outgoing) x y -> tc (pedge g Outgoing) x y); [|by apply Hg].
  intros x y. induction 1 as [x y Hxy|x y z Hxy _ IH]; [by apply tc_once, Hsub|]. eapply tc_l; [by apply Hsub|done].
Qed.
Lemma induced_ext {E} (V : lview E) N R ps qs : (forall p, p ∈ ps <-> p ∈ qs) -> forall n, induced V N R ps n -> induced V N R qs n.
Proof.
  intros Hpq n [[-> Hn]|(p & m & Hp & Hm & Hr)].
  - left. split; [|done]. destruct qs as [|q qs]; [done|]. assert (q ∈ @nil nat) as ?%elem_of_nil by (apply Hpq; by left). done.
  - right. exists p, m. split; [by apply Hpq|]. split; [done|]. eapply rtc_subrel; [|exact Hr].
    intros a b (x & y & H1 & H2 & H3 & H4 & H5). exists x, y. rewrite <- !Hpq. done.
Qed.

Lemma C104_boundary_intervals_partial_pf :
forall E (V : lview E) N R rnd, shows V N R -> vacyclic V R -> one_link V R ->
  (forall low high low_pos high_pos pos, low < high -> low_pos < pos < high_pos ->
     low <= rnd low high low_pos high_pos pos <= high) ->
  exists c K, (forall fuel, K < fuel -> lcc_new (gv_of_lv V) (lv_nb V) fuel = HOk c) /\
  forall (B : boundary) ps, (forall p, p ∈ ps -> port_in V N p) -> (forall p, p ∈ bd_ports B <-> p ∈ ps) ->
    exists S M r r', NoDup S /\ (forall n, n ∈ S <-> induced V N R ps n) /\
      (is_Some r <-> contiguous_in N c S) /\ (forall ivs, r = Some ivs -> intervals_of c S ivs) /\
      (is_Some r' <-> contiguous_in N c S) /\ (forall ivs, r' = Some ivs -> intervals_of c S ivs) /\
      forall fuel, M < fuel -> lcc_intervals_from_boundary V rnd c fuel B = HOk r /\ lcc_intervals_from_boundary_ports V rnd c fuel ps = HOk r'.
Proof.
  intros E V N R rnd H Hac Hone Hrnd.
  assert (Hno : one_node V R Incoming) by (intros x y x' y' H1 H2 E0 _; by destruct (Hone x y x' y' H1 H2 E0) as [_ ->]).
  destruct (vlcc_new_ok V N R H Hac Hno) as (c & K & G & Hnew). exists c, K. split; [done|]. intros B ps Hps HB.
  assert (HBp : forall p, p ∈ bd_ports B -> port_in V N p) by (intros p Hp; by apply Hps, HB).
  destruct (proj1 C82_boundary_ports_pf E V ps) as (B' & EB' & HB').
  { intros p Hp. apply (lvs_dir _ _ _ H). destruct (Hps p Hp) as (n & -> & _). done. }
  assert (HB2 : forall p, p ∈ bd_ports B' <-> p ∈ ps).
  { intros p. unfold bd_ports. pose proof (HB' Incoming) as E1. pose proof (HB' Outgoing) as E2. cbn in E1, E2.
    rewrite elem_of_app, E1, E2, !elem_of_list_filter. split; [tauto|]. intros Hp. destruct (Hps p Hp) as (n & Hn & _).
    destruct (lv_pdir V p) as [[]|] eqn:Ed; [tauto|tauto|]. exfalso. apply (lvs_dir _ _ _ H p); [by rewrite Hn|done]. }
  pose proof (vac_no_loops V N R H Hac) as Hnl.
  destruct (internal_nodes_ok V N R B H HBp) as (S & M & EI & HSN & Hind & Hnd). specialize (Hind Hone). specialize (Hnd Hone Hnl).
  destruct (internal_nodes_ok V N R B' H) as (S' & M' & EI' & HSN' & Hind' & Hnd'); [intros p Hp; by apply Hps, HB2|]. specialize (Hind' Hone). specialize (Hnd' Hone Hnl).
  assert (HS : forall n, n ∈ S <-> induced V N R ps n).
  { intros n. rewrite Hind. split; apply induced_ext; intros p; by rewrite HB. }
  assert (HS' : forall n, n ∈ S' <-> n ∈ S).
  { intros n. rewrite Hind', HS. split; apply induced_ext; intros p; by rewrite HB2. }
  assert (HG : forall T F, lbd c <= F -> NoDup T -> (forall n, n ∈ T -> N n) -> exists r, lcc_get_intervals rnd c F T = HOk r /\
    match r with Some ivs => contiguous_in N c T /\ intervals_of c T ivs | None => ~ contiguous_in N c T end).
  { intros T F HF HT1 HT2. by apply (get_intervals_ok _ _ rnd Hrnd c G F T HT1 HT2). }
  assert (HF : forall T, NoDup T -> (forall n, n ∈ T -> N n) -> exists r, (forall F, lbd c <= F -> lcc_get_intervals rnd c F T = HOk r) /\
    match r with Some ivs => contiguous_in N c T /\ intervals_of c T ivs | None => ~ contiguous_in N c T end).
  { intros T HT1 HT2. assert (Hfu : forall F, lbd c <= F -> forall k, length (LccBuild.line (lc_lines c) k) < F) by (intros F HF k; by apply (lbd_ok rnd Hrnd c)).
    destruct (HG T (lbd c) (le_n _) HT1 HT2) as (r & Er & Hr). exists r. split; [|done]. intros F HF.
    destruct (HG T F HF HT1 HT2) as (r2 & Er2 & Hr2). rewrite Er2. f_equal.
    destruct (intervals_ok _ _ rnd Hrnd c G T HT1 HT2 (lbd c) (Hfu (lbd c) (le_n _)) (lcc_line_to_pos c T)) as (q & Eq & Hq); [done|].
    destruct (intervals_ok _ _ rnd Hrnd c G T HT1 HT2 F (Hfu _ HF) (lcc_line_to_pos c T)) as (q2 & Eq2 & Hq2); [done|].
    unfold lcc_get_intervals in Er, Er2. rewrite Eq in Er. rewrite Eq2 in Er2. injection Er as ->. injection Er2 as ->.
    destruct r as [ivs|], r2 as [ivs2|]; [destruct Hq as [-> _], Hq2 as [-> _]; done|by destruct Hr2; destruct Hr|by destruct Hr; destruct Hr2|done]. }
  destruct (HF S Hnd HSN) as (r & Er & Hr). destruct (HF S' Hnd' HSN') as (r' & Er' & Hr').
  assert (Hct : contiguous_in N c S' <-> contiguous_in N c S).
  { split; intros Hc k a x b; [rewrite <- !HS'|rewrite !HS']; apply Hc. }
  assert (Hio : forall ivs, intervals_of c S' ivs -> intervals_of c S ivs).
  { intros ivs (H1 & H2 & H3). split; [done|]. split.
    - intros k. rewrite H2. by setoid_rewrite HS'.
    - intros k mn mx Hin. destruct (H3 k mn mx Hin) as [(a & b & Ha & Hb & Hrest) Hall]. split; [exists a, b; by rewrite <- !HS'|].
      intros x Hx. apply Hall. by apply HS'. }
  exists S, (M `max` M' `max` lbd c), r, r'. split; [done|]. split; [done|].
  split; [destruct r; [destruct Hr; split; eauto|split; [by intros [? ?]|done]]|].
  split; [intros ivs ->; by destruct Hr|].
  split; [rewrite <- Hct; destruct r'; [destruct Hr'; split; eauto|split; [by intros [? ?]|done]]|].
  split; [intros ivs ->; apply Hio; by destruct Hr'|].
  intros fuel Hf. unfold lcc_intervals_from_boundary_ports, lcc_intervals_from_boundary. rewrite EB'. cbn [mbind hres_bind].
  rewrite EI, EI' by lia. cbn [mbind hres_bind]. rewrite Er, Er' by lia. done.
Qed.

Lemma C104_multigraph_refuted_pf :
exists m c, mreach 16 m /\ vacyclic (lv_of_m 16 m) (mlinked 16 m) /\ one_node (lv_of_m 16 m) (mlinked 16 m) Incoming /\
  lcc_new (gv_of_lv (lv_of_m 16 m)) (lv_nb (lv_of_m 16 m)) 9 = HOk c /\
  (forall n, n ∈ [0; 1; 2] <-> induced (lv_of_m 16 m) (fun n => m_contains_node m n = true) (mlinked 16 m) [] n) /\
  contiguous_in (fun n => m_contains_node m n = true) c [0; 1; 2] /\
  lcc_get_intervals interpolate c 30 [0; 1; 2] = HOk (Some [(0, (0, 1)); (1, (0, 1))]) /\
  internal_nodes (lv_of_m 16 m) 30 (Bd [] []) = HOk [0; 1; 2; 0] /\
  lcc_intervals_from_boundary (lv_of_m 16 m) interpolate c 30 (Bd [] []) = HPanic.
Proof.
  exists fan2_m. destruct (lcc_new (gv_of_lv (lv_of_m 16 fan2_m)) (lv_nb (lv_of_m 16 fan2_m)) 9) as [c| |] eqn:Ec; [|vm_compute in Ec; discriminate Ec|vm_compute in Ec; discriminate Ec].
  assert (HN : forall n, n ∈ [0; 1; 2] <-> m_contains_node fan2_m n = true).
  { pose proof (m_shows 16 ltac:(lia) fan2_m fan2_reach) as H. destruct (lvs_nodes _ _ _ H) as (L & EL & _ & HL & _).
    assert (L = [0; 1; 2]) as -> by (vm_compute in EL; by injection EL as <-). exact HL. }
  exists c. split; [apply fan2_reach|]. split; [apply (macyclic_check 16); [lia|apply fan2_reach|vm_compute; reflexivity]|]. split.
  { apply one_src_ok; [lia|exact fan2_reach|vm_compute; reflexivity]. }
  split; [reflexivity|]. split.
  { intros n. rewrite HN. split; [intros Hn; left; split; [reflexivity|exact Hn]|]. intros [[_ Hn]|(p & m & []%elem_of_nil & _)]. exact Hn. }
  split; [intros k a x b _ _ Hx _ _ _ _; exact (proj2 (HN x) Hx)|].
  vm_compute in Ec. injection Ec as <-. split; [vm_compute; reflexivity|]. split; vm_compute; reflexivity.
Qed.
