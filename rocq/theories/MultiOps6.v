(** [link_ports] and the operations on subports. *)
From Verif Require Export MultiOps5.

(** The visible part, links aside, is the same. *)
Record vsame (m m' : mpg) : Prop := {
  vs_pm : forall x n d, (pmeta (m_graph m') x = Some (n, d) /\ is_copy m' n = false) <-> (pmeta (m_graph m) x = Some (n, d) /\ is_copy m n = false);
  vs_cn : forall n, (contains_node (m_graph m') n = true /\ is_copy m' n = false) <-> (contains_node (m_graph m) n = true /\ is_copy m n = false);
  vs_ports : forall n d, contains_node (m_graph m) n = true -> is_copy m n = false -> ports (m_graph m') n d = ports (m_graph m) n d;
}.
Lemma vsame_refl m : vsame m m.
Proof. by split. Qed.
Lemma vsame_trans m m1 m2 : vsame m m1 -> vsame m1 m2 -> vsame m m2.
Proof.
  intros S1 S2. split.
  - intros x n d. rewrite (vs_pm _ _ S2). apply S1.
  - intros n. rewrite (vs_cn _ _ S2). apply S1.
  - intros n d H1 H2. destruct (proj2 (vs_cn _ _ S1 n)) as [H3 H4]; [done|]. rewrite (vs_ports _ _ S2) by done. by apply S1.
Qed.
Lemma vsame_shape m g' : same_shape (m_graph m) g' -> vsame m (m_with_graph m g').
Proof.
  intros (H1 & H2 & H3). split.
  - intros x n d. cbn. by rewrite H3.
  - intros n. cbn. by rewrite H1.
  - intros n d _ _. cbn. by rewrite H2.
Qed.
Lemma gf_vsame w m m' p s i : gf_post w m m' p s i -> vsame m m'.
Proof. intros []. by split. Qed.
Lemma vsame_vis m m' x : vsame m m' -> vis m' x <-> vis m x.
Proof. intros S. unfold vis. by setoid_rewrite (vs_pm _ _ S). Qed.

(** Limits within which no call on the underlying graph panics *)
Definition few (m : mpg) (p : nat) : Prop := (N.of_nat (length (raws m p)) <= 32766)%N.
Definition roomy (w : N) (m : mpg) (p : nat) : Prop :=
  (N.of_nat (length (raws m p)) <= po_max_offset w)%N \/ exists s, s ∈ raws m p /\ lk (m_graph m) s = None.

Lemma add_node_le po g i j g' n : add_node po g i j = Ok (g', n) ->
  length (pg_nodes g') <= length (pg_nodes g) + 1 /\ length (pg_pmeta g') <= length (pg_pmeta g) + (i + j).
Proof.
  intros E. unfold add_node in E.
    apply bind_inv in E as (? & _ & E). apply bind_inv in E as (? & _ & E).
    apply bind_inv in E as ([g2 n2] & (L1 & L2)%alloc_node_grow & E).
    apply bind_inv in E as ([g3 m3] & (L3 & L4)%alloc_ports_grow & E).
    apply bind_inv in E as (ns & (_ & ->)%vset_inv & E). injection E as <- <-. cbn. rewrite insert_length.
    rewrite L3. rewrite L2 in L4. lia.
Qed.

Lemma max_off w : (2 < w)%N -> (2 <= po_max_offset w)%N.
Proof.
  intros Hw. change (po_max_offset w) with (bf_max_index w). rewrite max_index_eq by lia.
  assert (2 ^ 2 <= 2 ^ (w - 1))%N by (apply N.pow_le_mono_r; lia). change (2 ^ 2)%N with 4%N in *. lia.
Qed.

Section link.
  Context (w : N) (Hw : (2 < w <= 63)%N).
  Let Hw1 : (1 < w <= 63)%N.
  Proof. lia. Qed.

  Lemma gf_main m p n d k : minv w m [] -> pmeta (m_graph m) p = Some (n, d) -> is_copy m n = false -> roomy w m p ->
    match m_get_free w m p with
    | Panic => ~ (space 1 m /\ few m p)
    | Ok (m', inl e) => False
    | Ok (m', inr (s, i)) => gf_post w m m' p s i /\ (few m p -> space (S k) m -> space k m')
    end.
  Proof.
    intros I Mp Cn Hroom. pose proof (mi_reach _ _ _ I) as R. pose proof (reach_inv _ _ R) as IG.
    pose proof (max_off w ltac:(lia)) as Hmx. change (2 ^ 31 - 1)%N with 2147483647%N in *.
    assert (SS : space (S k) m -> space k m). { unfold space. change (2 ^ 31 - 1)%N with 2147483647%N. lia. }
    destruct (is_multi m p) eqn:Fp.
    - destruct (gf_C w Hw1 m I p n d Mp Cn Fp) as [(j & i & A & B & E)|(q & c & Lp & Mq & Cc & Hr & Hfull & Eg)].
      + rewrite E. split; [by eapply gf_same|tauto].
      + assert (Hl : length (raws m p) = num_ports (m_graph m) c d) by (by rewrite Hr, ports_length).
        destruct Hroom as [Hroom|(s & Hs & Ls)]; [|by destruct (Hfull s Hs)]. rewrite Hl in Hroom.
        pose proof (gf_D w Hw1 m I p n d Mp Cn q c Fp Lp Mq Cc Hr Hfull Hroom) as HD. cbn zeta in HD.
        destruct (flag_vis w m I p n d Fp Mp Cn) as (q1 & c1 & Lp1 & _ & _ & Mq1 & _ & Pq & _).
        assert (q1 = q) as -> by congruence. assert (c1 = c) as -> by congruence.
        assert (N1 : num_ports (m_graph m) c (rev_dir d) = 1) by (by rewrite <- ports_length, Pq).
        set (i0 := match d with Incoming => _ | Outgoing => _ end) in HD. set (j0 := match d with Incoming => num_ports _ _ Outgoing | Outgoing => _ end) in HD.
        assert (Hij : i0 + j0 = num_ports (m_graph m) c d + 2) by (unfold i0, j0; destruct d; cbn [rev_dir] in *; lia).
        destruct (set_num_ports (m_graph m) c i0 j0) as [[g' log]|] eqn:E.
        * destruct (HD g' log eq_refl) as (m' & i & Ef & GP & Em'). rewrite Ef. split; [done|]. intros Hf [S1 S2]. unfold few in Hf. rewrite Hl in Hf.
          apply set_num_ports_grow in E as Eg'. destruct Eg' as [G1 G2]. rewrite Hij in G2.
          pose proof (next_pow2_le (num_ports (m_graph m) c d + 2) ltac:(lia)) as Hp2.
          unfold space. rewrite Em'.
          split; change (2 ^ 31 - 1)%N with 2147483647%N in *; lia.
        * assert (m_get_free w m p = Panic) as ->.
          { rewrite Eg. unfold m_add_port, m_set_num_ports. unfold i0, j0 in E. by rewrite E. }
          intros [[S1 S2] Hf]. unfold few in Hf. rewrite Hl in Hf. change (2 ^ 31 - 1)%N with 2147483647%N in *.
          destruct IG as (fnl & F & IG). pose proof (set_num_ports_spec (m_graph m) fnl F c i0 j0 IG) as HS. rewrite E in HS. unfold max_index in HS.
          pose proof (next_pow2_le (i0 + j0) ltac:(lia)) as Hp2.
          destruct HS as [H|[H|[(mm & _ & _ & H)|(mm & _ & _ & H)]]]; lia.
    - destruct (lk (m_graph m) p) as [l|] eqn:Lp.
      + destruct (match d with Incoming => add_node (po_max_offset w) (m_graph m) 2 1 | Outgoing => add_node (po_max_offset w) (m_graph m) 1 2 end) as [[g1 c]|] eqn:Ea.
        * destruct (gf_B w Hw1 m I p n d Mp Cn l g1 c ltac:(lia) Fp Lp Ea) as (m' & i & E & GP & GL). rewrite E. split; [done|]. intros _.
          assert (length (pg_nodes g1) <= length (pg_nodes (m_graph m)) + 1 /\ length (pg_pmeta g1) <= length (pg_pmeta (m_graph m)) + 3) as [G1 G2].
          { destruct d; by apply add_node_le in Ea. }
          unfold same_len in GL. unfold space. change (2 ^ 31 - 1)%N with 2147483647%N. lia.
        * assert (m_get_free w m p = Panic) as ->.
          { unfold m_get_free. rewrite (pm_dir _ _ _ _ Mp), (r_port_link w _ R _ _ Mp), bind_Ok, Fp, Lp, Ea. done. }
          intros [[S1 S2] _]. change (2 ^ 31 - 1)%N with 2147483647%N in *.
          destruct IG as (fnl & F & IG).
          destruct d.
          -- pose proof (add_node_spec (po_max_offset w) (m_graph m) fnl F 2 1 IG ltac:(lia) ltac:(lia)) as HS. rewrite Ea in HS. unfold max_index in HS. lia.
          -- pose proof (add_node_spec (po_max_offset w) (m_graph m) fnl F 1 2 IG ltac:(lia) ltac:(lia)) as HS. rewrite Ea in HS. unfold max_index in HS. lia.
      + destruct (gf_A w m I p n d Mp Fp Lp) as [E GP]. rewrite E. split; [done|tauto].
  Qed.

  Lemma gf_unknown m p : pmeta (m_graph m) p = None -> m_get_free w m p = Ok (m, inl (UnknownPort p)).
  Proof. intros H. unfold m_get_free, port_direction. by rewrite H. Qed.
  Lemma gf_roomy m m' p s i x : vis m x -> gf_post w m m' p s i -> roomy w m x -> roomy w m' x.
  Proof.
    intros Vx GP. destruct (decide (x = p)) as [->|Hx].
    - intros _. right. exists i. split; [|by eapply gf_lk]. eapply elem_of_list_lookup_2. by eapply gf_i.
    - intros [H|(y & Hy & Ly)]; [left; by rewrite (gf_raws _ _ _ _ _ _ GP)|].
      destruct (lk (m_graph m') y) as [t|] eqn:Et; [|right; exists y; split; [by rewrite (gf_raws _ _ _ _ _ _ GP)|done]].
      right. exists y. split; [by rewrite (gf_raws _ _ _ _ _ _ GP)|]. exfalso.
      assert (I' : minv w m' []) by apply GP. assert (V' : vis m' x) by (by apply (vsame_vis m m' x (gf_vsame _ _ _ _ _ _ GP))).
      rewrite <- (gf_raws _ _ _ _ _ _ GP) in Hy by done. apply elem_of_list_lookup_1 in Hy as [k Hk].
      pose proof V' as (nx & dx & Mx & Cx). destruct (raws_some w Hw1 m' I' x k y nx dx Mx Cx Hk) as (Fy & _).
      destruct (lk_psub w Hw1 m' I' y t Et Fy) as (_ & Vt & Ht).
      assert (RL : rlink m' (x, k) (psub w m' t)) by (split; [done|]; split; [done|]; by exists y, t).
      apply (gf_rlink _ _ _ _ _ _ GP) in RL as (_ & _ & s0 & t0 & Hs0 & _ & L0). cbn [fst snd] in Hs0.
      rewrite <- (gf_raws _ _ _ _ _ _ GP) in Hs0 by done. congruence.
  Qed.

  Lemma m_link_ok m a b na da nb db m' r : minv w m [] ->
    pmeta (m_graph m) a = Some (na, da) -> is_copy m na = false -> pmeta (m_graph m) b = Some (nb, db) -> is_copy m nb = false ->
    roomy w m a -> roomy w m b -> m_link_ports w m a b = Ok (m', r) ->
    minv w m' [] /\ vsame m m' /\
    match r with
    | inl e => da = db /\ forall x y, rlink m' x y <-> rlink m x y
    | inr (sa, sb) => db = rev_dir da /\ sa.1 = a /\ sb.1 = b /\ (forall y, ~ rlink m sa y) /\ (forall y, ~ rlink m sb y) /\
        forall x y, rlink m' x y <-> rlink m x y \/ (x = sa /\ y = sb) \/ (x = sb /\ y = sa)
    end.
  Proof.
    intros I Ma Ca Mb Cb Ra Rb. unfold m_link_ports.
    assert (Va : vis m a) by (by exists na, da). assert (Vb : vis m b) by (by exists nb, db).
    pose proof (gf_main m a na da 0 I Ma Ca Ra) as G1. destruct (m_get_free w m a) as [[m1 [e|[sa ia]]]|]; [done| |done].
    destruct G1 as [G1 _]. pose proof (gf_vsame _ _ _ _ _ _ G1) as S1. rewrite bind_Ok.
    destruct (proj2 (vs_pm _ _ S1 a na da)) as [Ma1 Ca1]; [done|]. destruct (proj2 (vs_pm _ _ S1 b nb db)) as [Mb1 Cb1]; [done|].
    pose proof (gf_main m1 b nb db 0 (gf_inv _ _ _ _ _ _ G1) Mb1 Cb1 (gf_roomy _ _ _ _ _ _ Vb G1 Rb)) as G2.
    destruct (m_get_free w m1 b) as [[m2 [e|[sb ib]]]|]; [done| |done].
    destruct G2 as [G2 _]. pose proof (gf_vsame _ _ _ _ _ _ G2) as S2. rewrite bind_Ok.
    pose proof (gf_inv _ _ _ _ _ _ G2) as I2. pose proof (mi_reach _ _ _ I2) as R2.
    destruct (proj2 (vs_pm _ _ S2 a na da)) as [Ma2 Ca2]; [done|]. destruct (proj2 (vs_pm _ _ S2 b nb db)) as [Mb2 Cb2]; [done|].
    assert (V1b : vis m1 b) by (by exists nb, db). assert (V1a : vis m1 a) by (by exists na, da).
    assert (V2b : vis m2 b) by (by exists nb, db). assert (V2a : vis m2 a) by (by exists na, da).
    pose proof (gf_s _ _ _ _ _ _ G1) as Hsa. pose proof (gf_s _ _ _ _ _ _ G2) as Hsb.
    assert (RL : forall x y, rlink m2 x y <-> rlink m x y).
    { intros x y. by rewrite (gf_rlink _ _ _ _ _ _ G2), (gf_rlink _ _ _ _ _ _ G1). }
    assert (Hib : raws m2 b !! sb.2 = Some ib) by apply G2.
    assert (Hia : raws m2 a !! sa.2 = Some ia).
    { destruct (decide (a = b)) as [->|Hab].
      - rewrite (gf_old _ _ _ _ _ _ G2 sa.2 ia (gf_i _ _ _ _ _ _ G1) (gf_lk _ _ _ _ _ _ G1)). apply G1.
      - rewrite (gf_raws _ _ _ _ _ _ G2) by done. apply G1. }
    destruct (raws_some w Hw1 m2 I2 _ _ _ _ _ Ma2 Ca2 Hia) as (Fa & [ca Mia] & _).
    destruct (raws_some w Hw1 m2 I2 _ _ _ _ _ Mb2 Cb2 Hib) as (Fb & [cb Mib] & _).
    assert (SV : vsame m m2) by (by eapply vsame_trans).
    destruct (v_link_any w (m_graph m2) R2 ia ib) as (g' & r' & E & He). rewrite E, bind_Ok.
    intros [= <- <-]. destruct r' as [e|z].
    - rewrite (He e eq_refl). replace (m_with_graph m2 (m_graph m2)) with m2 by (by destruct m2). split; [done|]. split; [done|]. split; [|done].
      destruct (dir_rev_or da db) as [->| ->]; [done|]. exfalso.
      assert (lk (m_graph m2) ia = None).
      { destruct (decide (a = b)) as [->|Hab].
        - rewrite (gf_old _ _ _ _ _ _ G2 sa.2 ia (gf_i _ _ _ _ _ _ G1) (gf_lk _ _ _ _ _ _ G1)). apply G1.
        - destruct (lk (m_graph m2) ia) as [t|] eqn:Et; [|done]. exfalso.
          destruct (lk_psub w Hw1 m2 I2 ia t Et Fa) as (_ & Vt & Ht).
          assert (RL' : rlink m2 (a, sa.2) (psub w m2 t)) by (split; [done|]; split; [done|]; by exists ia, t).
          apply (gf_rlink _ _ _ _ _ _ G2) in RL' as (_ & _ & s0 & t0 & Hs0 & _ & L0). cbn [fst snd] in Hs0.
          rewrite (gf_i _ _ _ _ _ _ G1) in Hs0. injection Hs0 as <-. rewrite (gf_lk _ _ _ _ _ _ G1) in L0. done. }
      destruct (v_link w _ R2 ia ib da ca cb Mia Mib) as (g2 & E2 & _); [done|apply G2|]. congruence.
    - destruct (link_raw w Hw1 m2 I2 ia ib g' z Fa Fb E) as (I3 & Sh & _ & RL3 & Hlk3). split; [done|]. split; [by eapply vsame_trans, vsame_shape|].
      destruct (v_link_inv w _ R2 ia ib g' z E) as (-> & La & Lb & d0 & n1 & n2 & M1 & M2).
      assert (db = rev_dir da) as -> by congruence. split; [done|]. split; [done|]. split; [done|].
      assert (Hno : forall s i y, vis m2 s.1 -> raws m2 s.1 !! s.2 = Some i -> lk (m_graph m2) i = None -> ~ rlink m s y).
      { intros s i y Vs Hs Ls. rewrite <- RL. intros (_ & _ & s0 & t0 & Hs0 & _ & L0). congruence. }
      split; [intros y; by apply (Hno sa ia y); rewrite ?Hsa|]. split; [intros y; by apply (Hno sb ib y); rewrite ?Hsb|].
      intros x y. rewrite RL3, RL. unfold rawof.
      assert (HU : forall x s i, vis m2 x.1 -> vis m2 s.1 -> raws m2 s.1 !! s.2 = Some i -> raws m2 x.1 !! x.2 = Some i -> x = s).
      { intros x0 s i V0 Vs Hs H0. destruct (raws_inj w Hw1 m2 I2 _ _ _ _ _ V0 Vs H0 Hs). destruct x0, s; cbn in *; congruence. }
      split.
      + intros [?|(Vx & Vy & [[A B]|[A B]])]; [by left| |].
        * right; left. split; [eapply (HU x sa ia)|eapply (HU y sb ib)]; rewrite ?Hsa, ?Hsb; done.
        * right; right. split; [eapply (HU x sb ib)|eapply (HU y sa ia)]; rewrite ?Hsa, ?Hsb; done.
      + intros [?|[[-> ->]|[-> ->]]]; [by left| |]; right; rewrite Hsa, Hsb; naive_solver.
  Qed.
  Lemma m_link_total m a b na da nb db : minv w m [] ->
    pmeta (m_graph m) a = Some (na, da) -> is_copy m na = false -> pmeta (m_graph m) b = Some (nb, db) -> is_copy m nb = false ->
    roomy w m a -> roomy w m b -> few m a -> few m b -> space 2 m -> exists x, m_link_ports w m a b = Ok x.
  Proof.
    intros I Ma Ca Mb Cb Ra Rb Wa Wb Hs. unfold m_link_ports.
    assert (Va : vis m a) by (by exists na, da). assert (Vb : vis m b) by (by exists nb, db).
    pose proof (gf_main m a na da 1 I Ma Ca Ra) as G1. destruct (m_get_free w m a) as [[m1 [e|[sa ia]]]|]; [done| |].
    2: { destruct G1. split; [|done]. unfold space in *. change (2 ^ 31 - 1)%N with 2147483647%N in *. lia. }
    destruct G1 as [G1 Hs1]. specialize (Hs1 Wa Hs). pose proof (gf_vsame _ _ _ _ _ _ G1) as S1. rewrite bind_Ok.
    destruct (proj2 (vs_pm _ _ S1 a na da)) as [Ma1 Ca1]; [done|]. destruct (proj2 (vs_pm _ _ S1 b nb db)) as [Mb1 Cb1]; [done|].
    pose proof (gf_main m1 b nb db 0 (gf_inv _ _ _ _ _ _ G1) Mb1 Cb1 (gf_roomy _ _ _ _ _ _ Vb G1 Rb)) as G2.
    destruct (m_get_free w m1 b) as [[m2 [e|[sb ib]]]|] eqn:E2; [done| |].
    - rewrite bind_Ok. destruct (v_link_any w (m_graph m2) (mi_reach _ _ _ (gf_inv _ _ _ _ _ _ (proj1 G2))) ia ib) as (g' & r' & E & _). rewrite E, bind_Ok. eexists. done.
    - exfalso. destruct (decide (a = b)) as [->|Hab].
      + destruct (is_multi m1 b) eqn:Fb.
        * destruct (gf_C w Hw1 m1 (gf_inv _ _ _ _ _ _ G1) b nb db Mb1 Cb1 Fb) as [(j & i & A & B & E)|(q & c & _ & _ & _ & _ & Hfull & _)]; [congruence|].
          eapply (Hfull ia); [eapply elem_of_list_lookup_2, G1|apply G1].
        * pose proof (gf_i _ _ _ _ _ _ G1) as Hi. rewrite raws_single in Hi by done. apply list_lookup_singleton_Some in Hi as [_ <-].
          destruct (gf_A w m1 (gf_inv _ _ _ _ _ _ G1) b nb db Mb1 Fb (gf_lk _ _ _ _ _ _ G1)) as [E _]. congruence.
      + apply G2. split; [done|]. unfold few. by rewrite (gf_raws _ _ _ _ _ _ G1).
  Qed.
End link.
