(** Inserting into a [MultiPortGraph]. *)
From Verif Require Export InsertProofs MultiThms.

Section into_multi.
  Context (w : N) (Hw : (2 < w <= 63)%N).
  Let Hw1 : (1 < w <= 63)%N.
  Proof. lia. Qed.

  (** *** Calls of [get_free_multiport] that need a new subport or not *)
  Definition fewf (m : mpg) (p : nat) : Prop := few m p \/ exists s, s ∈ raws m p /\ lk (m_graph m) s = None.
  Lemma gf_free m p n d s : minv w m [] -> pmeta (m_graph m) p = Some (n, d) -> is_copy m n = false ->
    s ∈ raws m p -> lk (m_graph m) s = None -> exists x, m_get_free w m p = Ok (m, inr x).
  Proof.
    intros I Mp Cn Hs Ls. destruct (is_multi m p) eqn:Fp.
    - destruct (gf_C w Hw1 m I p n d Mp Cn Fp) as [(j & i & A & B & E)|(q & c & _ & _ & _ & _ & Hfull & _)]; [eauto|].
      by destruct (Hfull s Hs).
    - rewrite raws_single in Hs by done. apply elem_of_list_singleton in Hs as ->.
      destruct (gf_A w m I p n d Mp Fp Ls) as [E _]. eauto.
  Qed.
  Definition grows (k : nat) (m m' : mpg) : Prop :=
    (length (pg_nodes (m_graph m')) <= length (pg_nodes (m_graph m)) + k)%nat /\
    (N.of_nat (length (pg_pmeta (m_graph m'))) <= N.of_nat (length (pg_pmeta (m_graph m))) + N.of_nat k * 32768)%N.
  Lemma gf_grows m p n d m' x : minv w m [] -> pmeta (m_graph m) p = Some (n, d) -> is_copy m n = false -> roomy w m p ->
    few m p -> m_get_free w m p = Ok (m', x) -> grows 1 m m'.
  Proof.
    intros I Mp Cn Hroom Hf EE. pose proof (mi_reach _ _ _ I) as R. pose proof (max_off w ltac:(lia)) as Hmx.
    assert (SS : grows 1 m m) by (unfold grows; lia).
    destruct (is_multi m p) eqn:Fp.
    - destruct (gf_C w Hw1 m I p n d Mp Cn Fp) as [(j & i & A & B & E)|(q & c & Lp & Mq & Cc & Hr & Hfull & Eg)]; [assert (m' = m) as -> by congruence; done|].
      assert (Hl : length (raws m p) = num_ports (m_graph m) c d) by (by rewrite Hr, ports_length).
      destruct Hroom as [Hroom|(s & Hs & Ls)]; [|by destruct (Hfull s Hs)]. rewrite Hl in Hroom.
      pose proof (gf_D w Hw1 m I p n d Mp Cn q c Fp Lp Mq Cc Hr Hfull Hroom) as HD. cbn zeta in HD.
      destruct (flag_vis w m I p n d Fp Mp Cn) as (q1 & c1 & Lp1 & _ & _ & Mq1 & _ & Pq & _).
      assert (q1 = q) as -> by congruence. assert (c1 = c) as -> by congruence.
      assert (N1 : num_ports (m_graph m) c (rev_dir d) = 1) by (by rewrite <- ports_length, Pq).
      set (i0 := match d with Incoming => _ | Outgoing => _ end) in HD. set (j0 := match d with Incoming => num_ports _ _ Outgoing | Outgoing => _ end) in HD.
      assert (Hij : i0 + j0 = num_ports (m_graph m) c d + 2) by (unfold i0, j0; destruct d; cbn [rev_dir] in *; lia).
      destruct (set_num_ports (m_graph m) c i0 j0) as [[g' log]|] eqn:E.
      * destruct (HD g' log eq_refl) as (m1 & i & Ef & GP & Em'). rewrite EE in Ef. injection Ef as <- ->. unfold few in Hf. rewrite Hl in Hf.
        apply set_num_ports_grow in E as Eg'. destruct Eg' as [G1 G2]. rewrite Hij in G2.
        pose proof (next_pow2_le (num_ports (m_graph m) c d + 2) ltac:(lia)) as Hp2.
        unfold grows. rewrite Em'. lia.
      * assert (m_get_free w m p = Panic) as Ep; [|congruence].
        rewrite Eg. unfold m_add_port, m_set_num_ports. unfold i0, j0 in E. by rewrite E.
    - destruct (lk (m_graph m) p) as [l|] eqn:Lp.
      + destruct (match d with Incoming => add_node (po_max_offset w) (m_graph m) 2 1 | Outgoing => add_node (po_max_offset w) (m_graph m) 1 2 end) as [[g1 c]|] eqn:Ea.
        * destruct (gf_B w Hw1 m I p n d Mp Cn l g1 c ltac:(lia) Fp Lp Ea) as (m1 & i & E & GP & GL). rewrite EE in E. injection E as <- ->.
          assert (length (pg_nodes g1) <= length (pg_nodes (m_graph m)) + 1 /\ length (pg_pmeta g1) <= length (pg_pmeta (m_graph m)) + 3) as [G1 G2].
          { destruct d; by apply add_node_le in Ea. }
          unfold same_len in GL. unfold grows. lia.
        * assert (m_get_free w m p = Panic) as Ep; [|congruence].
          unfold m_get_free. rewrite (pm_dir _ _ _ _ Mp), (r_port_link w _ R _ _ Mp), bind_Ok, Fp, Lp, Ea. done.
      + destruct (gf_A w m I p n d Mp Fp Lp) as [E GP]. assert (m' = m) as -> by congruence. done.
  Qed.
  Lemma gf_main2 m p n d : minv w m [] -> pmeta (m_graph m) p = Some (n, d) -> is_copy m n = false -> roomy w m p ->
    fewf m p -> space 1 m -> exists m' s i, m_get_free w m p = Ok (m', inr (s, i)) /\ gf_post w m m' p s i /\ grows 1 m m'.
  Proof.
    intros I Mp Cn Hroom Hf Hs. pose proof (gf_main w Hw m p n d 0 I Mp Cn Hroom) as G.
    destruct Hf as [Hf|(s & H1 & H2)].
    - destruct (m_get_free w m p) as [[m' [e|[s i]]]|] eqn:E; [done| |by destruct G].
      destruct G as [G1 _]. exists m', s, i. split; [done|]. split; [done|]. by eapply gf_grows.
    - destruct (gf_free m p n d s I Mp Cn H1 H2) as [[s' i] E]. rewrite E in *. exists m, s', i.
      split; [done|]. split; [apply G|]. unfold grows. lia.
  Qed.
  Lemma gf_fewf m m' p s i x : vis m x -> gf_post w m m' p s i -> fewf m x -> fewf m' x.
  Proof.
    intros Vx GP. destruct (decide (x = p)) as [->|Hx].
    - intros _. right. exists i. split; [|by eapply gf_lk]. eapply elem_of_list_lookup_2. by eapply gf_i.
    - intros [H|(y & Hy & Ly)]; [left; unfold few; by rewrite (gf_raws _ _ _ _ _ _ GP)|].
      destruct (lk (m_graph m') y) as [t|] eqn:Et; [|right; exists y; split; [by rewrite (gf_raws _ _ _ _ _ _ GP)|done]].
      exfalso. assert (I' : minv w m' []) by apply GP. assert (V' : vis m' x) by (by apply (vsame_vis m m' x (gf_vsame _ _ _ _ _ _ GP))).
      rewrite <- (gf_raws _ _ _ _ _ _ GP) in Hy by done. apply elem_of_list_lookup_1 in Hy as [k Hk].
      pose proof V' as (nx & dx & Mx & Cx). destruct (raws_some w Hw1 m' I' x k y nx dx Mx Cx Hk) as (Fy & _).
      destruct (lk_psub w Hw1 m' I' y t Et Fy) as (_ & Vt & Ht).
      assert (RL : rlink m' (x, k) (psub w m' t)) by (split; [done|]; split; [done|]; by exists y, t).
      apply (gf_rlink _ _ _ _ _ _ GP) in RL as (_ & _ & s0 & t0 & Hs0 & _ & L0). cbn [fst snd] in Hs0.
      rewrite (gf_raws _ _ _ _ _ _ GP) in Hk by done. congruence.
  Qed.
  Lemma m_link_total2 m a b na da nb db : minv w m [] ->
    pmeta (m_graph m) a = Some (na, da) -> is_copy m na = false -> pmeta (m_graph m) b = Some (nb, db) -> is_copy m nb = false ->
    roomy w m a -> roomy w m b -> fewf m a -> fewf m b -> space 2 m ->
    exists m' r, m_link_ports w m a b = Ok (m', r) /\ grows 2 m m'.
  Proof.
    intros I Ma Ca Mb Cb Ra Rb Fa Fb Hs. unfold m_link_ports.
    assert (Vb : vis m b) by (by exists nb, db).
    destruct (gf_main2 m a na da I Ma Ca Ra Fa) as (m1 & sa & ia & E1 & G1 & Hs1).
    { unfold space in *. change (2 ^ 31 - 1)%N with 2147483647%N in *. clear -Hs. lia. }
    rewrite E1, bind_Ok.
    pose proof (gf_vsame _ _ _ _ _ _ G1) as S1. destruct (proj2 (vs_pm _ _ S1 b nb db)) as [Mb1 Cb1]; [done|].
    destruct (gf_main2 m1 b nb db (gf_inv _ _ _ _ _ _ G1) Mb1 Cb1 (gf_roomy w Hw _ _ _ _ _ _ Vb G1 Rb) (gf_fewf _ _ _ _ _ _ Vb G1 Fb))
      as (m2 & sb & ib & E2 & G2 & Hs2).
    { unfold space, grows in *. change (2 ^ 31 - 1)%N with 2147483647%N in *. clear -Hs Hs1. lia. }
    rewrite E2, bind_Ok.
    destruct (v_link_any w (m_graph m2) (mi_reach _ _ _ (gf_inv _ _ _ _ _ _ G2)) ia ib) as (g' & r' & E & _). rewrite E, bind_Ok.
    eexists _, _. split; [done|]. apply link_ports_grow in E as [L1 L2]. unfold grows in *. cbn [m_graph m_with_graph]. rewrite L1, L2. clear -Hs1 Hs2. lia.
  Qed.
  (** A port whose subports are all linked has as many links. *)
  Lemma port_full m a : minv w m [] -> vis m a -> (forall s, s ∈ raws m a -> lk (m_graph m) s <> None) ->
    exists l : list subport, length l = length (raws m a) /\ NoDup l /\ forall z, z ∈ l -> z.1 = a /\ exists v, mlinked w m z v.
  Proof.
    intros I Va Hfull. exists (((fun k => (a, k) : subport)) <$> seq 0 (length (raws m a))). split; [by rewrite fmap_length, seq_length|]. split.
    - apply NoDup_fmap_2_strong; [|apply NoDup_seq]. intros x y _ _ [=]. done.
    - intros z (k & -> & Hk)%elem_of_list_fmap. split; [done|]. apply elem_of_seq in Hk.
      destruct (lookup_lt_is_Some_2 (raws m a) k ltac:(lia)) as [s Hs]. pose proof Va as (n & d & Ma & Ca).
      destruct (raws_some w Hw1 m I a k s n d Ma Ca Hs) as (Fs & _).
      destruct (lk (m_graph m) s) as [t|] eqn:Et; [|by destruct (Hfull s); [by eapply elem_of_list_lookup_2|]].
      destruct (lk_psub w Hw1 m I s t Et Fs) as (_ & Vt & Ht). exists (psub w m t). apply (mlinked_iff w Hw1 m I).
      split; [done|]. split; [done|]. by exists s, t.
  Qed.
  Lemma below_room m a B : minv w m [] -> vis m a -> (N.of_nat B <= po_max_offset w + 1)%N -> (N.of_nat B <= 32767)%N ->
    (forall l, NoDup l -> (forall z : subport, z ∈ l -> z.1 = a /\ exists v, mlinked w m z v) -> length l < B) -> roomy w m a /\ fewf m a.
  Proof.
    intros I Va H1 H2 Hb. unfold roomy, fewf, few.
    destruct (decide (Exists (fun s => lk (m_graph m) s = None) (raws m a))) as [(s & Hs & Ls)%Exists_exists|Hn].
    - split; right; by exists s.
    - destruct (port_full m a I Va) as (l & L1 & L2 & L3).
      { intros s Hs Ls. apply Hn, Exists_exists. eauto. }
      pose proof (Hb l L2 L3) as Hl. rewrite L1 in Hl. split; left; clear -Hl H1 H2; lia.
  Qed.

  (** *** The calls that [insert_graph] makes *)
  Context (m0 : mpg) (Hm0 : mreach w m0).
  Context (og : pg) (Hro : reach w og) (L : list nat) (Nn : nat -> Prop).
  Context (Hmax : forall n d, Nn n -> (N.of_nat (num_ports og n d) <= po_max_offset w)%N).
  Context (B KL : nat) (HB1 : (N.of_nat B <= po_max_offset w + 1)%N) (HB2 : (N.of_nat B <= 32767)%N).
  Context (HnL : (N.of_nat (length (pg_nodes (m_graph m0)) + length L + 2 * KL) <= 2 ^ 31 - 1)%N).
  Context (HpL : (N.of_nat (length (pg_pmeta (m_graph m0)) + sum_list (n_ports og <$> L)) + 65536 * N.of_nat KL <= 2 ^ 31 - 1)%N).

  Definition m_good (R : list (nat * nat)) (j : nat) (m : mpg) : Prop :=
    mreach w m /\ j <= KL /\ length R <= length L /\ sum_list (n_ports og <$> R.*1) <= sum_list (n_ports og <$> L) /\
    (N.of_nat (length (pg_nodes (m_graph m)) + length L + 2 * (KL - j)) <= N.of_nat (length R) + (2 ^ 31 - 1))%N /\
    (N.of_nat (length (pg_pmeta (m_graph m)) + sum_list (n_ports og <$> L)) + 65536 * N.of_nat (KL - j) <=
      N.of_nat (sum_list (n_ports og <$> R.*1)) + (2 ^ 31 - 1))%N.
  Lemma m_good_nil : m_good [] 0 m0.
  Proof. unfold m_good. rewrite !Nat.sub_0_r. cbn. split_and!; [done|lia|lia|lia|done|done]. Qed.

  Lemma og_small2 n : (N.of_nat (num_ports og n Incoming) <= 65534 /\ N.of_nat (num_ports og n Incoming + num_ports og n Outgoing) <= 65535)%N.
  Proof.
    pose proof (reach_inv _ _ Hro) as (f & F & I). unfold num_ports. destruct (nmeta og n) as [m|] eqn:Hm; [|done].
    pose proof (inv_meta_ok _ _ _ I _ _ Hm) as Hok. unfold meta_ok in Hok. cbn [nm_num]. clear -Hok. lia.
  Qed.
  Lemma sub_sum (R : list nat) old : R ++ [old] ⊆+ L ->
    length R + 1 <= length L /\ sum_list (n_ports og <$> R) + n_ports og old <= sum_list (n_ports og <$> L).
  Proof.
    intros Hsub. split.
    - apply submseteq_length in Hsub. rewrite app_length in Hsub. cbn in Hsub. lia.
    - apply submseteq_Permutation in Hsub as [k Hk]. assert (HP : sum_list (n_ports og <$> L) = sum_list (n_ports og <$> ((R ++ [old]) ++ k))) by (by rewrite Hk).
      rewrite HP, !fmap_app, !sum_list_with_app. cbn. unfold sum_list_with. lia.
  Qed.
  Lemma sum_snoc (R : list (nat * nat)) old n : sum_list (n_ports og <$> (R ++ [(old, n)]).*1) = sum_list (n_ports og <$> R.*1) + n_ports og old.
  Proof. rewrite !fmap_app, sum_list_with_app. cbn. lia. Qed.
  Lemma m_H_add R j (m : mpg) old : m_good R j m -> Nn old -> old ∉ R.*1 -> R.*1 ++ [old] ⊆+ L ->
    ret False (t_add (t_m w) m (num_ports og old Incoming) (num_ports og old Outgoing)) (fun '(m', n) =>
      m_good (R ++ [(old, n)]) j m' /\ m_contains_node m n = false /\ m_contains_node m' n = true /\ (forall d, num_ports (m_graph m') n d = num_ports og old d) /\
      (forall x, x <> n -> m_contains_node m' x = m_contains_node m x) /\
      (forall x d, x <> n -> m_contains_node m x = true -> ports (m_graph m') x d = ports (m_graph m) x d) /\
      (forall x y, mlinked w m' x y <-> mlinked w m x y)).
  Proof.
    intros (Hr & Hj & R1 & R2 & C1 & C2) Hn Hold Hsub. destruct (og_small2 old) as [S1 S2]. cbn [t_m t_add].
    destruct (sub_sum _ _ Hsub) as [Q1 Q2]. rewrite fmap_length in Q1.
    pose proof (Hmax old Incoming Hn) as M1. pose proof (Hmax old Outgoing Hn) as M2.
    change (2 ^ 31 - 1)%N with 2147483647%N in *.
    destruct (m_add_node w m _ _) as [[m' n]|] eqn:Ea.
    2: { cbn. unfold m_add_node in Ea. pose proof (mi_reach _ _ _ (mreach_minv w Hw m Hr)) as Rg.
      pose proof (reach_inv _ _ Rg) as (fnl & F & IG).
      pose proof (add_node_spec (po_max_offset w) (m_graph m) fnl F _ _ IG S1 S2) as HS.
      destruct (add_node _ _ _ _) as [[]|]; [done|]. unfold max_index, n_ports in *.
      clear Ea IG Rg Hr Hm0 Hro HB1 HB2 Hmax HnL HpL Hsub Hold. lia. }
    cbn. destruct (C74_multi_add_remove_pf w m Hw Hr) as (HA & _). destruct (HA _ _ m' n S1 S2 Ea) as (H1 & H2 & H3 & H4 & H5 & H6 & _ & _ & H7).
    split_and!; [|done|done|by intros []|..|done].
    - split; [done|]. split; [done|]. unfold m_add_node in Ea. apply bind_inv in Ea as ([g' n'] & Ea & [= <- <-]).
      apply add_node_le in Ea as [G1 G2]. cbn [m_graph m_with_graph]. rewrite app_length, sum_snoc. cbn [length].
      change (2 ^ 31 - 1)%N with 2147483647%N in *. fold (n_ports og old) in G2. clear -G1 G2 C1 C2 Q1 Q2. lia.
    - intros x Hx. by apply H6.
    - intros x d Hx Hc. by apply H6.
  Qed.
  Lemma m_H_link R j (m : mpg) a b na nb d : m_good R j m -> (True -> j < KL) ->
    (True -> forall l, NoDup l -> (forall z : subport, z ∈ l -> z.1 = a /\ exists v, mlinked w m z v) -> length l < B) ->
    (True -> forall l, NoDup l -> (forall z : subport, z ∈ l -> z.1 = b /\ exists v, mlinked w m z v) -> length l < B) ->
    m_contains_node m na = true -> m_contains_node m nb = true ->
    a ∈ ports (m_graph m) na d -> b ∈ ports (m_graph m) nb (rev_dir d) ->
    ret False (t_link (t_m w) m a b) (fun '(m', r) => (forall x, m_contains_node m' x = m_contains_node m x) /\
      (forall x d, m_contains_node m x = true -> ports (m_graph m') x d = ports (m_graph m) x d) /\
      match r with
      | inr _ => m_good R (j + 1) m' /\ exists x y, x.1 = a /\ y.1 = b /\ (forall z, ~ mlinked w m x z) /\ (forall z, ~ mlinked w m y z) /\ x <> y /\
          forall u v, mlinked w m' u v <-> mlinked w m u v \/ (u = x /\ v = y) \/ (u = y /\ v = x)
      | inl e => m_good R j m' /\ ~ True /\ (exists p, e = AlreadyLinked p) /\ (forall x y, mlinked w m' x y <-> mlinked w m x y) /\
          exists x y : subport, mlinked w m x y /\ (x.1 = a \/ x.1 = b)
      end).
  Proof.
    intros (Hr & Hj & R1 & R2 & C1 & C2) Hj' Ba Bb [Hna Cna]%contains_node_m [Hnb Cnb]%contains_node_m Ha Hb.
    specialize (Hj' Logic.I). specialize (Ba Logic.I). specialize (Bb Logic.I).
    pose proof (mreach_minv w Hw m Hr) as I. pose proof (mi_reach _ _ _ I) as R0.
    apply (r_elem w _ R0) in Ha, Hb. assert (Va' : vis m a) by (by exists na, d). assert (Vb' : vis m b) by (by exists nb, (rev_dir d)).
    apply vis_contains in Va' as Va. apply vis_contains in Vb' as Vb.
    assert (Hab : a <> b). { intros <-. rewrite Ha in Hb. injection Hb. by destruct d. }
    destruct (below_room m a B I Va' HB1 HB2 Ba) as [Ra Fa]. destruct (below_room m b B I Vb' HB1 HB2 Bb) as [Rb Fb].
    destruct (m_link_total2 m a b na d nb (rev_dir d) I Ha Cna Hb Cnb Ra Rb Fa Fb) as (m' & r & El & Gr).
    { unfold space. change (2 ^ 31 - 1)%N with 2147483647%N in *. clear -C1 C2 Hj' R1 R2. lia. }
    cbn [t_m t_link]. rewrite El. cbn.
    destruct (C56_multi_link_partial_pf w m a b d Hw Hr Va Vb (pm_dir _ _ _ _ Ha) (pm_dir _ _ _ _ Hb)) as [HL _].
    { by apply (room_roomy w Hw1 m I). }
    { by apply (room_roomy w Hw1 m I). }
    destruct (HL m' r El) as (Hr' & [Hsn _] & x & y & -> & Ex & Ey & Nx & Ny & Hlk & _).
    split; [intros z; apply Hsn|]. split; [intros z c Hz; by apply Hsn|]. split.
    - split; [done|]. unfold grows in Gr. change (2 ^ 31 - 1)%N with 2147483647%N in *. clear -Gr C1 C2 Hj' R1 R2. lia.
    - exists x, y. split_and!; try done. congruence.
  Qed.
  Lemma m_H_end R j (m : mpg) x y : m_good R j m -> mlinked w m x y -> exists n d, m_contains_node m n = true /\ x.1 ∈ ports (m_graph m) n d.
  Proof.
    intros [Hr _] [Hx _]. pose proof (mreach_minv w Hw m Hr) as I. pose proof (mi_reach _ _ _ I) as R0.
    apply vis_contains in Hx as (n & d & Mx & Cx). exists n, d. split; [|by apply (r_elem w _ R0)].
    apply contains_node_m. split; [by eapply (r_node w _ R0)|done].
  Qed.
  Lemma m_good_reach R j m : m_good R j m -> reach w (m_graph m).
  Proof. intros [Hr _]. apply (mi_reach _ _ _ (mreach_minv w Hw m Hr)). Qed.
End into_multi.
