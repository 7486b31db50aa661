(** The loops of [copy_in_parent] on a [MultiPortGraph]. *)
From Verif Require Export InsertThms MCopySpec.

Section copy.
  Context (w : N) (Hw : (2 < w <= 63)%N) (m0 : mpg) (Hm0 : mreach w m0).
  Context (nodes : list nat) (Hnd : NoDup nodes) (Hin : forall n, n ∈ nodes -> m_contains_node m0 n = true).
  Notation g0 := (m_graph m0).
  Context (Hmax : forall n d, n ∈ nodes -> (N.of_nat (num_ports g0 n d) <= po_max_offset w)%N).
  Context (B KL : nat) (HB1 : (N.of_nat B <= po_max_offset w + 1)%N) (HB2 : (N.of_nat B <= 32767)%N).
  Context (HB : forall p (l : list subport), NoDup l -> (forall x, x ∈ l -> x.1 = p /\ exists y, mlinked w m0 x y) -> 2 * length l <= B).
  Context (HKL : forall K : list (subport * subport), NoDup K -> (forall x y, (x, y) ∈ K -> mlinked w m0 x y /\ (y, x) ∉ K) -> length K <= KL).
  Context (HnL : (N.of_nat (length (pg_nodes g0) + length nodes + 2 * KL) <= 2 ^ 31 - 1)%N).
  Context (HpL : (N.of_nat (length (pg_pmeta g0) + sum_list (n_ports g0 <$> nodes)) + 65536 * N.of_nat KL <= 2 ^ 31 - 1)%N).

  Let Hw1 : (1 < w <= 63)%N.
  Proof. lia. Qed.
  Let I0 : minv w m0 [] := mreach_minv w Hw m0 Hm0.
  Let R0 : reach w g0 := mi_reach _ _ _ I0.
  Let S0 := m_shows w Hw m0 Hm0.
  Notation good := (m_good w g0 nodes KL).

  Record mc (R : list (nat * nat)) (K : list (subport * subport)) (M : list (subport * subport)) (m : mpg) : Prop := {
    mc_good : good R (length K) m;
    mc_old n : m_contains_node m0 n = true -> n ∉ R.*2 /\ forall d, ports (m_graph m) n d = ports g0 n d;
    mc_has n : m_contains_node m n = true <-> m_contains_node m0 n = true \/ n ∈ R.*2;
    mc_num o n d : (o, n) ∈ R -> num_ports (m_graph m) n d = num_ports g0 o d;
    mc_nd1 : NoDup R.*1;
    mc_nd2 : NoDup R.*2;
    mc_dom n : n ∈ R.*1 <-> n ∈ nodes;
    mc_M1 : NoDup M.*1;
    mc_M2 : NoDup M.*2;
    mc_M x x' : (x, x') ∈ M -> copy_end g0 (m_graph m) nodes R x.1 x'.1 /\ forall z, ~ mlinked w m0 x' z;
    mc_MK x : x ∈ M.*1 <-> exists y, (x, y) ∈ K \/ (y, x) ∈ K;
    mc_K x y : (x, y) ∈ K -> mlinked w m0 x y /\ touches g0 nodes x y;
    mc_Kn : NoDup K;
    mc_Ka x y : (x, y) ∈ K -> (y, x) ∉ K;
    mc_rel a b : mlinked w m a b <-> mlinked w m0 a b \/ exists x y, ((x, y) ∈ K \/ (y, x) ∈ K) /\ (x, a) ∈ M /\ (y, b) ∈ M;
  }.

  Lemma link_at x y : mlinked w m0 x y -> exists n d k, m_contains_node m0 n = true /\ port_at g0 n d k x.1.
  Proof.
    intros H. destruct (m_H_end w Hw g0 nodes KL [] 0 m0 x y) as (n & d & H1 & [k H2]%elem_of_list_lookup_1).
    - exact (m_good_nil w Hw m0 Hm0 g0 nodes (fun n => n ∈ nodes) Hmax B KL HB1 HB2 HnL HpL).
    - done.
    - exists n, d, k. done.
  Qed.
  Lemma mc_reach R K M m : mc R K M m -> reach w (m_graph m).
  Proof. intros X. by eapply m_good_reach, mc_good. Qed.
  (** Ports of nodes that were there stay. *)
  Lemma meta_keep R K M m p n d : mc R K M m -> m_contains_node m0 n = true ->
    pmeta (m_graph m) p = Some (n, d) <-> pmeta g0 p = Some (n, d).
  Proof.
    intros X Hn. rewrite <- (r_elem w _ (mc_reach _ _ _ _ X)), <- (r_elem w _ R0). by rewrite (proj2 (mc_old _ _ _ _ X n Hn)).
  Qed.
  Lemma node_keep R K M m p n : mc R K M m -> m_contains_node m0 n = true ->
    port_node (m_graph m) p = Some n <-> port_node g0 p = Some n.
  Proof. intros X Hn. rewrite !port_node_iff. by setoid_rewrite (meta_keep _ _ _ _ _ _ _ X Hn). Qed.
  Lemma at_node g n d k p : reach w g -> port_at g n d k p -> port_node g p = Some n /\ port_direction g p = Some d.
  Proof.
    intros Hr Hp. destruct (C02_ports_and_nodes_pf w g Hw1 Hr) as (_ & _ & _ & H & _). destruct (H _ _ _ _ Hp) as (_ & ? & ?). done.
  Qed.
  Lemma at_keep R K M m n d k p : mc R K M m -> m_contains_node m0 n = true -> port_at (m_graph m) n d k p <-> port_at g0 n d k p.
  Proof. intros X Hn. unfold port_at. by rewrite (proj2 (mc_old _ _ _ _ X n Hn)). Qed.

  Lemma ce_total R K M m x y : mc R K M m -> mlinked w m0 x y -> exists p', copy_end g0 (m_graph m) nodes R x.1 p'.
  Proof.
    intros X H. destruct (link_at x y H) as (n & d & k & Hn & Hk). destruct (at_node _ _ _ _ _ R0 Hk) as [En _].
    destruct (decide (n ∈ nodes)) as [Hi|Hi].
    - apply (mc_dom _ _ _ _ X) in Hi. apply in_fst in Hi as [n' HR].
      assert (Hlt : k < length (ports (m_graph m) n' d)).
      { rewrite ports_length, (mc_num _ _ _ _ X _ _ _ HR), <- ports_length. by eapply lookup_lt_Some. }
      apply lookup_lt_is_Some_2 in Hlt as [p' Hp']. exists p'. left. exists n, n', d, k. done.
    - exists x.1. right. split; [|done]. intros n' E. congruence.
  Qed.
  (** A copied link end is at a port with the direction of the original. *)
  Lemma ce_port R K M m x y d p' : mc R K M m -> mlinked w m0 x y -> port_direction g0 x.1 = Some d ->
    copy_end g0 (m_graph m) nodes R x.1 p' -> exists n', m_contains_node m n' = true /\ p' ∈ ports (m_graph m) n' d.
  Proof.
    intros X H Hd Hc. destruct (link_at x y H) as (n & d' & k & Hn & Hk). destruct (at_node _ _ _ _ _ R0 Hk) as [En Ed].
    assert (d' = d) as -> by congruence. destruct Hc as [(o & n' & d' & k' & HR & H1 & H2)|[Hno ->]].
    - destruct (at_node _ _ _ _ _ R0 H1) as [E1 E2]. assert (d' = d) as -> by congruence. exists n'. split.
      + apply (mc_has _ _ _ _ X). right. apply in_snd. eauto.
      + by eapply elem_of_list_lookup_2.
    - exists n. split; [apply (mc_has _ _ _ _ X); by left|]. apply (at_keep _ _ _ _ _ _ _ _ X Hn) in Hk. by eapply elem_of_list_lookup_2.
  Qed.
  Lemma ce_inj R K M m x y x2 y2 p' : mc R K M m -> mlinked w m0 x y -> mlinked w m0 x2 y2 ->
    copy_end g0 (m_graph m) nodes R x.1 p' -> copy_end g0 (m_graph m) nodes R x2.1 p' -> x.1 = x2.1.
  Proof.
    intros X H H2 Hc Hc2. pose proof (mc_reach _ _ _ _ X) as Rm.
    assert (Mix : forall u v, mlinked w m0 u v -> port_copy g0 (m_graph m) R u.1 p' -> forall u2 v2, mlinked w m0 u2 v2 -> p' = u2.1 -> False).
    { intros u v Hu (o & n & d & k & HR & _ & Hk) u2 v2 Hu2 ->. destruct (link_at _ _ Hu2) as (n2 & d2 & k2 & Hn2 & Hk2).
      apply (at_keep _ _ _ _ _ _ _ _ X Hn2) in Hk2. destruct (at_inj w Hw1 _ _ _ _ _ _ _ _ Rm Hk Hk2) as (<- & _).
      apply (mc_old _ _ _ _ X) in Hn2 as [Hn2 _]. apply Hn2, in_snd. eauto. }
    destruct Hc as [C1|[_ ->]], Hc2 as [C2|[_ E2]].
    - destruct C1 as (o & n & d & k & HR & Hp & Hp'), C2 as (o2 & n2 & d2 & k2 & HR2 & Hq & Hq').
      destruct (at_inj w Hw1 _ _ _ _ _ _ _ _ Rm Hp' Hq') as (<- & <- & <-).
      pose proof (nodup_snd _ _ _ _ (mc_nd2 _ _ _ _ X) HR HR2) as <-. unfold port_at in *. congruence.
    - exfalso. exact (Mix _ _ H C1 _ _ H2 E2).
    - exfalso. exact (Mix _ _ H2 C2 _ _ H eq_refl).
    - done.
  Qed.

  Lemma mc_MR R K M m x : mc R K M m -> x ∈ M.*1 -> exists y, mlinked w m0 x y.
  Proof.
    intros X [y [HK|HK]]%(mc_MK _ _ _ _ X); apply (mc_K _ _ _ _ X) in HK as [HK _]; exists y; [done|].
    by apply (lvs_sym _ _ _ S0).
  Qed.

  (** One copied link *)
  Lemma mc_link R K M m x y p' q' : mc R K M m -> mlinked w m0 x y -> touches g0 nodes x y -> (x, y) ∉ K -> (y, x) ∉ K ->
    copy_end g0 (m_graph m) nodes R x.1 p' -> copy_end g0 (m_graph m) nodes R y.1 q' ->
    exists m' r M', m_link_ports w m p' q' = Ok (m', inr r) /\ mc R (K ++ [(x, y)]) M' m'.
  Proof.
    intros X Hl Ht HK1 HK2 Hcp Hcq. pose proof (mc_good _ _ _ _ X) as HG.
    assert (Hl' : mlinked w m0 y x) by (by apply (lvs_sym _ _ _ S0)).
    destruct (link_at _ _ Hl) as (no & d & k & Hno & Hko). destruct (at_node _ _ _ _ _ R0 Hko) as [_ Ed].
    pose proof (lvs_opp _ _ _ S0 _ _ _ Hl Ed) as Ed2. change (port_direction g0 y.1 = Some (rev_dir d)) in Ed2.
    destruct (ce_port _ _ _ _ _ _ _ _ X Hl Ed Hcp) as (na & hasn & Hpa).
    destruct (ce_port _ _ _ _ _ _ _ _ X Hl' Ed2 Hcq) as (nb & hasn2 & Hqb).
    assert (Hxy : x <> y). { intros <-. rewrite Ed in Ed2. injection Ed2. by destruct d. }
    assert (HxM : x ∉ M.*1).
    { intros [z [HK|HK]]%(mc_MK _ _ _ _ X); pose proof (proj1 (mc_K _ _ _ _ X _ _ HK)) as Hz.
      - pose proof (lvs_fun _ _ _ S0 _ _ _ Hl Hz) as <-. done.
      - pose proof (lvs_fun _ _ _ S0 _ _ _ Hl (lvs_sym _ _ _ S0 _ _ Hz)) as <-. done. }
    assert (HyM : y ∉ M.*1).
    { intros [z [HK|HK]]%(mc_MK _ _ _ _ X); pose proof (proj1 (mc_K _ _ _ _ X _ _ HK)) as Hz.
      - pose proof (lvs_fun _ _ _ S0 _ _ _ Hl' Hz) as <-. done.
      - pose proof (lvs_fun _ _ _ S0 _ _ _ Hl' (lvs_sym _ _ _ S0 _ _ Hz)) as <-. done. }
    assert (HM2 : forall a', a' ∈ M.*2 -> exists z, mlinked w m a' z).
    { intros a' [a Ha]%in_snd. assert (a ∈ M.*1) as Ha1 by (apply in_fst; eauto). apply (mc_MK _ _ _ _ X) in Ha1 as [b Hb].
      assert (b ∈ M.*1) as [b' Hb']%in_fst by (apply (mc_MK _ _ _ _ X); exists a; tauto).
      exists b'. apply (mc_rel _ _ _ _ X). right. exists a, b. done. }
    assert (Hbelow : forall z v t, z ∉ M.*1 -> mlinked w m0 z v -> copy_end g0 (m_graph m) nodes R z.1 t ->
      forall l, NoDup l -> (forall u : subport, u ∈ l -> u.1 = t /\ exists v, mlinked w m u v) -> length l < B).
    { intros z v t HzM Hz Hc l Hlnd Hlk.
      set (l1 := filter (fun u => u ∉ M.*2) l). set (l2 := filter (fun u => u ∈ M.*2) l).
      assert (N1 : NoDup l1) by (by apply NoDup_filter). assert (N2 : NoDup l2) by (by apply NoDup_filter).
      assert (Hlen : length l <= length l1 + length l2).
      { rewrite <- app_length. apply submseteq_length, NoDup_submseteq; [done|]. intros u Hu. rewrite elem_of_app.
        unfold l1, l2. rewrite !elem_of_list_filter. destruct (decide (u ∈ M.*2)); tauto. }
      assert (B1 : 2 * length l1 <= B).
      { apply (HB t l1 N1). intros u Hu. unfold l1 in Hu. rewrite elem_of_list_filter in Hu. destruct Hu as [Hu1 Hu2].
        destruct (Hlk u Hu2) as [Et [b Hub]]. split; [done|]. exists b.
        apply (mc_rel _ _ _ _ X) in Hub as [?|(a0 & b0 & _ & Ha & _)]; [done|]. exfalso. apply Hu1, in_snd. eauto. }
      assert (Hsrc : exists l' : list subport, length l' = length l2 /\ NoDup l' /\ forall a, a ∈ l' -> a.1 = z.1 /\ a ∈ M.*1 /\ exists a', a' ∈ l2 /\ (a, a') ∈ M).
      { assert (Hl2 : forall u, u ∈ l2 -> u ∈ M.*2 /\ u.1 = t).
        { intros u Hu. unfold l2 in Hu. rewrite elem_of_list_filter in Hu. destruct Hu as [Hu1 Hu2]. split; [done|]. by apply Hlk. }
        clear -S0 R0 I0 Hw1 X Hl2 N2 Hc Hz Hw Hm0 Hmax HB1 HB2 HnL HpL HB Hnd Hin. induction l2 as [|u l2 IHl]; [exists []; split_and!; [done|constructor|intros a []%elem_of_nil]|].
        apply NoDup_cons in N2 as [Hu N2]. destruct IHl as (l' & L1 & L2 & L3); [done|intros; apply Hl2; by right|].
        destruct (Hl2 u) as [[a Ha]%in_snd <-]; [by left|].
        assert (Ha1 : a ∈ M.*1) by (apply in_fst; eauto). destruct (mc_MR _ _ _ _ _ X Ha1) as [b Hb].
        pose proof (ce_inj _ _ _ _ _ _ _ _ _ X Hb Hz (proj1 (mc_M _ _ _ _ X _ _ Ha)) Hc) as Ez.
        exists (a :: l'). split; [cbn; by rewrite L1|]. split.
        - constructor; [|done]. intros (_ & _ & a' & Ha' & HMa')%L3. pose proof (nodup_fst _ _ _ _ (mc_M1 _ _ _ _ X) Ha HMa') as <-. done.
        - intros c [->|Hc']%elem_of_cons.
          + split; [done|]. split; [done|]. exists u. split; [by left|done].
          + destruct (L3 c Hc') as (Q1 & Q2 & a' & Q4 & Q5). split; [done|]. split; [done|]. exists a'. split; [by right|done]. }
      destruct Hsrc as (l' & L1 & L2 & L3).
      assert (B2 : 2 * length (z :: l') <= B).
      { apply (HB z.1).
        - constructor; [|done]. intros (_ & ? & _)%L3. done.
        - intros a [->|Ha]%elem_of_cons; [eauto|]. destruct (L3 a Ha) as (Q1 & Q2 & _). split; [done|]. exact (mc_MR _ _ _ _ _ X Q2). }
      cbn in B2. rewrite L1 in B2. clear -B1 B2 Hlen. lia. }
    assert (HKn : NoDup (K ++ [(x, y)])).
    { apply NoDup_app. split_and!; [apply X| |apply NoDup_singleton]. intros a Ha ->%elem_of_list_singleton. done. }
    assert (HKa : forall a b, (a, b) ∈ K ++ [(x, y)] -> mlinked w m0 a b /\ (b, a) ∉ K ++ [(x, y)]).
    { intros a b. rewrite elem_of_app, elem_of_list_singleton, not_elem_of_app, elem_of_list_singleton. intros [HK|[= -> ->]].
      - split; [by apply (mc_K _ _ _ _ X)|]. split; [by apply (mc_Ka _ _ _ _ X)|]. intros [= -> ->]. done.
      - split; [done|]. split; [done|]. intros [= -> _]. done. }
    assert (Hcnt : length K < KL).
    { pose proof (HKL _ HKn HKa) as H. rewrite app_length in H. cbn in H. lia. }
    pose proof (m_H_link w Hw g0 nodes B KL HB1 HB2 R (length K) m p' q' na nb d HG (fun _ => Hcnt)
      (fun _ => Hbelow x y p' HxM Hl Hcp) (fun _ => Hbelow y x q' HyM Hl' Hcq) hasn hasn2 Hpa Hqb) as HLk.
    cbn [t_m t_link] in HLk.
    destruct (m_link_ports w m p' q') as [[m' r]|]; [|done]. cbn in HLk. destruct HLk as (Hhas & Hports & Hr).
    assert (HpR : forall o n d, (o, n) ∈ R -> ports (m_graph m') n d = ports (m_graph m) n d).
    { intros a b c Hab. apply Hports, (mc_has _ _ _ _ X). right. apply in_snd. eauto. }
    assert (Hcop : forall p p', copy_end g0 (m_graph m') nodes R p p' <-> copy_end g0 (m_graph m) nodes R p p').
    { intros a b. unfold copy_end, port_copy, port_at. split; (intros [(u & v & c & j & F1 & F2 & F3)|?]; [left|by right]; exists u, v, c, j; (split; [done|]; split; [done|]);
        by rewrite (HpR _ _ _ F1) in * ). }
    destruct r as [e|[x' y']]; [destruct Hr as (_ & [] & _); exact Logic.I|].
    destruct Hr as (HG' & u & v & <- & <- & Nu & Nv & Huv & Hrel). exists m', (x', y'), (M ++ [(x, u); (y, v)]). split; [done|].
    assert (HuM : u ∉ M.*2) by (intros [z Hz]%HM2; by eapply Nu).
    assert (HvM : v ∉ M.*2) by (intros [z Hz]%HM2; by eapply Nv).
    assert (HMin : forall a a', (a, a') ∈ M ++ [(x, u); (y, v)] <-> (a, a') ∈ M \/ (a = x /\ a' = u) \/ (a = y /\ a' = v)).
    { intros a a'. rewrite elem_of_app, !elem_of_cons, elem_of_nil. split; [|naive_solver]. intros [?|[[= -> ->]|[[= -> ->]|[]]]]; tauto. }
    assert (HKin : forall a b, (a, b) ∈ K ++ [(x, y)] <-> (a, b) ∈ K \/ (a = x /\ b = y)).
    { intros a b. rewrite elem_of_app, elem_of_list_singleton. split; [|naive_solver]. intros [?|[= -> ->]]; tauto. }
    split; try apply X; try done.
    + rewrite app_length. exact HG'.
    + intros a Ha. destruct (mc_old _ _ _ _ X a Ha) as [F1 F2]. split; [done|]. intros c. rewrite <- F2. apply Hports, (mc_has _ _ _ _ X). by left.
    + intros a. rewrite Hhas. apply X.
    + intros a b c Hab. rewrite <- (mc_num _ _ _ _ X _ _ _ Hab), <- !ports_length. by erewrite HpR.
    + rewrite fmap_app. cbn. apply NoDup_app. split; [apply X|]. split.
      * intros a Ha. rewrite !not_elem_of_cons. split_and!; [by intros ->|by intros ->|apply not_elem_of_nil].
      * repeat constructor; rewrite ?not_elem_of_cons; try apply not_elem_of_nil. split; [done|apply not_elem_of_nil].
    + rewrite fmap_app. cbn. apply NoDup_app. split; [apply X|]. split.
      * intros a Ha. rewrite !not_elem_of_cons. split_and!; [by intros ->|by intros ->|apply not_elem_of_nil].
      * repeat constructor; rewrite ?not_elem_of_cons; try apply not_elem_of_nil. split; [done|apply not_elem_of_nil].
    + intros a a' [HM|[[-> ->]|[-> ->]]]%HMin.
      * rewrite Hcop. by apply (mc_M _ _ _ _ X).
      * rewrite Hcop. split; [done|]. intros z Hz. apply (Nu z), (mc_rel _ _ _ _ X). by left.
      * rewrite Hcop. split; [done|]. intros z Hz. apply (Nv z), (mc_rel _ _ _ _ X). by left.
    + intros a. rewrite in_fst. setoid_rewrite HMin. setoid_rewrite HKin. split.
      * intros [a' [Ha|[[-> ->]|[-> ->]]]]; [|by exists y; left; right|by exists x; right; right].
        assert (a ∈ M.*1) as [b Hb]%(mc_MK _ _ _ _ X) by (apply in_fst; eauto). exists b. tauto.
      * intros [b [[Hb|[-> ->]]|[Hb|[-> ->]]]]; [|exists u; tauto| |exists v; tauto].
        -- assert (a ∈ M.*1) as [a' Ha]%in_fst by (apply (mc_MK _ _ _ _ X); eauto). eauto.
        -- assert (a ∈ M.*1) as [a' Ha]%in_fst by (apply (mc_MK _ _ _ _ X); eauto). eauto.
    + intros a b [HK|[-> ->]]%HKin; [by apply (mc_K _ _ _ _ X)|done].
    + intros a b Hab. by apply HKa.
    + intros a b. rewrite Hrel, (mc_rel _ _ _ _ X). setoid_rewrite HMin. setoid_rewrite HKin. split.
      * intros [[H|(a0 & b0 & H)]|[[-> ->]|[-> ->]]]; [by left|right; exists a0, b0; tauto|right; exists x, y; tauto|right; exists y, x; tauto].
      * intros [H|(a0 & b0 & HK & HMa & HMb)]; [tauto|].
        assert (Ha0 : forall c, (c, b0) ∈ K \/ (b0, c) ∈ K -> b0 ∈ M.*1) by (intros c Hc; apply (mc_MK _ _ _ _ X); exists c; tauto).
        assert (Hb0 : forall c, (a0, c) ∈ K \/ (c, a0) ∈ K -> a0 ∈ M.*1) by (intros c Hc; apply (mc_MK _ _ _ _ X); exists c; tauto).
        destruct HK as [[HK|[-> ->]]|[HK|[-> ->]]].
        -- assert (a0 ∈ M.*1) by (eapply Hb0; eauto). assert (b0 ∈ M.*1) by (eapply Ha0; eauto).
           destruct HMa as [HMa|[[-> _]|[-> _]]]; [|done|done]. destruct HMb as [HMb|[[-> _]|[-> _]]]; [|done|done].
           left. right. exists a0, b0. tauto.
        -- destruct HMa as [HMa|[[_ ->]|[Eq _]]]; [by exfalso; apply HxM, in_fst; eauto| |done].
           destruct HMb as [HMb|[[Eq _]|[_ ->]]]; [by exfalso; apply HyM, in_fst; eauto|by destruct Hxy|]. tauto.
        -- assert (a0 ∈ M.*1) by (eapply Hb0; eauto). assert (b0 ∈ M.*1) by (eapply Ha0; eauto).
           destruct HMa as [HMa|[[-> _]|[-> _]]]; [|done|done]. destruct HMb as [HMb|[[-> _]|[-> _]]]; [|done|done].
           left. right. exists a0, b0. tauto.
        -- destruct HMa as [HMa|[[Eq _]|[_ ->]]]; [by exfalso; apply HyM, in_fst; eauto|by destruct Hxy|].
           destruct HMb as [HMb|[[_ ->]|[Eq _]]]; [by exfalso; apply HxM, in_fst; eauto| |done]. tauto.
  Qed.

  (** The links that are listed for an original node *)
  Lemma mc_all_links R K M m old : mc R K M m -> old ∈ nodes -> exists ls, m_all_links w m old = Ok ls /\ NoDup ls /\
    forall x y, (x, y) ∈ ls <-> mlinked w m0 x y /\ port_node g0 x.1 = Some old /\
      ~ (port_direction g0 x.1 = Some Incoming /\ port_node g0 y.1 = Some old).
  Proof.
    intros X Ho. pose proof (Hin _ Ho) as Hc. destruct (mc_good _ _ _ _ X) as [Hr _].
    pose proof (m_shows w Hw m Hr) as Sm. assert (Hcm : m_contains_node m old = true) by (apply (mc_has _ _ _ _ X); by left).
    destruct (lvs_all_links _ _ _ Sm old Hcm) as (_ & _ & l & _ & _ & _ & _ & _ & El & _).
    destruct (lvs_all_elem _ _ _ Sm old l Hcm El) as [Hln Hl]. cbn in El, Hl.
    exists l. split. { destruct (m_all_links w m old); [|done]. cbn in El. by injection El as ->. }
    split; [done|]. intros x y. rewrite Hl. change (x.1) with (fst x).
    rewrite !(node_keep _ _ _ _ _ _ X Hc).
    assert (Hrel : port_node g0 x.1 = Some old -> mlinked w m x y <-> mlinked w m0 x y).
    { intros En. rewrite (mc_rel _ _ _ _ X). split; [|tauto]. intros [?|(a & b & HK & Ha & _)]; [done|]. exfalso.
      assert (Ha1 : a ∈ M.*1) by (apply in_fst; eauto). destruct (mc_MR _ _ _ _ _ X Ha1) as [b' Hb'].
      destruct (proj1 (mc_M _ _ _ _ X _ _ Ha)) as [(o & n & d & k & HR & H1 & H2)|[Hno E]].
      - destruct (at_node _ _ _ _ _ (mc_reach _ _ _ _ X) H2) as [E2 _]. apply (node_keep _ _ _ _ _ _ X Hc) in En.
        assert (n = old) as -> by congruence. apply (mc_old _ _ _ _ X) in Hc as [Hc _]. apply Hc, in_snd. eauto.
      - apply (Hno old); congruence. }
    assert (Hdir : port_node g0 x.1 = Some old -> port_direction (m_graph m) x.1 = port_direction g0 x.1).
    { intros [d Hd]%port_node_iff. rewrite (pm_dir _ _ _ _ Hd). eapply pm_dir. by apply (meta_keep _ _ _ _ _ _ _ X Hc). }
    split.
    - intros (H1 & H2 & H3). rewrite Hdir in H3 by done. rewrite Hrel in H1 by done. done.
    - intros (H1 & H2 & H3). rewrite Hdir by done. rewrite Hrel by done. done.
  Qed.

  Definition selected (R : list (nat * nat)) (new : nat) (y : subport) : Prop :=
    forall o n, port_node g0 y.1 = Some o -> (o, n) ∈ R -> ~ n < new.

  Lemma mcp_links_ok R old new ls : (old, new) ∈ R -> forall K M m, mc R K M m ->
    (forall x y, (x, y) ∈ ls -> mlinked w m0 x y /\ port_node g0 x.1 = Some old /\ (y, x) ∉ ls /\ (selected R new y -> (x, y) ∉ K /\ (y, x) ∉ K)) ->
    NoDup ls ->
    exists m' K' M', mcp_links w R new ls m = Ok (m', None) /\ mc R (K ++ K') M' m' /\
      forall x y, (x, y) ∈ K' <-> (x, y) ∈ ls /\ selected R new y.
  Proof.
    intros HR. induction ls as [|[x y] ls IH]; intros K M m X Hls Hn.
    { exists m, [], M. rewrite app_nil_r. split; [done|]. split; [done|]. intros x y. split; [intros []%elem_of_nil|intros [[]%elem_of_nil _]]. }
    apply NoDup_cons in Hn as [Hnin Hn]. destruct (Hls x y) as (Hl & Ep & Hsym & HKs); [by left|].
    apply not_elem_of_cons in Hsym as [Hsym0 Hsym].
    assert (HoR : old ∈ R.*1) by (apply in_fst; eauto). assert (Ho : old ∈ nodes) by (by apply (mc_dom _ _ _ _ X)).
    pose proof (Hin _ Ho) as Hc. cbn [mcp_links].
    assert (Off : forall z v, mlinked w m0 z v -> forall o n, port_node g0 z.1 = Some o -> (o, n) ∈ R ->
      exists of p', port_offset w (m_graph m) z.1 = Ok (Some of) /\ port_index w (m_graph m) n of = Ok (Some p') /\ copy_end g0 (m_graph m) nodes R z.1 p').
    { intros z v Hz o n Hzo Hon. destruct (link_at _ _ Hz) as (o' & d & k & Hc' & Hk). destruct (at_node _ _ _ _ _ R0 Hk) as [E1 _].
      assert (o' = o) as -> by congruence. assert (Hon1 : o ∈ nodes) by (apply (mc_dom _ _ _ _ X), in_fst; eauto).
      assert (Hkm : (N.of_nat k <= po_max_offset w)%N).
      { specialize (Hmax o d Hon1). assert (k < num_ports g0 o d) by (rewrite <- ports_length; by eapply lookup_lt_Some). lia. }
      assert (Hkc : port_at (m_graph m) o d k z.1) by (by apply (at_keep _ _ _ _ _ _ _ _ X Hc')).
      destruct (port_offset_eq w (m_graph m) o d k _ Hw1 (mc_reach _ _ _ _ X) Hkc Hkm) as (of & _ & Ho1 & Ho2).
      assert (Hlt : k < length (ports (m_graph m) n d)).
      { rewrite ports_length, (mc_num _ _ _ _ X _ _ _ Hon), <- ports_length. by eapply lookup_lt_Some. }
      apply lookup_lt_is_Some_2 in Hlt as [p' Hp']. exists of, p'. split; [done|]. split; [by rewrite Ho2, Hp'|].
      left. exists o, n, d, k. done. }
    destruct (Off x y Hl old new Ep HR) as (ox & p' & Eox & Epi & Cp). rewrite Eox, bind_Ok. cbn [unwrap]. rewrite bind_Ok, Epi, bind_Ok. cbn [unwrap]. rewrite bind_Ok.
    assert (Hl' : mlinked w m0 y x) by (by apply (lvs_sym _ _ _ S0)).
    destruct (link_at _ _ Hl') as (o2 & d2 & k2 & Hc2 & Hk2). destruct (at_node _ _ _ _ _ R0 Hk2) as [Eq _].
    rewrite (proj2 (node_keep _ _ _ _ _ _ X Hc2) Eq). cbn [unwrap]. rewrite bind_Ok.
    assert (Ht : touches g0 nodes x y) by (exists old; tauto).
    assert (Hls' : forall K1, (K1 = K \/ K1 = K ++ [(x, y)]) -> forall a b, (a, b) ∈ ls -> mlinked w m0 a b /\ port_node g0 a.1 = Some old /\ (b, a) ∉ ls /\ (selected R new b -> (a, b) ∉ K1 /\ (b, a) ∉ K1)).
    { intros K1 HK1 a b Hab. destruct (Hls a b) as (H1 & H2 & H3 & H4); [by right|]. apply not_elem_of_cons in H3 as [H3' H3].
      split; [done|]. split; [done|]. split; [done|]. intros [H5 H6]%H4. destruct HK1 as [-> | ->]; [done|].
      rewrite !not_elem_of_app, !elem_of_list_singleton. split_and!; [done| |done|]; [intros [= -> ->]; done|intros E; apply H3'; by rewrite E]. }
    assert (Skip : ~ selected R new y -> exists m' K' M', mcp_links w R new ls m = Ok (m', None) /\ mc R (K ++ K') M' m' /\
      forall a b, (a, b) ∈ K' <-> (a, b) ∈ (x, y) :: ls /\ selected R new b).
    { intros Hns. destruct (IH K M m X (Hls' K ltac:(by left)) Hn) as (m' & K' & M' & E & X' & HK'). exists m', K', M'. split; [done|]. split; [done|].
      intros a b. rewrite HK', elem_of_cons. split; [tauto|]. intros [[[= -> ->]|H1] H2]; [done|tauto]. }
    assert (Link : selected R new y -> forall q', copy_end g0 (m_graph m) nodes R y.1 q' ->
      exists m1 r, m_link_ports w m p' q' = Ok (m1, inr r) /\ exists m' K' M', mcp_links w R new ls m1 = Ok (m', None) /\ mc R (K ++ K') M' m' /\
      forall a b, (a, b) ∈ K' <-> (a, b) ∈ (x, y) :: ls /\ selected R new b).
    { intros Hsel q' Cq. destruct (HKs Hsel) as [K1 K2]. destruct (mc_link R K M m x y p' q' X Hl Ht K1 K2 Cp Cq) as (m1 & r & M1 & E1 & X1).
      exists m1, r. split; [done|]. destruct (IH _ _ _ X1 (Hls' _ ltac:(by right)) Hn) as (m' & K' & M' & E & X' & HK').
      exists m', ((x, y) :: K'), M'. split; [done|]. split; [by rewrite <- app_assoc in X'|].
      intros a b. rewrite !elem_of_cons, HK'. split; [intros [[= -> ->]|[H1 H2]]; tauto|]. intros [[H1|H1] H2]; [by left|by right]. }
    destruct (al_get R o2) as [n2|] eqn:Eg.
    - apply al_get_in in Eg. destruct (decide (n2 < new)) as [Hlt|Hge].
      + apply Skip. intros Hs. exact (Hs _ _ Eq Eg Hlt).
      + assert (Hsel : selected R new y).
        { intros o n E1 HR1. assert (o = o2) as -> by congruence. by rewrite (nodup_fst _ _ _ _ (mc_nd1 _ _ _ _ X) HR1 Eg). }
        destruct (Off y x Hl' o2 n2 Eq Eg) as (oy & q' & Eoy & Eqi & Cq). rewrite Eoy, bind_Ok. cbn [unwrap]. rewrite bind_Ok, Eqi, bind_Ok. cbn [unwrap]. rewrite bind_Ok.
        destruct (Link Hsel q' Cq) as (m1 & r & E1 & Z). rewrite E1, bind_Ok. exact Z.
    - apply al_get_none in Eg.
      assert (Hsel : selected R new y).
      { intros o n E1 HR1. assert (o = o2) as -> by congruence. exfalso. apply Eg, in_fst. eauto. }
      destruct (Link Hsel y.1) as (m1 & r & E1 & Z).
      { right. split; [|done]. intros n E. assert (n = o2) as -> by congruence. by rewrite <- (mc_dom _ _ _ _ X). }
      rewrite E1, bind_Ok. exact Z.
  Qed.

  Definition from_done (R D : list (nat * nat)) (K : list (subport * subport)) : Prop :=
    forall x y, (x, y) ∈ K -> exists o n, (o, n) ∈ D /\ port_node g0 x.1 = Some o /\ selected R n y.
  Definition all_done (R D : list (nat * nat)) (K : list (subport * subport)) : Prop :=
    forall x y o n, mlinked w m0 x y -> (o, n) ∈ D -> port_node g0 x.1 = Some o -> selected R n y -> (x, y) ∈ K \/ (y, x) ∈ K.

  Lemma mcp_nodes_ok todo : forall D K M m, mc (D ++ todo) K M m -> from_done (D ++ todo) D K -> all_done (D ++ todo) D K ->
    exists m' K' M', mcp_nodes w (D ++ todo) todo m = Ok (m', None) /\ mc (D ++ todo) K' M' m' /\ all_done (D ++ todo) (D ++ todo) K'.
  Proof.
    induction todo as [|[old new] todo IH]; intros D K M m X HF HA.
    { exists m, K, M. rewrite app_nil_r in *. done. }
    set (R := D ++ (old, new) :: todo) in *. cbn [mcp_nodes].
    assert (HR : (old, new) ∈ R) by (unfold R; rewrite elem_of_app, elem_of_cons; tauto).
    assert (Ho : old ∈ nodes) by (apply (mc_dom _ _ _ _ X), in_fst; eauto).
    assert (HD : old ∉ D.*1).
    { pose proof (mc_nd1 _ _ _ _ X) as Hn. unfold R in Hn. rewrite fmap_app in Hn. apply NoDup_app in Hn as (_ & Hd & _).
      intros H. apply (Hd _ H). cbn. by left. }
    destruct (mc_all_links _ _ _ _ old X Ho) as (ls & El & Hln & Hl). rewrite El, bind_Ok.
    destruct (mcp_links_ok R old new ls HR K M m X) as (m1 & K' & M1 & E1 & X1 & HK'); [|done|].
    { intros x y Hxy. pose proof Hxy as (H1 & H2 & H3)%Hl. split; [done|]. split; [done|]. split.
      - intros (H4 & H5 & H6)%Hl. destruct (link_at _ _ H1) as (n & d & k & Hn & Hk). destruct (at_node _ _ _ _ _ R0 Hk) as [_ Ed].
        pose proof (lvs_opp _ _ _ S0 _ _ _ H1 Ed) as Ed2. change (port_direction g0 y.1 = Some (rev_dir d)) in Ed2. destruct d; cbn in Ed2; tauto.
      - intros Hs. split.
        + intros (o & n & Hon & Eo & _)%HF. assert (o = old) as -> by congruence. apply HD, in_fst. eauto.
        + intros (o & n & Hon & Eo & Hs2)%HF. assert (Hon' : (o, n) ∈ R) by (unfold R; rewrite elem_of_app; by left).
          pose proof (Hs o n Eo Hon') as N1. pose proof (Hs2 old new H2 HR) as N2. assert (n = new) as -> by lia.
          pose proof (nodup_snd _ _ _ _ (mc_nd2 _ _ _ _ X) Hon' HR) as ->. apply HD, in_fst. eauto. }
    rewrite E1, bind_Ok. assert (HRe : R = (D ++ [(old, new)]) ++ todo) by (unfold R; by rewrite <- app_assoc). rewrite HRe in *.
    apply (IH (D ++ [(old, new)]) _ _ _ X1).
    - intros x y [(o & n & H1 & H2 & H3)%HF|[H1 H2]%HK']%elem_of_app.
      + exists o, n. rewrite elem_of_app. tauto.
      + exists old, new. rewrite elem_of_app, elem_of_list_singleton. apply Hl in H1. tauto.
    - intros x y o n H1 [H2|[= -> ->]%elem_of_list_singleton]%elem_of_app H3 H4; rewrite !elem_of_app.
      + destruct (HA x y o n H1 H2 H3 H4); tauto.
      + rewrite !HK', !Hl. assert (H1' : mlinked w m0 y x) by (by apply (lvs_sym _ _ _ S0)).
        destruct (decide (port_direction g0 x.1 = Some Incoming /\ port_node g0 y.1 = Some old)) as [[Ed Ey]|Hno]; [|tauto].
        right. right. pose proof (lvs_opp _ _ _ S0 _ _ _ H1 Ed) as Ed2. change (port_direction g0 y.1 = Some Outgoing) in Ed2.
        split; [split_and!; [done|done|intros [? _]; congruence]|].
        intros o n Eo Hon. assert (o = old) as -> by congruence.
        rewrite (nodup_fst _ _ _ _ (mc_nd1 _ _ _ _ X) Hon HR). lia.
  Qed.

  (** *** The new nodes *)
  Notation vi := (vins (t_m w) m_contains_node (mlinked w) fst (lv_of_m w m0) (fun n => n ∈ nodes) (mlinked w m0) g0 good m0).
  Lemma mcp_add_ok ns : forall R m, vi R [] [] m -> R.*1 ++ ns = nodes ->
    exists m' R', mcp_add w ns m = Ok (m', R') /\ vi (R ++ R') [] [] m' /\ R'.*1 = ns.
  Proof.
    induction ns as [|old ns IH]; intros R m X HL.
    { exists m, []. by rewrite app_nil_r. }
    cbn [mcp_add]. assert (Hn : NoDup (R.*1 ++ old :: ns)) by (by rewrite HL).
    assert (Hold : old ∉ R.*1). { apply NoDup_app in Hn as (_ & Hd & _). intros H. apply (Hd _ H). by left. }
    assert (Ho : old ∈ nodes). { rewrite <- HL, elem_of_app, elem_of_cons. tauto. }
    assert (Hsub : R.*1 ++ [old] ⊆+ nodes). { rewrite <- HL. apply submseteq_app; [done|]. apply submseteq_skip, submseteq_nil_l. }
    pose proof (vins_add w Hw1 (t_m w) m_contains_node (mlinked w) fst (lv_of_m w m0) (fun n => n ∈ nodes) (mlinked w m0) g0 nodes False good
      (fun R j s old HG => m_H_add w Hw m0 g0 R0 nodes (fun n => n ∈ nodes) Hmax B KL HB1 HB2 HnL HpL R j s old HG)
      m0 R [] [] m old X Ho Hold Hsub) as HA.
    assert (Hnum : forall d, num_ports (m_graph m) old d = num_ports g0 old d).
    { intros d. rewrite <- !ports_length. f_equal. apply (vi_old _ _ _ _ _ _ _ _ _ _ _ _ _ _ X). by apply Hin. }
    rewrite !Hnum. cbn [t_m t_add] in HA. destruct (m_add_node w m _ _) as [[m1 new]|]; [|done]. cbn in HA. rewrite bind_Ok.
    destruct (IH _ _ HA) as (m' & R' & E & X' & E').
    { rewrite fmap_app, <- app_assoc. done. }
    rewrite E, bind_Ok. exists m', ((old, new) :: R'). rewrite <- app_assoc in X'. split; [done|]. split; [done|]. cbn. by rewrite E'.
  Qed.
  Lemma mc_of_vi R R' m : vi R [] [] m -> R.*1 = nodes -> R' ≡ₚ R -> mc R' [] [] m.
  Proof.
    intros X HR P. assert (P1 : R'.*1 ≡ₚ R.*1) by (by rewrite P). assert (P2 : R'.*2 ≡ₚ R.*2) by (by rewrite P).
    assert (PL : length R' = length R) by (by rewrite P).
    assert (PS : sum_list (n_ports g0 <$> R'.*1) = sum_list (n_ports g0 <$> R.*1)) by (by rewrite P1).
    split; try constructor.
    - pose proof (vi_good _ _ _ _ _ _ _ _ _ _ _ _ _ _ X) as HG. by destruct HG.
    - pose proof (vi_good _ _ _ _ _ _ _ _ _ _ _ _ _ _ X) as HG. unfold m_good in HG. rewrite PL, PS. apply HG.
    - rewrite P2. by apply (vi_old _ _ _ _ _ _ _ _ _ _ _ _ _ _ X).
    - intros d. by apply (vi_old _ _ _ _ _ _ _ _ _ _ _ _ _ _ X).
    - intros H. apply (vi_has _ _ _ _ _ _ _ _ _ _ _ _ _ _ X) in H. by rewrite P2.
    - rewrite P2. apply (vi_has _ _ _ _ _ _ _ _ _ _ _ _ _ _ X).
    - intros o n d. rewrite P. apply X.
    - rewrite P1. apply X.
    - rewrite P2. apply X.
    - by rewrite P1, HR.
    - by rewrite P1, HR.
    - by apply elem_of_nil in H.
    - by apply elem_of_nil in H.
    - intros []%elem_of_nil.
    - intros [y [[]%elem_of_nil|[]%elem_of_nil]].
    - by apply elem_of_nil in H.
    - by apply elem_of_nil in H.
    - intros x y []%elem_of_nil.
    - intros H. left. apply (vi_rel _ _ _ _ _ _ _ _ _ _ _ _ _ _ X) in H as [?|(x & y & [[]%elem_of_nil|[]%elem_of_nil] & _)]. done.
    - intros [H|(x & y & [[]%elem_of_nil|[]%elem_of_nil] & _)]. apply (vi_rel _ _ _ _ _ _ _ _ _ _ _ _ _ _ X). by left.
  Qed.

  Lemma m_copy_ok order : (forall l, order l ≡ₚ l) ->
    exists m' R K M, m_copy_in_parent w order nodes m0 = Ok (m', inr R) /\ mc R K M m' /\ R.*1 ≡ₚ nodes /\ all_done R R K.
  Proof.
    intros Hord. unfold m_copy_in_parent.
    pose proof (vins_nil w Hw1 (t_m w) m_contains_node (mlinked w) fst (lv_of_m w m0) (fun n => n ∈ nodes) (mlinked w m0) g0 good m0
      (m_good_nil w Hw m0 Hm0 g0 nodes (fun n => n ∈ nodes) Hmax B KL HB1 HB2 HnL HpL)) as X0.
    destruct (mcp_add_ok nodes [] m0 X0 eq_refl) as (m1 & R & E1 & X1 & ER). rewrite E1, bind_Ok. cbn [app] in X1.
    pose proof (mc_of_vi R (order R) m1 X1 ER (Hord R)) as X.
    destruct (mcp_nodes_ok (order R) [] [] [] m1 X) as (m' & K & M & E2 & X2 & HA).
    { intros x y []%elem_of_nil. }
    { intros x y o n _ []%elem_of_nil. }
    cbn [app] in *. rewrite E2, bind_Ok. exists m', (order R), K, M. split; [done|]. split; [done|]. split; [|done].
    rewrite <- ER. by rewrite (Hord R).
  Qed.

  Lemma mc_nodes R K M m : mc R K M m ->
    nodes_copied R.*1 g0 g0 (m_graph m) (fun n => m_contains_node m0 n = true) (fun n => m_contains_node m n = true) R.
  Proof.
    intros X. split; [done|apply X|apply X|intros n Hn; by apply (mc_old _ _ _ _ X)| |apply X].
    intros n d Hn. by apply (mc_old _ _ _ _ X).
  Qed.
  Lemma mc_links R K M m : mc R K M m -> all_done R R K ->
    part_copied w nodes m0 m R (map_end (0, 0) M).
  Proof.
    intros X HA.
    assert (HK : forall x y, mlinked w m0 x y -> touches g0 nodes x y -> (x, y) ∈ K \/ (y, x) ∈ K).
    { assert (H1 : forall x y n, mlinked w m0 x y -> n ∈ nodes -> port_node g0 x.1 = Some n -> (x, y) ∈ K \/ (y, x) ∈ K).
      { intros x y o Hl Ho Ex. pose proof Ho as Ho'. apply (mc_dom _ _ _ _ X), in_fst in Ho' as [n Hon].
        assert (Hl' : mlinked w m0 y x) by (by apply (lvs_sym _ _ _ S0)).
        destruct (link_at _ _ Hl') as (o2 & d2 & k2 & Hc2 & Hk2). destruct (at_node _ _ _ _ _ R0 Hk2) as [Ey _].
        destruct (al_get R o2) as [n2|] eqn:Eg; [apply al_get_in in Eg; destruct (decide (n2 < n)) as [Hlt|Hge]|apply al_get_none in Eg].
        - destruct (HA y x o2 n2 Hl' Eg Ey); [|tauto|tauto]. intros o' n' Eo' Hon'. assert (o' = o) as -> by congruence.
          rewrite (nodup_fst _ _ _ _ (mc_nd1 _ _ _ _ X) Hon' Hon). lia.
        - apply (HA x y o n Hl Hon Ex). intros o' n' Eo' Hon'. assert (o' = o2) as -> by congruence.
          rewrite (nodup_fst _ _ _ _ (mc_nd1 _ _ _ _ X) Hon' Eg). done.
        - apply (HA x y o n Hl Hon Ex). intros o' n' Eo' Hon'. assert (o' = o2) as -> by congruence. exfalso. apply Eg, in_fst. eauto. }
      intros x y Hl (n & Hn & [E|E]); [by eapply H1|]. destruct (H1 y x n (lvs_sym _ _ _ S0 _ _ Hl) Hn E); tauto. }
    assert (HM : forall x y, mlinked w m0 x y -> touches g0 nodes x y -> (x, map_end (0, 0) M x) ∈ M).
    { intros x y Hxy Ht. assert (x ∈ M.*1) as [x' Hx]%in_fst by (apply (mc_MK _ _ _ _ X); exists y; by apply HK).
      by rewrite (map_end_in (0, 0) _ _ _ (mc_M1 _ _ _ _ X) Hx). }
    assert (Tsym : forall x y, touches g0 nodes x y -> touches g0 nodes y x).
    { intros x y (n & Hn & H). exists n. tauto. }
    split.
    - intros x y H1 H2. by apply (mc_M _ _ _ _ X), (HM x y).
    - intros x y x' y' H1 T1 H2 T2 Ef. pose proof (HM _ _ H1 T1) as Q1. pose proof (HM _ _ H2 T2) as Q2. rewrite Ef in Q1.
      exact (nodup_snd M _ _ _ (mc_M2 _ _ _ _ X) Q1 Q2).
    - intros x y z H1 T1. apply (mc_M _ _ _ _ X x). by apply (HM x y).
    - intros a b. rewrite (mc_rel _ _ _ _ X). split; (intros [H|(x & y & H)]; [by left|right; exists x, y]).
      + destruct H as (H1 & H2 & H3). rewrite (map_end_in (0, 0) _ _ _ (mc_M1 _ _ _ _ X) H2), (map_end_in (0, 0) _ _ _ (mc_M1 _ _ _ _ X) H3).
        destruct H1 as [H1|H1]; apply (mc_K _ _ _ _ X) in H1 as [H1 H4]; [done|].
        split; [by apply (lvs_sym _ _ _ S0)|]. split; [by apply Tsym|done].
      + destruct H as (H1 & T & -> & ->). split; [by apply HK|]. split; [by eapply HM|]. apply (HM y x); [by apply (lvs_sym _ _ _ S0)|by apply Tsym].
  Qed.
End copy.
