(** The calls that the generators make on a [PortGraph] and on a [MultiPortGraph]. *)
From Verif Require Export GenProofs.

Section pg.
  Context (w : N) (Hw : (1 < w <= 63)%N).
  Definition pg_fits (nn np nl : nat) (g : pg) : Prop := exists ops, hist w ops g /\
    (N.of_nat (sum_list (node_cost <$> ops) + nn) <= 2147483647)%N /\ (N.of_nat (sum_list (port_cost <$> ops) + np) <= 2147483647)%N.
  Lemma pg_fits_reach nn np nl g : pg_fits nn np nl g -> reach w g.
  Proof. intros (ops & H & _). by eexists. Qed.
  Lemma pg_fits_weak nn np nl nn' np' nl' g : pg_fits nn np nl g -> nn' <= nn -> np' <= np -> nl' <= nl -> pg_fits nn' np' nl' g.
  Proof. intros (ops & H & H1 & H2) Q1 Q2 _. exists ops. split; [done|]. clear - H1 H2 Q1 Q2. lia. Qed.
  Lemma pg_fits_add nn np nl g i j : pg_fits (nn + 1) (np + (i + j)) nl g ->
    (N.of_nat i <= N.min (po_max_offset w) 32767)%N -> (N.of_nat j <= N.min (po_max_offset w) 32767)%N ->
    exists g' n, t_add (t_pg w) g i j = Ok (g', n) /\ pg_fits nn np nl g' /\ contains_node g n = false /\ contains_node g' n = true /\
      num_ports g' n Incoming = i /\ num_ports g' n Outgoing = j /\
      (forall x, x <> n -> contains_node g' x = contains_node g x) /\ (forall x d, x <> n -> contains_node g x = true -> ports g' x d = ports g x d) /\
      (forall x y, linked g' x y <-> linked g x y).
  Proof.
    intros (ops & Hh & C1 & C2) Hi Hj. assert (Hsm : (N.of_nat i <= 65534 /\ N.of_nat (i + j) <= 65535)%N) by (clear - Hi Hj; lia).
    assert (Hal : allowed g (OAdd i j)) by (exact Hsm).
    destruct (C06_no_panic_pf w _ g _ Hh Hal) as (s' & r & Es).
    { clear - Hi Hj. lia. }
    { change (2 ^ 31 - 1)%N with 2147483647%N. rewrite !fmap_app, !sum_list_with_app. cbn. unfold sum_list_with in *. clear - C1. lia. }
    { change (2 ^ 31 - 1)%N with 2147483647%N. rewrite !fmap_app, !sum_list_with_app. cbn. unfold sum_list_with in *. clear - C2. lia. }
    pose proof (hist_step w _ _ _ _ _ Hh Hal Es) as Hh2. cbn [step] in Es. cbn [t_pg t_add].
    destruct (add_node _ g _ _) as [[s2 n]|] eqn:Ea; [|done]. cbn in Es. injection Es as -> <-.
    assert (Hr : reach w g) by (by eexists).
    destruct (C04_add_node_pf w g _ _ s' n Hr Hsm Ea) as (H1 & H2 & H3 & H4 & _ & H5 & _).
    exists s', n. split; [done|]. split_and!; try done.
    - eexists. split; [exact Hh2|]. rewrite !fmap_app, !sum_list_with_app. cbn. unfold sum_list_with in *. clear - C1 C2. lia.
    - intros x Hx. by apply H5.
    - intros x d Hx _. by apply H5.
    - apply (linked_add w _ _ _ _ _ Hr Hsm Ea). by eexists.
  Qed.
  Lemma pg_fits_link nn np nl g a b na nb : pg_fits nn np (nl + 1) g ->
    (forall l, NoDup l -> (forall z, z ∈ l -> id z = a /\ exists v, linked g z v) -> length l < 1) ->
    (forall l, NoDup l -> (forall z, z ∈ l -> id z = b /\ exists v, linked g z v) -> length l < 1) ->
    contains_node g na = true -> contains_node g nb = true ->
    a ∈ ports g na Outgoing -> b ∈ ports g nb Incoming ->
    exists g' r, t_link (t_pg w) g a b = Ok (g', inr r) /\ pg_fits nn np nl g' /\ (forall x, contains_node g' x = contains_node g x) /\
      (forall x d, contains_node g x = true -> ports g' x d = ports g x d) /\
      exists x y, id x = a /\ id y = b /\ (forall z, ~ linked g x z) /\ (forall z, ~ linked g y z) /\ x <> y /\
          forall u v, linked g' u v <-> linked g u v \/ (u = x /\ v = y) \/ (u = y /\ v = x).
  Proof.
    intros (ops & Hh & C1 & C2) Fa Fb _ _ [ka Ha]%elem_of_list_lookup_1 [kb Hb]%elem_of_list_lookup_1.
    assert (Hr : reach w g) by (by eexists).
    destruct (C02_ports_and_nodes_pf w g Hw Hr) as (_ & _ & _ & HP & _). destruct (HP _ _ _ _ Ha) as (A1 & A2 & A3), (HP _ _ _ _ Hb) as (B1 & B2 & B3).
    assert (Hfree : forall c, (forall l, NoDup l -> (forall z, z ∈ l -> id z = c /\ exists v, linked g z v) -> length l < 1) -> forall z, ~ linked g c z).
    { intros c Hc z Hz. assert (length [c] < 1); [|cbn in *; lia]. apply Hc; [apply NoDup_singleton|]. intros x ->%elem_of_list_singleton. split; [done|by exists z]. }
    destruct (C07_link_ports_pf w g a b Hr) as (s' & r & El & Hiff & Hok & Herr). cbn [t_pg t_link].
    assert (Hst : step w g (OLink a b) = Ok (s', RLink r)) by (cbn; by rewrite El).
    destruct r as [e|x].
    - exfalso. destruct (Herr e eq_refl) as [-> He]. destruct e as [port|port|? ? ?|? ? ?]; try done.
      + destruct He as (He & q & Hq). destruct He; subst; [by apply (Hfree _ Fa q)|by apply (Hfree _ Fb q)].
      + destruct He; congruence.
      + destruct He as (_ & _ & E1 & E2). congruence.
    - destruct (Hok x eq_refl) as (_ & _ & _ & _ & Hn & _). exists s', x. split; [done|]. split.
      { exists (ops ++ [OLink a b]). split; [by econstructor|]. rewrite !fmap_app, !sum_list_with_app. cbn. unfold sum_list_with in *. clear - C1 C2. lia. }
      split; [apply Hn|]. split; [intros; apply Hn|].
      destruct (linked_link w g a b s' x Hr El) as (H1 & H2 & H3 & H4). exists a, b. split_and!; [done|done|by apply Hfree|by apply Hfree|done|done].
  Qed.
  Lemma pg_fits_count nn np nl g : pg_fits nn np nl g -> exists c, Ok (node_count g) = Ok c /\ (c = 0 <-> forall n, contains_node g n = false).
  Proof.
    intros Hg. destruct (C03_counts_pf w g (pg_fits_reach _ _ _ _ Hg)) as ((L & _ & HL & Hlen) & _). exists (node_count g). split; [done|]. rewrite <- Hlen. split.
    - intros Hl n. destruct (contains_node g n) eqn:E; [|done]. apply HL in E. destruct L; [by apply elem_of_nil in E|done].
    - intros Hn. destruct L as [|n L]; [done|]. assert (contains_node g n = true) by (apply HL; by left). by rewrite Hn in *.
  Qed.
  Lemma pg_fits_new nn np nl : (N.of_nat nn <= 2147483647)%N -> (N.of_nat np <= 2147483647)%N -> pg_fits nn np nl pg_new.
  Proof. intros H1 H2. exists []. split; [constructor|]. done. Qed.
End pg.

Section multi.
  Context (w : N) (Hw : (2 < w <= 63)%N).
  Let Hw1 : (1 < w <= 63)%N.
  Proof. lia. Qed.
  Definition m_room (nn np nl : nat) (m : mpg) : Prop := mreach w m /\
    (N.of_nat (length (pg_nodes (m_graph m)) + nn + 2 * nl) <= 2147483647)%N /\
    (N.of_nat (length (pg_pmeta (m_graph m)) + np) + 65536 * N.of_nat nl <= 2147483647)%N.
  Lemma m_room_reach nn np nl m : m_room nn np nl m -> reach w (m_graph m).
  Proof. intros [Hr _]. apply (mi_reach _ _ _ (mreach_minv w Hw m Hr)). Qed.
  Lemma m_room_weak nn np nl nn' np' nl' m : m_room nn np nl m -> nn' <= nn -> np' <= np -> nl' <= nl -> m_room nn' np' nl' m.
  Proof. intros (H & H1 & H2) Q1 Q2 Q3. split; [done|]. clear - H1 H2 Q1 Q2 Q3. lia. Qed.
  Lemma m_room_add nn np nl m i j : m_room (nn + 1) (np + (i + j)) nl m ->
    (N.of_nat i <= N.min (po_max_offset w) 32767)%N -> (N.of_nat j <= N.min (po_max_offset w) 32767)%N ->
    exists m' n, t_add (t_m w) m i j = Ok (m', n) /\ m_room nn np nl m' /\ m_contains_node m n = false /\ m_contains_node m' n = true /\
      num_ports (m_graph m') n Incoming = i /\ num_ports (m_graph m') n Outgoing = j /\
      (forall x, x <> n -> m_contains_node m' x = m_contains_node m x) /\
      (forall x d, x <> n -> m_contains_node m x = true -> ports (m_graph m') x d = ports (m_graph m) x d) /\
      (forall x y, mlinked w m' x y <-> mlinked w m x y).
  Proof.
    intros (Hr & C1 & C2) Hi Hj. assert (S1 : (N.of_nat i <= 65534)%N) by (clear - Hi; lia). assert (S2 : (N.of_nat (i + j) <= 65535)%N) by (clear - Hi Hj; lia).
    cbn [t_m t_add]. destruct (m_add_node w m i j) as [[m' n]|] eqn:Ea.
    2: { exfalso. unfold m_add_node in Ea. pose proof (mi_reach _ _ _ (mreach_minv w Hw m Hr)) as Rg.
      pose proof (reach_inv _ _ Rg) as (fnl & F & IG).
      pose proof (add_node_spec (po_max_offset w) (m_graph m) fnl F _ _ IG S1 S2) as HS.
      destruct (add_node _ _ _ _) as [[]|]; [done|]. unfold max_index in *.
      clear - HS Hi Hj C1 C2. lia. }
    destruct (C74_multi_add_remove_pf w m Hw Hr) as (HA & _). destruct (HA _ _ m' n S1 S2 Ea) as (H1 & H2 & H3 & H4 & H5 & H6 & _ & _ & H7).
    exists m', n. split; [done|]. split_and!; try done.
    - split; [done|]. unfold m_add_node in Ea. apply bind_inv in Ea as ([g' n'] & Ea & [= <- <-]).
      apply add_node_le in Ea as [G1 G2]. cbn [m_graph m_with_graph]. clear -G1 G2 C1 C2. lia.
    - intros x Hx. by apply H6.
    - intros x d Hx Hc. by apply H6.
  Qed.
  Context (B : nat) (HB1 : (N.of_nat B <= po_max_offset w + 1)%N) (HB2 : (N.of_nat B <= 32767)%N).
  Lemma m_room_link nn np nl m a b na nb : m_room nn np (nl + 1) m ->
    (forall l, NoDup l -> (forall z : subport, z ∈ l -> z.1 = a /\ exists v, mlinked w m z v) -> length l < B) ->
    (forall l, NoDup l -> (forall z : subport, z ∈ l -> z.1 = b /\ exists v, mlinked w m z v) -> length l < B) ->
    m_contains_node m na = true -> m_contains_node m nb = true ->
    a ∈ ports (m_graph m) na Outgoing -> b ∈ ports (m_graph m) nb Incoming ->
    exists m' r, t_link (t_m w) m a b = Ok (m', inr r) /\ m_room nn np nl m' /\ (forall x, m_contains_node m' x = m_contains_node m x) /\
      (forall x d, m_contains_node m x = true -> ports (m_graph m') x d = ports (m_graph m) x d) /\
      exists x y : subport, x.1 = a /\ y.1 = b /\ (forall z, ~ mlinked w m x z) /\ (forall z, ~ mlinked w m y z) /\ x <> y /\
          forall u v, mlinked w m' u v <-> mlinked w m u v \/ (u = x /\ v = y) \/ (u = y /\ v = x).
  Proof.
    intros (Hr & C1 & C2) Ba Bb [Hna Cna]%contains_node_m [Hnb Cnb]%contains_node_m Ha Hb.
    pose proof (mreach_minv w Hw m Hr) as I. pose proof (mi_reach _ _ _ I) as R0.
    apply (r_elem w _ R0) in Ha, Hb. assert (Va' : vis m a) by (by exists na, Outgoing). assert (Vb' : vis m b) by (by exists nb, Incoming).
    apply vis_contains in Va' as Va. apply vis_contains in Vb' as Vb.
    assert (Hab : a <> b). { intros <-. rewrite Ha in Hb. injection Hb. done. }
    destruct (below_room w Hw m a B I Va' HB1 HB2 Ba) as [Ra Fa]. destruct (below_room w Hw m b B I Vb' HB1 HB2 Bb) as [Rb Fb].
    destruct (m_link_total2 w Hw m a b na Outgoing nb Incoming I Ha Cna Hb Cnb Ra Rb Fa Fb) as (m' & r & El & Gr).
    { unfold space. change (2 ^ 31 - 1)%N with 2147483647%N in *. clear -C1 C2. lia. }
    cbn [t_m t_link].
    destruct (C56_multi_link_partial_pf w m a b Outgoing Hw Hr Va Vb (pm_dir _ _ _ _ Ha) (pm_dir _ _ _ _ Hb)) as [HL _].
    { by apply (room_roomy w Hw1 m I). }
    { by apply (room_roomy w Hw1 m I). }
    destruct (HL m' r El) as (Hr' & [Hsn _] & x & y & -> & Ex & Ey & Nx & Ny & Hlk & _).
    exists m', (x, y). split; [done|]. split. { split; [done|]. unfold grows in Gr. clear -Gr C1 C2. lia. }
    split; [intros z; apply Hsn|]. split; [intros z c Hz; by apply Hsn|]. exists x, y. split_and!; try done. congruence.
  Qed.
  Lemma m_room_count nn np nl m : m_room nn np nl m -> exists c, m_node_count m = Ok c /\ (c = 0 <-> forall n, m_contains_node m n = false).
  Proof.
    intros [Hr _]. destruct (C55_multi_counts_partial_pf w m Hw Hr) as (kn & kp & kl & lp & E & _ & _ & (L & _ & HL & Hlen) & _). exists kn. split; [done|]. rewrite <- Hlen. split.
    - intros Hl n. destruct (m_contains_node m n) eqn:En; [|done]. apply HL in En. destruct L; [by apply elem_of_nil in En|done].
    - intros Hn. destruct L as [|n L]; [done|]. assert (m_contains_node m n = true) by (apply HL; by left). by rewrite Hn in *.
  Qed.
  Lemma m_room_new nn np nl : (N.of_nat (nn + 2 * nl) <= 2147483647)%N -> (N.of_nat np + 65536 * N.of_nat nl <= 2147483647)%N -> m_room nn np nl m_new.
  Proof. intros H1 H2. split; [exists []; constructor; exists []; constructor|].
    change (length (pg_nodes (m_graph m_new))) with 0. change (length (pg_pmeta (m_graph m_new))) with 0. clear - H1 H2. lia. Qed.
End multi.
