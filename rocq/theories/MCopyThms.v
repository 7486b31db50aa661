(** Proof of property C100. *)
From Verif Require Export MCopyProofs.


Lemma C100_multi_copy_in_parent_pf :
forall w m nodes order Ks, (2 < w <= 63)%N -> mreach w m -> NoDup nodes -> (forall n, n ∈ nodes -> m_contains_node m n = true) ->
  (forall l, order l ≡ₚ l) -> link_list (lv_of_m w m) (mlinked w m) Ks ->
  (forall n d, n ∈ nodes -> (N.of_nat (num_ports (m_graph m) n d) <= po_max_offset w)%N) ->
  (forall p l, m_contains_port m p = true -> m_port_links w m p = Ok l -> (2 * N.of_nat (length l) <= N.min (po_max_offset w + 1) 32767)%N) ->
  (N.of_nat (length (pg_nodes (m_graph m)) + length nodes + 2 * length Ks) <= 2 ^ 31 - 1)%N ->
  (N.of_nat (length (pg_pmeta (m_graph m)) + sum_list (n_ports (m_graph m) <$> nodes)) + 65536 * N.of_nat (length Ks) <= 2 ^ 31 - 1)%N ->
  exists m' R, m_copy_in_parent w order nodes m = Ok (m', inr R) /\ mreach w m' /\ R.*1 ≡ₚ nodes /\
    nodes_copied R.*1 (m_graph m) (m_graph m) (m_graph m') (fun n => m_contains_node m n = true) (fun n => m_contains_node m' n = true) R /\
    exists f, part_copied w nodes m m' R f.
Proof.
  intros w m nodes order Ks Hw Hm Hnd Hin Hord HKs Hmax HB Hb1 Hb2.
  pose proof (m_shows w Hw m Hm) as HS.
  set (B := N.to_nat (N.min (po_max_offset w + 1) 32767)).
  assert (HB1 : (N.of_nat B <= po_max_offset w + 1)%N) by (unfold B; lia). assert (HB2 : (N.of_nat B <= 32767)%N) by (unfold B; lia).
  assert (HBB : forall p (l : list subport), NoDup l -> (forall x, x ∈ l -> x.1 = p /\ exists y, mlinked w m x y) -> 2 * length l <= B).
  { intros p l Hn Hl. enough (length l <= Nat.div2 B) as Hd by (pose proof (Nat.div2_odd B); lia).
    apply (plinks_bound (lv_of_m w m) _ _ HS (Nat.div2 B)) with (p := p); [|done|done].
    intros q k Hq Hk. assert (Hc : m_contains_port m q = true).
    { destruct (lvs_port _ _ _ HS q) as (b & Eb & Hb). cbn in Eb. injection Eb as <-. by apply Hb. }
    cbn in Hk. destruct (m_port_links w m q) as [k'|] eqn:Ek; [|done]. injection Hk as ->. specialize (HB q k Hc Ek).
    pose proof (Nat.div2_odd B) as Hod. assert (2 * length k <= B) by (unfold B; lia). destruct (Nat.odd B); cbn in Hod; lia. }
  destruct (m_copy_ok w Hw m Hm nodes Hnd Hin Hmax B (length Ks) HB1 HB2 HBB (fun K => links_bound (lv_of_m w m) _ _ HS Ks K HKs) Hb1 Hb2 order Hord)
    as (m' & R & K & M & E & X & HR & HA).
  exists m', R. split; [done|]. split; [apply (mc_good _ _ _ _ _ _ _ _ X)|]. split; [done|]. split; [by eapply mc_nodes|].
  eexists. exact (mc_links w Hw m Hm nodes Hin Hmax B (length Ks) HB1 HB2 HBB (fun K => links_bound (lv_of_m w m) _ _ HS Ks K HKs) Hb1 Hb2 R K M m' X HA).
Qed.
