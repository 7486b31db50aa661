(** Proofs of C137. *)
From Verif Require Export MNodesModel FlatSpec MultiThms.
From Verif Require Import PGInsert PG3Thms PG4Thms.

Lemma C137_link_nodes_refuted_pf :
  exists m' x y, mreach 16 mx /\ m_contains_node mx 0 = true /\ m_contains_node mx 3 = false /\
    m_link_nodes 16 mx 0 0 3 0 = Ok (m', inr (x, y)) /\ m_contains_port mx y.1 = false /\ m_contains_port m' y.1 = false /\
    m_port_links 16 mx 1 = Ok [((1, 0), (3, 0)); ((1, 1), (3, 1)); ((1, 2), (4, 0))] /\
    m_port_links 16 m' 1 = Ok [((1, 0), (16, 0)); ((1, 1), (3, 1)); ((1, 2), (4, 0)); ((1, 3), (16, 1))].
Proof.
  exists (match m_link_nodes 16 mx 0 0 3 0 with Ok (m', _) => m' | Panic => mx end), (1, 3), (16, 1).
  split; [apply mx_reach|]. vm_compute. repeat split.
Qed.

Lemma offset_visible w m a d i p : (2 < w <= 63)%N -> mreach w m -> ~ copy_node m a -> port_at (m_graph m) a d i p ->
  m_contains_port m p = true /\ pmeta (m_graph m) p = Some (a, d).
Proof.
  intros Hw Hm Ha Hp. pose proof (mi_reach _ _ _ (mreach_minv _ Hw _ Hm)) as Hr. pose proof (reach_inv _ _ Hr) as (fnl & F & I).
  pose proof (port_at_pmeta _ _ _ I _ _ _ _ Hp) as Hpm. split; [|done]. unfold m_contains_port, port_node. rewrite Hpm. cbn.
  destruct (is_copy m a) eqn:Ec; [|done]. exfalso. apply Ha. unfold copy_node, m_contains_node. rewrite Ec, andb_false_r. split; [|done].
  unfold port_at, ports in Hp. unfold contains_node. by destruct (nmeta (m_graph m) a).
Qed.

Lemma C137_link_offsets_partial_pf :
  forall w m a d i oa b e j ob, (2 < w <= 63)%N -> mreach w m -> ~ copy_node m a -> ~ copy_node m b ->
    (N.of_nat i <= po_max_offset w)%N -> (N.of_nat j <= po_max_offset w)%N ->
    po_new w d (N.of_nat i) = Ok oa -> po_new w e (N.of_nat j) = Ok ob ->
    ((forall p, ~ port_at (m_graph m) a d i p) -> m_link_offsets w m a oa b ob = Ok (m, inl (UnknownOffset a d i))) /\
    (forall p, port_at (m_graph m) a d i p -> (forall q, ~ port_at (m_graph m) b e j q) ->
       m_link_offsets w m a oa b ob = Ok (m, inl (UnknownOffset b e j))) /\
    (forall p q, port_at (m_graph m) a d i p -> port_at (m_graph m) b e j q ->
       m_contains_port m p = true /\ m_contains_port m q = true /\
       m_link_offsets w m a oa b ob = m_link_ports w m p q /\
       (room w m p -> room w m q -> forall m' r, m_link_offsets w m a oa b ob = Ok (m', r) ->
          mreach w m' /\ m_same_shape m m' /\
          (e = rev_dir d -> exists x y, r = inr (x, y) /\ x.1 = p /\ y.1 = q /\
             (forall z, ~ mlinked w m x z) /\ (forall z, ~ mlinked w m y z) /\
             forall s t, mlinked w m' s t <-> mlinked w m s t \/ (s = x /\ t = y) \/ (s = y /\ t = x)) /\
          (e = d -> (exists err, r = inl err) /\ forall x y, mlinked w m' x y <-> mlinked w m x y))).
Proof.
  intros w m a d i oa b e j ob Hw Hm Ca Cb Hi Hj Ha Hb.
  destruct (port_index_eq w (m_graph m) a d (N.of_nat i) ltac:(lia) Hi) as (oi & Hoi & Hdi & Hxi & Hpi).
  destruct (port_index_eq w (m_graph m) b e (N.of_nat j) ltac:(lia) Hj) as (oj & Hoj & Hdj & Hxj & Hpj).
  assert (oi = oa) as -> by congruence. assert (oj = ob) as -> by congruence.
  rewrite Nat2N.id in *. unfold m_link_offsets, t_link_offsets. cbn [t_m t_graph t_link]. rewrite Hpi, bind_Ok. split_and!.
  - intros H. destruct (ports (m_graph m) a d !! i) as [p|] eqn:E; [by destruct (H p)|].
    by rewrite Hdi, Hxi, !bind_Ok, Nat2N.id.
  - intros p Hp H. rewrite Hp, Hpj, bind_Ok. destruct (ports (m_graph m) b e !! j) as [q|] eqn:E; [by destruct (H q)|].
    by rewrite Hdj, Hxj, !bind_Ok, Nat2N.id.
  - intros p q Hp Hq. rewrite Hp, Hpj, bind_Ok, Hq.
    destruct (offset_visible _ _ _ _ _ _ Hw Hm Ca Hp) as [Vp Mp]. destruct (offset_visible _ _ _ _ _ _ Hw Hm Cb Hq) as [Vq Mq].
    split; [done|]. split; [done|]. split; [done|]. intros Rp Rq m' r E.
    assert (Dp : port_direction (m_graph m) p = Some d) by (unfold port_direction; by rewrite Mp).
    assert (Dq : port_direction (m_graph m) q = Some e) by (unfold port_direction; by rewrite Mq).
    destruct (decide (e = d)) as [->|Hne].
    + destruct (C72_multi_link_errors_partial_pf w m p q Hw Hm) as (_ & _ & H); [by apply visible_not_internal..|].
      destruct (H m' r Vp Vq) as (H1 & H2 & H3 & H4); [congruence|done..|]. split; [done|]. split; [done|]. split; [by destruct d|done].
    + assert (e = rev_dir d) as -> by (destruct d, e; done).
      destruct (C56_multi_link_partial_pf w m p q d Hw Hm Vp Vq Dp Dq Rp Rq) as [H _].
      destruct (H m' r E) as (H1 & H2 & x & y & -> & H3 & H4 & H5 & H6 & H7 & _). split; [done|]. split; [done|]. split; [|done].
      intros _. exists x, y. done.
Qed.

Lemma C137_link_nodes_partial_pf :
  forall w m a i b j, (2 < w <= 63)%N -> mreach w m -> ~ copy_node m a -> ~ copy_node m b ->
    (N.of_nat i <= po_max_offset w)%N -> (N.of_nat j <= po_max_offset w)%N ->
    ((forall p, ~ port_at (m_graph m) a Outgoing i p) ->
       m_link_nodes w m a (N.of_nat i) b (N.of_nat j) = Ok (m, inl (UnknownOffset a Outgoing i))) /\
    (forall p, port_at (m_graph m) a Outgoing i p -> (forall q, ~ port_at (m_graph m) b Incoming j q) ->
       m_link_nodes w m a (N.of_nat i) b (N.of_nat j) = Ok (m, inl (UnknownOffset b Incoming j))) /\
    (forall p q m' r, port_at (m_graph m) a Outgoing i p -> port_at (m_graph m) b Incoming j q -> room w m p -> room w m q ->
       m_link_nodes w m a (N.of_nat i) b (N.of_nat j) = Ok (m', r) ->
       mreach w m' /\ m_same_shape m m' /\ exists x y, r = inr (x, y) /\ x.1 = p /\ y.1 = q /\
         (forall z, ~ mlinked w m x z) /\ (forall z, ~ mlinked w m y z) /\
         forall s t, mlinked w m' s t <-> mlinked w m s t \/ (s = x /\ t = y) \/ (s = y /\ t = x)).
Proof.
  intros w m a i b j Hw Hm Ca Cb Hi Hj.
  destruct (port_index_eq w (m_graph m) a Outgoing (N.of_nat i) ltac:(lia) Hi) as (oi & Hoi & _).
  destruct (port_index_eq w (m_graph m) b Incoming (N.of_nat j) ltac:(lia) Hj) as (oj & Hoj & _).
  destruct (C137_link_offsets_partial_pf w m a Outgoing i oi b Incoming j oj Hw Hm Ca Cb Hi Hj Hoi Hoj) as (H1 & H2 & H3).
  unfold m_link_nodes. rewrite Hoi, Hoj, !bind_Ok. split; [done|]. split; [done|].
  intros p q m' r Hp Hq Rp Rq E. destruct (H3 p q Hp Hq) as (_ & _ & _ & H). destruct (H Rp Rq _ _ E) as (R1 & R2 & R3 & _).
  split; [done|]. split; [done|]. by apply R3.
Qed.
