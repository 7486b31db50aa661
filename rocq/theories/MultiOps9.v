(** The invariant holds of every multigraph with a history. *)
From Verif Require Export MultiCount.

Section hist.
  Context (w : N) (Hw : (2 < w <= 63)%N).

  (** [link_ports] with a first port that does not exist *)
  Lemma m_link_unknown m a b : ~ internal m a -> ~ vis m a -> m_link_ports w m a b = Ok (m, inl (UnknownPort a)).
  Proof.
    intros Na V. unfold m_link_ports. rewrite gf_unknown; [done|].
    destruct (pmeta (m_graph m) a) as [[na da]|] eqn:Ma; [|done]. destruct V. exists na, da. split; [done|]. by eapply not_internal.
  Qed.

  Lemma mstep_minv m o m' r : minv w m [] -> mallowed w m o -> mstep w m o = Ok (m', r) -> minv w m' [].
  Proof.
    intros I Ha E. assert (Hw1 : (1 < w <= 63)%N) by lia. pose proof (mi_reach _ _ _ I) as R.
    destruct o as [i j|n|a b|p|a b|s|n i j|a b| | | |x y|]; cbn [mstep mallowed] in *.
    - destruct (m_add_node w m i j) as [[m1 n]|] eqn:E1; [|done]. rewrite bind_Ok in E. injection E as <- _.
      by destruct (m_add_ok w m I i j m1 n (proj1 Ha) (proj2 Ha) E1).
    - destruct (contains_node (m_graph m) n) eqn:Hn.
      + destruct (m_remove_ok w Hw1 m I n Ha Hn) as (m1 & E1 & I1 & _). rewrite E1, bind_Ok in E. by injection E as <- _.
      + rewrite (m_remove_none w m I n Ha Hn), bind_Ok in E. by injection E as <- _.
    - destruct (m_link_ports w m a b) as [[m1 q]|] eqn:E1; [|done]. rewrite bind_Ok in E. injection E as <- _.
      destruct Ha as (Na & Nb & Ra & Rb & Hb). destruct (m_contains_port m a) eqn:Va.
      + specialize (Hb eq_refl). apply vis_contains in Va, Hb.
        pose proof Va as (na & da & Ma & Ca). pose proof Hb as (nb & db & Mb & Cb).
        by destruct (m_link_ok w Hw m a b na da nb db m1 q I Ma Ca Mb Cb (proj1 (room_roomy w Hw1 m I a Va) Ra) (proj1 (room_roomy w Hw1 m I b Hb) Rb) E1).
      + rewrite m_link_unknown in E1; [by injection E1 as <- _|done|]. rewrite vis_contains. congruence.
    - destruct (is_multi m p) eqn:Fp.
      + destruct (flag_live w m p I Fp) as [[n d] Mp].
        destruct (unlink_multi w Hw1 m I p) as (m1 & E1 & S1); [exists n, d; split; [done|]; by eapply not_internal|done|].
        rewrite E1, bind_Ok in E. injection E as <- _. apply S1.
      + destruct (unlink_single w Hw1 m I p Fp) as (m1 & E1 & S1); [intros n d Mp; by eapply not_internal|].
        rewrite E1, bind_Ok in E. injection E as <- _. apply S1.
    - destruct (m_link_subports w m a b) as [[m1 q]|] eqn:E1; [|done]. rewrite bind_Ok in E. injection E as <- _.
      destruct Ha as (H1 & H2 & H3 & H4). by destruct (m_link_sub_ok w Hw1 m I a b m1 q H1 H2 H3 H4 E1).
    - destruct Ha as (H1 & H2). destruct (m_unlink_sub_ok w Hw1 m I s H1 H2) as (m1 & q & E1 & I1 & _).
      rewrite E1, bind_Ok in E. by injection E as <- _.
    - destruct Ha as (Cn & HR). destruct (m_set_num_ports w m n i j) as [[m1 log]|] eqn:E1; [|done]. rewrite bind_Ok in E. injection E as <- _.
      assert (exists g' log', set_num_ports (m_graph m) n i j = Ok (g', log')) as (g' & log' & Eg).
      { unfold m_set_num_ports in E1. destruct (set_num_ports (m_graph m) n i j) as [[]|]; [eauto|done]. }
      destruct (contains_node (m_graph m) n) eqn:Hn.
      + destruct (m_snp_ok w Hw1 m I n i j g' log' Hn Cn Eg HR) as (m2 & E2 & I2 & _). rewrite E2 in E1. by injection E1 as <- _.
      + apply contains_node_false in Hn. destruct (reach_inv _ _ R) as (fnl & F & IG).
        pose proof (set_num_ports_spec (m_graph m) fnl F n i j IG) as HS. rewrite Eg, Hn in HS. destruct HS as (_ & _ & -> & ->).
        unfold m_set_num_ports in E1. rewrite Eg, bind_Ok in E1. cbn in E1. injection E1 as <- _. by destruct m.
    - destruct (m_swap_ok w m I a b Ha) as (m1 & E1 & I1 & _). rewrite E1, bind_Ok in E. by injection E as <- _.
    - destruct (m_compact_nodes_ok w Hw1 m I) as (m1 & log & E1 & I1 & _). rewrite E1, bind_Ok in E. by injection E as <- _.
    - destruct (m_compact_ports_ok w Hw1 m I Ha) as (m1 & log & E1 & I1 & _). rewrite E1, bind_Ok in E. by injection E as <- _.
    - injection E as <- _. change (m_clear m) with (m_from pg_new). apply from_minv. exists []. constructor.
    - injection E as <- _. by destruct m.
    - injection E as <- _. by destruct m.
  Qed.

  Lemma mreach_minv m : mreach w m -> minv w m [].
  Proof.
    intros [ops H]. induction H as [g R|ops m o m' r H IH Ha E]; [by apply from_minv|by eapply mstep_minv].
  Qed.
End hist.
