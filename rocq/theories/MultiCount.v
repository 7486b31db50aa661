(** The counts of a multigraph. *)
From Verif Require Export MultiView.

Lemma usub_ok a b : b <= a -> usub a b = Ok (a - b).
Proof. intros H. unfold usub. by rewrite decide_True. Qed.

Section count.
  Context (w : N) (Hw : (1 < w <= 63)%N) (m : mpg) (I : minv w m []).
  Notation g := (m_graph m).
  Let R := mi_reach _ _ _ I.

  Lemma node_count_ok : exists k, m_node_count m = Ok k /\ card (fun n => m_contains_node m n = true) k.
  Proof.
    destruct (C03_counts_pf w g R) as (C1 & _).
    destruct (card_minus _ _ _ _ (copy_live w m [] I) C1 (mi_cc _ _ _ I)) as [Hle C].
    exists (node_count g - m_ccount m). split; [by apply usub_ok|]. eapply card_ext; [|exact C]. intros n. cbn.
    rewrite contains_node_m. by rewrite not_true_iff_false.
  Qed.

  Definition hidden (p : nat) : Prop := exists c d, pmeta g p = Some (c, d) /\ is_copy m c = true.
  Lemma hidden_flagged : card (fun p => hidden p /\ is_multi m p = true) (m_ccount m).
  Proof.
    eapply (card_rel (fun c => is_copy m c = true) _ (fun c p => is_copy m c = true /\ is_multi m p = true /\ exists d, pmeta g p = Some (c, d)));
      [| | | |apply (mi_cc _ _ _ I)].
    - intros c Hc. destruct (copy_vis w Hw m I c Hc) as (q & d & p & n & Pq & Fq & _ & _ & _ & _ & Mq & _). exists q. split; [eauto|]. split; [by exists c, d|done].
    - intros p [(c & d & M & Hc) F]. exists c. eauto 6.
    - intros c c' p (_ & _ & d & M) (_ & _ & d' & M'). congruence.
    - intros c p p' (Hc & F & d & M) (_ & F' & d' & M'). destruct (mi_copy _ _ _ I c Hc) as (q & d1 & Pq & Fq & _ & _ & Ho).
      destruct (copy_port w m [] I c q d1 d p Hc Pq Fq Ho M F) as [-> _]. by destruct (copy_port w m [] I c q d1 d' p' Hc Pq Fq Ho M' F') as [-> _].
  Qed.
  Lemma port_count_ok : exists k, m_port_count m = Ok k /\ card (fun p => m_contains_port m p = true) k.
  Proof.
    destruct (C03_counts_pf w g R) as (_ & C2 & _). pose proof (mi_sc _ _ _ I) as C3. pose proof hidden_flagged as C4.
    assert (Cs : card hidden (m_scount m + m_ccount m)).
    { pose proof (fun Hd => card_union _ _ _ _ Hd C3 C4) as K. eapply card_ext; [|apply K].
      - intros p. cbn. split.
        + intros [(c & d & M & Hc & _)|[H _]]; [by exists c, d|done].
        + intros H. destruct (is_multi m p) eqn:F; [by right|left]. destruct H as (c & d & M & Hc). by exists c, d.
      - intros p (c & d & _ & _ & F) [_ F']. congruence. }
    assert (Hs : forall p, hidden p -> contains_port g p = true) by (intros p (c & d & M & _); apply contains_port_true; eauto).
    destruct (card_minus _ _ _ _ Hs C2 Cs) as [Hle C].
    exists (port_count g - (m_scount m + m_ccount m)). split.
    { unfold m_port_count. rewrite usub_ok by lia. rewrite bind_Ok, usub_ok by lia. f_equal. lia. }
    eapply card_ext; [|exact C]. intros p. cbn. rewrite <- vis_contains, contains_port_true. split.
    - intros [[[n d] M] Hh]. exists n, d. split; [done|]. destruct (is_copy m n) eqn:E; [|done]. destruct Hh. by exists n, d.
    - intros (n & d & M & Cn). split; [eauto|]. intros (c & d' & M' & Cc). congruence.
  Qed.

  (** The flagged end of the internal link of a copy node that is outgoing *)
  Definition main_link (c p : nat) : Prop := is_copy m c = true /\ is_multi m p = true /\ exists n, pmeta g p = Some (n, Outgoing) /\
    (n = c \/ is_copy m n = false /\ exists q, lk g p = Some q /\ pmeta g q = Some (c, Incoming)).
  Lemma flagged_links : card (fun p => (port_direction g p = Some Outgoing /\ exists q, linked g p q) /\ is_multi m p = true) (m_ccount m).
  Proof.
    eapply (card_rel (fun c => is_copy m c = true) _ main_link); [| | | |apply (mi_cc _ _ _ I)].
    - intros c Hc. destruct (copy_vis w Hw m I c Hc) as (q & d & p & n & Pq & Fq & Lq & Lp & Fp & Mp & Mq & Cn & _). destruct d; cbn [rev_dir] in *.
      + exists p. split.
        * split; [done|]. split; [done|]. exists n. split; [done|]. right. split; [done|]. by exists q.
        * split; [|done]. split; [by eapply pm_dir|]. exists q. by apply linked_lk.
      + exists q. split.
        * split; [done|]. split; [done|]. exists c. split; [done|]. by left.
        * split; [|done]. split; [by eapply pm_dir|]. exists p. by apply linked_lk.
    - intros p [[D _] F]. destruct (flag_paired w m I p F) as (n & d & y & n' & Mp & L & Fy & My & Cn).
      rewrite (pm_dir _ _ _ _ Mp) in D. injection D as ->. destruct (is_copy m n) eqn:E; cbn in Cn.
      + exists n. split; [|done]. split; [done|]. split; [done|]. exists n. split; [done|]. by left.
      + exists n'. split; [|done]. split; [done|]. split; [done|]. exists n. split; [done|]. right. split; [done|]. by exists y.
    - intros c c' p (Hc & _ & n & M & H) (Hc' & _ & n' & M' & H'). rewrite M in M'. injection M' as <-.
      destruct H as [->|(Cn & q & L & Mq)], H' as [->|(Cn' & q' & L' & Mq')]; congruence.
    - assert (G : forall c p p', is_copy m c = true -> is_multi m p = true -> is_multi m p' = true -> pmeta g p = Some (c, Outgoing) ->
        (exists n q, pmeta g p' = Some (n, Outgoing) /\ lk g p' = Some q /\ pmeta g q = Some (c, Incoming) /\ is_copy m n = false) -> False).
      { intros c p p' Hc F F' M (n & q & M' & L & Mq & Cn). destruct (mi_copy _ _ _ I c Hc) as (q0 & d0 & Pq & Fq & _ & _ & Ho).
        destruct (copy_port w m [] I c q0 d0 _ p Hc Pq Fq Ho M F) as [-> <-].
        destruct (flag_paired w m I p' F') as (? & ? & y & ? & _ & Ly & Fy & _). assert (y = q) as -> by congruence.
        by destruct (copy_port w m [] I c q0 Outgoing _ q Hc Pq Fq Ho Mq Fy) as [_ ?]. }
      intros c p p' (Hc & F & n & M & H) (_ & F' & n' & M' & H').
      destruct H as [->|(Cn & q & L & Mq)], H' as [->|(Cn' & q' & L' & Mq')].
      + destruct (mi_copy _ _ _ I c Hc) as (q0 & d0 & Pq & Fq & _ & _ & Ho).
        destruct (copy_port w m [] I c q0 d0 _ p Hc Pq Fq Ho M F) as [-> _]. by destruct (copy_port w m [] I c q0 d0 _ p' Hc Pq Fq Ho M' F') as [-> _].
      + exfalso. eapply (G c p p'); eauto 8.
      + exfalso. eapply (G c p' p); eauto 8.
      + destruct (mi_copy _ _ _ I c Hc) as (q0 & d0 & Pq & Fq & _ & _ & Ho).
        assert (Fl : forall p q, is_multi m p = true -> lk g p = Some q -> is_multi m q = true).
        { intros x z Fx Lx. destruct (flag_paired w m I x Fx) as (? & ? & y & ? & _ & Ly & Fy & _). congruence. }
        destruct (copy_port w m [] I c q0 d0 _ q Hc Pq Fq Ho Mq (Fl _ _ F L)) as [-> _]. destruct (copy_port w m [] I c q0 d0 _ q' Hc Pq Fq Ho Mq' (Fl _ _ F' L')) as [-> _].
        by eapply (r_lk_inj w g R).
  Qed.
  Lemma link_count_ok : exists k, m_link_count m = Ok k /\
    card (fun x => mlinked w m x.1 x.2 /\ port_direction g x.1.1 = Some Outgoing) k.
  Proof.
    destruct (C03_counts_pf w g R) as (_ & _ & C3 & _).
    destruct (card_minus _ _ _ _ (fun x H => proj1 H) C3 flagged_links) as [Hle C].
    exists (link_count g - m_ccount m). split; [by apply usub_ok|].
    eapply (card_rel _ _ (fun p x => raws m x.1.1 !! x.1.2 = Some p /\ rlink m x.1 x.2)); [| | | |exact C].
    - intros p [[D [q L]] H]. assert (F : is_multi m p = false). { destruct (is_multi m p) eqn:F; [|done]. destruct H. split; [|done]. split; [done|by exists q]. }
      apply linked_lk in L. unfold port_direction in D. destruct (pmeta g p) as [[n d]|] eqn:M; [|done]. cbn in D. injection D as ->.
      destruct (raws_surj w Hw m I p) as (a & i & V & Hi); [eauto|done|]. destruct (lk_psub w Hw m I p q L F) as (_ & V' & Hq).
      assert (RL : rlink m (a, i) (psub w m q)). { split; [done|]. split; [done|]. by exists p, q. }
      exists ((a, i), psub w m q). split; [done|]. cbn. split; [by apply (mlinked_iff w Hw m I)|].
      destruct V as (n' & d' & Ma & Cn). destruct (raws_some w Hw m I _ _ _ _ _ Ma Cn Hi) as (_ & [c M'] & _).
      rewrite M in M'. injection M' as _ <-. by eapply pm_dir.
    - intros [x y] [RL D]. cbn in *. apply (mlinked_iff w Hw m I) in RL. pose proof RL as (V & V' & s & t & Hs & Ht & L). exists s. split; [done|].
      pose proof V as (n & d & Mx & Cn). rewrite (pm_dir _ _ _ _ Mx) in D. injection D as ->.
      destruct (raws_some w Hw m I _ _ _ _ _ Mx Cn Hs) as (F & [c M] & _). split.
      + split; [by eapply pm_dir|]. exists t. by apply linked_lk.
      + intros [_ F']. congruence.
    - intros p p' x [H _] [H' _]. congruence.
    - intros p [[a i] y] [[a' i'] y'] [H RL] [H' RL']. cbn in *. pose proof RL as (V & _). pose proof RL' as (V' & _). cbn in *.
      destruct (raws_inj w Hw m I a i a' i' p V V' H H') as [<- <-]. f_equal. by eapply (rlink_fun w Hw m I).
  Qed.
End count.
