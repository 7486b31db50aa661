(** Calls that only remove links or copy nodes, or add ordinary nodes. *)
From Verif Require Export MapThms MultiInv.

Lemma from_minv w g : reach w g -> minv w (m_from g) [].
Proof.
  intros R. split; cbn; try done; try apply NoDup_nil_2.
  - intros p q H. by apply elem_of_nil in H.
  - by apply card_empty.
  - apply card_empty. by intros x (c & d & _ & ? & _).
Qed.

Section basics.
  Context (w : N) (m : mpg) (D : list (nat * nat)) (I : minv w m D).
  Let R := mi_reach _ _ _ I.
  Lemma copy_live c : is_copy m c = true -> contains_node (m_graph m) c = true.
  Proof.
    intros Hc. destruct (mi_copy _ _ _ I c Hc) as (q & d & Hq & _). eapply (r_node w _ R q c d).
    apply (r_elem w _ R). rewrite Hq. by left.
  Qed.
End basics.
Lemma flag_live w m x : minv w m [] -> is_multi m x = true -> is_Some (pmeta (m_graph m) x).
Proof. intros I Hx. destruct (flag_paired w m I x Hx) as (n & d & _ & _ & E & _). eauto. Qed.

Lemma bv_set_get b k v : exists b', bv_set b k v = Ok b' /\ forall x, bv_get b' x = if decide (x = k) then v else bv_get b x.
Proof. apply bv_set_ok. Qed.

(** ** Changing links between unflagged ports *)
Lemma minv_relink w m g' : minv w m [] -> reach w g' -> same_shape (m_graph m) g' ->
  (forall x, is_multi m x = true -> lk g' x = lk (m_graph m) x) -> minv w (m_with_graph m g') [].
Proof.
  intros I R' (Sn & Sp & Sm) Hl. pose proof I as [R Hfl Hcp Hd N1 N2 Hcc Hsc].
  split; cbn [m_graph m_with_graph m_ccount m_scount]; try done; unfold is_multi, is_copy in *; cbn [m_multi m_copy m_with_graph].
  - intros x Hx. right. right. destruct (flag_paired w m I x Hx) as (n & d & y & n' & H1 & H2 & H3 & H4 & H5).
    exists n, d, y, n'. cbn [m_graph m_with_graph]. rewrite !Sm, Hl by done. done.
  - intros c Hc. destruct (Hcp c Hc) as (q & d & ? & ? & ? & ? & ?). exists q, d. rewrite !Sp.
    replace (num_ports g' c (rev_dir d)) with (num_ports (m_graph m) c (rev_dir d)) by (by rewrite <- !ports_length, Sp). done.
  - intros p q H. by apply elem_of_nil in H.
  - eapply card_ext; [|exact Hsc]. intros s. cbn. by setoid_rewrite Sm.
Qed.
Section relink.
  Context (w : N) (m : mpg) (g' : pg) (I : minv w m []) (S : same_shape (m_graph m) g')
    (Hl : forall x, is_multi m x = true -> lk g' x = lk (m_graph m) x).
  Lemma relink_vis p : vis (m_with_graph m g') p <-> vis m p.
  Proof. destruct S as (_ & _ & Sm). unfold vis, is_copy. cbn. by setoid_rewrite Sm. Qed.
  Lemma relink_raws p : raws (m_with_graph m g') p = raws m p.
  Proof.
    destruct S as (_ & Sp & Sm). unfold raws. change (is_multi (m_with_graph m g') p) with (is_multi m p). cbn [m_graph m_with_graph].
    destruct (is_multi m p) eqn:E; [|done]. rewrite Hl, Sm by done. destruct (lk (m_graph m) p) as [q|]; [|done].
    destruct (pmeta (m_graph m) p) as [[n d]|]; [|done]. rewrite Sm. destruct (pmeta (m_graph m) q) as [[c d']|]; [|done]. apply Sp.
  Qed.
  Lemma relink_rlink x y : rlink (m_with_graph m g') x y <-> vis m x.1 /\ vis m y.1 /\
    exists s t, raws m x.1 !! x.2 = Some s /\ raws m y.1 !! y.2 = Some t /\ lk g' s = Some t.
  Proof. unfold rlink. rewrite !relink_vis, !relink_raws. done. Qed.
End relink.

(** ** remove_copy_node *)
Record rc_post (m : mpg) (p q c : nat) (m' : mpg) : Prop := {
  rc_fl : forall x, is_multi m' x = if decide (x = p \/ x = q) then false else is_multi m x;
  rc_cp : forall x, is_copy m' x = if decide (x = c) then false else is_copy m x;
  rc_dead : contains_node (m_graph m') c = false;
  rc_cn : forall x, x <> c -> contains_node (m_graph m') x = contains_node (m_graph m) x;
  rc_ports : forall x d, x <> c -> ports (m_graph m') x d = ports (m_graph m) x d;
  rc_pm : forall x n d, pmeta (m_graph m') x = Some (n, d) <-> pmeta (m_graph m) x = Some (n, d) /\ n <> c;
  rc_lk : forall x y, lk (m_graph m') x = Some y <->
    lk (m_graph m) x = Some y /\ port_node (m_graph m) x <> Some c /\ port_node (m_graph m) y <> Some c;
}.
Lemma m_remove_copy_ok w m p q D : minv w m ((p, q) :: D) ->
  exists c d m', pmeta (m_graph m) q = Some (c, d) /\ is_copy m c = true /\
    m_remove_copy w m p q = Ok (m', option_map (fun _ => (p, 0)) (lk (m_graph m) q)) /\ minv w m' D /\ rc_post m p q c m'.
Proof.
  intros I. pose proof I as [R Hfl Hcp Hd N1 N2 Hcc Hsc].
  destruct (Hd p q) as (Fp & Fq & (c & d & Hq & Hc) & Hpn & Hlp & Hlq); [by left|].
  exists c, d. destruct (Hcp c Hc) as (q0 & d0 & Hq0 & F0 & H2 & Hmax & Ho).
  destruct (copy_port w m _ I c q0 d0 d q Hc Hq0 F0 Ho Hq Fq) as [<- <-].
  assert (Honly : forall x d', pmeta (m_graph m) x = Some (c, d') -> is_multi m x = true -> x = q).
  { intros x d' Hx Fx. by destruct (copy_port w m _ I c q d d' x Hc Hq0 F0 Ho Hx Fx). }
  destruct (v_remove w _ R c (copy_live w m _ I c Hc)) as (g' & Eg & R' & Hdead & Hcn & Hpo & Hpm & Hlk).
  destruct (bv_set_get (m_multi m) q false) as (f1 & Ef1 & Hf1).
  destruct (bv_set_get f1 p false) as (f2 & Ef2 & Hf2).
  destruct (bv_set_get (m_copy m) c false) as (c1 & Ec1 & Hc1).
  assert (Hqp : q <> p). { intros ->. apply Hpn in Hq. congruence. }
  (* counters *)
  destruct (card_del _ _ c Hc Hcc) as [Hcc1 Hcc2].
  assert (Hsub : forall s, s ∈ ports (m_graph m) c (rev_dir d) -> exists c d, pmeta (m_graph m) s = Some (c, d) /\ is_copy m c = true /\ is_multi m s = false).
  { intros s Hs. exists c, (rev_dir d). split; [by apply (r_elem w _ R)|]. split; [done|by apply Ho]. }
  destruct (card_minus _ _ _ _ Hsub Hsc (card_list _ (r_nodup (m_graph m) c (rev_dir d)))) as [Hsc1 Hsc2].
  set (m' := MPG g' f2 c1 (m_ccount m - 1) (m_scount m - length (ports (m_graph m) c (rev_dir d)))).
  assert (Gf : forall x, bv_get f2 x = true <-> x <> p /\ x <> q /\ is_multi m x = true).
  { intros x. rewrite Hf2, Hf1. unfold is_multi. repeat destruct (decide _); naive_solver. }
  assert (Gc : forall x, bv_get c1 x = true <-> x <> c /\ is_copy m x = true).
  { intros x. rewrite Hc1. unfold is_copy. repeat destruct (decide _); naive_solver. }
  exists m'. split_and!; [done..| | |].
  - unfold m_remove_copy. rewrite (pm_node _ _ _ _ Hq), (pm_dir _ _ _ _ Hq). cbn [unwrap]. rewrite !bind_Ok.
    destruct (C18_links_pf w (m_graph m) c R) as (H18 & _). destruct (H18 d) as (L & N & s & EL & HL & _).
    rewrite EL, bind_Ok, HL, Hq0. cbn [omap list_omap].
    assert (Hlk' : link_of (m_graph m) q = option_map (fun _ => (q, p)) (lk (m_graph m) q)).
    { unfold link_of. rewrite (r_port_link w _ R _ _ Hq). destruct (lk (m_graph m) q) as [y|] eqn:Ey; [|done]. cbn. by rewrite (Hlq _ eq_refl). }
    rewrite Hlk'.
    assert (Hlink : match head (match option_map (fun _ : nat => (q, p)) (lk (m_graph m) q) with Some y => [y] | None => [] end) with
         | Some (_, tgt) => mbind (M := res) (fun t => mbind (M := res) (fun t => Ok (Some t)) (unwrap t)) (port_to_sub w m tgt)
         | None => Ok None end = Ok (option_map (fun _ => (p, 0)) (lk (m_graph m) q))).
    { destruct (lk (m_graph m) q) as [y|] eqn:Ey; [|done]. cbn [option_map head]. pose proof (Hlq _ eq_refl) as ->.
      destruct (r_lk_meta w _ R _ _ Ey) as (? & ? & n & _ & Hmp). rewrite (sub_unique w m p n _ Hmp) by (by eapply Hpn). done. }
    rewrite Hlink, bind_Ok, Ef1, bind_Ok, Ef2, bind_Ok, Ec1, bind_Ok, Eg, bind_Ok.
    rewrite !usub_ok by lia. rewrite !bind_Ok. done.
  - split; cbn [m_graph m_ccount m_scount m']; try done; unfold is_multi, is_copy; cbn [m_multi m_copy m'].
    + intros x Hx%Gf. destruct Hx as (Hxp & Hxq & Fx). destruct (Hfl x Fx) as [H|[H|H]].
      * left. by apply elem_of_cons in H as [?|?].
      * right; left. by apply elem_of_cons in H as [?|?].
      * right; right. destruct H as (n & d' & y & n' & P1 & P2 & P3 & P4 & P5).
        assert (Hyp : y <> p). { intros ->. apply (r_lk_sym w _ R) in P2. apply Hlp in P2. done. }
        assert (Hyq : y <> q). { intros ->. apply (r_lk_sym w _ R) in P2. apply Hlq in P2. done. }
        assert (Hn : n <> c). { intros ->. apply Hxq. by eapply Honly. }
        assert (Hn' : n' <> c). { intros ->. apply Hyq. by eapply Honly. }
        exists n, d', y, n'. split; [by apply Hpm|]. split.
        { apply Hlk. split; [done|]. rewrite (pm_node _ _ _ _ P1), (pm_node _ _ _ _ P4). split; congruence. }
        split; [by apply Gf|]. split; [by apply Hpm|].
        unfold is_copy. cbn [m_copy m']. rewrite !Hc1, !decide_False by done. done.
    + intros c' Hc'%Gc. destruct Hc' as [Hne Hc']. destruct (Hcp c' Hc') as (q' & d' & A1 & A2 & A3 & A4 & A5).
      assert (Mq' : pmeta (m_graph m) q' = Some (c', d')). { apply (r_elem w _ R). rewrite A1. by left. }
      exists q', d'. rewrite !Hpo by done.
      replace (num_ports g' c' (rev_dir d')) with (num_ports (m_graph m) c' (rev_dir d')) by (by rewrite <- !ports_length, Hpo).
      split_and!; try done.
      * apply Gf. split_and!; [|congruence|done]. intros ->. apply Hpn in Mq'. congruence.
      * intros s Hs. destruct (bv_get f2 s) eqn:E; [|done]. apply Gf in E as (_ & _ & E). rewrite A5 in E; done.
    + intros p2 q2 H2'. destruct (Hd p2 q2) as (B1 & B2 & (c2 & d2 & B3 & B4) & B5 & B6 & B7); [by right|].
      assert (Hp2 : p2 <> p). { intros ->. apply NoDup_cons in N1 as [N1 _]. apply N1. by apply (elem_of_list_fmap_1 fst) in H2'. }
      assert (Hq2 : q2 <> q). { intros ->. apply NoDup_cons in N2 as [N2 _]. apply N2. by apply (elem_of_list_fmap_1 snd) in H2'. }
      assert (Hc2 : c2 <> c). { intros ->. apply Hq2. by eapply Honly. }
      split_and!.
      * apply Gf. split_and!; [done| |done]. intros ->. apply B5 in Hq. congruence.
      * apply Gf. split_and!; [|done|done]. intros ->. apply Hpn in B3. congruence.
      * exists c2, d2. split; [by apply Hpm|]. by apply Gc.
      * intros n d' [Hn Hne]%Hpm. rewrite Hc1, decide_False by done. by eapply B5.
      * intros y [Hy _]%Hlk. by apply B6.
      * intros y [Hy _]%Hlk. by apply B7.
    + by apply NoDup_cons in N1 as [_ ?].
    + by apply NoDup_cons in N2 as [_ ?].
    + eapply card_ext; [|exact Hcc2]. intros x. cbn. rewrite Gc. unfold is_copy. tauto.
    + eapply card_ext; [|exact Hsc2]. intros s. cbn. split.
      * intros [(c2 & d2 & S1 & S2 & S3) Hs]. assert (Hne : c2 <> c).
        { intros ->. destruct (dir_rev_or d d2) as [->| ->]; [|by apply Hs, (r_elem w _ R)].
          apply (r_elem w _ R) in S1. rewrite Hq0 in S1. apply elem_of_list_singleton in S1 as ->. congruence. }
        exists c2, d2. split; [by apply Hpm|]. split; [by apply Gc|]. destruct (bv_get f2 s) eqn:E; [|done].
        apply Gf in E as (_ & _ & E). congruence.
      * intros (c2 & d2 & [S1 Hne]%Hpm & [_ S2]%Gc & S3). split.
        { exists c2, d2. split_and!; try done. destruct (is_multi m s) eqn:E; [|done]. exfalso.
          assert (bv_get f2 s = true); [|congruence]. apply Gf. split_and!; [|congruence|done].
          intros ->. apply Hpn in S1. congruence. }
        intros Hs%(r_elem w _ R). congruence.
  - split; cbn [m_graph m']; try done; unfold is_multi, is_copy; cbn [m_multi m_copy m'].
    intros x. rewrite Hf2, Hf1. destruct (decide (x = p)) as [->|]; [by rewrite decide_True by auto|].
    destruct (decide (x = q)) as [->|]; [by rewrite decide_True by auto|]. by rewrite decide_False by tauto.
Qed.

(** ** Dropping all links of some ports *)
Record shrink (w : N) (m m' : mpg) (P : nat -> Prop) : Prop := {
  sh_minv : minv w m' [];
  sh_vis : forall x n d, (pmeta (m_graph m') x = Some (n, d) /\ is_copy m' n = false) <->
                         (pmeta (m_graph m) x = Some (n, d) /\ is_copy m n = false);
  sh_node : forall n, (contains_node (m_graph m') n = true /\ is_copy m' n = false) <->
                      (contains_node (m_graph m) n = true /\ is_copy m n = false);
  sh_ports : forall n d, contains_node (m_graph m) n = true -> is_copy m n = false ->
    ports (m_graph m') n d = ports (m_graph m) n d;
  sh_fl : forall x, vis m x -> (is_multi m' x = true <-> is_multi m x = true /\ ~ P x);
  sh_rlink : forall x y, rlink m' x y <-> rlink m x y /\ ~ P x.1 /\ ~ P y.1;
}.
Lemma shrink_refl w m (P : nat -> Prop) : minv w m [] -> (forall x, ~ P x) -> shrink w m m P.
Proof. intros I HP. split; try done; intros; naive_solver. Qed.
Lemma shrink_vis w m m' P x : shrink w m m' P -> vis m' x <-> vis m x.
Proof. intros S. unfold vis. by setoid_rewrite (sh_vis _ _ _ _ S). Qed.
Lemma shrink_trans w m m1 m2 P Q (PQ : nat -> Prop) : shrink w m m1 P -> shrink w m1 m2 Q -> (forall x, PQ x <-> P x \/ Q x) -> shrink w m m2 PQ.
Proof.
  intros S1 S2 HPQ. split.
  - apply S2.
  - intros x n d. rewrite (sh_vis _ _ _ _ S2). apply S1.
  - intros n. rewrite (sh_node _ _ _ _ S2). apply S1.
  - intros n d H1 H2. destruct (proj2 (sh_node _ _ _ _ S1 n)) as [H3 H4]; [done|].
    rewrite (sh_ports _ _ _ _ S2) by done. by apply S1.
  - intros x Hx. rewrite (sh_fl _ _ _ _ S2) by (by apply (shrink_vis _ _ _ _ _ S1)).
    rewrite (sh_fl _ _ _ _ S1), HPQ by done. tauto.
  - intros x y. rewrite (sh_rlink _ _ _ _ S2), (sh_rlink _ _ _ _ S1), !HPQ. tauto.
Qed.

Section unlink.
  Context (w : N) (Hw : (1 < w <= 63)%N) (m : mpg) (I : minv w m []).
  Notation g := (m_graph m).
  Let R := mi_reach _ _ _ I.

  Lemma dangle p q n d : is_multi m p = true -> pmeta g p = Some (n, d) -> is_copy m n = false -> lk g p = Some q ->
    minv w m [(p, q)].
  Proof.
    intros Fp Hp Hn Hl. destruct (flag_vis w m I p n d Fp Hp Hn) as (q' & c & Hl' & Hlq & Fq & Mq & Hc & _).
    assert (q' = q) as -> by congruence. pose proof I as [_ Hfl Hcp Hd N1 N2 Hcc Hsc]. split; try done.
    - intros x Hx. right. right. by apply (flag_paired w m I).
    - intros p' q' H. apply elem_of_list_singleton in H. injection H as -> ->. split_and!; try done.
      + exists c, (rev_dir d). done.
      + intros. congruence.
      + intros. congruence.
      + intros. congruence.
    - cbn. apply NoDup_singleton.
    - cbn. apply NoDup_singleton.
  Qed.
  Lemma rc_shrink p q c m' : vis m p -> is_multi m p = true -> lk g p = Some q -> port_node g q = Some c -> is_copy m c = true ->
    minv w m' [] -> rc_post m p q c m' -> shrink w m m' (fun x => x = p).
  Proof.
    intros V Fp Hlp Hq Hc I' RC. destruct V as (n & d & Hp & Hn). pose proof (mi_reach _ _ _ I') as R'.
    destruct (flag_vis w m I p n d Fp Hp Hn) as (q' & c' & Hl' & Hlq & Fq & Mq & Hc' & Hpc & Hrp & _).
    assert (q' = q) as -> by congruence. rewrite (pm_node _ _ _ _ Mq) in Hq. injection Hq as ->.
    assert (V : vis m p) by (by exists n, d).
    assert (Sv : forall x n d, (pmeta (m_graph m') x = Some (n, d) /\ is_copy m' n = false) <-> (pmeta g x = Some (n, d) /\ is_copy m n = false)).
    { intros x n1 d1. rewrite (rc_pm _ _ _ _ _ RC), (rc_cp _ _ _ _ _ RC). destruct (decide (n1 = c)) as [->|]; [|tauto].
      rewrite Hc. split; [tauto|]. by intros [? ?]. }
    assert (Sf : forall x, vis m x -> (is_multi m' x = true <-> is_multi m x = true /\ x <> p)).
    { intros x (n1 & d1 & Hx1 & Hx2). rewrite (rc_fl _ _ _ _ _ RC). destruct (decide (x = p \/ x = q)) as [[->| ->]|]; [naive_solver|congruence|tauto]. }
    assert (Sr : forall x, vis m x -> x <> p -> raws m' x = raws m x).
    { intros x Vx Hx. destruct (is_multi m x) eqn:Fx.
      - pose proof Vx as (n1 & d1 & Hx1 & Hx2).
        destruct (flag_vis w m I x n1 d1 Fx Hx1 Hx2) as (qx & cx & Lx & _ & Fqx & Mqx & Hcx & Hpx & Hrx & _).
        assert (Hcx' : cx <> c).
        { intros ->. assert (qx = q) as ->; [|by apply (r_lk_inj w g R p x q) in Hlp].
          destruct (dir_rev_or (rev_dir d) (rev_dir d1)) as [E|E]; rewrite E in *; [congruence|].
          exfalso. rewrite rev_rev in E. subst d. destruct (mi_copy _ _ _ I c Hc) as (q0 & d0 & A1 & A2 & A3 & _). pose proof (r_len g c d0) as L0. rewrite <- (r_len g) in A3. destruct d0, d1; cbn [rev_dir] in *; rewrite ?Hpc, ?Hpx in A3; cbn in A3; lia. }
        rewrite Hrx. unfold raws. rewrite (proj2 (Sf x Vx)) by done.
        rewrite (proj2 (rc_lk _ _ _ _ _ RC x qx)).
        + rewrite (proj2 (rc_pm _ _ _ _ _ RC x n1 d1)) by (split; [done|congruence]).
          rewrite (proj2 (rc_pm _ _ _ _ _ RC qx cx (rev_dir d1))) by done. by apply RC.
        + rewrite (pm_node _ _ _ _ Hx1), (pm_node _ _ _ _ Mqx). split_and!; congruence.
      - rewrite (raws_single m x Fx). apply raws_single. destruct (is_multi m' x) eqn:E; [|done].
        apply Sf in E as [? _]; [congruence|done]. }
    assert (Srp : raws m' p = [p]).
    { apply raws_single. destruct (is_multi m' p) eqn:E; [|done]. apply Sf in E as [_ ?]; done. }
    assert (Hvis : forall x, vis m' x <-> vis m x) by (intros x; unfold vis; by setoid_rewrite Sv).
    split; try done.
    - intros x. rewrite (rc_cp _ _ _ _ _ RC). destruct (decide (x = c)) as [->|Hx].
      + rewrite (rc_dead _ _ _ _ _ RC), Hc. naive_solver.
      + by rewrite (rc_cn _ _ _ _ _ RC).
    - intros x d1 _ Hx. apply RC. congruence.
    - intros x y. split.
      + intros (Vx & Vy & s & t & Hs & Ht & El). apply Hvis in Vx, Vy. apply (rc_lk _ _ _ _ _ RC) in El as (El & Es & Et).
        assert (Hx : x.1 <> p).
        { intros Ex. rewrite Ex, Srp in Hs. apply list_lookup_singleton_Some in Hs as [_ <-].
          rewrite Hlp in El. injection El as <-. apply Et. by eapply pm_node. }
        assert (Hy : y.1 <> p).
        { intros Ey. rewrite Ey, Srp in Ht. apply list_lookup_singleton_Some in Ht as [_ <-].
          apply (r_lk_sym w g R) in El. rewrite Hlp in El. injection El as <-. apply Es. by eapply pm_node. }
        rewrite Sr in Hs, Ht by done. split; [|done]. split; [done|]. split; [done|]. by exists s, t.
      + intros [(Vx & Vy & s & t & Hs & Ht & El) [Hx Hy]].
        assert (Hout : forall z u, vis m z.1 -> z.1 <> p -> raws m z.1 !! z.2 = Some u -> port_node g u <> Some c).
        { intros z u Vz Hz Hu Hn1. pose proof Vz as (n1 & d1 & Hz1 & Hz2).
          destruct (raws_some w Hw m I _ _ _ _ _ Hz1 Hz2 Hu) as (Fu & (c1 & Mu) & _).
          rewrite (pm_node _ _ _ _ Mu) in Hn1. injection Hn1 as ->.
          destruct (dir_rev_or d d1) as [->| ->].
          - destruct (r_pos w g R _ _ _ Mu) as [k Hk]. rewrite <- Hrp in Hk.
            destruct (raws_inj w Hw m I _ _ _ _ _ Vz V Hu Hk). done.
          - apply (r_elem w g R) in Mu. rewrite Hpc in Mu. apply elem_of_list_singleton in Mu as ->. congruence. }
        split; [by apply Hvis|]. split; [by apply Hvis|]. exists s, t. rewrite !Sr by done. split_and!; try done.
        apply RC. split_and!; [done|by apply (Hout x s)|by apply (Hout y t)].
  Qed.

  Lemma unlink_multi p : vis m p -> is_multi m p = true ->
    exists m', m_unlink_port w m p = Ok (m', Some (p, 0)) /\ shrink w m m' (fun x => x = p).
  Proof.
    intros V Fp. pose proof V as (n & d & Hp & Hn).
    destruct (flag_vis w m I p n d Fp Hp Hn) as (q & c & Hl & Hlq & Fq & Mq & Hc & Hpc & Hrp & _).
    destruct (m_remove_copy_ok w m p q [] (dangle p q n d Fp Hp Hn Hl)) as (c' & d' & m' & Mq' & _ & E & I' & RC).
    rewrite Mq in Mq'. injection Mq' as <- <-. exists m'. split.
    - unfold m_unlink_port. rewrite Fp, (r_port_link w g R _ _ Hp), bind_Ok, Hl. cbn [unwrap]. rewrite bind_Ok, E, Hlq. done.
    - eapply rc_shrink; try done. by eapply pm_node.
  Qed.
  Lemma unlink_single p : is_multi m p = false -> (forall n d, pmeta g p = Some (n, d) -> is_copy m n = false) ->
    exists m', m_unlink_port w m p = Ok (m', option_map sp_unique (lk g p)) /\ shrink w m m' (fun x => x = p).
  Proof.
    intros Fp Hn. destruct (v_unlink w g R p) as (g' & E & R' & Sh & Hlk).
    assert (Hl : forall x, is_multi m x = true -> lk g' x = lk g x).
    { intros x Hx. rewrite Hlk. destruct (decide _) as [[->|Hl]|]; [congruence| |done].
      pose proof (lk_unflagged w m I _ _ Hl Fp). congruence. }
    exists (m_with_graph m g'). split; [unfold m_unlink_port; by rewrite Fp, E|].
    pose proof (minv_relink w m g' I R' Sh Hl) as I'. pose proof Sh as (Sn & Sp & Sm).
    split; cbn [m_graph m_with_graph]; try done.
    - intros x n d. by rewrite Sm.
    - intros n. by rewrite Sn.
    - intros x Vx. change (is_multi (m_with_graph m g') x) with (is_multi m x). split; [intros H; split; [done|intros ->; congruence]|tauto].
    - intros x y. rewrite (relink_rlink m g' Sh Hl). split.
      + intros (Vx & Vy & s & t & Hs & Ht & El). rewrite Hlk in El. destruct (decide _) as [|Hne]; [done|].
        assert (x.1 <> p).
        { intros Ex. rewrite Ex, raws_single in Hs by done. apply list_lookup_singleton_Some in Hs as [_ <-]. tauto. }
        assert (y.1 <> p).
        { intros Ex. rewrite Ex, raws_single in Ht by done. apply list_lookup_singleton_Some in Ht as [_ <-].
          apply (r_lk_sym w g R) in El. tauto. }
        split; [|done]. split; [done|]. split; [done|]. by exists s, t.
      + intros [(Vx & Vy & s & t & Hs & Ht & El) [Hx Hy]]. split; [done|]. split; [done|]. exists s, t. split_and!; try done.
        assert (Hout : forall z u, vis m z.1 -> z.1 <> p -> raws m z.1 !! z.2 = Some u -> u <> p).
        { intros z u Vz Hz Hu ->. assert (V : vis m p).
          { pose proof Vz as (n1 & d1 & Hz1 & Hz2). destruct (raws_some w Hw m I _ _ _ _ _ Hz1 Hz2 Hu) as (_ & (c1 & Mu) & _).
            exists c1, d1. split; [done|by eapply Hn]. }
          assert (raws m p !! 0 = Some p) as H0 by (by rewrite raws_single).
          destruct (raws_inj w Hw m I _ _ _ _ _ Vz V Hu H0). done. }
        rewrite Hlk, decide_False; [done|]. intros [->|Hp]; [by eapply (Hout x p)|].
        apply (r_lk_sym w g R) in Hp. rewrite El in Hp. injection Hp as ->. by eapply (Hout y p).
  Qed.
End unlink.
