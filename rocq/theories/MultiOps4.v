(** [set_num_ports] on a visible node. *)
From Verif Require Export MultiOps3.

(** ** Removing several copy nodes *)
Record rcs_post (m : mpg) (D : list (nat * nat)) (C : list nat) (m' : mpg) : Prop := {
  rcs_C : forall c, c ∈ C <-> exists p q, (p, q) ∈ D /\ port_node (m_graph m) q = Some c;
  rcs_Cc : forall c, c ∈ C -> is_copy m c = true;
  rcs_fl : forall x, is_multi m' x = true <-> is_multi m x = true /\ x ∉ D.*1 /\ x ∉ D.*2;
  rcs_cp : forall x, is_copy m' x = true <-> is_copy m x = true /\ x ∉ C;
  rcs_dead : forall c, c ∈ C -> contains_node (m_graph m') c = false;
  rcs_cn : forall x, x ∉ C -> contains_node (m_graph m') x = contains_node (m_graph m) x;
  rcs_ports : forall x d, x ∉ C -> ports (m_graph m') x d = ports (m_graph m) x d;
  rcs_pm : forall x n d, pmeta (m_graph m') x = Some (n, d) <-> pmeta (m_graph m) x = Some (n, d) /\ n ∉ C;
  rcs_lk : forall x y, lk (m_graph m') x = Some y <-> lk (m_graph m) x = Some y /\
    (forall c, c ∈ C -> port_node (m_graph m) x <> Some c) /\ (forall c, c ∈ C -> port_node (m_graph m) y <> Some c);
}.
Lemma rc_port_node m p q c m' x c' : rc_post m p q c m' -> port_node (m_graph m') x = Some c' <-> port_node (m_graph m) x = Some c' /\ c' <> c.
Proof.
  intros RC. unfold port_node. split.
  - destruct (pmeta (m_graph m') x) as [[a d]|] eqn:E; [|done]. cbn. intros [= ->]. apply (rc_pm _ _ _ _ _ RC) in E as [-> ?]. done.
  - destruct (pmeta (m_graph m) x) as [[a d]|] eqn:E; [|by intros [? _]]. cbn. intros [[= ->] Hne].
    by rewrite (proj2 (rc_pm _ _ _ _ _ RC x c' d)).
Qed.
Lemma remove_copies w : forall D m, minv w m D ->
  exists m' C, rfold (fun m x => '(m, _) ← m_remove_copy w m x.1 x.2; Ok m) D m = Ok m' /\ minv w m' [] /\ rcs_post m D C m'.
Proof.
  induction D as [|[p q] D IH]; intros m I.
  - exists m, []. split; [done|]. split; [done|]. split; try done; intros; cbn; try set_solver.
  - destruct (m_remove_copy_ok w m p q D I) as (c & d & m1 & Mq & Hc & E & I1 & RC).
    destruct (IH m1 I1) as (m2 & C & E2 & I2 & RCS). exists m2, (c :: C). split; [cbn [rfold fst snd]; by rewrite E, !bind_Ok|].
    split; [done|]. clear IH E E2.
    assert (Hq2 : forall p' q' c', (p', q') ∈ D -> port_node (m_graph m) q' = Some c' <-> port_node (m_graph m1) q' = Some c').
    { intros p' q' c' H. destruct (mi_dang _ _ _ I1 p' q' H) as (_ & _ & (c1 & d1 & M1 & _) & _).
      pose proof (proj1 (rc_pm _ _ _ _ _ RC _ _ _) M1) as [M0 _]. by rewrite (pm_node _ _ _ _ M1), (pm_node _ _ _ _ M0). }
    split.
    + intros x. rewrite elem_of_cons, (rcs_C _ _ _ _ RCS). split.
      * intros [->|(p' & q' & H & Hx)]; [exists p, q; split; [by left|by eapply pm_node]|].
        exists p', q'. split; [by right|]. by eapply Hq2.
      * intros (p' & q' & [H|H]%elem_of_cons & Hx).
        -- injection H as -> ->. rewrite (pm_node _ _ _ _ Mq) in Hx. left. congruence.
        -- right. exists p', q'. split; [done|]. by eapply Hq2.
    + intros x [->|Hx]%elem_of_cons; [done|]. apply (rcs_Cc _ _ _ _ RCS) in Hx. rewrite (rc_cp _ _ _ _ _ RC) in Hx. by destruct (decide _).
    + intros x. rewrite (rcs_fl _ _ _ _ RCS), (rc_fl _ _ _ _ _ RC). cbn. rewrite !elem_of_cons. destruct (decide _); naive_solver.
    + intros x. rewrite (rcs_cp _ _ _ _ RCS), (rc_cp _ _ _ _ _ RC), elem_of_cons. destruct (decide _); naive_solver.
    + intros x [->|Hx]%elem_of_cons; [|by apply (rcs_dead _ _ _ _ RCS)]. destruct (decide (c ∈ C)); [by apply (rcs_dead _ _ _ _ RCS)|].
      rewrite (rcs_cn _ _ _ _ RCS) by done. apply RC.
    + intros x [Hx1 Hx2]%not_elem_of_cons. rewrite (rcs_cn _ _ _ _ RCS) by done. by apply RC.
    + intros x d1 [Hx1 Hx2]%not_elem_of_cons. rewrite (rcs_ports _ _ _ _ RCS) by done. by apply RC.
    + intros x n d1. rewrite (rcs_pm _ _ _ _ RCS), (rc_pm _ _ _ _ _ RC), not_elem_of_cons. tauto.
    + intros x y. rewrite (rcs_lk _ _ _ _ RCS), (rc_lk _ _ _ _ _ RC). split.
      * intros ((A1 & A2 & A3) & A4 & A5). split; [done|]. split; intros c' [->|Hc']%elem_of_cons; try done; intros Hn.
        -- destruct (decide (c' = c)) as [->|]; [done|]. apply (A4 c' Hc'). by apply (rc_port_node _ _ _ _ _ _ _ RC).
        -- destruct (decide (c' = c)) as [->|]; [done|]. apply (A5 c' Hc'). by apply (rc_port_node _ _ _ _ _ _ _ RC).
      * intros (A1 & A2 & A3). split_and!; try done; [apply A2; by left|apply A3; by left| |].
        -- intros c' Hc' [Hn _]%(rc_port_node _ _ _ _ _ _ _ RC). apply (A2 c'); [by right|done].
        -- intros c' Hc' [Hn _]%(rc_port_node _ _ _ _ _ _ _ RC). apply (A3 c'); [by right|done].
Qed.

Section vsnp.
  Context (w : N) (Hw : (1 < w <= 63)%N) (m : mpg) (I : minv w m []).
  Notation g := (m_graph m).
  Let R := mi_reach _ _ _ I.
  Context (n i j : nat) (g' : pg) (log : list (nat * port_op)) (Hn : contains_node g n = true) (Hc : is_copy m n = false)
    (E : set_num_ports g n i j = Ok (g', log)) (HR : no_reuse m n i j).
  Notation srv := (survives g g' n).
  Let R' : reach w g' := snp_reach w g R n i j g' log Hn E.

  Lemma m_snp_ok : exists m', m_set_num_ports w m n i j = Ok (m', log) /\ minv w m' [] /\
    (forall x n' d, (pmeta (m_graph m') x = Some (n', d) /\ is_copy m' n' = false) <-> (pmeta g' x = Some (n', d) /\ is_copy m n' = false)) /\
    (forall n', (contains_node (m_graph m') n' = true /\ is_copy m' n' = false) <-> (contains_node g n' = true /\ is_copy m n' = false)) /\
    (forall n' d, is_copy m n' = false -> ports (m_graph m') n' d = ports g' n' d) /\
    (forall x y, rlink m' x y <-> exists x0 y0, srv x0 x.1 /\ srv y0 y.1 /\ rlink m (x0, x.2) (y0, y.2)).
  Proof.
    pose proof (drops_elem w Hw g R n i j g' log Hn E) as DE.
    assert (Hlive : forall x, is_multi m x = true -> is_Some (pmeta g x)) by (intros x; by apply (flag_live w m)).
    assert (Hdrop : forall p, p ∈ drops g n i j -> is_multi m p = true -> exists q c d, lk g p = Some q /\ pmeta g q = Some (c, d) /\ is_copy m c = true /\ is_multi m q = true).
    { intros p (d & k & Hp & _)%DE Fp. apply (r_look w g R) in Hp.
      destruct (flag_vis w m I p n d Fp Hp Hc) as (q & c & Hl & _ & Fq & Mq & Hcc & _). eauto 10. }
    destruct (rekey_ok w Hw g R n i j g' log Hn E (m_multi m) Hlive) as (f' & D & Ef & F1 & F2 & F3 & HD & ND).
    { intros p Hp Fp. destruct (Hdrop p Hp Fp) as (q & c & d & ? & ? & ? & _). exists q, c, d. split_and!; [done|done|congruence]. }
    { intros p l x Hp Fp. by eapply HR. }
    set (m1 := m_with_multi (m_with_graph m g') f').
    assert (Hsame : forall c x d, is_copy m c = true -> pmeta g' x = Some (c, d) <-> pmeta g x = Some (c, d)).
    { intros c x d Hcc. apply (snp_pm w g R n i j g' log Hn E). congruence. }
    assert (Hself : forall c x d, is_copy m c = true -> pmeta g x = Some (c, d) -> srv x x).
    { intros c x d Hcc Hx. eapply (surv_self g n g'); [exact Hx|congruence]. }
    assert (Hsc : forall x x' c d, srv x x' -> pmeta g x = Some (c, d) -> is_copy m c = true -> x' = x).
    { intros x x' c d S Hx Hcc. eapply (surv_other w g R n g'); [exact S|exact Hx|congruence]. }
    assert (Hsc' : forall x x' c d, srv x x' -> pmeta g' x' = Some (c, d) -> is_copy m c = true -> x = x').
    { intros x x' c d S Hx Hcc. eapply (surv_other' w g R n i j g' log Hn E); [exact S|exact Hx|congruence]. }
    assert (Hpc : forall c d, is_copy m c = true -> ports g' c d = ports g c d).
    { intros c d Hcc. apply (snp_ports w g R n i j g' log Hn E). congruence. }
    assert (Fcp : forall c x d, is_copy m c = true -> pmeta g x = Some (c, d) -> bv_get f' x = is_multi m x).
    { intros c x d Hcc Hx. by apply F1, (Hself c x d). }
    assert (HDlk : forall p q, (p, q) ∈ D -> lk g' p = None /\ lk g' q = None).
    { intros p q (Hd & Fp & Hl)%HD. split.
      - destruct (lk g' p) as [y|] eqn:Ey; [|done]. exfalso.
        destruct (surv_lk_inv w g R n i j g' log Hn E p y Ey) as (p0 & _ & S & _). by destruct (F3 p Hd Fp) as [_ HH]; eapply HH.
      - destruct (lk g' q) as [y|] eqn:Ey; [|done]. exfalso.
        destruct (surv_lk_inv w g R n i j g' log Hn E q y Ey) as (q0 & p0 & S & S' & Hl0).
        destruct (Hdrop p Hd Fp) as (q' & c & d & Hq' & Mq & Hcc & _). assert (q' = q) as -> by congruence.
        assert (q0 = q) as -> by (eapply Hsc'; [exact S|by apply Hsame|done]).
        apply (r_lk_sym w g R) in Hl. assert (p0 = p) as -> by congruence.
        by eapply (drops_nosurv w Hw g R n i j g' log Hn E). }
    assert (I1 : minv w m1 D).
    { pose proof I as [_ Hfl Hcp _ _ _ Hcc Hscn].
      split; cbn [m_graph m1 m_with_graph m_with_multi m_ccount m_scount]; try done;
        change (is_copy m1) with (is_copy m); change (is_multi m1) with (bv_get f').
      - intros z Fz. destruct (F2 z Fz) as [(p & S & Fp)|[Hd Fz']].
        + destruct (flag_paired w m I p Fp) as (n1 & d & y & n2 & H1 & H2 & H3 & H4 & H5).
          destruct (surv_pm w g R n i j g' log Hn E p z S) as (x & d0 & M0 & Mz). rewrite H1 in M0. injection M0 as <- <-.
          destruct (live_surv w Hw g R n i j g' log Hn E y ltac:(eauto)) as [[y' Sy]|Hdy].
          * right; right. destruct (surv_pm w g R n i j g' log Hn E y y' Sy) as (x & d0 & M0 & My). rewrite H4 in M0. injection M0 as <- <-.
            exists n1, d, y', n2. split; [done|]. split; [by eapply (surv_lk w g R n i j g' log Hn E)|].
            split; [|split; [exact My|exact H5]]. change (bv_get f' y' = true). rewrite (F1 y y' Sy). done.
          * right; left. assert (is_copy m n1 = true).
            { apply DE in Hdy as (dy & k & Hy & _). apply (r_look w g R) in Hy. rewrite H4 in Hy. injection Hy as -> _.
              rewrite Hc in H5. by destruct (is_copy m n1). }
            assert (z = p) as -> by (by eapply Hsc). apply elem_of_list_fmap. exists (y, p). split; [done|].
            apply HD. split_and!; [done|done|]. by apply (r_lk_sym w g R).
        + left. destruct (Hdrop z Hd Fz') as (q & c & d & Hq & _). apply elem_of_list_fmap. exists (z, q). split; [done|]. by apply HD.
      - intros c Hcc'. destruct (Hcp c Hcc') as (q & d & A1 & A2 & A3 & A4 & A5). exists q, d. rewrite !Hpc by done.
        replace (num_ports g' c (rev_dir d)) with (num_ports g c (rev_dir d)) by (by rewrite <- !ports_length, Hpc).
        split_and!; try done.
        + rewrite (Fcp c q d Hcc'); [done|]. apply (r_elem w g R). rewrite A1. by left.
        + intros s Hs. rewrite (Fcp c s (rev_dir d) Hcc'); [by apply A5|]. by apply (r_elem w g R).
      - intros p q H. pose proof (HDlk p q H) as [L1 L2]. apply HD in H as (Hd & Fp & Hl).
        destruct (Hdrop p Hd Fp) as (q' & c & d & Hq' & Mq & Hcc' & Fq). assert (q' = q) as -> by congruence.
        split_and!.
        + by apply F3.
        + by rewrite (Fcp c q d Hcc' Mq).
        + exists c, d. split; [by apply Hsame|done].
        + intros n' d' Mp. destruct (is_copy m n') eqn:Ec; [|done]. apply (Hsame n' p d' Ec) in Mp.
          apply DE in Hd as (dy & k & Hy & _). apply (r_look w g R) in Hy. congruence.
        + intros y Hy. congruence.
        + intros y Hy. congruence.
      - clear -HD ND R. assert (HDi : forall p p' q, (p, q) ∈ D -> (p', q) ∈ D -> p = p').
        { intros p p' q (_ & _ & H1)%HD (_ & _ & H2)%HD. by eapply (r_lk_inj w g R). }
        clear HD. induction D as [|[p q] D IH]; [apply NoDup_nil_2|]. cbn in *. apply NoDup_cons in ND as [N1 N2]. apply NoDup_cons. split.
        + intros ([p' q'] & -> & Hin)%elem_of_list_fmap. cbn in *. apply N1.
          rewrite (HDi p p' q'); [|by left|by right]. by apply (elem_of_list_fmap_1 fst) in Hin.
        + apply IH; [done|]. intros a b x Ha Hb. eapply HDi; by right.
      - eapply card_ext; [|exact Hscn]. intros s. cbn. split; intros (c & d & S1 & S2 & S3); exists c, d.
        + split_and!; [by apply Hsame|done|by rewrite (Fcp c s d)].
        + apply Hsame in S1; [|done]. split_and!; [done|done|by rewrite <- (Fcp c s d)]. }
    destruct (remove_copies w D m1 I1) as (m2 & C & E2 & I2 & RCS). exists m2.
    split. { unfold m_set_num_ports. rewrite E, bind_Ok, Ef, bind_Ok. change (m_with_multi (m_with_graph m g') f') with m1. by rewrite E2. }
    split; [done|]. pose proof (mi_reach _ _ _ I2) as R2.
    assert (CC : forall x, is_copy m2 x = true <-> is_copy m x = true /\ x ∉ C) by (apply RCS).
    assert (CC' : forall x, x ∉ C -> is_copy m2 x = is_copy m x).
    { intros x Hx. destruct (is_copy m x) eqn:Ex; [by apply CC|]. destruct (is_copy m2 x) eqn:E2x; [|done]. apply CC in E2x as [? _]. congruence. }
    assert (Cc : forall c, c ∈ C -> is_copy m c = true) by apply RCS.
    assert (HV : forall x n' d, (pmeta (m_graph m2) x = Some (n', d) /\ is_copy m2 n' = false) <-> (pmeta g' x = Some (n', d) /\ is_copy m n' = false)).
    { intros x n' d. rewrite (rcs_pm _ _ _ _ RCS). cbn [m_graph m1 m_with_graph m_with_multi]. split.
      - intros [[A B] Hf]. by rewrite CC' in Hf.
      - intros [A Hf]. assert (n' ∉ C). { intros Hin%Cc. congruence. } by rewrite CC'. }
    split; [done|]. split.
    { intros n'. destruct (decide (n' ∈ C)) as [Hin|Hnin].
      - rewrite (rcs_dead _ _ _ _ RCS n' Hin), (Cc _ Hin). naive_solver.
      - rewrite (rcs_cn _ _ _ _ RCS) by done. cbn [m_graph m1 m_with_graph m_with_multi].
        rewrite CC' by done. by rewrite (snp_cn w g R n i j g' log Hn E). }
    split.
    { intros n' d Hf. rewrite (rcs_ports _ _ _ _ RCS); [done|]. intros Hin%Cc. congruence. }
    assert (HCD : forall c, c ∈ C -> exists p q d, (p, q) ∈ D /\ pmeta g q = Some (c, d)).
    { intros c Hin. pose proof (Cc c Hin). apply (rcs_C _ _ _ _ RCS) in Hin as (p & q & Hpq & Hq). cbn [m_graph m1 m_with_graph m_with_multi] in Hq.
      unfold port_node in Hq. destruct (pmeta g' q) as [[a d]|] eqn:Mq; [|done]. cbn in Hq. injection Hq as ->.
      exists p, q, d. split; [done|]. by apply Hsame. }
    assert (HD2 : forall p q, (p, q) ∈ D -> exists c d, pmeta g q = Some (c, d) /\ c ∈ C /\ is_copy m c = true).
    { intros p q H. pose proof H as (Hd & Fp & Hl)%HD. destruct (Hdrop p Hd Fp) as (q' & c & d & Hq' & Mq & Hcc & _).
      assert (q' = q) as -> by congruence. exists c, d. split_and!; [done| |done]. apply (rcs_C _ _ _ _ RCS). exists p, q. split; [done|].
      eapply pm_node. apply Hsame; [done|exact Mq]. }
    assert (Hlk2 : forall x y, lk (m_graph m2) x = Some y <-> lk g' x = Some y /\ (forall c, c ∈ C -> port_node g' x <> Some c) /\ (forall c, c ∈ C -> port_node g' y <> Some c)) by apply RCS.
    assert (Hfl2 : forall x, is_multi m2 x = true <-> bv_get f' x = true /\ x ∉ D.*1 /\ x ∉ D.*2) by apply RCS.
    (* raw ports before and after *)
    assert (RAWb : forall x k s t, vis m2 x -> raws m2 x !! k = Some s -> lk (m_graph m2) s = Some t ->
      exists x0 s0, srv x0 x /\ vis m x0 /\ raws m x0 !! k = Some s0 /\ srv s0 s).
    { intros x k s t (nx & dx & Mx & Cx) Hs El. destruct (proj1 (HV x nx dx)) as [Mx' Cx']; [done|].
      apply Hlk2 in El as (El & _ & _).
      destruct (surv_lk_inv w g R n i j g' log Hn E s t El) as (s0 & t0 & Ss & St & El0).
      destruct (is_multi m2 x) eqn:Fx.
      - destruct (flag_vis w m2 I2 x nx dx Fx Mx Cx) as (q & c & Lx & _ & Fq & Mq & Hcq & _ & Hr & _).
        rewrite Hr in Hs. apply (rcs_pm _ _ _ _ RCS) in Mq as [Mq Hcn]. cbn [m_graph m1 m_with_graph m_with_multi] in Mq.
        assert (Hcm : is_copy m c = true) by (by apply CC). rewrite (rcs_ports _ _ _ _ RCS) in Hs by done.
        cbn [m_graph m1 m_with_graph m_with_multi] in Hs. rewrite Hpc in Hs by done.
        assert (s0 = s) as -> by (eapply Hsc'; [exact Ss| |exact Hcm]; apply Hsame; [done|by eapply (r_look w g R)]).
        apply Hlk2 in Lx as (Lx & _ & _).
        destruct (surv_lk_inv w g R n i j g' log Hn E x q Lx) as (x0 & q0 & Sx & Sq & Lx0).
        assert (q0 = q) as -> by (eapply Hsc'; [exact Sq|exact Mq|exact Hcm]).
        destruct (surv_pm w g R n i j g' log Hn E x0 x Sx) as (nx0 & dx0 & Mx0 & Mx1). rewrite Mx' in Mx1. injection Mx1 as <- <-.
        exists x0, s. split_and!; [done|by exists nx, dx| |done].
        apply Hfl2 in Fx as (Fx & _). rewrite (F1 x0 x Sx) in Fx. unfold raws. change (is_multi m x0) with (bv_get (m_multi m) x0). rewrite Fx, Lx0, Mx0.
        apply Hsame in Mq; [|done]. by rewrite Mq.
      - rewrite raws_single in Hs by done. apply list_lookup_singleton_Some in Hs as [-> ->].
        destruct (surv_pm w g R n i j g' log Hn E s0 s Ss) as (nx0 & dx0 & Mx0 & Mx1). rewrite Mx' in Mx1. injection Mx1 as <- <-.
        exists s0, s0. split_and!; [done|by exists nx, dx| |done]. rewrite raws_single; [done|].
        destruct (is_multi m s0) eqn:F0; [|done]. exfalso. assert (is_multi m2 s = true); [|congruence]. apply Hfl2.
        split_and!.
        + by rewrite (F1 s0 s Ss).
        + intros ([p q] & -> & Hpq)%elem_of_list_fmap. apply HDlk in Hpq as [Hpq _]. cbn in El. congruence.
        + intros ([p q] & -> & Hpq)%elem_of_list_fmap. apply HDlk in Hpq as [_ Hpq]. cbn in El. congruence. }
    assert (RAWf : forall x0 x k s0, srv x0 x -> vis m x0 -> raws m x0 !! k = Some s0 ->
      vis m2 x /\ exists s, raws m2 x !! k = Some s /\ srv s0 s /\ (forall c, c ∈ C -> port_node g' s <> Some c)).
    { intros x0 x k s0 Sx (nx & dx & Mx0 & Cx0) Hs0.
      destruct (surv_pm w g R n i j g' log Hn E x0 x Sx) as (nx0 & dx0 & M0 & Mx). rewrite Mx0 in M0. injection M0 as <- <-.
      destruct (proj2 (HV x nx dx)) as [Mx2 Cx2]; [done|]. split; [by exists nx, dx|].
      destruct (is_multi m x0) eqn:F0.
      - destruct (flag_vis w m I x0 nx dx F0 Mx0 Cx0) as (q & c & Lx & _ & Fq & Mq & Hcq & _ & Hr & _).
        rewrite Hr in Hs0. assert (HcC : c ∉ C).
        { intros (p & q1 & d1 & Hpq & Mq1)%HCD. pose proof Hpq as (Hd & Fp & Hl)%HD.
          destruct (Hdrop p Hd Fp) as (q2 & c2 & d2 & Hq2 & Mq2 & Hcc2 & Fq1). assert (q2 = q1) as -> by congruence.
          destruct (mi_copy _ _ _ I c Hcq) as (qq & dd & Hqq & Fqq & _ & _ & Ho).
          destruct (copy_port w m _ I c qq dd _ q Hcq Hqq Fqq Ho Mq Fq) as [-> _].
          destruct (copy_port w m _ I c qq dd _ q1 Hcq Hqq Fqq Ho Mq1 Fq1) as [-> _].
          assert (p = x0) as -> by (by eapply (r_lk_inj w g R)). by eapply (drops_nosurv w Hw g R n i j g' log Hn E). }
        assert (Fx2 : is_multi m2 x = true).
        { apply Hfl2. split_and!.
          - by rewrite (F1 x0 x Sx).
          - intros ([p q1] & -> & Hpq)%elem_of_list_fmap. apply HD in Hpq as (Hd & Fp & _). destruct (F3 p Hd Fp) as [_ HH]. by eapply HH.
          - intros ([p q1] & -> & Hpq)%elem_of_list_fmap. cbn [snd] in *. apply HD2 in Hpq as (c1 & d1 & M1 & _ & Hcc1).
            apply (Hsame c1 q1 d1 Hcc1) in M1. congruence. }
        exists s0. pose proof (r_look w g R _ _ _ _ Hs0) as Ms0. split; [|split; [by eapply (Hself c)|]].
        + unfold raws. rewrite Fx2.
          assert (Lq : lk g' x = Some q) by (eapply (surv_lk w g R n i j g' log Hn E); [exact Sx|by eapply (Hself c)|done]).
          apply (Hsame c q _ Hcq) in Mq. rewrite (proj2 (Hlk2 x q)).
          * rewrite Mx2. rewrite (proj2 (rcs_pm _ _ _ _ RCS q c (rev_dir dx))) by done. rewrite (rcs_ports _ _ _ _ RCS) by done.
            cbn [m_graph m1 m_with_graph m_with_multi]. by rewrite Hpc.
          * rewrite (pm_node _ _ _ _ Mx), (pm_node _ _ _ _ Mq). split_and!; [done|intros c1 Hc1%Cc; congruence|intros c1 Hc1 [= ->]; done].
        + apply (Hsame c s0 _ Hcq) in Ms0. rewrite (pm_node _ _ _ _ Ms0). intros c1 Hc1 [= ->]. done.
      - rewrite raws_single in Hs0 by done. apply list_lookup_singleton_Some in Hs0 as [-> <-].
        exists x. split_and!; [|done|].
        + rewrite raws_single; [done|]. destruct (is_multi m2 x) eqn:Fx; [|done]. apply Hfl2 in Fx as (Fx & _).
          rewrite (F1 x0 x Sx) in Fx. unfold is_multi in F0. congruence.
        + rewrite (pm_node _ _ _ _ Mx). intros c1 Hc1%Cc. congruence. }
    intros x y. split.
    - intros (Vx & Vy & s & t & Hs & Ht & El). pose proof El as El'. apply (r_lk_sym w _ R2) in El'.
      destruct (RAWb _ _ _ _ Vx Hs El) as (x0 & s0 & Sx & Vx0 & Hs0 & Ss). destruct (RAWb _ _ _ _ Vy Ht El') as (y0 & t0 & Sy & Vy0 & Ht0 & St).
      exists x0, y0. split_and!; try done. split; [done|]. split; [done|]. exists s0, t0. split_and!; try done.
      apply Hlk2 in El as (El & _). by apply (surv_lk w g R n i j g' log Hn E s0 s t0 t).
    - intros (x0 & y0 & Sx & Sy & Vx0 & Vy0 & s0 & t0 & Hs0 & Ht0 & El). cbn [fst snd] in *.
      destruct (RAWf _ _ _ _ Sx Vx0 Hs0) as (Vx & s & Hs & Ss & Cs). destruct (RAWf _ _ _ _ Sy Vy0 Ht0) as (Vy & t & Ht & St & Ct).
      split; [done|]. split; [done|]. exists s, t. split_and!; try done. apply Hlk2. split_and!; try done.
      by apply (surv_lk w g R n i j g' log Hn E s0 s t0 t).
  Qed.
End vsnp.
