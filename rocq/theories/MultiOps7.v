(** Operations on subports, and renumbering nodes or ports. *)
From Verif Require Export MultiOps6.

Section sub.
  Context (w : N) (Hw : (1 < w <= 63)%N) (m : mpg) (I : minv w m []).
  Notation g := (m_graph m).
  Let R := mi_reach _ _ _ I.

  (** A port with one subport ignores the offset. *)
  Definition nrm (s : subport) : subport := if is_multi m s.1 then s else (s.1, 0).
  Lemma nrm_fst s : (nrm s).1 = s.1.
  Proof. unfold nrm. by destruct (is_multi m s.1). Qed.

  Lemma sub_raw s : ~ internal m s.1 -> (N.of_nat s.2 <= po_max_offset w)%N ->
    exists r, sub_to_port w m s = Ok r /\ (forall i, r = Some i -> is_multi m i = false) /\
      (vis m s.1 -> r = rawof m (nrm s)) /\ (~ vis m s.1 -> r = Some s.1 /\ pmeta g s.1 = None).
  Proof.
    destruct s as [p i]. cbn [fst snd]. intros Hn Hi.
    assert (Hn' : forall n d, pmeta g p = Some (n, d) -> is_copy m n = false) by (intros n d; by eapply not_internal).
    destruct (sub_unflagged w Hw m I p i Hn' Hi) as (r & E & Hr & Hv). exists r. split; [done|]. split; [done|]. split.
    - intros V. rewrite (Hv V). unfold rawof, nrm. cbn [fst snd]. destruct (is_multi m p) eqn:Fp; [done|]. cbn [fst snd]. by rewrite raws_single.
    - intros V. assert (pmeta g p = None) as Mp. { destruct (pmeta g p) as [[n d]|] eqn:Mp; [|done]. destruct V. exists n, d. eauto. }
      split; [|done]. unfold sub_to_port in E. cbn [fst snd] in E. destruct (is_multi m p) eqn:Fp; [|congruence].
      destruct (flag_live w m p I Fp). congruence.
  Qed.
  Lemma rawof_inj x y i : vis m x.1 -> vis m y.1 -> rawof m x = Some i -> rawof m y = Some i -> x = y.
  Proof. intros Vx Vy Hx Hy. destruct (raws_inj w Hw m I _ _ _ _ _ Vx Vy Hx Hy). destruct x, y; cbn in *; congruence. Qed.
  Lemma vis_dec p : vis m p \/ ~ vis m p.
  Proof. rewrite (vis_contains m p). destruct (m_contains_port m p); [by left|by right]. Qed.

  Lemma m_link_sub_ok a b m' r : ~ internal m a.1 -> ~ internal m b.1 -> (N.of_nat a.2 <= po_max_offset w)%N -> (N.of_nat b.2 <= po_max_offset w)%N ->
    m_link_subports w m a b = Ok (m', r) ->
    minv w m' [] /\ vsame m m' /\ (forall x, raws m' x = raws m x) /\
    match r with
    | Some e => m' = m
    | None => vis m a.1 /\ vis m b.1 /\ (forall y, ~ rlink m (nrm a) y) /\ (forall y, ~ rlink m (nrm b) y) /\
        (forall x y, rlink m' x y <-> rlink m x y \/ (x = nrm a /\ y = nrm b) \/ (x = nrm b /\ y = nrm a))
    end.
  Proof.
    intros Na Nb Ka Kb. unfold m_link_subports.
    destruct (sub_raw a Na Ka) as (ra & Ea & Fa & Va & Da). destruct (sub_raw b Nb Kb) as (rb & Eb & Fb & Vb & Db).
    rewrite Ea, bind_Ok. destruct ra as [ia|]; [|done]. cbn [unwrap]. rewrite bind_Ok, Eb, bind_Ok. destruct rb as [ib|]; [|done]. cbn [unwrap]. rewrite bind_Ok.
    destruct (v_link_any w g R ia ib) as (g' & r' & E & He). rewrite E, bind_Ok. intros [= <- <-]. destruct r' as [e|z].
    - rewrite (He e eq_refl). replace (m_with_graph m (m_graph m)) with m by (by destruct m). split; [done|]. split; [apply vsame_refl|]. done.
    - destruct (link_raw w Hw m I ia ib g' z (Fa _ eq_refl) (Fb _ eq_refl) E) as (I3 & Sh & Hfl & RL3 & Hlk3). split; [done|]. split; [by apply vsame_shape|].
      split. { intros x. by apply relink_raws. }
      destruct (v_link_inv w _ R ia ib g' z E) as (-> & La & Lb & d0 & n1 & n2 & M1 & M2).
      assert (vis m a.1). { destruct (vis_dec a.1) as [?|N]; [done|]. destruct (Da N) as [[= ->] ?]. congruence. }
      assert (vis m b.1). { destruct (vis_dec b.1) as [?|N]; [done|]. destruct (Db N) as [[= ->] ?]. congruence. }
      split; [done|]. split; [done|]. specialize (Va ltac:(done)). specialize (Vb ltac:(done)).
      assert (Hno : forall s i y, rawof m s = Some i -> lk g i = None -> ~ rlink m s y).
      { intros s i y Hs Li (_ & _ & s0 & t0 & Hs0 & _ & L0). unfold rawof in Hs. congruence. }
      split; [intros y; by apply (Hno _ ia)|]. split; [intros y; by apply (Hno _ ib)|].
      intros x y. rewrite RL3. rewrite <- (nrm_fst a), <- (nrm_fst b) in *. split.
      + intros [?|(Vx & Vy & [[A B]|[A B]])]; [by left| |]; [right; left|right; right]; split; by eapply rawof_inj.
      + intros [?|[[-> ->]|[-> ->]]]; [by left| |]; right; split_and!; try done; [left|right]; done.
  Qed.
  (** It succeeds when it should. *)
  Lemma m_link_sub_total a b d na nb : pmeta g a.1 = Some (na, d) -> is_copy m na = false -> pmeta g b.1 = Some (nb, rev_dir d) -> is_copy m nb = false ->
    is_Some (rawof m (nrm a)) -> is_Some (rawof m (nrm b)) -> (forall y, ~ rlink m (nrm a) y) -> (forall y, ~ rlink m (nrm b) y) ->
    (N.of_nat a.2 <= po_max_offset w)%N -> (N.of_nat b.2 <= po_max_offset w)%N ->
    exists m', m_link_subports w m a b = Ok (m', None).
  Proof.
    intros Ma Ca Mb Cb [ia Ha] [ib Hb] La Lb Ka Kb.
    assert (Va : vis m a.1) by (by exists na, d). assert (Vb : vis m b.1) by (by exists nb, (rev_dir d)).
    assert (NI : forall p, vis m p -> ~ internal m p). { intros p V [_ H]. apply vis_contains in V. congruence. }
    destruct (sub_raw a (NI _ Va) Ka) as (ra & Ea & Fa & Va' & _). destruct (sub_raw b (NI _ Vb) Kb) as (rb & Eb & Fb & Vb' & _).
    rewrite (Va' Va), Ha in Ea. rewrite (Vb' Vb), Hb in Eb. unfold m_link_subports. rewrite Ea, bind_Ok. cbn [unwrap]. rewrite bind_Ok, Eb, bind_Ok. cbn [unwrap]. rewrite bind_Ok.
    unfold rawof in Ha, Hb. rewrite !nrm_fst in Ha, Hb.
    destruct (raws_some w Hw m I _ _ _ _ _ Ma Ca Ha) as (F1 & [ca Mia] & _). destruct (raws_some w Hw m I _ _ _ _ _ Mb Cb Hb) as (F2 & [cb Mib] & _).
    assert (Hnl : forall s i, vis m s.1 -> rawof m s = Some i -> is_multi m i = false -> (forall y, ~ rlink m s y) -> lk g i = None).
    { intros s i Vs Hs Fi Hno. destruct (lk g i) as [t|] eqn:Et; [|done]. destruct (lk_psub w Hw m I i t Et Fi) as (_ & Vt & Ht).
      destruct (Hno (psub w m t)). split; [done|]. split; [done|]. by exists i, t. }
    destruct (v_link w g R ia ib d ca cb Mia Mib) as (g' & E & _).
    - apply (Hnl (nrm a)); try done; [by rewrite nrm_fst|]. unfold rawof. by rewrite nrm_fst.
    - apply (Hnl (nrm b)); try done; [by rewrite nrm_fst|]. unfold rawof. by rewrite nrm_fst.
    - rewrite E, bind_Ok. eauto.
  Qed.
  Lemma m_unlink_sub_ok s : ~ internal m s.1 -> (N.of_nat s.2 <= po_max_offset w)%N ->
    exists m' r, m_unlink_subport w m s = Ok (m', r) /\ minv w m' [] /\ vsame m m' /\ (forall x, raws m' x = raws m x) /\
      (forall y, vis m s.1 -> r = Some y <-> rlink m (nrm s) y) /\
      (forall x y, rlink m' x y <-> rlink m x y /\ x <> nrm s /\ y <> nrm s).
  Proof.
    intros Ns Ks. destruct (sub_raw s Ns Ks) as (rs & Es & Fs & Vs & Ds). unfold m_unlink_subport. rewrite Es, bind_Ok.
    destruct rs as [i|].
    - destruct (unlink_raw w Hw m I i (Fs _ eq_refl)) as (g' & E & I' & Sh & Hfl & RL). rewrite E, bind_Ok.
      assert (RL' : forall x y, rlink (m_with_graph m g') x y <-> rlink m x y /\ x <> nrm s /\ y <> nrm s).
      { intros x y. rewrite RL. destruct (vis_dec s.1) as [V|V].
        - specialize (Vs V). split.
          + intros (H & A & B). split; [done|]. split; intros ->; congruence.
          + intros (H & A & B). split; [done|]. destruct H as (Vx & Vy & _). rewrite <- (nrm_fst s) in V.
            split; intros ?; [apply A|apply B]; by eapply rawof_inj.
        - destruct (Ds V) as [[= ->] Md]. split; intros (H & A & B); (split; [done|]); destruct H as (Vx & Vy & s0 & t0 & Hs0 & Ht0 & L0).
          + split; intros ->; rewrite nrm_fst in *; done.
          + unfold rawof. rewrite Hs0, Ht0. destruct (r_lk_meta w g R _ _ L0) as (? & ? & ? & ? & ?). split; congruence. }
      assert (HR : forall x, raws (m_with_graph m g') x = raws m x) by (intros x; by apply relink_raws).
      destruct (lk g i) as [q|] eqn:El.
      + destruct (lk_psub w Hw m I i q El (Fs _ eq_refl)) as (_ & Vq & Hq).
        assert (port_to_sub w (m_with_graph m g') q = Ok (Some (psub w m q))) as ->.
        { destruct (psub w m q) as [pq kq]. apply (raws_port_to_sub w Hw _ I' pq kq q); [by apply (vsame_vis m); [apply vsame_shape|]|]. by rewrite HR. }
        rewrite bind_Ok. eexists _, _. split; [done|]. split; [done|]. split; [by apply vsame_shape|]. split; [done|]. split; [|done].
        intros y V. specialize (Vs V). split.
        * intros [= <-]. split; [by rewrite nrm_fst|]. split; [done|]. by exists i, q.
        * intros (_ & Vy & s0 & t0 & Hs0 & Ht0 & L0). unfold rawof in Vs. assert (s0 = i) as -> by congruence. assert (t0 = q) as -> by congruence.
          f_equal. by eapply rawof_inj.
      + eexists _, _. split; [done|]. split; [done|]. split; [by apply vsame_shape|]. split; [done|]. split; [|done].
        intros y V. specialize (Vs V). split; [done|]. intros (_ & _ & s0 & t0 & Hs0 & _ & L0). unfold rawof in Vs. congruence.
    - eexists m, None. split; [done|]. split; [done|]. split; [apply vsame_refl|]. split; [done|]. split.
      + intros y V. specialize (Vs V). split; [done|]. intros (_ & _ & s0 & t0 & Hs0 & _ & L0). unfold rawof in Vs. congruence.
      + intros x y. split; [|by intros [? _]]. intros H. split; [done|]. destruct H as (Vx & Vy & s0 & t0 & Hs0 & Ht0 & L0).
        destruct (vis_dec s.1) as [V|V]; [|by destruct (Ds V)]. specialize (Vs V). unfold rawof in Vs. split; intros ->; congruence.
  Qed.
End sub.

(** ** Renumbering *)
Lemma card_rel {A B} (P : A -> Prop) (Q : B -> Prop) (r : A -> B -> Prop) n :
  (forall x, P x -> exists y, r x y /\ Q y) -> (forall y, Q y -> exists x, r x y /\ P x) ->
  (forall x x' y, r x y -> r x' y -> x = x') -> (forall x y y', r x y -> r x y' -> y = y') -> card P n -> card Q n.
Proof.
  intros Ht Hs Hi Hf (L & N & HL & <-).
  assert (exists L', Forall2 r L L') as [L' HF].
  { assert (HP : forall x, x ∈ L -> P x) by (intros x; by apply HL). clear HL N. induction L as [|x L IH]; [by exists []|].
    destruct IH as [L' HF]; [intros; apply HP; by right|]. destruct (Ht x) as (y & Hy & _); [apply HP; by left|]. exists (y :: L'). by constructor. }
  exists L'. split_and!.
  - clear HL. induction HF as [|x y L L' Hxy HF IH]; [apply NoDup_nil_2|]. apply NoDup_cons in N as [N1 N2]. apply NoDup_cons. split; [|by apply IH].
    intros Hin. apply elem_of_list_lookup_1 in Hin as [k Hk]. destruct (Forall2_lookup_r _ _ _ _ _ HF Hk) as (x' & Hx' & Hr).
    rewrite (Hi _ _ _ Hxy Hr) in N1. apply N1. by eapply elem_of_list_lookup_2.
  - intros y. split.
    + intros Hin. apply elem_of_list_lookup_1 in Hin as [k Hk]. destruct (Forall2_lookup_r _ _ _ _ _ HF Hk) as (x & Hx & Hr).
      destruct (Ht x) as (y' & Hy' & HQ); [apply HL; by eapply elem_of_list_lookup_2|]. by rewrite (Hf _ _ _ Hr Hy').
    + intros HQ. destruct (Hs y HQ) as (x & Hr & HP). apply HL in HP. apply elem_of_list_lookup_1 in HP as [k Hk].
      destruct (Forall2_lookup_l _ _ _ _ _ HF Hk) as (y' & Hy' & Hr'). rewrite (Hf _ _ _ Hr Hr'). by eapply elem_of_list_lookup_2.
  - symmetry. by eapply Forall2_length.
Qed.

Section iso.
  Context (w : N) (Hw : (1 < w <= 63)%N) (m m' : mpg) (I : minv w m []).
  Notation g := (m_graph m).
  Notation g' := (m_graph m').
  Let R := mi_reach _ _ _ I.
  Context (R' : reach w g') (S T : nat -> nat -> Prop).
  Context (S1 : forall n, contains_node g n = true -> exists n', S n n') (S2 : forall n', contains_node g' n' = true -> exists n, S n n').
  Context (S3 : forall n n', S n n' -> contains_node g n = true /\ contains_node g' n' = true).
  Context (Sf : forall n a b, S n a -> S n b -> a = b) (Si : forall n a b, S a n -> S b n -> a = b).
  Context (T1 : forall p, is_Some (pmeta g p) -> exists p', T p p') (T2 : forall p', is_Some (pmeta g' p') -> exists p, T p p').
  Context (T3 : forall p p', T p p' -> exists n n' d, pmeta g p = Some (n, d) /\ pmeta g' p' = Some (n', d) /\ S n n').
  Context (Tf : forall n a b, T n a -> T n b -> a = b) (Ti : forall n a b, T a n -> T b n -> a = b).
  Context (P1 : forall n n' d, S n n' -> Forall2 T (ports g n d) (ports g' n' d)).
  Context (L1 : forall p p' q q', T p p' -> T q q' -> lk g p = Some q <-> lk g' p' = Some q').
  Context (F1 : forall p p', T p p' -> is_multi m' p' = is_multi m p) (F2 : forall p', is_multi m' p' = true -> is_Some (pmeta g' p')).
  Context (C1 : forall n n', S n n' -> is_copy m' n' = is_copy m n) (C2 : forall n', is_copy m' n' = true -> contains_node g' n' = true).
  Context (Ecc : m_ccount m' = m_ccount m) (Esc : m_scount m' = m_scount m).

  Lemma iso_pm p p' n d : T p p' -> pmeta g p = Some (n, d) -> exists n', pmeta g' p' = Some (n', d) /\ S n n'.
  Proof. intros Ht Mp. destruct (T3 p p' Ht) as (n0 & n' & d0 & A & B & C). rewrite Mp in A. injection A as <- <-. eauto. Qed.
  Lemma iso_lk p q : lk g p = Some q -> exists p' q', T p p' /\ T q q' /\ lk g' p' = Some q'.
  Proof.
    intros El. destruct (r_lk_meta w g R _ _ El) as (n & d & n2 & Mp & Mq).
    destruct (T1 p ltac:(eauto)) as [p' Hp]. destruct (T1 q ltac:(eauto)) as [q' Hq]. exists p', q'. split_and!; try done. by eapply L1.
  Qed.
  Lemma iso_num n n' d : S n n' -> num_ports g' n' d = num_ports g n d.
  Proof. intros Hs. rewrite <- !ports_length. symmetry. by eapply Forall2_length, P1. Qed.

  Lemma iso_minv : minv w m' [].
  Proof.
    pose proof I as [_ _ Hcp _ _ _ Hcc Hsc]. split; try done; try apply NoDup_nil_2.
    - intros z Fz. right; right. destruct (T2 z (F2 z Fz)) as [x Hx]. rewrite (F1 x z Hx) in Fz.
      destruct (flag_paired w m I x Fz) as (n1 & d1 & y & n2 & H1 & H3 & H4 & H5 & H6).
      destruct (T1 y ltac:(eauto)) as [y' Hy]. destruct (iso_pm x z n1 d1 Hx H1) as (n1' & A1 & B1). destruct (iso_pm y y' n2 _ Hy H5) as (n2' & A2 & B2).
      exists n1', d1, y', n2'. split; [done|]. split; [by eapply L1|]. rewrite (F1 y y' Hy), (C1 _ _ B1), (C1 _ _ B2). done.
    - intros c' Hc'. destruct (S2 c' (C2 c' Hc')) as [c Hc]. rewrite (C1 c c' Hc) in Hc'. destruct (Hcp c Hc') as (q & d & A1 & A2 & A3 & A4 & A5).
      pose proof (P1 c c' d Hc) as PF. rewrite A1 in PF. destruct (Forall2_cons_inv_l _ _ _ _ PF) as (q' & l & Hq & Hl & El).
      apply Forall2_nil_inv_l in Hl as ->. exists q', d. rewrite (iso_num c c') by done. rewrite (F1 q q' Hq). split_and!; try done.
      intros s Hs. apply elem_of_list_lookup_1 in Hs as [k Hk]. destruct (Forall2_lookup_r _ _ _ _ _ (P1 c c' (rev_dir d) Hc) Hk) as (s0 & Hs0 & Ht).
      rewrite (F1 _ _ Ht). apply A5. by eapply elem_of_list_lookup_2.
    - intros ? ? H. by apply elem_of_nil in H.
    - rewrite Ecc. eapply (card_rel _ _ S); [| | | |exact Hcc].
      + intros c Hc. destruct (S1 c) as [c' Hs]; [by eapply (copy_live w m)|]. exists c'. split; [done|]. by rewrite (C1 c c' Hs).
      + intros c' Hc'. destruct (S2 c' (C2 c' Hc')) as [c Hs]. exists c. split; [done|]. by rewrite <- (C1 c c' Hs).
      + intros x x' y A B. by eapply Si.
      + intros x y y' A B. by eapply Sf.
    - rewrite Esc. eapply (card_rel _ _ T); [| | | |exact Hsc].
      + intros s (c & d & A & B & C). destruct (T1 s ltac:(eauto)) as [s' Ht]. destruct (iso_pm s s' c d Ht A) as (c' & A' & Hs).
        exists s'. split; [done|]. exists c', d. rewrite (C1 _ _ Hs), (F1 _ _ Ht). done.
      + intros s' (c' & d & A & B & C). destruct (T2 s' ltac:(eauto)) as [s Ht]. destruct (T3 s s' Ht) as (n & n' & d0 & M1 & M2 & Hs).
        rewrite A in M2. injection M2 as <- <-. exists s. split; [done|]. exists n, d. rewrite <- (C1 _ _ Hs), <- (F1 _ _ Ht). done.
      + intros x x' y A B. by eapply Ti.
      + intros x y y' A B. by eapply Tf.
  Qed.
  Lemma iso_vis x x' : T x x' -> vis m' x' <-> vis m x.
  Proof.
    intros Ht. destruct (T3 x x' Ht) as (n & n' & d & M1 & M2 & Hs). unfold vis. rewrite M1, M2. split; intros (a & b & [= <- <-] & H).
    - exists n, d. by rewrite <- (C1 _ _ Hs).
    - exists n', d. by rewrite (C1 _ _ Hs).
  Qed.
  Lemma iso_raws x x' : T x x' -> vis m x -> Forall2 T (raws m x) (raws m' x').
  Proof.
    intros Ht (n & d & Mx & Cx). unfold raws. rewrite (F1 _ _ Ht). destruct (is_multi m x) eqn:Fx; [|by repeat constructor].
    destruct (flag_vis w m I x n d Fx Mx Cx) as (q & c & Lx & _ & Fq & Mq & Cc & _).
    destruct (T1 q ltac:(eauto)) as [q' Hq]. destruct (iso_pm q q' c _ Hq Mq) as (c' & Mq' & Hc). destruct (iso_pm x x' n d Ht Mx) as (n' & Mx' & _).
    rewrite Lx, Mx, Mq. rewrite (proj1 (L1 x x' q q' Ht Hq) Lx), Mx', Mq'. by apply P1.
  Qed.
  Lemma iso_rlink x y : rlink m' x y <-> exists x0 y0, T x0 x.1 /\ T y0 y.1 /\ rlink m (x0, x.2) (y0, y.2).
  Proof.
    apply (rlink_transport w m m' T T I iso_minv).
    - intros x0 x1 Ht. by apply iso_vis.
    - intros x0 x1 k s Ht V Hs. destruct (Forall2_lookup_l _ _ _ _ _ (iso_raws x0 x1 Ht V) Hs) as (s' & ? & ?). eauto.
    - intros x1 k s' t' V Hs El. pose proof V as (n & d & Mx & _). destruct (T2 x1 ltac:(eauto)) as [x0 Ht].
      pose proof (proj1 (iso_vis x0 x1 Ht) V) as V0. destruct (Forall2_lookup_r _ _ _ _ _ (iso_raws x0 x1 Ht V0) Hs) as (s & ? & ?). by exists x0, s.
    - intros s s' t t' A B. by apply L1.
  Qed.
End iso.
