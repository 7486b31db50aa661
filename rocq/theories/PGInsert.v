(** [link_offsets] and [insert_graph]. *)
From Verif Require Export PG3Thms.

Lemma port_index_eq w g n d i : (1 < w)%N -> (i <= po_max_offset w)%N ->
  exists o, po_new w d i = Ok o /\ po_direction w o = Ok d /\ po_index w o = Ok i /\
    port_index w g n o = Ok (ports g n d !! N.to_nat i).
Proof.
  intros Hw Hi. destruct (po_new_ok w d i Hw Hi) as (o & Ho & Hd & Hix). exists o. split_and!; [done..|].
  unfold port_index, ports. destruct (nmeta g n); [|done]. by rewrite Hd, bind_Ok, Hix, bind_Ok.
Qed.

Lemma port_offset_eq w g n d k p : (1 < w <= 63)%N -> reach w g -> port_at g n d k p -> (N.of_nat k <= po_max_offset w)%N ->
  exists o, po_new w d (N.of_nat k) = Ok o /\ port_offset w g p = Ok (Some o) /\
    forall g' n', port_index w g' n' o = Ok (ports g' n' d !! k).
Proof.
  intros Hw Hr Hp Hk. destruct (C02_ports_and_nodes_pf w g Hw Hr) as (H1 & _).
  destruct (H1 n d (N.of_nat k) Hk) as (o & Ho & _ & Hsome). exists o. split; [done|].
  assert (HH : forall g' n', port_index w g' n' o = Ok (ports g' n' d !! k)).
  { intros g' n'. destruct (port_index_eq w g' n' d (N.of_nat k) ltac:(lia) Hk) as (o' & Ho' & _ & _ & H).
    rewrite Nat2N.id in H. congruence. }
  split; [|done]. apply Hsome. rewrite HH. by rewrite Hp.
Qed.

Section insert.
  Context (w : N) (Hw : (1 < w <= 63)%N).
  Context (ops0 : list op) (g0 : pg) (Hh0 : hist w ops0 g0).
  Context (other : pg) (Hro : reach w other) (fo : list nat) (Fo : nat -> list nat) (Io : InvG other fo Fo).
  Context (Hmax : forall n d, (N.of_nat (num_ports other n d) <= po_max_offset w)%N).

  Definition np (n : nat) : nat := num_ports other n Incoming + num_ports other n Outgoing.

  (** Port [p] of [other] and its copy [p']. *)
  Definition ren (R : list (nat * nat)) (gc : pg) (p p' : nat) : Prop :=
    exists o n d k, (o, n) ∈ R /\ port_at other o d k p /\ port_at gc n d k p'.

  Record ins (R K : list (nat * nat)) (gc : pg) : Prop := {
    in_hist : exists ops', hist w (ops0 ++ ops') gc /\
      sum_list (node_cost <$> ops') = length R /\
      sum_list (port_cost <$> ops') = sum_list (np <$> R.*1);
    in_old_n : forall n, is_Some (nmeta g0 n) -> nmeta gc n = nmeta g0 n /\ n ∉ R.*2;
    in_nodes : forall n, is_Some (nmeta gc n) <-> is_Some (nmeta g0 n) \/ n ∈ R.*2;
    in_old_p : forall p, is_Some (pmeta g0 p) -> pmeta gc p = pmeta g0 p /\ plink gc p = plink g0 p;
    in_num : forall o n d, (o, n) ∈ R -> num_ports gc n d = num_ports other o d;
    in_nd1 : NoDup R.*1;
    in_nd2 : NoDup R.*2;
    in_link : forall p p', ren R gc p p' -> forall q', plink gc p' = Some q' <->
      exists q, ren R gc q q' /\ ((p, q) ∈ K \/ (q, p) ∈ K);
    in_K : forall p q, (p, q) ∈ K -> linked other p q /\
      (exists o, o ∈ R.*1 /\ port_node other p = Some o) /\ (exists o, o ∈ R.*1 /\ port_node other q = Some o);
    in_nc : pg_ncount gc = pg_ncount g0 + length R;
    in_pc : pg_pcount gc = pg_pcount g0 + sum_list (np <$> R.*1);
    in_lc : pg_lcount gc = pg_lcount g0 + length K;
  }.

  Lemma ins_inv R K gc : ins R K gc -> Inv gc.
  Proof. intros X. destruct (in_hist _ _ _ X) as (ops' & Hh & _). eapply reach_inv. by eexists. Qed.

  Lemma R_fun (R : list (nat * nat)) o n n' : NoDup R.*1 -> (o, n) ∈ R -> (o, n') ∈ R -> n = n'.
  Proof.
    intros Hnd [i Hi]%elem_of_list_lookup_1 [j Hj]%elem_of_list_lookup_1.
    assert (i = j) as ->; [|congruence].
    eapply NoDup_lookup; [exact Hnd| |]; rewrite list_lookup_fmap; [by rewrite Hi|by rewrite Hj].
  Qed.
  Lemma R_inj (R : list (nat * nat)) o o' n : NoDup R.*2 -> (o, n) ∈ R -> (o', n) ∈ R -> o = o'.
  Proof.
    intros Hnd [i Hi]%elem_of_list_lookup_1 [j Hj]%elem_of_list_lookup_1.
    assert (i = j) as ->; [|congruence].
    eapply NoDup_lookup; [exact Hnd| |]; rewrite list_lookup_fmap; [by rewrite Hi|by rewrite Hj].
  Qed.
  Lemma ren_inj R K gc p q p' : ins R K gc -> ren R gc p p' -> ren R gc q p' -> p = q.
  Proof.
    intros X (o & n & d & k & HR & Hp & Hp') (o2 & n2 & d2 & k2 & HR2 & Hq & Hq').
    destruct (ins_inv _ _ _ X) as (fc & Fc & Ic).
    destruct (port_at_inj _ _ _ Ic _ _ _ _ _ _ _ Hp' Hq') as (<- & <- & <-).
    pose proof (R_inj _ _ _ _ (in_nd2 _ _ _ X) HR HR2) as <-. unfold port_at in *. congruence.
  Qed.
  Lemma ren_fun R K gc p p' q' : ins R K gc -> ren R gc p p' -> ren R gc p q' -> p' = q'.
  Proof.
    intros X (o & n & d & k & HR & Hp & Hp') (o2 & n2 & d2 & k2 & HR2 & Hq & Hq').
    destruct (port_at_inj _ _ _ Io _ _ _ _ _ _ _ Hp Hq) as (<- & <- & <-).
    pose proof (R_fun _ _ _ _ (in_nd1 _ _ _ X) HR HR2) as <-. unfold port_at in *. congruence.
  Qed.
  Lemma ren_total R K gc p o : ins R K gc -> port_node other p = Some o -> o ∈ R.*1 -> exists p', ren R gc p p'.
  Proof.
    intros X [d Hd]%port_node_iff ([o' n] & E & HR)%elem_of_list_fmap. cbn in E. subst o'.
    destruct (pmeta_port_at _ _ _ Io _ _ _ Hd) as [k Hk].
    assert (Hlt : k < length (ports gc n d)).
    { rewrite ports_length, (in_num _ _ _ X _ _ _ HR), <- ports_length. by eapply lookup_lt_Some. }
    apply lookup_lt_is_Some_2 in Hlt as [p' Hp']. exists p', o, n, d, k. done.
  Qed.

  Lemma ins_nil : ins [] [] g0.
  Proof.
    split.
    - exists []. rewrite app_nil_r. done.
    - intros n _. split; [done|]. apply not_elem_of_nil.
    - intros n. cbn. rewrite elem_of_nil. tauto.
    - done.
    - intros o n d []%elem_of_nil.
    - constructor.
    - constructor.
    - intros p p' (o & n & d & k & []%elem_of_nil & _).
    - intros p q []%elem_of_nil.
    - cbn. lia.
    - cbn. lia.
    - cbn. lia.
  Qed.

  Lemma ins_add R K gc old :
    ins R K gc -> is_Some (nmeta other old) -> old ∉ R.*1 ->
    (N.of_nat (sum_list (node_cost <$> ops0) + S (length R)) <= 2 ^ 31 - 1)%N ->
    (N.of_nat (sum_list (port_cost <$> ops0) +
       sum_list (np <$> (R.*1 ++ [old]))) <= 2 ^ 31 - 1)%N ->
    exists gc' new, add_node (po_max_offset w) gc (num_ports other old Incoming) (num_ports other old Outgoing) = Ok (gc', new) /\
      ins (R ++ [(old, new)]) K gc'.
  Proof.
    intros X [mo Hmo] Hold Hb1 Hb2. change (2 ^ 31 - 1)%N with 2147483647%N in *. destruct (in_hist _ _ _ X) as (ops' & Hh & Hc1 & Hc2).
    pose proof (inv_meta_ok _ _ _ Io _ _ Hmo) as Hok.
    assert (Hni : num_ports other old Incoming = nm_inc mo) by (unfold num_ports; by rewrite Hmo).
    assert (Hno : num_ports other old Outgoing = nm_out mo) by (unfold num_ports; by rewrite Hmo).
    assert (Hal : allowed gc (OAdd (num_ports other old Incoming) (num_ports other old Outgoing))).
    { cbn. rewrite Hni, Hno. unfold meta_ok in Hok. lia. }
    rewrite fmap_app, sum_list_with_app in Hb2. cbn in Hb2. unfold np at 2 in Hb2.
    destruct (C06_no_panic_pf w _ gc _ Hh Hal) as (gc' & r & Hs).
    { split; apply Hmax. }
    { change (2 ^ 31 - 1)%N with 2147483647%N. rewrite !fmap_app, !sum_list_with_app. cbn. unfold sum_list_with in *. lia. }
    { change (2 ^ 31 - 1)%N with 2147483647%N. rewrite !fmap_app, !sum_list_with_app. cbn. unfold sum_list_with in *. lia. }
    assert (Hh' : hist w (ops0 ++ ops' ++ [OAdd (num_ports other old Incoming) (num_ports other old Outgoing)]) gc').
    { rewrite app_assoc. by econstructor. }
    cbn in Hs. destruct (add_node _ _ _ _) as [[gc2 new]|] eqn:Ea; [|done]. injection Hs as -> <-.
    exists gc', new. split; [done|].
    pose proof (ins_inv _ _ _ X) as (fc & Fc & Ic).
    pose proof (add_node_spec (po_max_offset w) gc fc Fc _ _ Ic (proj1 Hal) (proj2 Hal)) as HA. rewrite Ea in HA.
    destruct HA as ((fc' & Fc' & Ic') & m' & A).
    assert (Hnew : forall n, n <> new -> nmeta gc' n = nmeta gc n) by apply A.
    assert (HnewR : new ∉ R.*2).
    { intros Hin. assert (is_Some (nmeta gc new)) as [? Hx] by (apply (in_nodes _ _ _ X); by right).
      pose proof (ad_fresh _ _ _ _ _ _ A). congruence. }
    assert (Hp : forall p, is_Some (pmeta gc p) -> pmeta gc' p = pmeta gc p /\ plink gc' p = plink gc p).
    { intros p [x Hx]. assert (~ in_slab m' p).
      { intros Hsl. pose proof (ad_slab_fresh _ _ _ _ _ _ A _ Hsl). congruence. }
      split; [by apply (ad_pmeta _ _ _ _ _ _ A)|by apply (ad_plink _ _ _ _ _ _ A)]. }
    assert (Hpn : forall p d, pmeta gc' p = Some (new, d) -> plink gc' p = None).
    { intros p d Hx. apply (ad_plink_new _ _ _ _ _ _ A). apply (inv_pmeta _ _ _ Ic') in Hx as (m2 & Hm2 & Hr).
      rewrite (ad_node _ _ _ _ _ _ A) in Hm2. injection Hm2 as <-.
      pose proof (inv_meta_ok _ _ _ Ic' _ _ (ad_node _ _ _ _ _ _ A)) as Hok'.
      unfold in_slab, in_range, meta_ok in *. destruct d; cbn in *; lia. }
    assert (Hports : forall o n d, (o, n) ∈ R -> ports gc' n d = ports gc n d).
    { intros o n d HR. unfold ports. rewrite Hnew; [done|]. intros ->. apply HnewR. apply elem_of_list_fmap. by exists (o, new). }
    assert (Hren : forall p p', ren R gc p p' <-> ren R gc' p p').
    { intros p p'. unfold ren, port_at. split; intros (o & n & d & k & HR & H1 & H2); exists o, n, d, k; rewrite (Hports _ _ _ HR) in *; done. }
    assert (Hren2 : forall p p', ren (R ++ [(old, new)]) gc' p p' <-> ren R gc' p p' \/
      exists d k, port_at other old d k p /\ port_at gc' new d k p').
    { intros p p'. unfold ren. split.
      - intros (o & n & d & k & [HR|[= -> ->]%elem_of_list_singleton]%elem_of_app & H1 & H2); [left|right]; eauto 10.
      - intros [(o & n & d & k & HR & H1 & H2)|(d & k & H1 & H2)].
        + exists o, n, d, k. rewrite elem_of_app. tauto.
        + exists old, new, d, k. rewrite elem_of_app, elem_of_list_singleton. tauto. }
    assert (HnoK : forall p q d k, port_at other old d k p -> (p, q) ∉ K /\ (q, p) ∉ K).
    { intros p q d k Hk%(port_at_pmeta _ _ _ Io). split; intros (_ & (o1 & Ho1 & H1) & (o2 & Ho2 & H2))%(in_K _ _ _ X).
      - apply port_node_iff in H1 as [? H1]. congruence.
      - apply port_node_iff in H2 as [? H2]. congruence. }
    split.
    - eexists. split; [exact Hh'|]. rewrite !fmap_app, !sum_list_with_app, app_length. cbn. unfold sum_list_with in *. unfold np at 2. lia.
    - intros n Hn. destruct (in_old_n _ _ _ X n Hn) as [H1 H2].
      assert (n <> new) by (intros ->; pose proof (ad_fresh _ _ _ _ _ _ A); destruct Hn; congruence).
      rewrite Hnew by done. rewrite fmap_app, elem_of_app. cbn. rewrite elem_of_list_singleton. tauto.
    - intros n. rewrite fmap_app, elem_of_app. cbn. rewrite elem_of_list_singleton.
      destruct (decide (n = new)) as [->|Hne].
      + rewrite (ad_node _ _ _ _ _ _ A). split; [tauto|eauto].
      + rewrite Hnew by done. rewrite (in_nodes _ _ _ X). tauto.
    - intros p Hp0. destruct (in_old_p _ _ _ X p Hp0) as [H1 H2]. rewrite <- H1, <- H2. apply Hp. by rewrite H1.
    - intros o n d [HR|[= -> ->]%elem_of_list_singleton]%elem_of_app.
      + rewrite <- (in_num _ _ _ X _ _ _ HR). rewrite <- !ports_length. by rewrite (Hports _ _ _ HR).
      + unfold num_ports at 1. rewrite (ad_node _ _ _ _ _ _ A). destruct d; apply A.
    - rewrite fmap_app. apply NoDup_app. split_and!; [apply X| |apply NoDup_singleton].
      intros x Hx ->%elem_of_list_singleton. done.
    - rewrite fmap_app. apply NoDup_app. split_and!; [apply X| |apply NoDup_singleton].
      intros x Hx ->%elem_of_list_singleton. done.
    - intros p p' [Hr|(d & k & H1 & H2)]%Hren2 q'.
      + pose proof Hr as Hr0%Hren.
        assert (Hpl : plink gc' p' = plink gc p').
        { destruct Hr0 as (o & n & d & k & _ & _ & Hk%(port_at_pmeta _ _ _ Ic)). apply Hp. eauto. }
        rewrite Hpl, (in_link _ _ _ X _ _ Hr0). split; intros (q & Hq & HK); exists q; (split; [|done]).
        * apply Hren2. left. by apply Hren.
        * apply Hren2 in Hq as [Hq|(d & k & H1 & H2)]; [by apply Hren|]. exfalso. destruct (HnoK q p d k H1). tauto.
      + rewrite (Hpn p' d) by (by eapply port_at_pmeta). split; [done|].
        intros (q & Hq & HK). exfalso. destruct (HnoK p q d k H1). tauto.
    - intros p q (H1 & (o1 & Ho1 & H2) & (o2 & Ho2 & H3))%(in_K _ _ _ X). rewrite fmap_app. split; [done|].
      split; [exists o1|exists o2]; rewrite elem_of_app; tauto.
    - rewrite (ad_nc _ _ _ _ _ _ A), (in_nc _ _ _ X), app_length. cbn. lia.
    - rewrite (ad_pc _ _ _ _ _ _ A), (in_pc _ _ _ X), !fmap_app, sum_list_with_app. cbn. unfold sum_list_with. unfold np at 3. lia.
    - rewrite (ad_lc _ _ _ _ _ _ A). apply X.
  Qed.

  Lemma ins_link R K gc p q o o2 n n2 :
    ins R K gc -> linked other p q -> (p, q) ∉ K -> (q, p) ∉ K ->
    port_node other p = Some o -> (o, n) ∈ R -> port_node other q = Some o2 -> (o2, n2) ∈ R ->
    exists op oq gc' x, port_offset w other p = Ok (Some op) /\ port_offset w other q = Ok (Some oq) /\
      link_offsets w gc n op n2 oq = Ok (gc', inr x) /\ ins R (K ++ [(p, q)]) gc'.
  Proof.
    intros X Hl HK1 HK2 Hp HR Hq HR2. pose proof (ins_inv _ _ _ X) as (fc & Fc & Ic).
    assert (HoR : o ∈ R.*1) by (apply elem_of_list_fmap; by exists (o, n)).
    assert (HoR2 : o2 ∈ R.*1) by (apply elem_of_list_fmap; by exists (o2, n2)).
    destruct (ren_total _ _ _ _ _ X Hp HoR) as (p' & Hrp). destruct (ren_total _ _ _ _ _ X Hq HoR2) as (q' & Hrq).
    pose proof Hrp as (o' & n' & d & k & HR' & Hpk & Hpk'). pose proof Hrq as (o2' & n2' & d2 & k2 & HR2' & Hqk & Hqk').
    assert (o' = o) as ->.
    { apply port_node_iff in Hp as [? Hp]. apply (port_at_pmeta _ _ _ Io) in Hpk. congruence. }
    assert (o2' = o2) as ->.
    { apply port_node_iff in Hq as [? Hq]. apply (port_at_pmeta _ _ _ Io) in Hqk. congruence. }
    pose proof (R_fun _ _ _ _ (in_nd1 _ _ _ X) HR HR') as <-. pose proof (R_fun _ _ _ _ (in_nd1 _ _ _ X) HR2 HR2') as <-.
    assert (Hk : (N.of_nat k <= po_max_offset w)%N).
    { specialize (Hmax o d). assert (k < num_ports other o d) by (rewrite <- ports_length; by eapply lookup_lt_Some). lia. }
    assert (Hk2 : (N.of_nat k2 <= po_max_offset w)%N).
    { specialize (Hmax o2 d2). assert (k2 < num_ports other o2 d2) by (rewrite <- ports_length; by eapply lookup_lt_Some). lia. }
    destruct (port_offset_eq w other o d k p Hw Hro Hpk Hk) as (op & _ & Hop & Hopi).
    destruct (port_offset_eq w other o2 d2 k2 q Hw Hro Hqk Hk2) as (oq & _ & Hoq & Hoqi).
    exists op, oq. unfold link_offsets. rewrite Hopi, bind_Ok, Hpk', Hoqi, bind_Ok, Hqk'.
    (* the copies are free *)
    assert (Hdir : d2 = rev_dir d).
    { apply (linked_iff _ _ _ Io) in Hl as [_ Hl]. pose proof (port_at_pmeta _ _ _ Io _ _ _ _ Hpk) as Hpm.
      destruct (inv_link _ _ _ Io _ _ _ _ Hpm Hl) as [_ [n3 Hqm]]. apply (port_at_pmeta _ _ _ Io) in Hqk. congruence. }
    assert (Hlsym : linked other q p).
    { apply (linked_iff _ _ _ Io) in Hl as [_ Hl]. pose proof (port_at_pmeta _ _ _ Io _ _ _ _ Hpk) as Hpm.
      destruct (inv_link _ _ _ Io _ _ _ _ Hpm Hl) as [Hx [n3 Hqm]]. apply (linked_iff _ _ _ Io). eauto. }
    assert (Hfree : forall a a' b, ren R gc a a' -> linked other a b -> (a, b) ∉ K -> (b, a) ∉ K -> plink gc a' = None).
    { intros a a' b Hra Hlab N1 N2. destruct (plink gc a') as [b'|] eqn:Eb; [|done]. exfalso.
      apply (in_link _ _ _ X _ _ Hra) in Eb as (c & _ & [HK|HK]).
      - destruct (in_K _ _ _ X _ _ HK) as (Hlc & _). assert (c = b) as -> by (unfold linked in *; congruence). done.
      - destruct (in_K _ _ _ X _ _ HK) as (Hlc & _).
        assert (Hlc' : linked other a c).
        { apply (linked_iff _ _ _ Io) in Hlc as [[[n1 d1] Hx1] Hlc]. destruct (inv_link _ _ _ Io _ _ _ _ Hx1 Hlc) as [Hx [n3 Hqm]]. apply (linked_iff _ _ _ Io). eauto. }
        assert (c = b) as -> by (unfold linked in *; congruence). done. }
    pose proof (Hfree _ _ _ Hrp Hl HK1 HK2) as Hfp. pose proof (Hfree _ _ _ Hrq Hlsym HK2 HK1) as Hfq.
    pose proof (port_at_pmeta _ _ _ Ic _ _ _ _ Hpk') as Hpm. pose proof (port_at_pmeta _ _ _ Ic _ _ _ _ Hqk') as Hqm.
    destruct (link_ports_spec gc fc Fc p' q' Ic) as (gc' & r & Elp & Hr).
    assert (Hstep : step w gc (OLink p' q') = Ok (gc', RLink r)) by (cbn; by rewrite Elp).
    destruct r as [e|x].
    { exfalso. destruct Hr as [_ [[? _]|[(_ & ? & _)|[(na & nb & d' & H1 & H2 & _)|(na & nb & d' & H1 & H2 & [[? _]|(_ & ? & _)])]]]]; try congruence.
      rewrite Hpm in H1. rewrite Hqm in H2. injection H1 as -> ->. injection H2 as -> H2. rewrite Hdir in H2. by destruct d'. }
    destruct Hr as (-> & Ic' & Hsb & _ & _ & _ & Hpl & Hlc).
    exists gc', (p', q'). split_and!; [done|done|done|].
    assert (Hports : forall n d, ports gc' n d = ports gc n d) by (intros; unfold ports; by rewrite (sb_nmeta _ _ _ Hsb)).
    assert (Hren : forall p p', ren R gc' p p' <-> ren R gc p p') by (intros; unfold ren, port_at; by setoid_rewrite Hports).
    destruct (in_hist _ _ _ X) as (ops' & Hh & Hc1 & Hc2).
    split.
    - exists (ops' ++ [OLink p' q']). rewrite app_assoc. split; [by econstructor|].
      rewrite !fmap_app, !sum_list_with_app. cbn. unfold sum_list_with in *. lia.
    - intros n3 Hn. rewrite (sb_nmeta _ _ _ Hsb). by apply X.
    - intros n3. rewrite (sb_nmeta _ _ _ Hsb). apply X.
    - intros x Hx. destruct (in_old_p _ _ _ X x Hx) as [H1 H2]. rewrite (sb_pmeta' _ _ _ Hsb), H1, Hpl. split; [done|].
      unfold link_pl.
      assert (Hout : forall a n' d' k', port_at gc n' d' k' a -> n' ∈ R.*2 -> x <> a).
      { intros a n' d' k' Ha%(port_at_pmeta _ _ _ Ic) Hn' ->. rewrite H1 in Ha.
        pose proof (reach_inv w g0 (ex_intro _ _ Hh0)) as (f0 & F0 & I0).
        destruct (pmeta_nmeta _ _ _ I0 _ _ _ Ha) as [m Hm]. destruct (in_old_n _ _ _ X n') as [_ Hno]; [eauto|]. done. }
      rewrite decide_False by (eapply Hout; [exact Hqk'|]; apply elem_of_list_fmap; by exists (o2, n2)).
      rewrite decide_False by (eapply Hout; [exact Hpk'|]; apply elem_of_list_fmap; by exists (o, n)). done.
    - intros o3 n3 d3 HR3. rewrite <- (in_num _ _ _ X _ _ _ HR3), <- !ports_length. by rewrite Hports.
    - apply X.
    - apply X.
    - intros a a' Hra%Hren b'. rewrite Hpl. unfold link_pl.
      destruct (decide (a' = q')) as [->|Hnq].
      { pose proof (ren_inj _ _ _ _ _ _ X Hra Hrq) as ->. split.
        - intros [= <-]. exists p. split; [by apply Hren|]. right. rewrite elem_of_app, elem_of_list_singleton. tauto.
        - intros (b & Hb%Hren & HK). f_equal.
          assert (b = p) as ->; [|by eapply ren_fun].
          destruct HK as [HK|HK]; apply elem_of_app in HK as [HK|HK%elem_of_list_singleton].
          + exfalso. assert (Some b' = None); [|done]. rewrite <- Hfq. symmetry. apply (in_link _ _ _ X _ _ Hrq). eauto.
          + injection HK as -> ->. done.
          + exfalso. assert (Some b' = None); [|done]. rewrite <- Hfq. symmetry. apply (in_link _ _ _ X _ _ Hrq). eauto.
          + congruence. }
      destruct (decide (a' = p')) as [->|Hnp].
      { pose proof (ren_inj _ _ _ _ _ _ X Hra Hrp) as ->. split.
        - intros [= <-]. exists q. split; [by apply Hren|]. left. rewrite elem_of_app, elem_of_list_singleton. tauto.
        - intros (b & Hb%Hren & HK). f_equal.
          assert (b = q) as ->; [|by eapply ren_fun].
          destruct HK as [HK|HK]; apply elem_of_app in HK as [HK|HK%elem_of_list_singleton].
          + exfalso. assert (Some b' = None); [|done]. rewrite <- Hfp. symmetry. apply (in_link _ _ _ X _ _ Hrp). eauto.
          + congruence.
          + exfalso. assert (Some b' = None); [|done]. rewrite <- Hfp. symmetry. apply (in_link _ _ _ X _ _ Hrp). eauto.
          + injection HK as -> ->. done. }
      rewrite (in_link _ _ _ X _ _ Hra). setoid_rewrite Hren. split; intros (b & Hb & HK); exists b; (split; [done|]).
      + rewrite !elem_of_app. tauto.
      + rewrite !elem_of_app, !elem_of_list_singleton in HK.
        assert (a <> p) by (intros ->; apply Hnp; by eapply ren_fun).
        assert (a <> q) by (intros ->; apply Hnq; by eapply ren_fun).
        destruct HK as [[HK|HK]|[HK|HK]]; [tauto|congruence|tauto|congruence].
    - intros a b [HK|[= -> ->]%elem_of_list_singleton]%elem_of_app; [by apply (in_K _ _ _ X)|]. split; [done|].
      split; [exists o|exists o2]; done.
    - rewrite (sb_nc _ _ Hsb). apply X.
    - rewrite (sb_pc _ _ Hsb). apply X.
    - rewrite Hlc, (in_lc _ _ _ X), app_length. cbn. lia.
  Qed.

  Lemma insert_links_ok R new old ls : forall K gc,
    ins R K gc -> (old, new) ∈ R ->
    (forall p q, (p, q) ∈ ls -> linked other p q /\ port_node other p = Some old /\ (p, q) ∉ K /\ (q, p) ∉ K /\ (q, p) ∉ ls) ->
    NoDup ls ->
    exists gc' K', insert_links w other R new ls gc = Ok (gc', None) /\ ins R (K ++ K') gc' /\ NoDup K' /\
      forall p q, (p, q) ∈ K' <-> (p, q) ∈ ls /\ exists o, o ∈ R.*1 /\ port_node other q = Some o.
  Proof.
    induction ls as [|[p q] ls IH]; intros K gc X HR Hls Hnd.
    { exists gc, []. rewrite app_nil_r. split_and!; [done|done|constructor|]. intros p q. split; [intros []%elem_of_nil|intros [[]%elem_of_nil _]]. }
    cbn [insert_links]. apply NoDup_cons in Hnd as [Hnin Hnd].
    destruct (Hls p q) as (Hl & Hp & K1 & K2 & Hsym); [by left|]. apply not_elem_of_cons in Hsym as [Hsym0 Hsym].
    destruct (linked_node _ _ _ Io _ _ Hl) as [o2 Hq]. rewrite Hq. cbn [unwrap]. rewrite bind_Ok.
    destruct (list_find (fun x => x.1 = o2) R) as [[i [o3 n2]]|] eqn:Ef; cbn [fmap option_fmap option_map snd].
    - apply list_find_Some in Ef as (Hi & E3 & _). cbn in E3. subst o3. apply elem_of_list_lookup_2 in Hi.
      destruct (ins_link R K gc p q old o2 new n2 X Hl K1 K2 Hp HR Hq Hi) as (op & oq & gc1 & x & Eop & Eoq & Elk & X1).
      rewrite Eop, bind_Ok. cbn [unwrap]. rewrite bind_Ok, Eoq, bind_Ok. cbn [unwrap]. rewrite bind_Ok, Elk, bind_Ok.
      destruct (IH _ _ X1 HR) as (gc' & K' & -> & X' & N' & HK'); [|done|].
      { intros a b Hab. destruct (Hls a b) as (H1 & H2 & H3 & H4 & H5); [by right|]. apply not_elem_of_cons in H5 as [H5 H5'].
        rewrite !not_elem_of_app, !elem_of_list_singleton. split_and!; try done. intros [= -> ->]. done. }
      exists gc', ((p, q) :: K'). rewrite <- app_assoc in X'. split_and!; [done|done| |].
      + constructor; [|done]. intros [H _]%HK'. done.
      + intros a b. rewrite !elem_of_cons, HK'. split.
        * intros [[= -> ->]|[H1 H2]]; [|tauto]. split; [by left|]. exists o2. split; [|done]. apply elem_of_list_fmap. by exists (o2, n2).
        * intros [[H1|H1] H2]; [by left|right; done].
    - destruct (IH K gc X HR) as (gc' & K' & -> & X' & N' & HK'); [|done|].
      { intros a b Hab. destruct (Hls a b) as (H1 & H2 & H3 & H4 & H5); [by right|]. apply not_elem_of_cons in H5 as [_ H5]. done. }
      exists gc', K'. split_and!; [done|done|done|]. intros a b. rewrite HK', elem_of_cons. split; [tauto|].
      intros [[[= -> ->]|H1] H2]; [|done]. exfalso. destruct H2 as (o & Ho & Ho').
      rewrite Hq in Ho'. injection Ho' as ->. apply elem_of_list_fmap in Ho as ([o3 n3] & E & Hin). cbn in E. subst o3.
      rewrite list_find_None, Forall_forall in Ef. by apply (Ef (o, n3)).
  Qed.

  (** All links of [other] between inserted nodes have been copied, once. *)
  Definition full (R K : list (nat * nat)) : Prop :=
    NoDup K /\ (forall p q, (p, q) ∈ K -> (q, p) ∉ K) /\
    forall p q, linked other p q -> (exists o, o ∈ R.*1 /\ port_node other p = Some o) ->
      (exists o, o ∈ R.*1 /\ port_node other q = Some o) -> (p, q) ∈ K \/ (q, p) ∈ K.

  Lemma insert_nodes_ok ns : forall R K gc,
    ins R K gc -> full R K -> NoDup (R.*1 ++ ns) -> (forall n, n ∈ ns -> is_Some (nmeta other n)) ->
    (N.of_nat (sum_list (node_cost <$> ops0) + (length R + length ns)) <= 2 ^ 31 - 1)%N ->
    (N.of_nat (sum_list (port_cost <$> ops0) +
       sum_list (np <$> (R.*1 ++ ns))) <= 2 ^ 31 - 1)%N ->
    exists gc' R' K', insert_nodes w other ns R gc = Ok (gc', inr R') /\ ins R' K' gc' /\ full R' K' /\ R'.*1 = R.*1 ++ ns.
  Proof.
    induction ns as [|old ns IH]; intros R K gc X HF Hnd Hns Hb1 Hb2; change (2 ^ 31 - 1)%N with 2147483647%N in *.
    { exists gc, R, K. rewrite app_nil_r. done. }
    cbn [insert_nodes].
    assert (Hold : old ∉ R.*1).
    { apply NoDup_app in Hnd as (_ & Hd & _). intros H. apply (Hd _ H). by left. }
    destruct (ins_add R K gc old X) as (g1 & new & -> & X1); [apply Hns; by left|done| | |].
    { change (2 ^ 31 - 1)%N with 2147483647%N. cbn in Hb1. unfold sum_list_with in *. lia. }
    { change (2 ^ 31 - 1)%N with 2147483647%N. revert Hb2. replace (R.*1 ++ old :: ns) with ((R.*1 ++ [old]) ++ ns) by (by rewrite <- app_assoc).
      rewrite !fmap_app, !sum_list_with_app. unfold sum_list_with in *. lia. }
    rewrite bind_Ok.
    destruct (C18_links_pf w other old Hro) as (_ & (L & N0 & s & HL & EL & _ & _ & HLnd & HL1 & HL2 & HL3 & _)).
    rewrite HL, bind_Ok.
    assert (Hsub : forall p q, (p, q) ∈ K -> port_node other p <> Some old /\ port_node other q <> Some old).
    { intros p q (_ & (o1 & Ho1 & H1) & (o2 & Ho2 & H2))%(in_K _ _ _ X). split; congruence. }
    destruct (insert_links_ok (R ++ [(old, new)]) new old L K g1 X1) as (g2 & K' & -> & X2 & HndK' & HK'); [by rewrite elem_of_app, elem_of_list_singleton; right| |done|].
    { intros p q Hpq. destruct (HL1 p q Hpq) as [H1 H2]. split_and!; [done|done|..].
      - intros [? _]%Hsub. done.
      - intros [_ ?]%Hsub. done.
      - intros Hqp. destruct (HL1 q p Hqp) as [H3 H4]. destruct (HL3 p q H1 H2 H4) as [_ H5]. by apply H5 in Hqp. }
    rewrite bind_Ok.
    destruct (IH _ _ _ X2) as (g3 & R3 & K3 & -> & X3 & F3 & E3).
    - destruct HF as (F1 & F2 & F3). split_and!.
      + apply NoDup_app. split_and!; [done| |done]. intros [p q] H1%Hsub [H2%HL1 _]%HK'. tauto.
      + intros p q [H|H]%elem_of_app; rewrite not_elem_of_app; split.
        * by apply F2.
        * intros [H2%HL1 _]%HK'. apply Hsub in H. tauto.
        * intros H2%Hsub. apply HK' in H as [H%HL1 _]. tauto.
        * intros [H2 _]%HK'. apply HK' in H as [H _]. destruct (HL1 _ _ H) as [A1 A2]. destruct (HL1 _ _ H2) as [A3 A4].
          destruct (HL3 _ _ A1 A2 A4) as [_ A5]. by apply A5 in H2.
      + intros p q Hl (o1 & Ho1 & H1) (o2 & Ho2 & H2). pose proof Ho1 as Ho1'. pose proof Ho2 as Ho2'.
        rewrite fmap_app, elem_of_app in Ho1, Ho2. cbn in Ho1, Ho2. rewrite elem_of_list_singleton in Ho1, Ho2. rewrite !elem_of_app.
        assert (Hlsym : linked other q p).
        { pose proof Hl as [[[n1 d1] Hx1] Hlc]%(linked_iff _ _ _ Io). destruct (inv_link _ _ _ Io _ _ _ _ Hx1 Hlc) as [Hx [n3 Hqm]]. apply (linked_iff _ _ _ Io). eauto. }
        destruct (decide (o1 = old)) as [->|N1]; [destruct (decide (o2 = old)) as [->|N2]|destruct (decide (o2 = old)) as [->|N2]].
        * destruct (HL3 p q Hl H1 H2) as [B1 B2]. destruct (decide ((p, q) ∈ L)) as [B|B].
          -- left. right. apply HK'. eauto.
          -- apply B2 in B. right. right. apply HK'. eauto.
        * left. right. apply HK'. split; [|eauto]. apply HL2; [done|done|congruence].
        * right. right. apply HK'. split; [|eauto]. apply HL2; [done|done|congruence].
        * destruct (F3 p q Hl) as [B|B]; [exists o1|exists o2|tauto|tauto]; split; try done; tauto.
    - rewrite fmap_app, <- app_assoc. done.
    - intros n Hn. apply Hns. by right.
    - change (2 ^ 31 - 1)%N with 2147483647%N. rewrite app_length. cbn in *. unfold sum_list_with in *. lia.
    - rewrite (fmap_app fst), <- app_assoc. done.
    - exists g3, R3, K3. split_and!; [done|done|done|]. rewrite E3, fmap_app, <- app_assoc. done.
  Qed.
End insert.
