(** Copying a subgraph of a [PortGraph] next to it ([copy_in_parent]). *)
From Verif Require Export BoundModel PG4Thms.

Lemma al_get_in l n m : al_get l n = Some m -> (n, m) ∈ l.
Proof.
  unfold al_get. destruct (list_find _ l) as [[i [a b]]|] eqn:Ef; cbn; [|done]. intros [= ->].
  apply list_find_Some in Ef as (Hi & Ha & _). cbn in Ha. subst a. by eapply elem_of_list_lookup_2.
Qed.
Lemma al_get_none l n : al_get l n = None -> n ∉ l.*1.
Proof.
  unfold al_get. destruct (list_find _ l) as [[i [a b]]|] eqn:Ef; cbn; [done|]. intros _.
  rewrite list_find_None, Forall_forall in Ef. intros ([a b] & -> & Hin)%elem_of_list_fmap. by apply (Ef (a, b)).
Qed.

Section copy.
  Context (w : N) (Hw : (1 < w <= 63)%N).
  Context (ops0 : list op) (g0 : pg) (Hh0 : hist w ops0 g0).
  Context (fo : list nat) (Fo : nat -> list nat) (Io : InvG g0 fo Fo).
  Context (Hmax : forall n d, (N.of_nat (num_ports g0 n d) <= po_max_offset w)%N).

  Let Hr0 : reach w g0 := ex_intro _ _ Hh0.
  Local Notation ins := (ins w ops0 g0 g0).
  Local Notation np := (np g0).

  Lemma ins_reach R K gc : ins R K gc -> reach w gc.
  Proof. intros X. destruct (in_hist _ _ _ _ _ _ _ X) as (ops' & Hh & _). by eexists. Qed.

  Lemma cp_add_ok ns : forall R gc, ins R [] gc -> NoDup (R.*1 ++ ns) -> (forall n, n ∈ ns -> is_Some (nmeta g0 n)) ->
    (N.of_nat (sum_list (node_cost <$> ops0) + (length R + length ns)) <= 2 ^ 31 - 1)%N ->
    (N.of_nat (sum_list (port_cost <$> ops0) + sum_list (np <$> (R.*1 ++ ns))) <= 2 ^ 31 - 1)%N ->
    exists gc' R', cp_add w ns gc = Ok (gc', R') /\ ins (R ++ R') [] gc' /\ R'.*1 = ns.
  Proof.
    induction ns as [|old ns IH]; intros R gc X Hnd Hns Hb1 Hb2; change (2 ^ 31 - 1)%N with 2147483647%N in *.
    { exists gc, []. rewrite app_nil_r. done. }
    cbn [cp_add].
    assert (Hold : old ∉ R.*1).
    { apply NoDup_app in Hnd as (_ & Hd & _). intros H. apply (Hd _ H). by left. }
    assert (Hsome : is_Some (nmeta g0 old)) by (apply Hns; by left).
    assert (Hnum : forall d, num_ports gc old d = num_ports g0 old d).
    { intros d. unfold num_ports. by rewrite (proj1 (in_old_n _ _ _ _ _ _ _ X old Hsome)). }
    rewrite !Hnum.
    destruct (ins_add w Hw ops0 g0 g0 fo Fo Io Hmax R [] gc old X Hsome Hold) as (g1 & new & -> & X1).
    { change (2 ^ 31 - 1)%N with 2147483647%N. cbn in Hb1. unfold sum_list_with in *. lia. }
    { change (2 ^ 31 - 1)%N with 2147483647%N. revert Hb2. replace (R.*1 ++ old :: ns) with ((R.*1 ++ [old]) ++ ns) by (by rewrite <- app_assoc).
      rewrite !fmap_app, !sum_list_with_app. unfold sum_list_with in *. lia. }
    rewrite bind_Ok. destruct (IH _ _ X1) as (gc' & R' & -> & X' & E').
    - rewrite fmap_app, <- app_assoc. done.
    - intros n Hn. apply Hns. by right.
    - change (2 ^ 31 - 1)%N with 2147483647%N. rewrite app_length. cbn in *. unfold sum_list_with in *. lia.
    - rewrite (fmap_app fst), <- app_assoc. done.
    - rewrite bind_Ok. exists gc', ((old, new) :: R'). rewrite <- app_assoc in X'. split; [done|]. split; [done|]. cbn. by rewrite E'.
  Qed.

  Lemma ins_perm R R' K gc : R ≡ₚ R' -> ins R K gc -> ins R' K gc.
  Proof.
    intros P X. assert (Hren : forall p p', ren g0 R' gc p p' <-> ren g0 R gc p p').
    { intros p p'. unfold ren. by setoid_rewrite P. }
    assert (P1 : R.*1 ≡ₚ R'.*1) by (by rewrite P). assert (P2 : R.*2 ≡ₚ R'.*2) by (by rewrite P).
    assert (PL : length R' = length R) by (by rewrite P).
    assert (PS : sum_list (np <$> R'.*1) = sum_list (np <$> R.*1)) by (by rewrite P1).
    destruct (in_hist _ _ _ _ _ _ _ X) as (ops' & Hh & Hc1 & Hc2).
    split.
    - exists ops'. split; [done|]. rewrite PL, PS. done.
    - intros n Hn. destruct (in_old_n _ _ _ _ _ _ _ X n Hn) as [? Hx]. split; [done|]. by rewrite <- P2.
    - intros n. rewrite <- P2. apply X.
    - apply X.
    - intros o n d. rewrite <- P. apply X.
    - rewrite <- P1. apply X.
    - rewrite <- P2. apply X.
    - intros p p' Hr%Hren q'. setoid_rewrite Hren. by apply (in_link _ _ _ _ _ _ _ X).
    - intros p q HK. destruct (in_K _ _ _ _ _ _ _ X p q HK) as (H1 & (o1 & H2) & (o2 & H3)). split; [done|].
      split; [exists o1|exists o2]; by rewrite <- P1.
    - rewrite PL. apply X.
    - rewrite PS. apply X.
    - apply X.
  Qed.

  (** Removing the copies. *)
  Record mid (L : list nat) (gc : pg) : Prop := {
    md_reach : reach w gc;
    md_old_n n : is_Some (nmeta g0 n) -> nmeta gc n = nmeta g0 n /\ n ∉ L;
    md_nodes n : is_Some (nmeta gc n) <-> is_Some (nmeta g0 n) \/ n ∈ L;
    md_old_p p : is_Some (pmeta g0 p) -> pmeta gc p = pmeta g0 p /\ plink gc p = plink g0 p;
  }.
  Lemma remove_all_ok L : forall gc, NoDup L -> mid L gc -> exists g', rfold remove_node L gc = Ok g' /\ mid [] g'.
  Proof.
    induction L as [|n L IH]; intros gc Hnd X; [by exists gc|]. cbn [rfold]. apply NoDup_cons in Hnd as [Hn Hnd].
    assert (is_Some (nmeta gc n)) as [m Hm]. { apply (md_nodes _ _ X). right. by left. }
    assert (Hno : nmeta g0 n = None). { destruct (nmeta g0 n) eqn:E; [|done]. destruct (md_old_n _ _ X n ltac:(eauto)) as [_ Hx]. exfalso. apply Hx. by left. }
    pose proof (reach_inv _ _ (md_reach _ _ X)) as (fc & Fc & Ic).
    destruct (remove_node_spec gc fc Fc n m Ic Hm) as (g' & E & _ & P).
    assert (Hns : forall p, is_Some (pmeta g0 p) -> ~ in_slab m p).
    { intros p Hp Hs. destruct (md_old_p _ _ X p Hp) as [E1 _]. destruct Hp as [x Hx]. rewrite Hx in E1.
      destruct (inv_slab_owner _ _ _ Ic _ _ _ _ Hm Hs E1) as [E2 _]. destruct x as [n' d]. cbn in E2. subst n'.
      destruct (pmeta_nmeta _ _ _ Io _ _ _ Hx) as [? ?]. congruence. }
    rewrite E, bind_Ok. apply IH; [done|]. split.
    - destruct (md_reach _ _ X) as [ops Hops]. exists (ops ++ [ORemove n]). eapply hist_step; [exact Hops|done|]. cbn. rewrite E. done.
    - intros x Hx. destruct (md_old_n _ _ X x Hx) as [E1 E2]. rewrite (rp_nmeta _ _ _ _ P).
      destruct (decide (x = n)) as [->|]; [destruct Hx; congruence|]. split; [done|]. intros Hc. apply E2. by right.
    - intros x. rewrite (rp_nmeta _ _ _ _ P). destruct (decide (x = n)) as [->|Hne].
      + split; [by intros []|]. intros [[? ?]|?]; [congruence|done].
      + rewrite (md_nodes _ _ X), elem_of_cons. tauto.
    - intros p Hp. destruct (md_old_p _ _ X p Hp) as [E1 E2].
      assert (Epm : pmeta g' p = pmeta gc p) by (rewrite (rp_pmeta _ _ _ _ P); by rewrite decide_False by (by apply Hns)).
      split; [congruence|]. rewrite (rp_plink _ _ _ _ P) by (rewrite Epm, E1; destruct Hp as [? ->]; done). rewrite E2.
      destruct (plink g0 p) as [q|] eqn:Eq; [|done]. rewrite decide_False; [done|]. apply Hns.
      destruct Hp as [[n' d] Hx]. destruct (inv_link _ _ _ Io _ _ _ _ Hx Eq) as [_ [? ?]]. eauto.
  Qed.
  Lemma mid_same g' : mid [] g' -> same_graph g0 g'.
  Proof.
    intros X. pose proof (reach_inv _ _ (md_reach _ _ X)) as (fc & Fc & Ic).
    assert (Hn : forall n, nmeta g' n = nmeta g0 n).
    { intros n. destruct (nmeta g0 n) as [m|] eqn:E; [rewrite (proj1 (md_old_n _ _ X n ltac:(eauto))); done|].
      destruct (nmeta g' n) as [m'|] eqn:E'; [|done]. destruct (proj1 (md_nodes _ _ X n) ltac:(eauto)) as [[? ?]|[]%elem_of_nil]. congruence. }
    assert (Hp : forall p, pmeta g' p = pmeta g0 p).
    { intros p. destruct (pmeta g0 p) as [x|] eqn:E; [rewrite (proj1 (md_old_p _ _ X p ltac:(eauto))); done|].
      destruct (pmeta g' p) as [[n d]|] eqn:E'; [|done]. apply (inv_pmeta _ _ _ Ic) in E' as (m & Hm & Hr). rewrite Hn in Hm.
      assert (pmeta g0 p = Some (n, d)); [|congruence]. apply (inv_pmeta _ _ _ Io). by exists m. }
    assert (Hsp : forall p, same_port g0 g' p). { intros p. eapply same_port_meta; [exact Io|exact Ic|apply Hp|]. intros Hs. apply (md_old_p _ _ X p Hs). }
    assert (Hsn : forall n, same_node g0 g' n) by (intros; by apply same_node_nmeta).
    split; [done|]. split; [done|].
    destruct (C03_counts_pf w g0 Hr0) as (A1 & A2 & A3 & _). destruct (C03_counts_pf w g' (md_reach _ _ X)) as (B1 & B2 & B3 & _).
    split; [|split].
    - eapply card_unique; [exact B1|]. eapply card_ext; [|exact A1]. intros n. by rewrite (proj1 (Hsn n)).
    - eapply card_unique; [exact B2|]. eapply card_ext; [|exact A2]. intros p. by rewrite (proj1 (Hsp p)).
    - eapply card_unique; [exact B3|]. eapply card_ext; [|exact A3]. intros p. destruct (Hsp p) as (_ & _ & -> & E). unfold linked. by rewrite E.
  Qed.
  Lemma ins_mid R K gc : ins R K gc -> mid R.*2 gc.
  Proof. intros X. split; [by eapply ins_reach|apply X|apply X|apply X]. Qed.

  (** One copied node. *)
  Definition inside (R : list (nat * nat)) (q : nat) : Prop := exists o, o ∈ R.*1 /\ port_node g0 q = Some o.
  Definition later (R : list (nat * nat)) (new q : nat) : Prop := exists o n, (o, n) ∈ R /\ port_node g0 q = Some o /\ ~ n < new.

  Lemma old_offset R K gc p : ins R K gc -> is_Some (pmeta g0 p) ->
    exists n d k o, port_at g0 n d k p /\ port_node g0 p = Some n /\ port_node gc p = Some n /\ pmeta gc p = Some (n, d) /\
      port_offset w g0 p = Ok (Some o) /\ port_offset w gc p = Ok (Some o) /\ (forall g' n', port_index w g' n' o = Ok (ports g' n' d !! k)).
  Proof.
    intros X [[n d] Hp]. destruct (pmeta_port_at _ _ _ Io _ _ _ Hp) as [k Hk].
    assert (Hkm : (N.of_nat k <= po_max_offset w)%N).
    { specialize (Hmax n d). assert (k < num_ports g0 n d) by (rewrite <- ports_length; by eapply lookup_lt_Some). lia. }
    destruct (port_offset_eq w g0 n d k p Hw Hr0 Hk Hkm) as (o & Eo & Ho & Hi).
    assert (Hkc : port_at gc n d k p).
    { unfold port_at, ports in *. rewrite (proj1 (in_old_n _ _ _ _ _ _ _ X n (pmeta_nmeta _ _ _ Io _ _ _ Hp))). done. }
    destruct (port_offset_eq w gc n d k p Hw (ins_reach _ _ _ X) Hkc Hkm) as (o' & Eo' & Ho' & _).
    assert (o' = o) as -> by congruence.
    pose proof (proj1 (in_old_p _ _ _ _ _ _ _ X p ltac:(eauto))) as Epm.
    exists n, d, k, o. split_and!; try done.
    - apply port_node_iff. eauto.
    - apply port_node_iff. exists d. congruence.
    - congruence.
  Qed.

  Lemma cp_links_ok R new old ls : forall K gc, ins R K gc -> (old, new) ∈ R ->
    (forall p q, (p, q) ∈ ls -> linked g0 p q /\ port_node g0 p = Some old /\
       (later R new q -> (p, q) ∉ K /\ (q, p) ∉ K /\ (q, p) ∉ ls)) ->
    NoDup ls ->
    (exists gc' K', cp_links w R new ls gc = Ok (gc', None) /\ ins R (K ++ K') gc' /\ NoDup K' /\
      (forall p q, (p, q) ∈ ls -> inside R q) /\ forall p q, (p, q) ∈ K' <-> (p, q) ∈ ls /\ later R new q) \/
    (exists g' p q, cp_links w R new ls gc = Ok (g', Some (q, p)) /\ same_graph g0 g' /\ reach w g' /\ (p, q) ∈ ls /\ ~ inside R q).
  Proof.
    induction ls as [|[p q] ls IH]; intros K gc X HR Hls Hnd.
    { left. exists gc, []. rewrite app_nil_r. split_and!; [done|done|constructor| |]; intros p q; [by intros ?%elem_of_nil|]. split; [intros []%elem_of_nil|intros [[]%elem_of_nil _]]. }
    cbn [cp_links]. apply NoDup_cons in Hnd as [Hnin Hnd].
    destruct (Hls p q) as (Hl & Hp & HK); [by left|].
    assert (Hps : is_Some (pmeta g0 p)) by (by apply (linked_iff _ _ _ Io) in Hl as [? _]).
    assert (Hqs : is_Some (pmeta g0 q)).
    { apply (linked_iff _ _ _ Io) in Hl as [[[n1 d1] Hx] Hl]. destruct (inv_link _ _ _ Io _ _ _ _ Hx Hl) as [_ [? ?]]. eauto. }
    destruct (old_offset R K gc p X Hps) as (no & d & k & op & Hpk & Hpn & Hpnc & Hpmc & Eop & Eopc & Hopi).
    assert (no = old) as -> by congruence.
    destruct (old_offset R K gc q X Hqs) as (o2 & d2 & k2 & oq & Hqk & Hqn & Hqnc & Hqmc & Eoq & Eoqc & Hoqi).
    rewrite Eopc, bind_Ok. cbn [unwrap]. rewrite bind_Ok, Hopi, bind_Ok.
    assert (is_Some (ports gc new d !! k)) as [p' Hp'].
    { apply lookup_lt_is_Some. rewrite ports_length, (in_num _ _ _ _ _ _ _ X _ _ _ HR), <- ports_length. by eapply lookup_lt_Some. }
    rewrite Hp'. cbn [unwrap]. rewrite bind_Ok, Hqnc. cbn [unwrap]. rewrite bind_Ok.
    destruct (al_get R o2) as [n2|] eqn:Eas.
    - apply al_get_in in Eas. assert (Hin : inside R q) by (exists o2; split; [apply elem_of_list_fmap; by exists (o2, n2)|done]).
      destruct (decide (n2 < new)) as [Hlt|Hge].
      + assert (Hnl : ~ later R new q).
        { intros (o & n & HRn & Ho & Hn). assert (o = o2) as -> by congruence. pose proof (R_fun _ _ _ _ (in_nd1 _ _ _ _ _ _ _ X) HRn Eas) as ->. done. }
        destruct (IH K gc X HR) as [(gc' & K' & E & X' & N' & I' & HK')|(g' & a & b & E & Hsg & Hrg & Hab & Hnb)]; [|done| |].
        { intros a b Hab. destruct (Hls a b) as (H1 & H2 & H3); [by right|]. split; [done|]. split; [done|]. intros Hlt'. destruct (H3 Hlt') as (? & ? & H5). split_and!; try done. intros ?. apply H5. by right. }
        * left. exists gc', K'. split_and!; [done|done|done| |].
          -- intros a b [[= -> ->]|Hab]%elem_of_cons; [done|by eapply I'].
          -- intros a b. rewrite HK', elem_of_cons. split; [tauto|]. intros [[[= -> ->]|?] ?]; [done|done].
        * right. exists g', a, b. split_and!; try done. by right.
      + assert (Hlat : later R new q) by (exists o2, n2; done).
        destruct (HK Hlat) as (K1 & K2 & Hsym). apply not_elem_of_cons in Hsym as [Hsym0 Hsym].
        destruct (ins_link w Hw ops0 g0 Hh0 g0 Hr0 fo Fo Io Hmax R K gc p q old o2 new n2 X Hl K1 K2 Hp HR Hqn Eas) as (op' & oq' & gc1 & x & Eop' & Eoq' & Elk & X1).
        assert (op' = op) as -> by congruence. assert (oq' = oq) as -> by congruence.
        unfold link_offsets in Elk. rewrite Hopi, bind_Ok, Hp', Hoqi, bind_Ok in Elk.
        destruct (ports gc n2 d2 !! k2) as [q'|] eqn:Hq'.
        2:{ exfalso. apply lookup_ge_None in Hq'. rewrite ports_length, (in_num _ _ _ _ _ _ _ X _ _ _ Eas), <- ports_length in Hq'. apply lookup_lt_Some in Hqk. lia. }
        rewrite Eoqc, bind_Ok. cbn [unwrap]. rewrite bind_Ok, Hoqi, bind_Ok, Hq'. cbn [unwrap]. rewrite bind_Ok, Elk, bind_Ok.
        destruct (IH _ _ X1 HR) as [(gc' & K' & E & X' & N' & I' & HK')|(g' & a & b & E & Hsg & Hrg & Hab & Hnb)]; [|done| |].
        { intros a b Hab. destruct (Hls a b) as (H1 & H2 & H3); [by right|]. split; [done|]. split; [done|]. intros Hlt'. destruct (H3 Hlt') as (H4 & H5 & H6).
          apply not_elem_of_cons in H6 as [H6 H6']. rewrite !not_elem_of_app, !elem_of_list_singleton. split_and!; try done. intros [= -> ->]. done. }
        * left. exists gc', ((p, q) :: K'). rewrite <- app_assoc in X'. split_and!; [done|done| | |].
          -- constructor; [|done]. intros [H _]%HK'. done.
          -- intros a b [[= -> ->]|Hab]%elem_of_cons; [done|by eapply I'].
          -- intros a b. rewrite !elem_of_cons, HK'. split; [intros [[= -> ->]|[? ?]]; [split; [by left|done]|split; [by right|done]]|].
             intros [[H|H] ?]; [by left|by right].
        * right. exists g', a, b. split_and!; try done. by right.
    - apply al_get_none in Eas. right.
      assert (Hout : ~ inside R q) by (intros (o & Ho & Ho'); congruence).
      pose proof (ins_inv _ _ _ _ _ _ _ X) as (fc & Fc & Ic).
      assert (Hrp : ren g0 R gc p p') by (exists old, new, d, k; done).
      assert (Hfree : plink gc p' = None).
      { destruct (plink gc p') as [b'|] eqn:Eb; [|done]. exfalso. apply (in_link _ _ _ _ _ _ _ X _ _ Hrp) in Eb as (c & _ & [HKc|HKc]).
        - destruct (in_K _ _ _ _ _ _ _ X _ _ HKc) as (Hlc & _ & H3). assert (c = q) as -> by (unfold linked in *; congruence). done.
        - destruct (in_K _ _ _ _ _ _ _ X _ _ HKc) as (Hlc & H3 & _).
          assert (Hlc' : linked g0 p c).
          { apply (linked_iff _ _ _ Io) in Hlc as [[[n1 d1] Hx1] Hlc]. destruct (inv_link _ _ _ Io _ _ _ _ Hx1 Hlc) as [Hx [n3 Hqm]]. apply (linked_iff _ _ _ Io). eauto. }
          assert (c = q) as -> by (unfold linked in *; congruence). done. }
      pose proof (port_at_pmeta _ _ _ Ic _ _ _ _ Hp') as Hpm.
      assert (Hd2 : d2 = rev_dir d /\ plink gc q <> None).
      { pose proof Hl as [_ Hl']%(linked_iff _ _ _ Io). pose proof (port_at_pmeta _ _ _ Io _ _ _ _ Hpk) as Hpm0.
        destruct (inv_link _ _ _ Io _ _ _ _ Hpm0 Hl') as [Hx [n3 Hqm]]. apply (port_at_pmeta _ _ _ Io) in Hqk. split; [congruence|].
        rewrite (proj2 (in_old_p _ _ _ _ _ _ _ X q Hqs)). congruence. }
      destruct Hd2 as [Hd2 Hql].
      destruct (link_ports_spec gc fc Fc p' q Ic) as (gc' & r & Elp & Hr). rewrite Elp, bind_Ok.
      destruct r as [e|x]; [|exfalso; destruct Hr as (_ & _ & _ & _ & _ & Hx & _); done].
      destruct Hr as [-> [[Hx _]|[(_ & Hx & _)|[(na & nb & d' & H1 & H2 & _)|(na & nb & d' & H1 & H2 & [[Hx _]|(_ & _ & ->)])]]]]; try congruence.
      { rewrite Hpm in H1. rewrite Hqmc in H2. injection H1 as -> ->. injection H2 as -> H2. rewrite Hd2 in H2. by destruct d'. }
      destruct (remove_all_ok R.*2 gc) as (g' & Erm & Hmid); [apply X|by eapply ins_mid|].
      change (map snd R) with (R.*2). rewrite Erm, bind_Ok. exists g', p, q. split_and!; [done|by apply mid_same|apply Hmid|by left|done].
  Qed.

  (** The loop over all copies: [D] are the entries done, [T] those to do. *)
  Definition copied (R D K : list (nat * nat)) : Prop := forall p q, (p, q) ∈ K <->
    exists o n, (o, n) ∈ D /\ port_node g0 p = Some o /\ linked g0 p q /\ later R n q /\
       (port_node g0 q = Some o -> port_direction g0 p = Some Outgoing).

  Lemma cp_nodes_ok R T (HRn : forall o, o ∈ R.*1 -> is_Some (nmeta g0 o)) : forall D K gc, R ≡ₚ D ++ T -> ins R K gc ->
    copied R D K -> (forall o n p q, (o, n) ∈ D -> port_node g0 p = Some o -> linked g0 p q -> inside R q) ->
    (exists gc' K', cp_nodes w R T gc = Ok (gc', None) /\ ins R K' gc' /\ copied R R K' /\
       (forall p q, inside R p -> linked g0 p q -> inside R q)) \/
    (exists g' p q, cp_nodes w R T gc = Ok (g', Some (q, p)) /\ same_graph g0 g' /\ reach w g' /\ inside R p /\ linked g0 p q /\ ~ inside R q).
  Proof.
    induction T as [|[old new] T IH]; intros D K gc HP X HK Hin.
    { left. exists gc, K. rewrite app_nil_r in HP. split_and!; try done.
      - intros p q. etrans; [apply HK|]. split; intros (o & n & H1 & H2); exists o, n; (split; [|exact H2]); [by rewrite HP|by rewrite <- HP].
      - intros p q (o & Ho & Hp) Hl. apply elem_of_list_fmap in Ho as ([o' n] & -> & Hon). apply (Hin o' n p q); [by rewrite <- HP|done|done]. }
    cbn [cp_nodes].
    assert (HR : (old, new) ∈ R) by (rewrite HP; set_solver).
    assert (HD : forall o n, (o, n) ∈ D -> o <> old).
    { intros o n Hon ->. pose proof (in_nd1 _ _ _ _ _ _ _ X) as Hnd. rewrite HP, fmap_app in Hnd. apply NoDup_app in Hnd as (_ & Hd & _).
      apply (Hd old); [apply elem_of_list_fmap; by exists (old, n)|cbn; by left]. }
    destruct (HRn old) as [mo Hmo]; [apply elem_of_list_fmap; by exists (old, new)|].
    destruct (C18_links_pf w gc old (ins_reach _ _ _ X)) as (_ & (L & N0 & s & HL & EL & _ & _ & HLnd & HL1 & HL2 & HL3 & _)).
    rewrite HL, bind_Ok.
    pose proof (ins_inv _ _ _ _ _ _ _ X) as (fc & Fc & Ic).
    assert (Holdp : forall p, port_node gc p = Some old <-> port_node g0 p = Some old).
    { intros p. rewrite !port_node_iff. pose proof (proj1 (in_old_n _ _ _ _ _ _ _ X old ltac:(eauto))) as En.
      split; intros [d Hd]; exists d.
      - apply (elem_ports _ _ _ Io). apply (elem_ports _ _ _ Ic) in Hd. unfold ports in *. by rewrite En in Hd.
      - apply (elem_ports _ _ _ Ic). apply (elem_ports _ _ _ Io) in Hd. unfold ports in *. by rewrite En. }
    assert (Hpm : forall p, is_Some (pmeta g0 p) -> pmeta gc p = pmeta g0 p) by (intros p Hp; apply (in_old_p _ _ _ _ _ _ _ X p Hp)).
    assert (Hlk : forall p q, is_Some (pmeta g0 p) -> linked gc p q <-> linked g0 p q).
    { intros p q Hp. destruct (in_old_p _ _ _ _ _ _ _ X p Hp) as [E1 E2]. rewrite (linked_iff _ _ _ Ic), (linked_iff _ _ _ Io), E1, E2. done. }
    assert (Hns : forall p n, port_node g0 p = Some n -> is_Some (pmeta g0 p)) by (intros p n [d Hd]%port_node_iff; eauto).
    assert (Hqs : forall p q, linked g0 p q -> is_Some (pmeta g0 q)).
    { intros p q [[[n1 d1] Hx] Hl]%(linked_iff _ _ _ Io). destruct (inv_link _ _ _ Io _ _ _ _ Hx Hl) as [_ [? ?]]. eauto. }
    assert (Hlsym : forall p q, linked g0 p q -> linked g0 q p).
    { intros p q Hl. pose proof Hl as [[[n1 d1] Hx1] Hlc]%(linked_iff _ _ _ Io). destruct (inv_link _ _ _ Io _ _ _ _ Hx1 Hlc) as [Hx [n3 Hqm]]. apply (linked_iff _ _ _ Io). eauto. }
    assert (HLe : forall p q, (p, q) ∈ L <-> linked g0 p q /\ port_node g0 p = Some old /\ (port_node g0 q = Some old -> port_direction g0 p = Some Outgoing)).
    { intros p q. split.
      - intros Hpq. destruct (HL1 p q Hpq) as [H1 H2]. pose proof H2 as H2'%Holdp. pose proof (Hns _ _ H2') as Hs.
        split; [by apply Hlk|]. split; [done|]. intros Hq%Holdp. destruct (HL3 p q H1 H2 Hq) as [H3 _].
        unfold port_direction. rewrite <- (Hpm p Hs). by apply H3.
      - intros (H1 & H2 & H3). pose proof (Hns _ _ H2) as Hs. pose proof H2 as H2'%Holdp. pose proof H1 as H1'%(Hlk p q Hs).
        destruct (decide (port_node g0 q = Some old)) as [Hq|Hq].
        + specialize (H3 Hq). apply Holdp in Hq. apply (HL3 p q H1' H2' Hq). unfold port_direction in *. by rewrite (Hpm p Hs).
        + apply HL2; [done|done|]. by intros ?%Holdp. }
    assert (Hopp : forall p q, linked g0 p q -> port_direction g0 p = Some Outgoing -> port_direction g0 q = Some Outgoing -> False).
    { intros p q [[[n1 d1] Hx] Hl]%(linked_iff _ _ _ Io). destruct (inv_link _ _ _ Io _ _ _ _ Hx Hl) as [_ [n2 Hy]].
      unfold port_direction. rewrite Hx, Hy. cbn. by intros [= ->] [=]. }
    destruct (cp_links_ok R new old L K gc X HR) as [(gc1 & K' & E & X1 & N1 & I1 & HK1)|(g' & p & q & E & Hsg & Hrg & Hpq & Hnq)]; [|done| |].
    - intros p q (Hl & Hp & Ho)%HLe. split; [done|]. split; [done|]. intros (o & n & Hon & Hq & Hn). split_and!.
      + intros (o1 & n1 & H1 & H2 & _)%HK. apply (HD o1 n1); [done|congruence].
      + intros (o1 & n1 & H1 & H2 & _ & (o3 & n3 & H3 & H4 & H5) & _)%HK.
        assert (o1 = o) as -> by congruence. assert (o3 = old) as -> by congruence.
        pose proof (R_fun _ _ _ _ (in_nd1 _ _ _ _ _ _ _ X) H3 HR) as ->.
        assert (n1 = n) as ->. { eapply (R_fun R); [apply X| |exact Hon]. rewrite HP, elem_of_app. by left. }
        assert (n = new) as -> by lia. pose proof (R_inj _ _ _ _ (in_nd2 _ _ _ _ _ _ _ X) Hon HR) as ->. by eapply HD.
      + intros (Hl' & Hq' & Ho')%HLe. eapply Hopp; [exact Hl|by apply Ho|by apply Ho'].
    - rewrite E, bind_Ok.
      destruct (IH (D ++ [(old, new)]) (K ++ K') gc1) as [?|?]; [by rewrite <- app_assoc|done| | |by left|by right].
      + intros p q. rewrite elem_of_app, (HK p q), (HK1 p q), (HLe p q). split.
        * intros [(o & n & H1 & H2)|((H1 & H2 & H3) & H4)]; [exists o, n; rewrite elem_of_app; tauto|].
          exists old, new. rewrite elem_of_app, elem_of_list_singleton. tauto.
        * intros (o & n & [H1|[= -> ->]%elem_of_list_singleton]%elem_of_app & H2); [left; by exists o, n|right; tauto].
      + intros o n p q [Hon|[= -> ->]%elem_of_list_singleton]%elem_of_app Hp Hl; [by eapply Hin|].
        destruct (decide (port_node g0 q = Some old)) as [Hq|Hq]; [exists old; split; [apply elem_of_list_fmap; by exists (old, new)|done]|].
        apply (I1 p q), HLe. done.
    - rewrite E, bind_Ok. right. apply HLe in Hpq as (H1 & H2 & _). exists g', p, q. split_and!; try done.
      exists old. split; [apply elem_of_list_fmap; by exists (old, new)|done].
  Qed.
End copy.
