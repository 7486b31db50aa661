(** Proofs of properties C23 and C24. *)
From Verif Require Export PGInsert.

Lemma C24_link_nodes_pf :
  forall w g a i b j, (1 < w <= 63)%N -> reach w g ->
    (N.of_nat i <= po_max_offset w)%N -> (N.of_nat j <= po_max_offset w)%N ->
    ((forall p, ~ port_at g a Outgoing i p) ->
       link_nodes w g a (N.of_nat i) b (N.of_nat j) = Ok (g, inl (UnknownOffset a Outgoing i))) /\
    (forall p, port_at g a Outgoing i p -> (forall q, ~ port_at g b Incoming j q) ->
       link_nodes w g a (N.of_nat i) b (N.of_nat j) = Ok (g, inl (UnknownOffset b Incoming j))) /\
    (forall p q, port_at g a Outgoing i p -> port_at g b Incoming j q ->
       link_nodes w g a (N.of_nat i) b (N.of_nat j) = link_ports g p q /\
       (unlinked g p -> unlinked g q -> exists g', link_ports g p q = Ok (g', inr (p, q)) /\ linked g' p q /\ linked g' q p /\
          forall x, x <> p -> x <> q -> same_port g g' x) /\
       (forall x, linked g p x -> link_ports g p q = Ok (g, inl (AlreadyLinked p))) /\
       (forall x, unlinked g p -> linked g q x -> link_ports g p q = Ok (g, inl (AlreadyLinked q)))).
Proof.
  intros w g a i b j Hw Hr Hi Hj. pose proof (reach_inv _ _ Hr) as (fnl & F & I).
  destruct (port_index_eq w g a Outgoing (N.of_nat i) ltac:(lia) Hi) as (oi & Hoi & Hdi & Hxi & Hpi).
  destruct (port_index_eq w g b Incoming (N.of_nat j) ltac:(lia) Hj) as (oj & Hoj & Hdj & Hxj & Hpj).
  rewrite Nat2N.id in *. unfold link_nodes. rewrite Hoi, Hoj, !bind_Ok. unfold link_offsets. rewrite Hpi, bind_Ok.
  split_and!.
  - intros H. destruct (ports g a Outgoing !! i) as [p|] eqn:E; [by destruct (H p)|].
    by rewrite Hdi, Hxi, !bind_Ok, Nat2N.id.
  - intros p Hp H. rewrite Hp, Hpj, bind_Ok. destruct (ports g b Incoming !! j) as [q|] eqn:E; [by destruct (H q)|].
    by rewrite Hdj, Hxj, !bind_Ok, Nat2N.id.
  - intros p q Hp Hq. rewrite Hp, Hpj, bind_Ok, Hq. split; [done|].
    pose proof (port_at_pmeta _ _ _ I _ _ _ _ Hp) as Hpm. pose proof (port_at_pmeta _ _ _ I _ _ _ _ Hq) as Hqm.
    destruct (link_ports_spec g fnl F p q I) as (g' & r & -> & Hres). destruct r as [e|e].
    + destruct Hres as (-> & [[? _]|[(_ & ? & _)|[(na & nb & d & H1 & H2 & _)|(na & nb & d & H1 & H2 & H3)]]]); [congruence..|].
      split_and!.
      * intros [_ U1]%(unlinked_iff _ _ _ I) [_ U2]%(unlinked_iff _ _ _ I). exfalso. destruct H3 as [[? _]|(_ & ? & _)]; done.
      * intros x [_ L]%(linked_iff _ _ _ I). destruct H3 as [[_ ->]|(? & _)]; [done|congruence].
      * intros x [_ U1]%(unlinked_iff _ _ _ I) [_ L]%(linked_iff _ _ _ I). destruct H3 as [[? _]|(_ & _ & ->)]; [done|done].
    + destruct Hres as (-> & I' & Hsb & _ & U1 & U2 & Hpl & _). split_and!.
      * intros _ _. exists g'.
        assert (p <> q) by (intros ->; congruence). split_and!.
        -- done.
        -- apply (linked_iff _ _ _ I'). rewrite (sb_pmeta' _ _ _ Hsb), Hpl. unfold link_pl.
           rewrite decide_False, decide_True by done. eauto.
        -- apply (linked_iff _ _ _ I'). rewrite (sb_pmeta' _ _ _ Hsb), Hpl. unfold link_pl. rewrite decide_True by done. eauto.
        -- intros x H1 H2. eapply same_port_meta; [done|done| |].
           ++ by rewrite (sb_pmeta' _ _ _ Hsb).
           ++ rewrite Hpl. unfold link_pl. by rewrite !decide_False by done.
      * intros x [_ L]%(linked_iff _ _ _ I). congruence.
      * intros x _ [_ L]%(linked_iff _ _ _ I). congruence.
Qed.

Lemma C24_link_offsets_pf :
  forall w g a d i oa b e j ob, (1 < w <= 63)%N -> reach w g ->
    (N.of_nat i <= po_max_offset w)%N -> (N.of_nat j <= po_max_offset w)%N ->
    po_new w d (N.of_nat i) = Ok oa -> po_new w e (N.of_nat j) = Ok ob ->
    ((forall p, ~ port_at g a d i p) -> link_offsets w g a oa b ob = Ok (g, inl (UnknownOffset a d i))) /\
    (forall p, port_at g a d i p -> (forall q, ~ port_at g b e j q) ->
       link_offsets w g a oa b ob = Ok (g, inl (UnknownOffset b e j))) /\
    (forall p q, port_at g a d i p -> port_at g b e j q ->
       link_offsets w g a oa b ob = link_ports g p q /\
       (forall g' err, link_ports g p q = Ok (g', inl err) -> g' = g)).
Proof.
  intros w g a d i oa b e j ob Hw Hr Hi Hj Ha Hb. pose proof (reach_inv _ _ Hr) as (fnl & F & I).
  destruct (port_index_eq w g a d (N.of_nat i) ltac:(lia) Hi) as (oi & Hoi & Hdi & Hxi & Hpi).
  destruct (port_index_eq w g b e (N.of_nat j) ltac:(lia) Hj) as (oj & Hoj & Hdj & Hxj & Hpj).
  assert (oi = oa) as -> by congruence. assert (oj = ob) as -> by congruence.
  rewrite Nat2N.id in *. unfold link_offsets. rewrite Hpi, bind_Ok.
  split_and!.
  - intros H. destruct (ports g a d !! i) as [p|] eqn:E; [by destruct (H p)|].
    by rewrite Hdi, Hxi, !bind_Ok, Nat2N.id.
  - intros p Hp H. rewrite Hp, Hpj, bind_Ok. destruct (ports g b e !! j) as [q|] eqn:E; [by destruct (H q)|].
    by rewrite Hdj, Hxj, !bind_Ok, Nat2N.id.
  - intros p q Hp Hq. rewrite Hp, Hpj, bind_Ok, Hq. split; [done|]. intros g' err E.
    destruct (link_ports_spec g fnl F p q I) as (g2 & r & E2 & Hres). rewrite E in E2. injection E2 as <- <-. tauto.
Qed.

Lemma sorted_nodup (l : list nat) : StronglySorted lt l -> NoDup l.
Proof.
  induction 1 as [|x l _ IH Hx]; constructor; [|done]. intros Hin. rewrite Forall_forall in Hx. apply Hx in Hin. lia.
Qed.
Lemma sum_np other fo Fo : InvG other fo Fo -> sum_list (np other <$> node_ids other) = pg_pcount other.
Proof.
  intros I. destruct (i_counts _ _ _ I) as (_ & C2 & _). symmetry. eapply card_unique; [exact C2|].
  set (l := node_ids other ≫= (fun n => ports other n Incoming ++ ports other n Outgoing)).
  assert (Hlen : forall ns, length (ns ≫= (fun n => ports other n Incoming ++ ports other n Outgoing)) = sum_list (np other <$> ns)).
  { induction ns as [|n ns IH]; [done|]. cbn. rewrite app_length. cbn in IH. rewrite IH, app_length, !ports_length. done. }
  rewrite <- Hlen. fold l. eapply card_ext; [|apply card_list].
  - intros p. cbn. unfold l. rewrite elem_of_list_bind. split.
    + intros (n & Hp & Hn). rewrite elem_of_app, !(elem_ports _ _ _ I) in Hp. destruct Hp as [Hp|Hp]; by rewrite Hp.
    + intros Hp. destruct (pmeta other p) as [[n d]|] eqn:E; [|done]. exists n.
      rewrite elem_of_app, !(elem_ports _ _ _ I), node_ids_elem. split; [destruct d; tauto|]. by eapply pmeta_nmeta.
  - unfold l. assert (Hnd : NoDup (node_ids other)).
    { apply sorted_nodup. apply node_ids_sorted. }
    clear l Hlen C2. induction Hnd as [|n ns Hn Hnd IH]; cbn; [constructor|]. apply NoDup_app. split_and!.
    + apply NoDup_app. split_and!.
      * unfold ports. destruct (nmeta other n) as [m|]; [|constructor]. apply NoDup_seq.
      * intros p. rewrite !(elem_ports _ _ _ I). congruence.
      * unfold ports. destruct (nmeta other n) as [m|]; [|constructor]. apply NoDup_seq.
    + intros p. rewrite elem_of_app, !(elem_ports _ _ _ I). intros Hp (n' & Hp' & Hn')%elem_of_list_bind.
      rewrite elem_of_app, !(elem_ports _ _ _ I) in Hp'. assert (n' = n) as -> by (destruct Hp, Hp'; congruence). done.
    + exact IH.
Qed.

Lemma C23_insert_graph_pf :
  forall w ops g other, (1 < w <= 63)%N -> hist w ops g -> reach w other ->
    (forall n d, (N.of_nat (num_ports other n d) <= po_max_offset w)%N) ->
    (N.of_nat (sum_list (node_cost <$> ops) + node_count other) <= 2 ^ 31 - 1)%N ->
    (N.of_nat (sum_list (port_cost <$> ops) + port_count other) <= 2 ^ 31 - 1)%N ->
    exists g' R, insert_graph w g other = Ok (g', inr R) /\ reach w g' /\
      R.*1 = nodes_iter other /\ NoDup R.*2 /\
      (forall n, contains_node g' n = true <-> contains_node g n = true \/ n ∈ R.*2) /\
      (forall n, contains_node g n = true -> n ∉ R.*2 /\ same_node g g' n) /\
      (forall p, contains_port g p = true -> same_port g g' p) /\
      (forall o n d, (o, n) ∈ R -> num_ports g' n d = num_ports other o d) /\
      (forall o n o2 n2 d k d2 k2 p q p' q', (o, n) ∈ R -> (o2, n2) ∈ R ->
         port_at other o d k p -> port_at other o2 d2 k2 q ->
         port_at g' n d k p' -> port_at g' n2 d2 k2 q' ->
         (linked g' p' q' <-> linked other p q)) /\
      (forall n p' q', n ∈ R.*2 -> port_node g' p' = Some n -> linked g' p' q' -> exists n2, n2 ∈ R.*2 /\ port_node g' q' = Some n2) /\
      node_count g' = node_count g + node_count other /\
      port_count g' = port_count g + port_count other /\
      link_count g' = link_count g + link_count other.
Proof.
  intros w ops g other Hw Hh Hro Hmax Hb1 Hb2. pose proof (reach_inv _ _ Hro) as (fo & Fo & Io).
  pose proof (reach_inv w g (ex_intro _ _ Hh)) as (f0 & F0 & I0).
  assert (Hnd : NoDup (node_ids other)) by (apply sorted_nodup, node_ids_sorted).
  pose proof (node_ids_length _ _ _ Io) as Hlen. pose proof (sum_np _ _ _ Io) as Hsum.
  unfold node_count, port_count in *.
  destruct (insert_nodes_ok w Hw ops g Hh other Hro fo Fo Io Hmax (node_ids other) [] [] g) as (g' & R & K & E & X & HF & ER).
  - by apply ins_nil.
  - split_and!; [constructor|intros ? ? []%elem_of_nil|]. intros p q _ (o & []%elem_of_nil & _).
  - done.
  - intros n. by apply node_ids_elem.
  - cbn [length]. rewrite Hlen. unfold sum_list_with in *. lia.
  - cbn [fmap list_fmap app]. rewrite Hsum. unfold sum_list_with in *. lia.
  - pose proof (ins_inv _ _ _ _ _ _ _ X) as (fc & Fc & Ic). cbn in ER.
    assert (Hall : forall p n d, pmeta other p = Some (n, d) -> n ∈ R.*1).
    { intros p n d Hp. rewrite ER. apply node_ids_elem. by eapply pmeta_nmeta. }
    assert (Hlsym : forall p q, linked other p q -> linked other q p).
    { intros p q Hl. pose proof Hl as [[[n1 d1] Hx1] Hlc]%(linked_iff _ _ _ Io). destruct (inv_link _ _ _ Io _ _ _ _ Hx1 Hlc) as [Hx [n3 Hqm]]. apply (linked_iff _ _ _ Io). eauto. }
    assert (HKl : forall p q, linked other p q <-> (p, q) ∈ K \/ (q, p) ∈ K).
    { intros p q. split.
      - intros Hl. destruct HF as (_ & _ & HF3). apply HF3; [done|..].
        + pose proof Hl as [[[n1 d1] Hx1] _]%(linked_iff _ _ _ Io). exists n1. split; [by eapply Hall|]. apply port_node_iff. eauto.
        + apply Hlsym in Hl. pose proof Hl as [[[n1 d1] Hx1] _]%(linked_iff _ _ _ Io). exists n1. split; [by eapply Hall|]. apply port_node_iff. eauto.
      - intros [H|H]; apply (in_K _ _ _ _ _ _ _ X) in H as [H _]; [done|]. by apply Hlsym. }
    exists g', R. split_and!.
    + unfold insert_graph. rewrite nodes_iter_eq. exact E.
    + destruct (in_hist _ _ _ _ _ _ _ X) as (ops' & Hh' & _). by eexists.
    + by rewrite nodes_iter_eq.
    + apply X.
    + intros n. rewrite !contains_node_true. apply X.
    + intros n Hn%contains_node_true. destruct (in_old_n _ _ _ _ _ _ _ X n Hn). split; [done|]. by apply same_node_nmeta.
    + intros p Hp%contains_port_true. destruct (in_old_p _ _ _ _ _ _ _ X p Hp). by eapply same_port_meta.
    + apply X.
    + intros o n o2 n2 d k d2 k2 p q p' q' HR HR2 Hp Hq Hp' Hq'.
      assert (Rp : ren other R g' p p') by (exists o, n, d, k; done).
      assert (Rq : ren other R g' q q') by (exists o2, n2, d2, k2; done).
      rewrite (linked_iff _ _ _ Ic), HKl, (in_link _ _ _ _ _ _ _ X _ _ Rp). split.
      * intros [_ (q0 & Hq0 & HK)]. pose proof (ren_inj _ _ _ _ _ _ _ _ _ _ X Hq0 Rq) as ->. done.
      * intros HK. split; [|eauto]. apply (port_at_pmeta _ _ _ Ic) in Hp'. eauto.
    + intros n p' q' Hn [d Hd]%port_node_iff [_ Hl]%(linked_iff _ _ _ Ic).
      apply elem_of_list_fmap in Hn as ([o n'] & En & HR). cbn in En. subst n'.
      destruct (pmeta_port_at _ _ _ Ic _ _ _ Hd) as [k Hk].
      assert (Hlt : k < length (ports other o d)).
      { rewrite ports_length, <- (in_num _ _ _ _ _ _ _ X _ _ _ HR), <- ports_length. by eapply lookup_lt_Some. }
      apply lookup_lt_is_Some_2 in Hlt as [p Hp].
      assert (Rp : ren other R g' p p') by (exists o, n, d, k; done).
      apply (in_link _ _ _ _ _ _ _ X _ _ Rp) in Hl as (q & (o2 & n2 & d2 & k2 & HR2 & _ & Hq') & _).
      exists n2. split; [apply elem_of_list_fmap; by exists (o2, n2)|]. apply port_node_iff. exists d2. by eapply port_at_pmeta.
    + rewrite (in_nc _ _ _ _ _ _ _ X). f_equal. rewrite <- Hlen, <- ER. by rewrite fmap_length.
    + rewrite (in_pc _ _ _ _ _ _ _ X). by rewrite ER, Hsum.
    + unfold link_count. rewrite (in_lc _ _ _ _ _ _ _ X). f_equal.
      destruct (C03_counts_pf w other Hro) as (_ & _ & C3 & _). eapply card_unique; [|exact C3].
      destruct HF as (HndK & Hanti & _).
      assert (HKdir : forall p q, (p, q) ∈ K -> exists n1 n2 d, pmeta other p = Some (n1, d) /\ pmeta other q = Some (n2, rev_dir d)).
      { intros p q [Hl _]%(in_K _ _ _ _ _ _ _ X). pose proof Hl as [[[n1 d1] Hx1] Hlc]%(linked_iff _ _ _ Io).
        destruct (inv_link _ _ _ Io _ _ _ _ Hx1 Hlc) as [_ [n3 Hqm]]. eauto. }
      eapply (card_bij _ _ (fun x => if bool_decide (port_direction other x.1 = Some Outgoing) then x.1 else x.2)); [..|by apply card_list].
      * intros [p q] [p2 q2] H1 H2. cbn.
        destruct (HKdir _ _ H1) as (n1 & m1 & d1 & P1 & Q1). destruct (HKdir _ _ H2) as (n2 & m2 & d2 & P2 & Q2).
        destruct (in_K _ _ _ _ _ _ _ X _ _ H1) as [L1 _]. destruct (in_K _ _ _ _ _ _ _ X _ _ H2) as [L2 _].
        pose proof (Hlsym _ _ L1) as L1'. pose proof (Hlsym _ _ L2) as L2'.
        assert (Hfun : forall x y z, linked other x y -> linked other x z -> y = z) by (unfold linked; congruence).
        repeat case_bool_decide; intros ->.
        -- f_equal. by eapply Hfun.
        -- exfalso. assert (q = p2) as -> by (by eapply Hfun). by apply (Hanti _ _ H1).
        -- exfalso. assert (p = q2) as -> by (by eapply Hfun). by apply (Hanti _ _ H1).
        -- f_equal. by eapply Hfun.
      * intros p. split.
        -- intros [Hd [q Hq]]. pose proof Hq as [HK|HK]%HKl.
           ++ exists (p, q). cbn. by rewrite bool_decide_true.
           ++ exists (q, p). cbn. split; [done|]. rewrite bool_decide_false; [done|].
              destruct (HKdir _ _ HK) as (n1 & m1 & d1 & P1 & Q1). unfold port_direction in *. rewrite P1. rewrite Q1 in Hd. cbn in *.
              injection Hd as Hd. intros [= ->]. done.
        -- intros ([a b] & HK & ->). cbn. destruct (HKdir _ _ HK) as (n1 & m1 & d1 & P1 & Q1).
           destruct (in_K _ _ _ _ _ _ _ X _ _ HK) as [L1 _].
           case_bool_decide as Hd.
           ++ eauto.
           ++ split; [|eauto]. unfold port_direction in *. rewrite P1 in Hd. rewrite Q1. cbn in *. destruct d1; [done|]. done.
Qed.
