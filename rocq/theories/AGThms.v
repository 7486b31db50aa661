(** Proof of property C19. *)
From Verif Require Export PG4Thms AGSpec.

Definition abs (g : pg) : ag :=
  mkAG (fun n => if contains_node g n then Some (ports g n Incoming, ports g n Outgoing) else None)
       (fun p => match port_link g p with Ok x => x | Panic => None end).

Lemma abs_link g p q : a_link (abs g) p = Some q <-> linked g p q.
Proof. cbn. unfold linked. destruct (port_link g p); split; congruence. Qed.
Lemma abs_of g fnl F : InvG g fnl F -> forall n p d, a_of (abs g) n p d <-> pmeta g p = Some (n, d).
Proof.
  intros I n p d. unfold a_of, abs. cbn. rewrite <- (elem_ports _ _ _ I). split.
  - intros (i & o & H & Hp). destruct (contains_node g n); [|done]. injection H as <- <-. by destruct d.
  - intros Hp. pose proof Hp as Hm%(elem_ports _ _ _ I)%(pmeta_nmeta _ _ _ I). apply contains_node_true in Hm. rewrite Hm.
    do 2 eexists. split; [done|]. by destruct d.
Qed.
Lemma abs_has g fnl F : InvG g fnl F -> forall p, a_has (abs g) p <-> contains_port g p = true.
Proof.
  intros I p. unfold a_has. setoid_rewrite (abs_of _ _ _ I). rewrite contains_port_true. split.
  - intros (n & d & H). eauto.
  - intros [[n d] H]. eauto.
Qed.
Lemma abs_ports_same g g' n : same_node g g' n -> a_ports (abs g') n = a_ports (abs g) n.
Proof. intros [H1 H2]. cbn. by rewrite H1, !H2. Qed.
Lemma abs_link_same g g' p : same_port g g' p -> a_link (abs g') p = a_link (abs g) p.
Proof. intros (_ & _ & _ & H). cbn. by rewrite H. Qed.
Lemma abs_nodup g fnl F : InvG g fnl F -> forall n, NoDup (ports g n Incoming ++ ports g n Outgoing).
Proof.
  intros I n. apply NoDup_app. split_and!.
  - unfold ports. destruct (nmeta g n) as [m|]; [|constructor]. apply NoDup_seq.
  - intros p. rewrite !(elem_ports _ _ _ I). congruence.
  - unfold ports. destruct (nmeta g n) as [m|]; [|constructor]. apply NoDup_seq.
Qed.
Lemma abs_wf g fnl F : InvG g fnl F -> wfA (abs g).
Proof.
  intros I. split.
  - intros n i o. cbn. destruct (contains_node g n); [|done]. intros [= <- <-]. by eapply abs_nodup.
  - intros n n' d d' p. rewrite !(abs_of _ _ _ I). intros H1 H2. split; congruence.
  - intros p q. rewrite !abs_link, !(linked_iff _ _ _ I). intros [[[n d] Hm] Hl].
    destruct (inv_link _ _ _ I _ _ _ _ Hm Hl) as [H [n' Hm']]. eauto.
  - intros p q. rewrite !abs_link, !(linked_iff _ _ _ I). intros [[[n d] Hm] Hl].
    destruct (inv_link _ _ _ I _ _ _ _ Hm Hl) as [H [n' Hm']]. exists n, n', d. by rewrite !(abs_of _ _ _ I).
Qed.
Lemma abs_shows w g : (1 < w <= 63)%N -> reach w g -> shows w g (abs g).
Proof.
  intros Hw Hr. pose proof (reach_inv _ _ Hr) as (fnl & F & I).
  destruct (C03_counts_pf w g Hr) as (C1 & C2 & C3 & _).
  assert (Hn : forall n, contains_node g n = true <-> a_ports (abs g) n <> None).
  { intros n. cbn. by destruct (contains_node g n). }
  split.
  - done.
  - intros n i o. cbn. destruct (contains_node g n); [|done]. by intros [= <- <-].
  - intros n d k Hk. destruct (port_index_eq w g n d (N.of_nat k) ltac:(lia) Hk) as (o & Ho & _ & _ & E). exists o. split; [done|].
    rewrite E, Nat2N.id. f_equal. cbn. destruct (contains_node g n) eqn:En; [by destruct d|].
    apply contains_node_false in En. unfold ports. by rewrite En.
  - intros p. by rewrite (abs_has _ _ _ I).
  - intros p n d. rewrite (abs_of _ _ _ I). unfold port_node, port_direction. destruct (pmeta g p) as [[n' d']|]; cbn; [|naive_solver].
    split; [intros [H1 H2]|intros H]; [congruence|split; congruence].
  - intros p [x Hp]%(abs_has _ _ _ I)%contains_port_true. cbn. rewrite (port_link_eq _ _ _ I), Hp. done.
  - eapply card_ext; [|exact C1]. done.
  - eapply card_ext; [|exact C2]. intros p. by rewrite (abs_has _ _ _ I).
  - eapply card_ext; [|exact C3]. intros p. cbn beta. setoid_rewrite (abs_of _ _ _ I). rewrite port_direction_iff. split.
    + intros [H [q Hq]]. split; [done|]. apply abs_link in Hq. congruence.
    + intros [H H2]. split; [done|]. destruct (a_link (abs g) p) as [q|] eqn:E; [|done]. exists q. by apply abs_link.
Qed.

Lemma abs_step w g c g' r : (1 < w <= 63)%N -> reach w g -> allowed g c -> step w g c = Ok (g', r) -> astep (abs g) c r (abs g').
Proof.
  intros Hw Hr Ha Hs. pose proof (reach_inv _ _ Hr) as (fnl & F & I). pose proof (reach_step _ _ _ _ _ Hr Ha Hs) as Hr'.
  pose proof (reach_inv _ _ Hr') as (fnl' & F' & I').
  assert (HL : forall p p', (forall q, linked g' p q <-> linked g p' q) -> a_link (abs g') p = a_link (abs g) p').
  { intros p p' H. apply option_eq. intros q. rewrite !abs_link. apply H. }
  destruct c as [i j|n|a b|p|n i j|a b| | | |x y|]; cbn in Hs.
  - destruct (add_node _ _ _ _) as [[g1 n]|] eqn:E; [|done]. injection Hs as -> <-.
    destruct (C04_add_node_pf w g i j g' n Hr Ha E) as (H1 & H2 & H3 & H4 & H5 & H6 & H7 & _).
    split_and!.
    + cbn. by rewrite H1.
    + exists (ports g' n Incoming), (ports g' n Outgoing). rewrite !ports_length. split_and!; [done|done|by eapply abs_nodup| |].
      * intros p Hp. rewrite (abs_has _ _ _ I). rewrite elem_of_app in Hp. destruct Hp as [Hp|Hp]; apply H5 in Hp as [-> _]; done.
      * intros x. destruct (decide (x = n)) as [->|Hx]; [cbn; by rewrite H2|]. by apply abs_ports_same, H6.
    + intros p. destruct (decide (port_node g' p = Some n)) as [Hp|Hp]; [|by apply abs_link_same, H7].
      apply port_node_iff in Hp as [d Hp%(elem_ports _ _ _ I')]. apply H5 in Hp as (P1 & P2 & _).
      cbn. unfold unlinked in P2. rewrite P2. rewrite (port_link_eq _ _ _ I). apply contains_port_false in P1. by rewrite P1.
  - destruct (C05_remove_node_pf w g n Hr) as (g1 & E & H0 & H1). rewrite E in Hs. cbn in Hs. injection Hs as -> <-.
    destruct (contains_node g n) eqn:En.
    + destruct (H1 eq_refl) as (A1 & A2 & A3 & A4 & A5 & _). split.
      * intros x. destruct (decide (x = n)) as [->|Hx]; [cbn; by rewrite A1|]. by apply abs_ports_same, A2.
      * intros p q. rewrite !abs_link, A5. setoid_rewrite (abs_of _ _ _ I). unfold port_node. split.
        -- intros (L & P1 & P2). split; [done|]. intros d. split; intros E2; [apply P1|apply P2]; by rewrite E2.
        -- intros (L & P). split; [done|]. split; intros [d Hd]%port_node_iff; [by apply (proj1 (P d))|by apply (proj2 (P d))].
    + rewrite (H0 eq_refl). split.
      * intros x. destruct (decide (x = n)) as [->|Hx]; [cbn; by rewrite En|done].
      * intros p q. split; [|tauto]. intros L. split; [done|]. intros d. rewrite !(abs_of _ _ _ I).
        split; intros [? X]%(pmeta_nmeta _ _ _ I); apply contains_node_false in En; congruence.
  - destruct (C07_link_ports_pf w g a b Hr) as (g1 & r1 & E & H1 & H2 & H3). rewrite E in Hs. cbn in Hs. injection Hs as -> <-.
    destruct r1 as [e|x].
    + destruct (H3 e eq_refl) as (-> & He). split_and!; [done|done|]. destruct e; cbn [astep] in *.
      * destruct He as (Hp & q & Hq). split; [done|]. apply abs_link in Hq. congruence.
      * rewrite !(abs_has _ _ _ I). destruct He as [->| ->]; [left|right]; done.
      * done.
      * destruct He as (-> & -> & D1 & D2). setoid_rewrite (abs_of _ _ _ I). rewrite <- !port_direction_iff. done.
    + destruct (H2 x eq_refl) as (-> & L1 & L2 & Hf & Hn & _). destruct (proj1 H1 ltac:(eauto)) as ((d & D1 & D2) & U1 & U2).
      cbn [astep]. split_and!.
      * done.
      * apply port_direction_iff in D1 as [n1 D1]. apply port_direction_iff in D2 as [n2 D2]. exists n1, n2, d. by rewrite !(abs_of _ _ _ I).
      * cbn. unfold unlinked in U1. by rewrite U1.
      * cbn. unfold unlinked in U2. by rewrite U2.
      * intros n. by apply abs_ports_same.
      * intros p q. rewrite !abs_link. destruct (decide (p = a)) as [->|Ha1]; [|destruct (decide (p = b)) as [->|Hb1]].
        -- assert (a <> b) by (intros ->; rewrite D1 in D2; injection D2 as D2; by destruct d).
           unfold linked, unlinked in *. rewrite L1, U1. split; [intros [= ->]; tauto|]. intros [[_ ->]|[[? _]|?]]; done.
        -- assert (a <> b) by done. unfold linked, unlinked in *. rewrite L2, U2. split; [intros [= ->]; tauto|]. intros [[? _]|[[_ ->]|?]]; done.
        -- destruct (Hf p Ha1 Hb1) as (_ & _ & _ & E1). unfold linked. rewrite E1. tauto.
  - destruct (C09_unlink_port_pf w g p Hr) as (g1 & r1 & E & H1 & H2 & H3). rewrite E in Hs. cbn in Hs. injection Hs as -> <-.
    cbn [astep]. split.
    { apply option_eq. intros q. rewrite abs_link. apply H1. }
    destruct r1 as [q|].
    + destruct (H3 q eq_refl) as (U1 & U2 & Hf & _ & Hn & _). split; [intros x; by apply abs_ports_same|].
      assert (L : linked g p q) by (by apply H1).
      pose proof L as L'. apply (C01_links_symmetric_pf w g p q Hr) in L' as (Ls & Hpq & _ & _ & _ & Lu & Lu').
      intros x y. rewrite !abs_link. destruct (decide (x = p)) as [->|Hxp]; [|destruct (decide (x = q)) as [->|Hxq]].
      * unfold linked, unlinked in *. rewrite U1. split; [done|tauto].
      * unfold linked, unlinked in *. rewrite U2. split; [done|]. intros (E1 & _ & E2). rewrite Ls in E1. congruence.
      * destruct (Hf x Hxp Hxq) as (_ & _ & _ & E1). unfold linked. rewrite E1. split; [|tauto]. intros E2. split_and!; [done|done|].
        intros ->. apply Hxq.
        pose proof (C01_links_symmetric_pf w g x p Hr E2) as (Lx & _). by apply Lu.
    + rewrite (H2 eq_refl). split; [done|]. intros x y. split; [|tauto]. intros E2. split_and!; [done| |].
      * intros ->. rewrite abs_link in E2. by apply H1 in E2.
      * intros ->. rewrite abs_link in E2. pose proof (C01_links_symmetric_pf w g x p Hr E2) as (Lx & _). by apply H1 in Lx.
  - destruct (set_num_ports g n i j) as [[g1 log]|] eqn:E; [|done]. injection Hs as -> <-. cbn [astep].
    destruct (contains_node g n) eqn:En.
    2:{ assert (Hnone : a_ports (abs g) n = None) by (cbn; by rewrite En). rewrite Hnone.
        apply contains_node_false in En. unfold set_num_ports in E.
        apply bind_inv in E as (u1 & _ & E). apply bind_inv in E as (u2 & _ & E). cbn zeta in E. rewrite En in E. injection E as <- <-. done. }
    assert (Hsome : a_ports (abs g) n = Some (ports g n Incoming, ports g n Outgoing)) by (cbn; by rewrite En). rewrite Hsome.
    destruct (C10_set_num_ports_pf w g n i j g' log Hr En E) as (N1 & N2 & N3 & Hn & Hp & L1 & L2 & _).
    destruct (C11_set_num_ports_callbacks_pf w g n i j g' log Hr En E) as ((rl & ml & -> & R1 & R2 & M1 & M2 & M3) & _).
    assert (Hsome' : a_ports (abs g') n = Some (ports g' n Incoming, ports g' n Outgoing)) by (cbn; by rewrite N3).
    assert (HS : forall p p', a_survives (abs g) (abs g') n p p' <-> survives g g' n p p').
    { intros p p'. unfold a_survives, survives. rewrite (abs_has _ _ _ I). setoid_rewrite (abs_of _ _ _ I). rewrite Hsome, Hsome'. split.
      - intros [(x & y & x' & y' & [= <- <-] & [= <- <-] & k & [H|H])|(-> & H1 & H2)].
        + left. exists Incoming, k. done.
        + left. exists Outgoing, k. done.
        + right. split_and!; [done| |done]. intros [d Hd]%port_node_iff. by apply (H2 d).
      - intros [(d & k & H)|(H1 & H2 & ->)].
        + left. do 4 eexists. split; [done|]. split; [done|]. exists k. destruct d; [left|right]; done.
        + right. split_and!; [done|done|]. intros d Hd. apply H2. apply port_node_iff. eauto. }
    split_and!.
    + exists (ports g' n Incoming), (ports g' n Outgoing). rewrite !ports_length. split_and!; [done|done|by eapply abs_nodup| |].
      * intros p Hp'. rewrite (abs_has _ _ _ I). rewrite !elem_of_app, !(elem_ports _ _ _ I).
        destruct (pmeta g p) as [[m d]|] eqn:Em.
        -- destruct (decide (m = n)) as [->|Hm]; [left; destruct d; tauto|]. exfalso.
           assert (Hin : p ∈ ports g' m d).
           { destruct (Hn m Hm) as [_ ->]. by apply (elem_ports _ _ _ I). }
           apply (elem_ports _ _ _ I') in Hin. rewrite elem_of_app, !(elem_ports _ _ _ I') in Hp'. destruct Hp'; congruence.
        -- right. apply contains_port_false in Em. by rewrite Em.
      * intros x. destruct (decide (x = n)) as [->|Hx]; [done|]. by apply abs_ports_same, Hn.
    + intros p' q'. rewrite abs_link. setoid_rewrite HS. setoid_rewrite abs_link. split.
      * intros L. destruct (L2 p' q' L) as (p & q & S1 & S2 & L'). eauto.
      * intros (p & q & S1 & S2 & L'). by apply (L1 p p' q q' S1 S2).
    + intros p p' Hpp'. rewrite HS, elem_of_app. split.
      * intros [(d & k & H1 & H2)|(_ & _ & ->)]; [|done]. right. by eapply M3.
      * intros [H|H].
        -- apply elem_of_list_lookup_1 in H as [k H]. apply R2 in H as (l & ? & _). done.
        -- apply M2 in H as (new & d & k & [= ->] & H1 & H2). left. eauto.
    + intros p. rewrite <- R1. split.
      * intros (l & [H|H]%elem_of_app).
        -- apply elem_of_list_fmap. by exists (p, Removed l).
        -- apply M2 in H as (new & d & k & ? & _). done.
      * intros ([p2 o] & -> & H)%elem_of_list_fmap. pose proof H as [k Hk]%elem_of_list_lookup_1. apply R2 in Hk as (l & -> & _).
        exists l. rewrite elem_of_app. by left.
  - destruct (swap_nodes g a b) as [g1|] eqn:E; [|done]. injection Hs as -> <-. cbn [astep].
    assert (Hswap : forall a b, contains_node g a = true -> contains_node g b = true \/ spare_slot g b -> swap_nodes g a b = Ok g' ->
      (forall x, a_ports (abs g') x = a_ports (abs g) (if decide (x = a) then b else if decide (x = b) then a else x)) /\
      (forall p, a_link (abs g') p = a_link (abs g) p)).
    { clear a b Ha E. intros a b Ha [Hb|Hb] E.
      - destruct (C15_swap_nodes_pf w g a b Hr Ha Hb) as (g2 & E2 & _ & P & A1 & B1 & Hn & Hp & _). rewrite E in E2. injection E2 as <-. split.
        + intros x. destruct (decide (x = a)) as [->|Hxa]; [|destruct (decide (x = b)) as [->|Hxb]].
          * cbn. destruct (P Incoming) as [-> _]. destruct (P Outgoing) as [-> _]. by rewrite A1, Hb.
          * cbn. destruct (P Incoming) as [_ ->]. destruct (P Outgoing) as [_ ->]. by rewrite B1, Ha.
          * by apply abs_ports_same, Hn.
        + intros p. cbn. destruct (Hp p) as (_ & _ & ->). done.
      - destruct Hr as [ops Hh]. destruct (C16_swap_free_partial_pf w ops g a b Hh Ha Hb) as (g2 & E2 & _ & B1 & A1 & P & Hn & Hp & _). rewrite E in E2. injection E2 as <-. split.
        + intros x. destruct (decide (x = a)) as [->|Hxa]; [|destruct (decide (x = b)) as [->|Hxb]].
          * cbn. rewrite A1. destruct Hb as (-> & _). done.
          * cbn. rewrite B1, Ha, !P. done.
          * by apply abs_ports_same, Hn.
        + intros p. cbn. destruct (Hp p) as (_ & _ & ->). done. }
    destruct Ha as [[Ha Hb]|[Hb Ha]]; [by apply Hswap|].
    destruct (Hswap b a) as [H1 H2]; [done|by right| |].
    { rewrite <- E.
      destruct (spare_slot_elem g fnl F a I) as [k Hk]; [done|].
      destruct (i_nfree _ _ _ I) as [_ _ _ N4]. pose proof (N4 _ _ Hk) as Hf.
      eapply swap_nodes_comm; [exact Hf|]. by apply contains_node_true. }
    split; [|done]. intros x. rewrite H1. destruct (decide (x = b)), (decide (x = a)); congruence.
  - destruct (C12_compact_nodes_pf w g Hr) as (g1 & log & E & _ & _ & H2 & H3 & H4 & H5 & H6 & H7 & _ & _). rewrite E in Hs. cbn in Hs. injection Hs as -> <-.
    assert (Hlen : length log = node_count g) by (rewrite <- (fmap_length snd), H2; apply seq_length).
    cbn [astep]. split_and!.
    + done.
    + intros n. rewrite H4. cbn. by destruct (contains_node g n).
    + by rewrite Hlen.
    + intros n x. cbn. split.
      * destruct (contains_node g' n) eqn:En; [|done]. intros [= <-]. apply H5 in En.
        assert (Hn : n ∈ log.*2) by (rewrite H2; apply elem_of_seq; lia).
        apply elem_of_list_fmap in Hn as ([o n'] & E1 & Hin). cbn in E1. subst n'.
        exists o. split; [done|]. assert (Ho : o ∈ log.*1) by (apply elem_of_list_fmap; by exists (o, n)).
        apply H4 in Ho. rewrite Ho, !(H6 o n _ Hin). done.
      * intros (o & Hin & Hx). assert (Hn : n ∈ log.*2) by (apply elem_of_list_fmap; by exists (o, n)).
        rewrite H2, elem_of_seq in Hn. assert (En : contains_node g' n = true) by (apply H5; lia).
        assert (Ho : o ∈ log.*1) by (apply elem_of_list_fmap; by exists (o, n)).
        apply H4 in Ho. rewrite Ho in Hx. by rewrite En, !(H6 o n _ Hin).
    + intros p. cbn. destruct (H7 p) as (_ & _ & ->). done.
  - destruct (C13_compact_ports_pf w g Hr Ha) as (g1 & log & E & _ & _ & H2 & H3 & H4 & H5 & H6 & H7 & H8 & H9 & _). rewrite E in Hs. cbn in Hs. injection Hs as -> <-.
    assert (Hlen : length log = port_count g) by (rewrite <- (fmap_length snd), H2; apply seq_length).
    assert (Hto : forall p', contains_port g' p' = true -> exists p, (p, p') ∈ log).
    { intros p' Hp'%H5. assert (Hn : p' ∈ log.*2) by (rewrite H2; apply elem_of_seq; lia).
      apply elem_of_list_fmap in Hn as ([o n'] & E1 & Hin). cbn in E1. subst n'. eauto. }
    cbn [astep]. split_and!.
    + done.
    + intros p. by rewrite H4, (abs_has _ _ _ I).
    + by rewrite Hlen.
    + intros n. cbn. rewrite H6. destruct (contains_node g n) eqn:En; [|done].
      assert (HF : forall d, Forall2 (fun p p' => (p, p') ∈ log) (ports g n d) (ports g' n d)).
      { intros d. apply Forall2_same_length_lookup. rewrite !ports_length. split; [by rewrite H7|].
        intros k p p' Hp Hp'. destruct (Hto p') as [p0 Hp0]; [apply contains_port_true; apply (port_at_pmeta _ _ _ I') in Hp'; eauto|].
        apply (H8 p0 p' n d k Hp0) in Hp'. unfold port_at in Hp'. congruence. }
      split; apply HF.
    + intros p' q'. rewrite abs_link. setoid_rewrite abs_link. split.
      * intros L. pose proof (C01_links_symmetric_pf w g' p' q' Hr' L) as (_ & _ & Hp & Hq & _).
        destruct (Hto _ Hp) as [p Hp0]. destruct (Hto _ Hq) as [q Hq0]. exists p, q. split_and!; [done|done|]. by apply (H9 p p' q q').
      * intros (p & q & Hp & Hq & L). by apply (H9 p p' q q').
  - injection Hs as <- <-. destruct (C22_clear_reserve_shrink_pf w g Hr) as (C1 & C2 & _). cbn [astep]. split.
    + intros x. cbn [abs a_ports]. by rewrite C1.
    + intros p. destruct (a_link (abs (clear g)) p) as [q|] eqn:El; [|done]. apply abs_link, (linked_iff _ _ _ I') in El as [El _].
      apply contains_port_true in El. by rewrite C2 in El.
  - injection Hs as <- <-. destruct (C22_clear_reserve_shrink_pf w g Hr) as (_ & _ & _ & _ & _ & _ & _ & C & _). destruct (C x y) as [[D1 [D2 _]] _].
    cbn [astep]. split; [intros z; by apply abs_ports_same|intros p; by apply abs_link_same].
  - injection Hs as <- <-. destruct (C22_clear_reserve_shrink_pf w g Hr) as (_ & _ & _ & _ & _ & _ & _ & _ & [D1 [D2 _]] & _).
    cbn [astep]. split; [intros z; by apply abs_ports_same|intros p; by apply abs_link_same].
Qed.
Lemma htrace_hist w tr g : htrace w tr g -> hist w tr.*1 g.
Proof. induction 1 as [|tr g c g' r H IH Ha Hs]; [constructor|]. rewrite fmap_app. by econstructor. Qed.
Lemma hist_htrace w ops g : hist w ops g -> exists tr, htrace w tr g /\ tr.*1 = ops.
Proof.
  induction 1 as [|ops g o g' r H (tr & IH & <-) Ha Hs]; [exists []; split; [constructor|done]|].
  exists (tr ++ [(o, r)]). split; [by econstructor|]. by rewrite fmap_app.
Qed.

Lemma C19_refinement_pf :
  forall w tr g, (1 < w <= 63)%N -> htrace w tr g -> exists A, atrace tr A /\ wfA A /\ shows w g A.
Proof.
  intros w tr g Hw Ht. assert (Hr : reach w g) by (eexists; by apply htrace_hist).
  pose proof (reach_inv _ _ Hr) as (fnl & F & I).
  exists (abs g). split_and!; [|by eapply abs_wf|by apply abs_shows]. clear fnl F I Hr.
  induction Ht as [|tr g c g' r H IH Ha Hs].
  - constructor; intros x; cbn; by destruct x.
  - econstructor; [exact IH|]. eapply abs_step; [done| |done|done]. eexists. by apply htrace_hist.
Qed.
