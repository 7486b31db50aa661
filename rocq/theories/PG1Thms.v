(** Proofs of the theorems stated in PG1Props.v. *)
From Verif Require Export PGRun.


Lemma C01_links_symmetric_pf :
  forall w g p q, reach w g -> linked g p q ->
    linked g q p /\ p <> q /\
    contains_port g p = true /\ contains_port g q = true /\
    (exists d, port_direction g p = Some d /\ port_direction g q = Some (rev_dir d)) /\
    (forall r, linked g p r -> r = q) /\ (forall r, linked g r q -> r = p).
Proof.
  intros w g p q (fnl & F & I)%reach_inv Hl.
  pose proof (linked_iff _ _ _ I) as HL.
  pose proof Hl as ([[n d] Hp] & Hpl)%HL.
  destruct (inv_link _ _ _ I _ _ _ _ Hp Hpl) as [Hq [n' Hqm]].
  assert (Hlq : linked g q p) by (apply HL; eauto).
  split_and!.
  - done.
  - eapply inv_link_ne; eauto.
  - apply contains_port_true; eauto.
  - apply contains_port_true; eauto.
  - exists d. unfold port_direction. by rewrite Hp, Hqm.
  - intros r (_ & Hr)%HL. congruence.
  - intros r ([[nr dr] Hrm] & Hr)%HL. destruct (inv_link _ _ _ I _ _ _ _ Hrm Hr) as [Hqr _]. congruence.
Qed.

Lemma po_new_ok w d i : (1 < w)%N -> (i <= po_max_offset w)%N ->
  exists o, po_new w d i = Ok o /\ po_direction w o = Ok d /\ po_index w o = Ok i.
Proof.
  intros Hw Hi. exists (pack w i (bool_decide (d = Outgoing))). unfold po_new. rewrite bf_new_pack by done.
  split; [done|]. unfold po_direction, po_index. rewrite pack_flag, pack_index by done. by destruct d.
Qed.

Lemma C02_ports_and_nodes_pf :
  forall w g, (1 < w <= 63)%N -> reach w g ->
    (forall n d i, (i <= po_max_offset w)%N -> exists o, po_new w d i = Ok o /\
       (port_index w g n o = Ok None <-> num_ports g n d <= N.to_nat i) /\
       (forall p, port_index w g n o = Ok (Some p) ->
          N.to_nat i < num_ports g n d /\ port_at g n d (N.to_nat i) p /\
          contains_node g n = true /\ contains_port g p = true /\
          port_node g p = Some n /\ port_direction g p = Some d /\ port_offset w g p = Ok (Some o))) /\
    (forall n d k, is_Some (ports g n d !! k) <-> k < num_ports g n d) /\
    (forall n d, num_ports g n d <> 0 -> contains_node g n = true) /\
    (forall n d k p, port_at g n d k p ->
       contains_port g p = true /\ port_node g p = Some n /\ port_direction g p = Some d) /\
    (forall p, contains_port g p = true -> exists n d k, port_at g n d k p) /\
    (forall n d k n' d' k' p, port_at g n d k p -> port_at g n' d' k' p -> n = n' /\ d = d' /\ k = k') /\
    (forall n, ports g n Incoming ++ ports g n Outgoing = all_ports g n /\
       exists s, all_ports g n = seq s (num_ports g n Incoming + num_ports g n Outgoing)).
Proof.
  intros w g Hw (fnl & F & I)%reach_inv.
  assert (Hw1 : (1 < w)%N) by lia.
  split_and!.
  - intros n d i Hi. destruct (po_new_ok w d i Hw1 Hi) as (o & Ho & Hd & Hix). exists o. split; [done|].
    assert (Hpi : port_index w g n o = Ok (ports g n d !! N.to_nat i)).
    { unfold port_index, ports. destruct (nmeta g n); [|done]. by rewrite Hd, bind_Ok, Hix, bind_Ok. }
    rewrite Hpi. split.
    + rewrite <- ports_length. split.
      * intros [= H]. by apply lookup_ge_None_1.
      * intros H. by rewrite lookup_ge_None_2.
    + intros p [= Hp]. assert (Hpa : port_at g n d (N.to_nat i) p) by done.
      pose proof (port_at_pmeta _ _ _ I _ _ _ _ Hpa) as Hpm.
      split_and!.
      * rewrite <- ports_length. by eapply lookup_lt_Some.
      * done.
      * apply contains_node_true. by eapply pmeta_nmeta.
      * apply contains_port_true. eauto.
      * unfold port_node. by rewrite Hpm.
      * unfold port_direction. by rewrite Hpm.
      * unfold port_offset. rewrite Hpm. apply port_at_iff in Hpa as (m & Hm & Ep & Hlt).
        rewrite (b_vget _ _ _ _ (nmeta_Some _ _ _ Hm)). cbv zeta.
        pose proof (inv_meta_ok _ _ _ I _ _ Hm) as Hmo. pose proof (i_psize _ _ _ I) as Hsz.
        unfold meta_ok, max_index in *.
        assert (Hoff : ((N.of_nat p + 2 ^ 64 - N.of_nat (nm_first m)) mod 2 ^ 64 = N.of_nat (p - nm_first m))%N).
        { replace (N.of_nat p + 2 ^ 64 - N.of_nat (nm_first m))%N with (N.of_nat (p - nm_first m) + 1 * 2 ^ 64)%N
            by (destruct d; cbn in *; lia).
          rewrite N.mod_add by done. apply N.mod_small. change (2 ^ 64)%N with 18446744073709551616%N.
          destruct d; cbn in *; lia. }
        rewrite Hoff. destruct d; cbn in Ep, Hlt.
        -- replace (N.of_nat (p - nm_first m)) with i by lia. by rewrite Ho.
        -- replace (N.of_nat (p - nm_first m) - N.of_nat (nm_inc m))%N with i by lia. by rewrite Ho.
  - intros n d k. rewrite <- ports_length. apply lookup_lt_is_Some.
  - intros n d. unfold num_ports. rewrite contains_node_true. destruct (nmeta g n); [eauto|done].
  - intros n d k p Hpa. pose proof (port_at_pmeta _ _ _ I _ _ _ _ Hpa) as Hpm.
    split_and!; [apply contains_port_true; eauto| |]; [unfold port_node|unfold port_direction]; by rewrite Hpm.
  - intros p [[n d] Hp]%contains_port_true. exists n, d. by eapply pmeta_port_at.
  - intros n d k n' d' k' p. by eapply port_at_inj.
  - intros n. unfold ports, all_ports, num_ports. destruct (nmeta g n) as [m|]; [|split; [done|by exists 0]].
    unfold nm_ports, nm_all_ports. cbn. rewrite <- seq_app. split; [done|eauto].
Qed.

Lemma port_direction_iff g p d : port_direction g p = Some d <-> exists n, pmeta g p = Some (n, d).
Proof. unfold port_direction. destruct (pmeta g p) as [[n' d']|]; cbn; naive_solver. Qed.

Lemma C03_counts_pf :
  forall w g, reach w g ->
    card (fun n => contains_node g n = true) (node_count g) /\
    card (fun p => contains_port g p = true) (port_count g) /\
    card (fun p => port_direction g p = Some Outgoing /\ exists q, linked g p q) (link_count g) /\
    card (fun p => port_direction g p = Some Incoming /\ exists q, linked g p q) (link_count g) /\
    (is_empty g = true <-> forall n, contains_node g n = false).
Proof.
  intros w g (fnl & F & I)%reach_inv. destruct (i_counts _ _ _ I) as (C1 & C2 & C3).
  assert (C3' : card (fun p => port_direction g p = Some Outgoing /\ exists q, linked g p q) (link_count g)).
  { eapply card_ext; [|exact C3]. intros p. cbn. rewrite port_direction_iff. split.
    - intros [H1 H2]. split; [done|]. destruct (plink g p) as [q|] eqn:E; [|done]. exists q.
      apply (linked_iff _ _ _ I). destruct H1 as [n H1]. eauto.
    - intros [H1 [q Hq]]. split; [done|]. apply (linked_iff _ _ _ I) in Hq as [_ ->]. done. }
  split_and!.
  - eapply card_ext; [|exact C1]. intros n. cbn. rewrite contains_node_true. apply not_eq_None_Some.
  - eapply card_ext; [|exact C2]. intros n. cbn. rewrite contains_port_true. apply not_eq_None_Some.
  - done.
  - eapply (card_bij _ _ (fun p => default 0 (plink g p))); [..|exact C3'].
    + intros x y [Hd [q Hq]] [Hd' [q' Hq']]. 
      apply port_direction_iff in Hd as [n Hn]. apply port_direction_iff in Hd' as [n' Hn'].
      apply (linked_iff _ _ _ I) in Hq as [_ Hq]. apply (linked_iff _ _ _ I) in Hq' as [_ Hq']. rewrite Hq, Hq'. cbn.
      intros ->. destruct (inv_link _ _ _ I _ _ _ _ Hn Hq) as [E1 _]. destruct (inv_link _ _ _ I _ _ _ _ Hn' Hq') as [E2 _]. congruence.
    + intros y. split.
      * intros [Hd [q Hq]]. apply port_direction_iff in Hd as [n Hn].
        apply (linked_iff _ _ _ I) in Hq as [_ Hq].
        destruct (inv_link _ _ _ I _ _ _ _ Hn Hq) as [Hq' [n' Hn']]. exists q. rewrite Hq'. split; [|done]. split.
        -- apply port_direction_iff. by exists n'.
        -- exists y. apply (linked_iff _ _ _ I). eauto.
      * intros (p & [Hd [q Hq]] & ->). apply port_direction_iff in Hd as [n Hn].
        apply (linked_iff _ _ _ I) in Hq as [_ Hq]. rewrite Hq. cbn.
        destruct (inv_link _ _ _ I _ _ _ _ Hn Hq) as [Hq' [n' Hn']]. split.
        -- apply port_direction_iff. by exists n'.
        -- exists p. apply (linked_iff _ _ _ I). eauto.
  - unfold is_empty. rewrite andb_true_iff, !bool_decide_eq_true. split.
    + intros [H _] n. apply contains_node_false. rewrite H in C1. apply (card_zero _ n) in C1.
      cbn in C1. destruct (nmeta g n); [|done]. exfalso. by apply C1.
    + intros H. assert (H' : forall n, nmeta g n = None) by (intros n; by apply contains_node_false). split.
      * eapply card_unique; [exact C1|]. apply card_empty. intros n Hn. by rewrite H' in Hn.
      * eapply card_unique; [exact C2|]. apply card_empty. intros p Hp.
        destruct (pmeta g p) as [[n d]|] eqn:E; [|done]. apply (pmeta_nmeta _ _ _ I) in E. rewrite H' in E. by destruct E.
Qed.

Lemma C04_add_node_pf :
  forall w g i j g' n, reach w g -> (N.of_nat i <= 65534 /\ N.of_nat (i + j) <= 65535)%N ->
    add_node (po_max_offset w) g i j = Ok (g', n) ->
    contains_node g n = false /\ contains_node g' n = true /\
    num_ports g' n Incoming = i /\ num_ports g' n Outgoing = j /\
    (forall d p, p ∈ ports g' n d -> contains_port g p = false /\ unlinked g' p /\
                                     port_node g' p = Some n /\ port_direction g' p = Some d) /\
    (forall x, x <> n -> same_node g g' x) /\
    (forall p, port_node g' p <> Some n -> same_port g g' p) /\
    node_count g' = node_count g + 1 /\ port_count g' = port_count g + (i + j) /\ link_count g' = link_count g.
Proof.
  intros w g i j g' n (fnl & F & I)%reach_inv [H1 H2] E.
  pose proof (add_node_spec (po_max_offset w) g fnl F i j I H1 H2) as H. rewrite E in H.
  destruct H as ((fnl' & F' & I') & m & A).
  split_and!.
  - apply contains_node_false, A.
  - apply contains_node_true. rewrite (ad_node _ _ _ _ _ _ A). eauto.
  - unfold num_ports. rewrite (ad_node _ _ _ _ _ _ A). apply A.
  - unfold num_ports. rewrite (ad_node _ _ _ _ _ _ A). apply A.
  - intros d p Hp%(elem_ports _ _ _ I'). pose proof Hp as (m' & Hm' & Hr)%(inv_pmeta _ _ _ I').
    rewrite (ad_node _ _ _ _ _ _ A) in Hm'. injection Hm' as <-.
    pose proof (in_range_slab _ _ _ _ (inv_meta_ok _ _ _ I' _ _ (ad_node _ _ _ _ _ _ A)) Hr) as Hs.
    split_and!.
    + apply contains_port_false. by apply (ad_slab_fresh _ _ _ _ _ _ A).
    + apply (unlinked_iff _ _ _ I'). split; [eauto|]. by apply (ad_plink_new _ _ _ _ _ _ A).
    + unfold port_node. by rewrite Hp.
    + unfold port_direction. by rewrite Hp.
  - intros x Hx. apply same_node_nmeta. by apply (ad_frame_n _ _ _ _ _ _ A).
  - intros p Hp. destruct (decide (in_slab m p)) as [Hs|Hs].
    + pose proof (ad_slab_fresh _ _ _ _ _ _ A _ Hs) as Hf.
      assert (Hn : pmeta g' p = None).
      { destruct (pmeta g' p) as [[n' d]|] eqn:Ep; [|done]. exfalso. apply Hp.
        unfold port_node. rewrite Ep. cbn. f_equal.
        by apply (inv_slab_owner _ _ _ I' _ _ _ _ (ad_node _ _ _ _ _ _ A) Hs Ep). }
      eapply same_port_meta; [done|done|congruence|]. rewrite Hf. by intros [].
    + eapply same_port_meta; [done|done|by apply (ad_pmeta _ _ _ _ _ _ A)|]. intros _. by apply (ad_plink _ _ _ _ _ _ A).
  - apply A.
  - apply A.
  - apply A.
Qed.

Lemma C05_remove_node_pf :
  forall w g n, reach w g ->
    exists g', remove_node g n = Ok g' /\
    (contains_node g n = false -> g' = g) /\
    (contains_node g n = true ->
       contains_node g' n = false /\
       (forall x, x <> n -> same_node g g' x) /\
       (forall p, contains_port g' p = true <-> contains_port g p = true /\ port_node g p <> Some n) /\
       (forall p, contains_port g' p = true ->
          port_node g' p = port_node g p /\ port_direction g' p = port_direction g p) /\
       (forall p q, linked g' p q <->
          linked g p q /\ port_node g p <> Some n /\ port_node g q <> Some n) /\
       node_count g = node_count g' + 1 /\
       port_count g = port_count g' + (num_ports g n Incoming + num_ports g n Outgoing)).
Proof.
  intros w g n (fnl & F & I)%reach_inv. destruct (nmeta g n) as [m|] eqn:Em.
  2:{ exists g. split; [by apply remove_node_none|]. split; [done|]. rewrite contains_node_true, Em. by intros []. }
  destruct (remove_node_spec g fnl F n m I Em) as (g' & E & (fnl' & F' & I') & R).
  exists g'. split; [done|]. split; [rewrite contains_node_false; congruence|]. intros _.
  assert (Hown : forall p, is_Some (pmeta g p) -> port_node g p = Some n <-> in_slab m p).
  { intros p [[n' d] Hp]. unfold port_node. rewrite Hp. cbn. split.
    - intros [= ->]. apply (inv_pmeta _ _ _ I) in Hp as (m' & Hm' & Hr). rewrite Em in Hm'. injection Hm' as <-.
      eapply in_range_slab; [exact (inv_meta_ok _ _ _ I _ _ Em)|done].
    - intros Hs. f_equal. by apply (inv_slab_owner _ _ _ I _ _ _ _ Em Hs Hp). }
  assert (Hpm : forall p, is_Some (pmeta g' p) <-> is_Some (pmeta g p) /\ port_node g p <> Some n).
  { intros p. rewrite (rp_pmeta _ _ _ _ R). destruct (decide (in_slab m p)) as [Hs|Hs].
    - split; [by intros []|]. intros [Hp Hn]. by rewrite Hown in Hn.
    - split; [|tauto]. intros Hp. split; [done|]. by rewrite Hown. }
  assert (Hpm' : forall p, is_Some (pmeta g' p) -> pmeta g' p = pmeta g p).
  { intros p. rewrite (rp_pmeta _ _ _ _ R). destruct (decide _); [by intros []|done]. }
  split_and!.
  - apply contains_node_false. rewrite (rp_nmeta _ _ _ _ R). by rewrite decide_True.
  - intros x Hx. apply same_node_nmeta. rewrite (rp_nmeta _ _ _ _ R). by rewrite decide_False.
  - intros p. rewrite !contains_port_true. apply Hpm.
  - intros p Hp%contains_port_true. unfold port_node, port_direction. by rewrite Hpm'.
  - intros p q. rewrite (linked_iff _ _ _ I), (linked_iff _ _ _ I'). split.
    + intros [Hp Hl]. rewrite (rp_plink _ _ _ _ R) in Hl by (by apply not_eq_None_Some).
      pose proof Hp as [Hp1 Hp2]%Hpm. destruct (plink g p) as [q'|] eqn:El; [|done].
      destruct (decide (in_slab m q')) as [|Hs]; [done|]. injection Hl as ->.
      split_and!; [done|done|done|]. rewrite Hown; [done|].
      destruct Hp1 as [[n' d] Hp1]. destruct (inv_link _ _ _ I _ _ _ _ Hp1 El) as [_ [n2 ?]]. eauto.
    + intros ([Hp Hl] & Hn & Hq). assert (Hp' : is_Some (pmeta g' p)) by (by apply Hpm). split; [done|].
      rewrite (rp_plink _ _ _ _ R) by (by apply not_eq_None_Some). rewrite Hl.
      rewrite decide_False; [done|]. rewrite <- Hown; [done|].
      destruct Hp as [[n' d] Hp1]. destruct (inv_link _ _ _ I _ _ _ _ Hp1 Hl) as [_ [n2 ?]]. eauto.
  - destruct (rp_nc _ _ _ _ R). unfold node_count. lia.
  - destruct (rp_pc _ _ _ _ R). unfold port_count, num_ports. rewrite Em. cbn. lia.
Qed.

Lemma C06_no_panic_pf :
  forall w ops g o, hist w ops g -> allowed g o ->
    match o with
    | OAdd i j => (N.of_nat i <= po_max_offset w /\ N.of_nat j <= po_max_offset w)%N
    | OSetPorts n i j => (N.of_nat i <= 32768 /\ N.of_nat j <= 32768 /\ N.of_nat (i + j) <= 32768)%N
    | _ => True
    end ->
    (N.of_nat (sum_list (node_cost <$> ops ++ [o])) <= 2 ^ 31 - 1)%N ->
    (N.of_nat (sum_list (port_cost <$> ops ++ [o])) <= 2 ^ 31 - 1)%N ->
    exists g' r, step w g o = Ok (g', r).
Proof.
  intros w ops g o Hh Ha Hlim Hn Hp.
  destruct (hist_grow _ _ _ Hh) as [Gn Gp].
  assert (HI : Inv g) by (eapply reach_inv; by exists ops). destruct HI as (fnl & F & I).
  rewrite fmap_app, sum_list_with_app in Hn, Hp. change (2 ^ 31 - 1)%N with 2147483647%N in *.
  unfold step. destruct o as [inc o|n|a b|p|n inc o|a b| | | |a b|]; cbn in Ha, Hlim, Hn, Hp.
  - destruct Ha as [H1 H2].
    pose proof (add_node_spec (po_max_offset w) g fnl F inc o I H1 H2) as H.
    destruct (add_node _ _ _ _) as [[g1 n]|]; [cbn; eauto|]. exfalso. unfold max_index in H.
    unfold sum_list_with in *. lia.
  - destruct (nmeta g n) as [m|] eqn:Em.
    + destruct (remove_node_spec g fnl F n m I Em) as (g1 & E & I1 & _). rewrite E. cbn. eauto.
    + rewrite remove_node_none by done. cbn. eauto.
  - destruct (link_ports_spec g fnl F a b I) as (g1 & r1 & E & H). rewrite E. cbn. eauto.
  - destruct (unlink_port_spec g fnl F p I) as (g1 & r1 & E & H & _). rewrite E. cbn. eauto.
  - pose proof (set_num_ports_spec g fnl F n inc o I) as H.
    destruct (set_num_ports _ _ _ _) as [[g1 l]|]; [cbn; eauto|]. exfalso. unfold max_index in H.
    unfold sum_list_with in *.
    destruct H as [H|[H|[(m & _ & _ & H)|(m & _ & _ & H)]]]; lia.
  - destruct (swap_nodes_allowed g fnl F a b I Ha) as (g1 & E & I1 & _). rewrite E. cbn. eauto.
  - destruct (compact_nodes_spec g fnl F I) as (g1 & l & E & I1 & _). rewrite E. cbn. eauto.
  - destruct (compact_ports_spec g fnl F I (no_hollow_iff _ Ha)) as (g1 & l & E & I1 & _). rewrite E. cbn. eauto.
  - eauto.
  - eauto.
  - eauto.
Qed.

Lemma C07_link_ports_pf :
  forall w g a b, reach w g ->
    exists g' r, link_ports g a b = Ok (g', r) /\
    ((exists x, r = inr x) <->
       (exists d, port_direction g a = Some d /\ port_direction g b = Some (rev_dir d)) /\
       unlinked g a /\ unlinked g b) /\
    (forall x, r = inr x ->
       x = (a, b) /\ linked g' a b /\ linked g' b a /\ (forall p, p <> a -> p <> b -> same_port g g' p) /\
       (forall n, same_node g g' n) /\
       (forall p, contains_port g' p = contains_port g p /\ port_node g' p = port_node g p /\
                  port_direction g' p = port_direction g p) /\
       node_count g' = node_count g /\ port_count g' = port_count g /\ link_count g' = link_count g + 1) /\
    (forall e, r = inl e ->
       g' = g /\
       match e with
       | UnknownPort _ => contains_port g a = false \/ contains_port g b = false
       | IncompatibleDirections p q d => p = a /\ q = b /\
           port_direction g a = Some d /\ port_direction g b = Some d
       | AlreadyLinked p => (p = a \/ p = b) /\ exists q, linked g p q
       | UnknownOffset _ _ _ => False
       end).
Proof.
  intros w g a b (fnl & F & I)%reach_inv.
  destruct (link_ports_spec g fnl F a b I) as (g' & r & E & H). exists g', r. split; [done|].
  pose proof (unlinked_iff _ _ _ I) as HU.
  destruct r as [e|x].
  - destruct H as [-> H]. split.
    + split; [by intros [x ?]|]. intros [(d & (na & Ha)%port_direction_iff & (nb & Hb)%port_direction_iff) [Hua%HU Hub%HU]].
      exfalso. destruct H as [[? _]|[(_ & ? & _)|[(na' & nb' & d' & Ha' & Hb' & _)|(na' & nb' & d' & _ & _ & H)]]].
      * congruence.
      * congruence.
      * rewrite Ha in Ha'. rewrite Hb in Hb'. destruct d; cbn in *; congruence.
      * destruct Hua, Hub. destruct H as [[? ?]|(? & ? & ?)]; congruence.
    + split; [done|]. intros e' [= <-]. split; [done|].
      destruct H as [[? ->]|[(_ & ? & ->)|[(na' & nb' & d' & Ha' & Hb' & ->)|(na' & nb' & d' & Ha & Hb & H)]]].
      * left. by apply contains_port_false.
      * right. by apply contains_port_false.
      * split_and!; [done|done|apply port_direction_iff; eauto..].
      * destruct H as [[Hl ->]|(_ & Hl & ->)].
        -- split; [by left|]. destruct (plink g a) as [q|] eqn:Eq; [|done]. exists q. apply (linked_iff _ _ _ I). eauto.
        -- split; [by right|]. destruct (plink g b) as [q|] eqn:Eq; [|done]. exists q. apply (linked_iff _ _ _ I). eauto.
  - destruct H as (-> & I' & S & (na & nb & d & Ha & Hb) & La & Lb & Hl & Hc).
    assert (Hab : a <> b) by (intros ->; rewrite Ha in Hb; destruct d; cbn in Hb; congruence).
    assert (Hpm : forall p, pmeta g' p = pmeta g p) by (intros; by apply (sb_pmeta' _ _ _ S)).
    split; [|split; [|done]].
    + split; [intros _|by eauto]. rewrite !HU. split; [|by eauto].
      exists d. rewrite !port_direction_iff. eauto.
    + intros x [= <-]. split_and!; [done|..].
      * apply (linked_iff _ _ _ I'). rewrite Hpm, Hl. unfold link_pl. rewrite decide_False, decide_True by done. eauto.
      * apply (linked_iff _ _ _ I'). rewrite Hpm, Hl. unfold link_pl. rewrite decide_True by done. eauto.
      * intros p Hpa Hpb. eapply same_port_meta; [done|done|done|]. intros _. rewrite Hl. unfold link_pl. by rewrite !decide_False.
      * intros n. apply same_node_nmeta. by apply sb_nmeta.
      * intros p. unfold contains_port, port_node, port_direction. by rewrite Hpm.
      * apply S.
      * apply S.
      * done.
Qed.

Lemma C08_unknown_port_refuted_pf :
  exists w g a b g' p, reach w g /\ link_ports g a b = Ok (g', inl (UnknownPort p)) /\
    contains_port g p = true.
Proof.
  exists 16%N. eexists _, 0, 7, _, 0. split.
  - exists [OAdd 1 1]. eapply (hist_step _ []); [constructor| |vm_compute; reflexivity]. by vm_compute.
  - done.
Qed.

Lemma C08_unknown_port_partial_pf :
  forall w g a b g' p, reach w g -> link_ports g a b = Ok (g', inl (UnknownPort p)) ->
    p = a /\ (contains_port g a = false \/ contains_port g b = false).
Proof.
  intros w g a b g' p (fnl & F & I)%reach_inv E.
  destruct (link_ports_spec g fnl F a b I) as (g1 & r & E' & H). rewrite E in E'. injection E' as <- <-.
  destruct H as [_ [[? [= ->]]|[(_ & ? & [= ->])|[(na' & nb' & d' & Ha' & Hb' & [=])|(na' & nb' & d' & _ & _ & [[? [=]]|(? & ? & [=])])]]]].
  - split; [done|]. left. by apply contains_port_false.
  - split; [done|]. right. by apply contains_port_false.
Qed.

Lemma C09_unlink_port_pf :
  forall w g p, reach w g ->
    exists g' r, unlink_port g p = Ok (g', r) /\
    (forall q, r = Some q <-> linked g p q) /\
    (r = None -> g' = g) /\
    (forall q, r = Some q ->
       unlinked g' p /\ unlinked g' q /\
       (forall x, x <> p -> x <> q -> same_port g g' x) /\
       (forall x, contains_port g' x = contains_port g x /\ port_node g' x = port_node g x /\
                  port_direction g' x = port_direction g x) /\
       (forall n, same_node g g' n) /\
       node_count g' = node_count g /\ port_count g' = port_count g /\ link_count g = link_count g' + 1).
Proof.
  intros w g p (fnl & F & I)%reach_inv.
  destruct (unlink_port_spec g fnl F p I) as (g' & r & E & I' & S & Hr & _ & Hl & Hc). exists g', r. split; [done|].
  split_and!.
  - intros q. rewrite (linked_iff _ _ _ I), Hr. destruct (pmeta g p); [|by split; [|intros [[] _]]].
    split; [eauto|]. by intros [_ ?].
  - intros Hn. unfold unlink_port in E. destruct (pmeta g p) as [x|] eqn:Ep; [|by injection E as <- <-].
    rewrite Hr in Hn. rewrite (b_vget _ _ (plink g p)) in E by (by eapply inv_plink_lookup). rewrite Hn in E.
    by injection E as <- <-.
  - intros q ->. destruct (pmeta g p) as [[n d]|] eqn:Ep; [|done]. symmetry in Hr.
    assert (Hpm : forall x, pmeta g' x = pmeta g x) by (intros; by apply (sb_pmeta' _ _ _ S)).
    specialize (Hl ltac:(eauto)). destruct (inv_link _ _ _ I _ _ _ _ Ep Hr) as [Hq [n' Hn']].
    split_and!.
    + apply (unlinked_iff _ _ _ I'). rewrite Hpm, Hl. unfold unlink_pl. rewrite decide_True by done. eauto.
    + apply (unlinked_iff _ _ _ I'). rewrite Hpm, Hl. unfold unlink_pl. split; [eauto|].
      destruct (decide _); [done|]. by rewrite decide_True.
    + intros x Hxp Hxq. eapply same_port_meta; [done|done|done|]. intros _. rewrite Hl. unfold unlink_pl.
      rewrite decide_False by done. rewrite decide_False; [done|]. congruence.
    + intros x. unfold contains_port, port_node, port_direction. by rewrite Hpm.
    + intros x. apply same_node_nmeta. by apply sb_nmeta.
    + apply S.
    + apply S.
    + unfold link_count. lia.
Qed.

Lemma pg_eq g g' : pg_nodes g = pg_nodes g' -> pg_link g = pg_link g' -> pg_pmeta g = pg_pmeta g' ->
  pg_nfree g = pg_nfree g' -> pg_pfree g = pg_pfree g' -> pg_ncount g = pg_ncount g' ->
  pg_pcount g = pg_pcount g' -> pg_lcount g = pg_lcount g' -> g = g'.
Proof. destruct g, g'; cbn. congruence. Qed.

Lemma C09_link_unlink_pf :
  forall w g a b g1 x p g2 r, reach w g -> link_ports g a b = Ok (g1, inr x) -> (p = a \/ p = b) ->
    unlink_port g1 p = Ok (g2, r) -> g2 = g /\ r = Some (if decide (p = a) then b else a).
Proof.
  intros w g a b g1 x p g2 r (fnl & F & I)%reach_inv E Hp E2.
  destruct (link_ports_spec g fnl F a b I) as (g1' & r' & E' & H). rewrite E in E'. injection E' as <- <-.
  destruct H as (-> & I' & S & (na & nb & d & Ha & Hb) & La & Lb & Hl & Hc).
  assert (Hab : a <> b) by (intros ->; rewrite Ha in Hb; destruct d; cbn in Hb; congruence).
  destruct (unlink_port_spec g1 fnl F p I') as (g2' & r2 & E2' & I2 & S2 & Hr & _ & Hl2 & Hc2).
  rewrite E2 in E2'. injection E2' as <- <-.
  assert (Hpm : forall p, pmeta g1 p = pmeta g p) by (intros; by apply (sb_pmeta' _ _ _ S)).
  assert (Hps : is_Some (pmeta g1 p)) by (rewrite Hpm; destruct Hp as [-> | ->]; eauto).
  set (q := if decide (p = a) then b else a) in *.
  assert (Hq : (p = a /\ q = b) \/ (p = b /\ q = a)).
  { subst q. destruct Hp as [-> | ->]; [left; by rewrite decide_True|right; by rewrite decide_False]. }
  assert (Hlp : plink g1 p = Some q).
  { rewrite Hl. unfold link_pl. destruct Hq as [[-> ->]|[-> ->]].
    - by rewrite decide_False, decide_True by done.
    - by rewrite decide_True by done. }
  assert (Hr' : r = Some q).
  { rewrite Hr. destruct Hps as [? ->]. done. }
  split; [|done]. apply pg_eq.
  - rewrite (sb_nodes _ _ S2). apply S.
  - apply list_eq. intros i.
    assert (Hlen : length (pg_link g2) = length (pg_link g)) by (rewrite (sb_len _ _ S2); apply S).
    destruct (decide (i < length (pg_link g))) as [Hi|Hi].
    + rewrite !plink_lookup by lia. f_equal. rewrite (Hl2 Hps). unfold unlink_pl. rewrite Hlp.
      destruct (decide (i = p)) as [->|Hip]; [destruct Hq as [[-> _]|[-> _]]; done|].
      destruct (decide (Some q = Some i)) as [[= <-]|Hiq]; [destruct Hq as [[_ ->]|[_ ->]]; done|].
      rewrite Hl. unfold link_pl. rewrite !decide_False; [done|destruct Hq as [[-> ->]|[-> ->]]; congruence..].
    + rewrite !lookup_ge_None_2 by lia. done.
  - rewrite (sb_pmeta _ _ S2). apply S.
  - rewrite (sb_nfree _ _ S2). apply S.
  - rewrite (sb_pfree _ _ S2). apply S.
  - rewrite (sb_nc _ _ S2). apply S.
  - rewrite (sb_pc _ _ S2). apply S.
  - rewrite Hr' in Hc2. lia.
Qed.
