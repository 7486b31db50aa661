(** The underlying graph, seen as owner-and-direction and link functions. *)
From Verif Require Export PG1Thms PG2Thms PG3Thms MultiSpec.

Definition lk (g : pg) (p : nat) : option nat := match port_link g p with Ok x => x | Panic => None end.

Lemma linked_lk g p q : linked g p q <-> lk g p = Some q.
Proof. unfold linked, lk. destruct (port_link g p) as [[]|]; split; congruence. Qed.

Lemma pm_of g p n d : port_node g p = Some n -> port_direction g p = Some d -> pmeta g p = Some (n, d).
Proof. unfold port_node, port_direction. destruct (pmeta g p) as [[]|]; cbn; congruence. Qed.
Lemma pm_eq g g' p : port_node g' p = port_node g p -> port_direction g' p = port_direction g p -> pmeta g' p = pmeta g p.
Proof. unfold port_node, port_direction. destruct (pmeta g p) as [[]|], (pmeta g' p) as [[]|]; cbn; congruence. Qed.
Lemma pm_node g p n d : pmeta g p = Some (n, d) -> port_node g p = Some n.
Proof. unfold port_node. by intros ->. Qed.
Lemma pm_dir g p n d : pmeta g p = Some (n, d) -> port_direction g p = Some d.
Proof. unfold port_direction. by intros ->. Qed.
Lemma pn_not g p n : port_node g p <> Some n <-> forall d, pmeta g p <> Some (n, d).
Proof. unfold port_node. destruct (pmeta g p) as [[]|]; cbn; split; try congruence. intros H [= ->]. by eapply H. Qed.
Lemma rev_rev d : rev_dir (rev_dir d) = d.
Proof. by destruct d. Qed.
Lemma rev_ne d : rev_dir d <> d.
Proof. by destruct d. Qed.
Lemma dir_rev_or d d' : d' = d \/ d' = rev_dir d.
Proof. destruct d, d'; auto. Qed.

Section view.
  Context (w : N) (g : pg) (R : reach w g).

  Lemma r_elem p n d : p ∈ ports g n d <-> pmeta g p = Some (n, d).
  Proof. destruct (reach_inv _ _ R) as (fnl & F & I). by eapply elem_ports. Qed.
  Lemma r_look p n d k : ports g n d !! k = Some p -> pmeta g p = Some (n, d).
  Proof. intros H. apply r_elem. by eapply elem_of_list_lookup_2. Qed.
  Lemma r_pos p n d : pmeta g p = Some (n, d) -> exists k, ports g n d !! k = Some p.
  Proof. intros H%r_elem. by apply elem_of_list_lookup_1. Qed.
  Lemma r_nodup n d : NoDup (ports g n d).
  Proof. unfold ports. destruct (nmeta g n); [apply NoDup_seq|apply NoDup_nil_2]. Qed.
  Lemma r_node p n d : pmeta g p = Some (n, d) -> contains_node g n = true.
  Proof. destruct (reach_inv _ _ R) as (fnl & F & I). intros H. apply contains_node_true. by eapply pmeta_nmeta. Qed.
  Lemma r_dead n d : contains_node g n = false -> ports g n d = [].
  Proof. intros H%contains_node_false. unfold ports. by rewrite H. Qed.
  Lemma r_port_link p x : pmeta g p = Some x -> port_link g p = Ok (lk g p).
  Proof.
    destruct (reach_inv _ _ R) as (fnl & F & I). intros H. unfold lk. rewrite (port_link_eq _ _ _ I), H. done.
  Qed.
  Lemma r_port_link_none p : pmeta g p = None -> port_link g p = Panic.
  Proof. destruct (reach_inv _ _ R) as (fnl & F & I). intros H. by rewrite (port_link_eq _ _ _ I), H. Qed.
  Lemma r_lk_none p : pmeta g p = None -> lk g p = None.
  Proof. intros H. unfold lk. by rewrite r_port_link_none. Qed.
  Lemma r_unlinked p : unlinked g p <-> is_Some (pmeta g p) /\ lk g p = None.
  Proof.
    destruct (pmeta g p) as [x|] eqn:E; unfold unlinked.
    - rewrite (r_port_link _ _ E). split; [intros [= ->]; eauto|by intros [_ ->]].
    - rewrite (r_port_link_none _ E). split; [done|]. by intros [[] _].
  Qed.
  Lemma r_lk_sym p q : lk g p = Some q -> lk g q = Some p.
  Proof. rewrite <- !linked_lk. intros H. by apply (C01_links_symmetric_pf w g p q R H). Qed.
  Lemma r_lk_meta p q : lk g p = Some q -> exists n d n', pmeta g p = Some (n, d) /\ pmeta g q = Some (n', rev_dir d).
  Proof.
    rewrite <- linked_lk. intros H. destruct (C01_links_symmetric_pf w g p q R H) as (_ & _ & H1 & H2 & (d & D1 & D2) & _).
    unfold port_direction in *. destruct (pmeta g p) as [[n d1]|]; [|done]. destruct (pmeta g q) as [[n' d2]|]; [|done].
    cbn in D1, D2. injection D1 as ->. injection D2 as ->. eauto.
  Qed.
  Lemma r_lk_self p : lk g p <> Some p.
  Proof. rewrite <- linked_lk. intros H. by apply (C01_links_symmetric_pf w g p p R H). Qed.
  Lemma r_lk_inj p p' q : lk g p = Some q -> lk g p' = Some q -> p = p'.
  Proof. intros H%r_lk_sym H'%r_lk_sym. congruence. Qed.
  Lemma r_len n d : length (ports g n d) = num_ports g n d.
  Proof. apply ports_length. Qed.
  Lemma r_num n : (N.of_nat (num_ports g n Incoming + num_ports g n Outgoing) <= 65535)%N.
  Proof.
    destruct (reach_inv _ _ R) as (fnl & F & I). unfold num_ports. destruct (nmeta g n) as [m|] eqn:Hm; [|cbn; lia].
    pose proof (inv_meta_ok _ _ _ I _ _ Hm) as H. unfold meta_ok in H. cbn. lia.
  Qed.

  (** [port_index] and [port_offset] for expressible offsets *)
  Lemma r_port_index n d k : (1 < w <= 63)%N -> (N.of_nat k <= po_max_offset w)%N ->
    exists o, po_new w d (N.of_nat k) = Ok o /\ port_index w g n o = Ok (ports g n d !! k).
  Proof.
    intros Hw Hk. destruct (po_new_ok w d (N.of_nat k) ltac:(lia) Hk) as (o & Ho & Hd & Hix).
    exists o. split; [done|]. unfold port_index, ports. destruct (nmeta g n); [|done].
    by rewrite Hd, bind_Ok, Hix, bind_Ok, Nat2N.id.
  Qed.
  Lemma r_port_offset n d k p : (1 < w <= 63)%N -> (N.of_nat k <= po_max_offset w)%N -> ports g n d !! k = Some p ->
    exists o, port_offset w g p = Ok (Some o) /\ po_index w o = Ok (N.of_nat k).
  Proof.
    intros Hw Hk Hp. destruct (C02_ports_and_nodes_pf w g Hw R) as (H1 & _).
    destruct (H1 n d (N.of_nat k) Hk) as (o & Ho & _ & Hsome).
    destruct (po_new_ok w d (N.of_nat k) ltac:(lia) Hk) as (o' & Ho' & Hd & Hix).
    assert (o' = o) as -> by congruence. exists o. split; [|done]. apply (Hsome p).
    unfold port_index. unfold ports in Hp. destruct (nmeta g n); [|done].
    rewrite Hd, bind_Ok, Hix, bind_Ok, Nat2N.id. by f_equal.
  Qed.
End view.

(** ** The calls *)
Section calls.
  Context (w : N) (g : pg) (R : reach w g).

  Lemma v_add i j g' n : (N.of_nat i <= 65534)%N -> (N.of_nat (i + j) <= 65535)%N ->
    add_node (po_max_offset w) g i j = Ok (g', n) ->
    reach w g' /\ contains_node g n = false /\ contains_node g' n = true /\
    (forall x, x <> n -> contains_node g' x = contains_node g x) /\
    num_ports g' n Incoming = i /\ num_ports g' n Outgoing = j /\
    (forall x d, x <> n -> ports g' x d = ports g x d) /\
    (forall p, (forall d, pmeta g' p <> Some (n, d)) -> pmeta g' p = pmeta g p) /\
    (forall p d, pmeta g' p = Some (n, d) -> pmeta g p = None) /\
    (forall p, lk g' p = lk g p).
  Proof.
    intros Hi Hij E. assert (R' : reach w g').
    { eapply (reach_step w g (OAdd i j)); [done|done|]. cbn. by rewrite E. }
    destruct (C04_add_node_pf w g i j g' n R (conj Hi Hij) E) as (H1 & H2 & H3 & H4 & H5 & H6 & H7 & _).
    assert (Hnew : forall p d, pmeta g' p = Some (n, d) -> pmeta g p = None /\ lk g' p = None).
    { intros p d Hp. destruct (H5 d p) as (Hc & Hu & _); [by apply (r_elem w g' R')|].
      apply (r_unlinked w g' R') in Hu as [_ Hu]. apply contains_port_false in Hc. done. }
    split_and!; try done.
    - intros x Hx. apply (H6 x Hx).
    - intros x d Hx. apply (H6 x Hx).
    - intros p Hp. destruct (H7 p) as (_ & Hn & Hd & _); [by apply pn_not|]. by apply pm_eq.
    - intros p d Hp. by apply (Hnew p d).
    - intros p. destruct (decide (port_node g' p = Some n)) as [Hp|Hp].
      + unfold port_node in Hp. destruct (pmeta g' p) as [[n' d]|] eqn:Ep; [|done]. cbn in Hp. injection Hp as ->.
        destruct (Hnew _ _ Ep) as [H8 H9]. rewrite H9. symmetry. by apply (r_lk_none w g R).
      + destruct (H7 p Hp) as (_ & _ & _ & Hl). unfold lk. by rewrite Hl.
  Qed.

  (** same nodes and ports *)
  Definition same_shape (g' : pg) : Prop :=
    (forall n, contains_node g' n = contains_node g n) /\ (forall n d, ports g' n d = ports g n d) /\
    (forall p, pmeta g' p = pmeta g p).

  Lemma v_link a b d na nb : pmeta g a = Some (na, d) -> pmeta g b = Some (nb, rev_dir d) -> lk g a = None -> lk g b = None ->
    exists g', link_ports g a b = Ok (g', inr (a, b)) /\ reach w g' /\ same_shape g' /\
      (forall p, lk g' p = if decide (p = a) then Some b else if decide (p = b) then Some a else lk g p).
  Proof.
    intros Ha Hb La Lb. destruct (C07_link_ports_pf w g a b R) as (g' & r & E & H1 & H2 & _).
    destruct (proj2 H1) as [x ->].
    { split; [exists d; by rewrite (pm_dir _ _ _ _ Ha), (pm_dir _ _ _ _ Hb)|].
      split; apply (r_unlinked w g R); split; eauto. }
    destruct (H2 x eq_refl) as (-> & L1 & L2 & Hs & Hn & Hp & _).
    exists g'. split; [done|]. split.
    { eapply (reach_step w g (OLink a b)); [done|done|]. cbn. by rewrite E. }
    split.
    { split_and!; intros; [apply Hn..|]. destruct (Hp p) as (_ & ? & ?). by apply pm_eq. }
    intros p. destruct (decide (p = a)) as [->|Hpa]; [by apply linked_lk|].
    destruct (decide (p = b)) as [->|Hpb]; [by apply linked_lk|].
    destruct (Hs p Hpa Hpb) as (_ & _ & _ & Hl). unfold lk. by rewrite Hl.
  Qed.
  Lemma v_link_inv a b g' x : link_ports g a b = Ok (g', inr x) ->
    x = (a, b) /\ lk g a = None /\ lk g b = None /\ exists d na nb, pmeta g a = Some (na, d) /\ pmeta g b = Some (nb, rev_dir d).
  Proof.
    intros E. destruct (C07_link_ports_pf w g a b R) as (g1 & r & E1 & H1 & H2 & _). rewrite E1 in E. injection E as -> ->.
    destruct (H2 x eq_refl) as (-> & _). destruct (proj1 H1) as ((d & Da & Db) & Ua & Ub); [eauto|].
    apply (r_unlinked w g R) in Ua as [_ ?], Ub as [_ ?]. split_and!; try done.
    unfold port_direction in *. destruct (pmeta g a) as [[na d1]|]; [|done]. destruct (pmeta g b) as [[nb d2]|]; [|done].
    cbn in *. exists d, na, nb. split; congruence.
  Qed.
  Lemma v_link_any a b : exists g' r, link_ports g a b = Ok (g', r) /\ (forall e, r = inl e -> g' = g).
  Proof.
    destruct (C07_link_ports_pf w g a b R) as (g1 & r & E1 & H1 & H2 & H3). exists g1, r. split; [done|].
    intros e ->. by apply (H3 e).
  Qed.

  Lemma v_unlink p : exists g', unlink_port g p = Ok (g', lk g p) /\ reach w g' /\ same_shape g' /\
      (forall x, lk g' x = if decide (x = p \/ lk g p = Some x) then None else lk g x).
  Proof.
    destruct (C09_unlink_port_pf w g p R) as (g' & r & E & H1 & H2 & H3). exists g'.
    assert (r = lk g p) as ->.
    { apply option_eq. intros q. rewrite H1. apply linked_lk. }
    split; [done|]. split.
    { eapply (reach_step w g (OUnlink p)); [done|done|]. cbn. by rewrite E. }
    destruct (lk g p) as [q|] eqn:Eq.
    - destruct (H3 q eq_refl) as (U1 & U2 & Hs & Hp & Hn & _). split.
      { split_and!; intros; [apply Hn..|]. destruct (Hp p0) as (_ & ? & ?). by apply pm_eq. }
      unfold unlinked in *. intros x. destruct (decide _) as [[->|[= <-]]|Hx]; [unfold lk; by rewrite U1|unfold lk; by rewrite U2|].
      destruct (Hs x) as (_ & _ & _ & Hl); [tauto|naive_solver|]. unfold lk. by rewrite Hl.
    - rewrite (H2 eq_refl). split; [done|]. intros x. destruct (decide _) as [[->|?]|_]; done.
  Qed.

  Lemma v_remove n : contains_node g n = true ->
    exists g', remove_node g n = Ok g' /\ reach w g' /\ contains_node g' n = false /\
      (forall x, x <> n -> contains_node g' x = contains_node g x) /\
      (forall x d, x <> n -> ports g' x d = ports g x d) /\
      (forall p x d, pmeta g' p = Some (x, d) <-> pmeta g p = Some (x, d) /\ x <> n) /\
      (forall p q, lk g' p = Some q <-> lk g p = Some q /\ port_node g p <> Some n /\ port_node g q <> Some n).
  Proof.
    intros Hn. destruct (C05_remove_node_pf w g n R) as (g' & E & _ & H). destruct (H Hn) as (H1 & H2 & H3 & H4 & H5 & _).
    exists g'. split_and!; try done.
    - eapply (reach_step w g (ORemove n)); [done|done|]. cbn. by rewrite E.
    - intros x Hx. apply (H2 x Hx).
    - intros x d Hx. apply (H2 x Hx).
    - intros p x d. pose proof (H3 p) as H3. pose proof (H4 p) as H4. rewrite !contains_port_true in *.
      rewrite pn_not in H3. split.
      + intros Hp. destruct (H4 ltac:(eauto)) as [A B]. destruct (proj1 H3 ltac:(eauto)) as [_ C].
        assert (pmeta g p = Some (x, d)) as Ep by (rewrite <- Hp; symmetry; by apply pm_eq).
        split; [done|]. intros ->. by apply (C d).
      + intros [Hp Hx]. assert (is_Some (pmeta g' p)) as S. { apply H3. split; [eauto|]. intros d' Hd'. congruence. }
        destruct (H4 S) as [A B]. rewrite <- Hp. by apply pm_eq.
    - intros p q. rewrite <- !linked_lk. apply H5.
  Qed.

  Lemma v_snp n i j g' log : contains_node g n = true -> set_num_ports g n i j = Ok (g', log) ->
    reach w g' /\ num_ports g' n Incoming = i /\ num_ports g' n Outgoing = j /\
    (forall x, contains_node g' x = contains_node g x) /\
    (forall x d, x <> n -> ports g' x d = ports g x d) /\
    (forall p x d, x <> n -> (pmeta g' p = Some (x, d) <-> pmeta g p = Some (x, d))) /\
    (forall p p' q q', survives g g' n p p' -> survives g g' n q q' -> (lk g p = Some q <-> lk g' p' = Some q')) /\
    (forall p' q', lk g' p' = Some q' -> exists p q, survives g g' n p p' /\ survives g g' n q q' /\ lk g p = Some q).
  Proof.
    intros Hn E. assert (R' : reach w g').
    { eapply (reach_step w g (OSetPorts n i j)); [done|done|]. cbn. by rewrite E. }
    destruct (C10_set_num_ports_pf w g n i j g' log R Hn E) as (H1 & H2 & H3 & H4 & H5 & H6 & H7 & _).
    split_and!; try done.
    - intros x. destruct (decide (x = n)) as [->|Hx]; [by rewrite H3|]. apply (H4 x Hx).
    - intros x d Hx. apply (H4 x Hx).
    - intros p x d Hx. rewrite <- (r_elem w g' R'), <- (r_elem w g R). by rewrite (proj2 (H4 x Hx)).
    - intros p p' q q'. rewrite <- !linked_lk. apply H6.
    - intros p' q'. rewrite <- linked_lk. intros H. destruct (H7 p' q' H) as (p & q & ? & ? & ?%linked_lk). eauto 6.
  Qed.
End calls.
