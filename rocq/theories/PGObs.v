(** Observations expressed through the metadata functions, and the invariant
    along histories. *)
From Verif Require Export PGSpec PGOps7 PGOps8 PGOps9 IndexProofs.

Lemma contains_node_true g n : contains_node g n = true <-> is_Some (nmeta g n).
Proof. apply bool_decide_eq_true. Qed.
Lemma contains_node_false g n : contains_node g n = false <-> nmeta g n = None.
Proof. unfold contains_node. rewrite bool_decide_eq_false. symmetry. apply eq_None_not_Some. Qed.
Lemma contains_port_true g p : contains_port g p = true <-> is_Some (pmeta g p).
Proof. apply bool_decide_eq_true. Qed.
Lemma contains_port_false g p : contains_port g p = false <-> pmeta g p = None.
Proof. unfold contains_port. rewrite bool_decide_eq_false. symmetry. apply eq_None_not_Some. Qed.

Lemma ports_length g n d : length (ports g n d) = num_ports g n d.
Proof. unfold ports, num_ports. destruct (nmeta g n); [|done]. unfold nm_ports. by rewrite seq_length. Qed.

Lemma nm_ports_lookup m d k p : nm_ports m d !! k = Some p <-> p = nm_start m d + k /\ k < nm_num m d.
Proof. unfold nm_ports. rewrite lookup_seq. split; intros [? ?]; split; lia. Qed.

Lemma port_at_iff g n d k p :
  port_at g n d k p <-> exists m, nmeta g n = Some m /\ p = nm_start m d + k /\ k < nm_num m d.
Proof.
  unfold port_at, ports. destruct (nmeta g n) as [m|]; [|by split; [|intros (? & ? & ?)]].
  rewrite nm_ports_lookup. naive_solver.
Qed.

Lemma nm_eq m m' : nm_first m = nm_first m' -> nm_inc m = nm_inc m' -> nm_out m = nm_out m' ->
  nm_cap m = nm_cap m' -> m = m'.
Proof. destruct m, m'; cbn. congruence. Qed.

Section obs.
  Context (g : pg) (fnl : list nat) (F : nat -> list nat) (I : InvG g fnl F).

  Lemma port_link_eq p : port_link g p = if pmeta g p then Ok (plink g p) else Panic.
  Proof.
    unfold port_link, port_links. destruct (pmeta g p) as [x|] eqn:E; [|done]. cbn.
    rewrite (b_vget _ _ (plink g p)) by (by eapply inv_plink_lookup). by destruct (plink g p).
  Qed.
  Lemma linked_iff p q : linked g p q <-> is_Some (pmeta g p) /\ plink g p = Some q.
  Proof.
    unfold linked. rewrite port_link_eq. destruct (pmeta g p); split.
    - intros [= ->]. eauto.
    - intros [_ ->]. done.
    - done.
    - by intros [[] ?].
  Qed.
  Lemma unlinked_iff p : unlinked g p <-> is_Some (pmeta g p) /\ plink g p = None.
  Proof.
    unfold unlinked. rewrite port_link_eq. destruct (pmeta g p); split.
    - intros [= ->]. eauto.
    - intros [_ ->]. done.
    - done.
    - by intros [[] ?].
  Qed.

  Lemma elem_ports p n d : p ∈ ports g n d <-> pmeta g p = Some (n, d).
  Proof.
    rewrite (inv_pmeta _ _ _ I). unfold ports. destruct (nmeta g n) as [m|].
    - rewrite in_range_ports. naive_solver.
    - split; [by intros ?%elem_of_nil|naive_solver].
  Qed.
  Lemma port_at_pmeta n d k p : port_at g n d k p -> pmeta g p = Some (n, d).
  Proof. intros H. apply elem_ports. by eapply elem_of_list_lookup_2. Qed.
  Lemma pmeta_port_at n d p : pmeta g p = Some (n, d) -> exists k, port_at g n d k p.
  Proof. intros H%elem_ports. by apply elem_of_list_lookup_1. Qed.
  Lemma port_at_inj n d k n' d' k' p : port_at g n d k p -> port_at g n' d' k' p -> n = n' /\ d = d' /\ k = k'.
  Proof.
    intros H1 H2. pose proof (port_at_pmeta _ _ _ _ H1) as E1. pose proof (port_at_pmeta _ _ _ _ H2) as E2.
    rewrite E1 in E2. injection E2 as -> ->. split; [done|]. split; [done|].
    apply port_at_iff in H1 as (m & Hm & -> & ?). apply port_at_iff in H2 as (m' & Hm' & E & ?).
    rewrite Hm in Hm'. injection Hm' as ->. lia.
  Qed.
  Lemma port_node_iff p n : port_node g p = Some n <-> exists d, pmeta g p = Some (n, d).
  Proof. unfold port_node. destruct (pmeta g p) as [[n' d]|]; cbn; naive_solver. Qed.
  Lemma pmeta_nmeta p n d : pmeta g p = Some (n, d) -> is_Some (nmeta g n).
  Proof. intros (m & ? & _)%(inv_pmeta _ _ _ I). eauto. Qed.
End obs.

(** Observations from equal metadata. *)
Lemma same_node_nmeta g g' n : nmeta g' n = nmeta g n -> same_node g g' n.
Proof. intros E. unfold same_node, contains_node, ports. by rewrite E. Qed.
Lemma same_port_meta g g' fnl F fnl' F' p : InvG g fnl F -> InvG g' fnl' F' ->
  pmeta g' p = pmeta g p -> (is_Some (pmeta g p) -> plink g' p = plink g p) -> same_port g g' p.
Proof.
  intros I I' E El. unfold same_port, contains_port, port_node, port_direction.
  rewrite (port_link_eq _ _ _ I), (port_link_eq _ _ _ I'). rewrite E.
  destruct (pmeta g p) as [x|] eqn:Ex; [|done]. rewrite El by eauto. done.
Qed.
Lemma same_graph_refl g : same_graph g g.
Proof. done. Qed.

(** ** The invariant along histories *)
Lemma new_inv : InvG pg_new [] (fun _ => []).
Proof.
  split; [done| | | | | | |done|done].
  - split; [done|]. split; [done|]. by intros (m & E & _).
  - split; try done; intros; try by (exfalso; eapply not_elem_of_nil). apply NoDup_nil_2.
  - split; [|done]. by intros [].
  - done.
  - split; [done|apply NoDup_nil_2| |done]. intros n. rewrite elem_of_nil. split; [done|]. by intros [].
  - split_and!; apply card_empty; [by intros n []|by intros n []|]. by intros x [[n H] _].
Qed.

Lemma no_hollow_iff g : (forall n, ~ hollow g n) -> no_hollow g.
Proof.
  intros H n m Hm Hc. destruct (decide (nm_inc m + nm_out m = 0)); [|lia]. exfalso.
  apply (H n). unfold hollow, node_port_capacity, num_ports. rewrite contains_node_true, Hm. cbn.
  split; [eauto|]. lia.
Qed.

Lemma spare_slot_elem g fnl F n : InvG g fnl F -> spare_slot g n -> exists i, fnl !! S i = Some n.
Proof.
  intros I (Hn%contains_node_false & Hlt & Hh). destruct (i_nfree _ _ _ I) as [N1 N2 N3 N4].
  assert (He : n ∈ fnl).
  { apply N3. unfold nfree, nmeta in *. destruct (lookup_lt_is_Some_2 _ _ Hlt) as [[|] E]; rewrite E in *; [eauto|done]. }
  apply elem_of_list_lookup_1 in He as [[|i] Hi]; [congruence|eauto].
Qed.

Lemma swap_nodes_comm g a b fa : nfree g a = Some fa -> is_Some (nmeta g b) -> swap_nodes g b a = swap_nodes g a b.
Proof.
  intros Ha [mb Hb]. destruct fa as [pa na]. pose proof (nfree_Some _ _ _ _ Ha) as La. pose proof (nmeta_Some _ _ _ Hb) as Lb.
  assert (Hab : a <> b) by congruence.
  unfold swap_nodes. rewrite (b_vget _ _ _ _ La), !(b_vget _ _ _ _ Lb), (b_vget _ _ _ _ La).
  apply lookup_lt_Some in La, Lb.
  rewrite !b_vset by (rewrite ?insert_length; done). rewrite (list_insert_commute _ a b) by done.
  rewrite !bind_Ok. destruct (relabel_ports (pg_pmeta g) a mb); [|done]. cbn. done.
Qed.

(** Swapping two nodes, or a node and a spare slot. *)
Lemma swap_nodes_allowed g fnl F a b : InvG g fnl F -> allowed g (OSwap a b) ->
  exists g', swap_nodes g a b = Ok g' /\ Inv g' /\ swap_nodes_post g a b g'.
Proof.
  intros I [[Ha%contains_node_true [Hb%contains_node_true|Hb]]|[Ha Hb%contains_node_true]].
  - destruct (swap_nodes_live g fnl F a b I Ha Hb) as (g1 & E & I1 & P). exists g1. split_and!; [done|by exists fnl, F|done].
  - destruct (spare_slot_elem _ _ _ _ I Hb) as [i Hi].
    destruct (swap_nodes_free g fnl F b a i I Hi Ha) as (g1 & E & I1 & P). exists g1.
    destruct (i_nfree _ _ _ I) as [N1 N2 N3 N4]. pose proof (N4 _ _ Hi) as Hf.
    rewrite (swap_nodes_comm _ _ _ _ Hf Ha). split_and!; [done|by eexists _, _|].
    assert (Hc : forall x, swp b a x = swp a b x) by (intros x; unfold swp; repeat case_decide; congruence).
    destruct P as [P1 P2 P3 P4 P5 P6]. split; try done.
    + intros n. by rewrite <- Hc.
    + intros p. rewrite P2. destruct (pmeta g p) as [[n d]|]; [|done]. cbn. by rewrite Hc.
  - destruct (spare_slot_elem _ _ _ _ I Ha) as [i Hi].
    destruct (swap_nodes_free g fnl F a b i I Hi Hb) as (g1 & E & I1 & P). exists g1. split_and!; [done|by eexists _, _|done].
Qed.

Lemma step_inv w g o g' r : Inv g -> allowed g o -> step w g o = Ok (g', r) -> Inv g'.
Proof.
  intros (fnl & F & I) Ha Hs. unfold step in Hs. destruct o as [inc o|n|a b|p|n inc o|a b| | | |a b|]; cbn in Ha.
  - destruct Ha as [H1 H2].
    pose proof (add_node_spec (po_max_offset w) g fnl F inc o I H1 H2) as H.
    destruct (add_node _ _ _ _) as [[g1 n]|]; [|done]. cbn in Hs. injection Hs as <- <-. apply H.
  - destruct (nmeta g n) as [m|] eqn:Em.
    + destruct (remove_node_spec g fnl F n m I Em) as (g1 & E & I1 & _). rewrite E in Hs. cbn in Hs.
      by injection Hs as <- <-.
    + rewrite remove_node_none in Hs by done. cbn in Hs. injection Hs as <- <-. by exists fnl, F.
  - destruct (link_ports_spec g fnl F a b I) as (g1 & r1 & E & H). rewrite E in Hs. cbn in Hs.
    injection Hs as <- <-. destruct r1; [destruct H as [-> _]|destruct H as (_ & H & _)]; by exists fnl, F.
  - destruct (unlink_port_spec g fnl F p I) as (g1 & r1 & E & H & _). rewrite E in Hs. cbn in Hs.
    injection Hs as <- <-. by exists fnl, F.
  - pose proof (set_num_ports_spec g fnl F n inc o I) as H.
    destruct (set_num_ports _ _ _ _) as [[g1 l]|]; [|done]. cbn in Hs. injection Hs as <- <-.
    destruct H as (_ & _ & H). destruct (nmeta g n) as [m|]; [|destruct H as [-> _]; by exists fnl, F].
    destruct (decide _); [destruct H as [-> _]; by exists fnl, F|]. apply H.
  - destruct (swap_nodes_allowed g fnl F a b I Ha) as (g1 & E & I1 & _). rewrite E in Hs. cbn in Hs.
    by injection Hs as <- <-.
  - destruct (compact_nodes_spec g fnl F I) as (g1 & l & E & I1 & _). rewrite E in Hs. cbn in Hs.
    injection Hs as <- <-. by eexists _, _.
  - destruct (compact_ports_spec g fnl F I (no_hollow_iff _ Ha)) as (g1 & l & E & I1 & _). rewrite E in Hs. cbn in Hs.
    injection Hs as <- <-. by eexists _, _.
  - injection Hs as <- <-. eexists _, _. apply new_inv.
  - injection Hs as <- <-. by exists fnl, F.
  - injection Hs as <- <-. by exists fnl, F.
Qed.

Lemma reach_inv w g : reach w g -> Inv g.
Proof.
  intros [ops H]. induction H as [|ops g o g' r _ IH Ha Hs].
  - eexists _, _. apply new_inv.
  - by eapply step_inv.
Qed.

Lemma reach_step w g o g' r : reach w g -> allowed g o -> step w g o = Ok (g', r) -> reach w g'.
Proof. intros [ops H] Ha Hs. exists (ops ++ [o]). by econstructor. Qed.
