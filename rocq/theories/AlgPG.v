(** Every reachable [PortGraph] is a well-formed view with single links. *)
From Verif Require Export TopoProofs PGObs PG3Thms.

Section pgview.
  Context (g : pg) (fnl : list nat) (F : nat -> list nat) (I : InvG g fnl F).

  Lemma gv_links_eq p : gv_links (gv_of g) p =
    if pmeta g p then Ok (match plink g p with Some q => [q] | None => [] end) else Panic.
  Proof.
    cbn. unfold port_links. destruct (pmeta g p) as [x|] eqn:E; [|done]. cbn.
    rewrite (b_vget _ _ (plink g p)) by (by eapply inv_plink_lookup). by destruct (plink g p).
  Qed.
  Lemma glk_iff p q : glk (gv_of g) p q <-> linked g p q.
  Proof.
    rewrite (linked_iff _ _ _ I). unfold glk. rewrite gv_links_eq. destruct (pmeta g p) as [x|]; split.
    - intros (l & [= <-] & Hq). split; [done|]. destruct (plink g p); [|by apply elem_of_nil in Hq].
      by apply elem_of_list_singleton in Hq as ->.
    - intros [_ ->]. eexists. split; [done|]. by left.
    - by intros (l & ? & _).
    - by intros [[? ?] _].
  Qed.
  Lemma gv_link_eq p : gv_link (gv_of g) p = port_link g p.
  Proof.
    unfold gv_link. rewrite gv_links_eq, (port_link_eq _ _ _ I). destruct (pmeta g p); [|done]. cbn. by destruct (plink g p).
  Qed.
  Lemma gv_wf : wfv (gv_of g).
  Proof.
    split; cbn [gv_of gv_ports gv_node gv_nodes].
    - intros n d. unfold ports. destruct (nmeta g n); [|apply NoDup_nil_2]. apply NoDup_ListNoDup, seq_NoDup.
    - intros p n d n' d' H1%(elem_ports _ _ _ I) H2%(elem_ports _ _ _ I). rewrite H1 in H2. by injection H2 as -> ->.
    - intros p n. rewrite port_node_iff. by setoid_rewrite (elem_ports _ _ _ I).
    - intros p n d H%(elem_ports _ _ _ I). rewrite gv_links_eq, H. eauto.
    - intros p q n d H%(elem_ports _ _ _ I) [_ Hl]%glk_iff%(linked_iff _ _ _ I).
      destruct (proj1 (i_links _ _ _ I) _ _ _ _ H Hl) as [Hs [m Hm]]. split.
      + apply glk_iff, (linked_iff _ _ _ I). eauto.
      + exists m. by apply (elem_ports _ _ _ I).
    - intros p n d H%(elem_ports _ _ _ I). rewrite nodes_iter_eq, node_ids_elem. by eapply pmeta_nmeta.
  Qed.
  Lemma gv_single d : single (gv_of g) d.
  Proof. intros n q p p' _ H1%glk_iff H2%glk_iff. unfold linked in *. congruence. Qed.
  Lemma glink_iff d a p q b : glink (gv_of g) d a p q b <-> plink_via g d a p q b.
  Proof. unfold glink, plink_via. by rewrite glk_iff. Qed.
  Lemma gedge_iff d a b : gedge (gv_of g) d a b <-> pedge g d a b.
  Proof. unfold gedge, pedge. by setoid_rewrite glink_iff. Qed.
  Lemma pedge_nodes d a b : pedge g d a b -> a ∈ nodes_iter g /\ b ∈ nodes_iter g.
  Proof.
    intros (p & q & H1 & _ & H2). split; [by eapply (wf_nodes _ gv_wf p a d)|by eapply (wf_nodes _ gv_wf q b (rev_dir d))].
  Qed.
  Lemma pedge_rev d a b : pedge g d a b -> pedge g (rev_dir d) b a.
  Proof.
    intros (p & q & H1 & H2 & H3). exists q, p. split; [done|]. split.
    - apply glk_iff. eapply (proj1 (wf_sym _ gv_wf p q a d H1 (proj2 (glk_iff _ _) H2))).
    - by destruct d.
  Qed.
  Lemma pacyclic_dir d : pacyclic g -> forall a, ~ tc (pedge g d) a a.
  Proof.
    intros Hac a Ha. destruct d; [|by apply (Hac a)]. apply (Hac a).
    assert (H : forall x y, tc (pedge g Incoming) x y -> tc (pedge g Outgoing) y x).
    { intros x y. induction 1 as [x y Hxy|x y z Hxy _ IH].
      - apply tc_once. by apply (pedge_rev Incoming).
      - eapply tc_r; [exact IH|]. by apply (pedge_rev Incoming). }
    by apply H.
  Qed.
  Lemma pedge_acc d : pacyclic g -> forall x, Acc (pedge g d) x.
  Proof.
    intros Hac. apply (fin_acc _ (nodes_iter g)); [apply pedge_nodes|by apply pacyclic_dir].
  Qed.
  Lemma nodes_iter_elem n : n ∈ nodes_iter g <-> contains_node g n = true.
  Proof. by rewrite nodes_iter_eq, node_ids_elem, contains_node_true. Qed.
  Lemma nodes_iter_nd : NoDup (nodes_iter g).
  Proof.
    rewrite nodes_iter_eq. pose proof (node_ids_sorted g) as H. induction H as [|x l _ IH Hx]; [apply NoDup_nil_2|].
    constructor; [|done]. intros Hin. rewrite Forall_forall in Hx. specialize (Hx x Hin). lia.
  Qed.
End pgview.

(** The edges of a concrete graph, for examples. *)
Definition edges_list (g : pg) : list (nat * nat) :=
  mjoin ((fun a => omap (fun p => match port_link g p with
                                   | Ok (Some q) => match port_node g q with Some b => Some (a, b) | None => None end
                                   | _ => None end) (ports g a Outgoing)) <$> nodes_iter g).
Lemma edges_list_spec w g a b : reach w g -> pedge g Outgoing a b -> (a, b) ∈ edges_list g.
Proof.
  intros (fnl & F & I)%reach_inv (p & q & Hp & Hl & Hq). unfold edges_list.
  apply elem_of_list_join. eexists. split.
  2:{ apply elem_of_list_fmap. exists a. split; [reflexivity|]. by eapply (wf_nodes _ (gv_wf g fnl F I) p a Outgoing). }
  apply elem_of_list_omap. exists p. split; [done|]. unfold linked in Hl. rewrite Hl.
  destruct (wf_node _ (gv_wf g fnl F I) q b) as [_ Hn]. cbn in Hn. rewrite Hn by eauto. done.
Qed.
Lemma acyclic_check w g : reach w g -> forallb (fun x => bool_decide (x.1 < x.2)) (edges_list g) = true -> pacyclic g.
Proof.
  intros Hr Hc a Ha.
  assert (H : forall x y, tc (pedge g Outgoing) x y -> x < y).
  { assert (H1 : forall x y, pedge g Outgoing x y -> x < y).
    { intros x y H%(edges_list_spec w); [|done]. rewrite forallb_forall in Hc.
      apply elem_of_list_In in H. apply Hc in H. by apply bool_decide_eq_true in H. }
    intros x y. induction 1 as [x y Hxy|x y z Hxy _ IH]; [by apply H1|]. apply H1 in Hxy. lia. }
  apply H in Ha. lia.
Qed.
