(** Proofs of property C46. *)
From Verif Require Export MTopoProofs MTopoSpec TopoThms.

Definition late_ops : list mop := [MAdd 0 2; MAdd 1 1; MAdd 1 0; MLink 0 4; MLink 1 2; MLink 3 4].
Definition late_m : mpg := default m_new (mrun 16 late_ops m_new).
Lemma late_reach : mreach 16 late_m.
Proof. exists late_ops. apply mrun_hist. vm_compute. reflexivity. Qed.
Lemma late_edge : medge 16 late_m Outgoing 1 2.
Proof.
  exists (3, 0), (4, 1). split; [split; [vm_compute; reflexivity|]|vm_compute; repeat split].
  destruct (m_port_links 16 late_m (3, 0).1) as [l|] eqn:E; vm_compute in E; [|discriminate E].
  exists l. split; [reflexivity|]. injection E as <-. by left.
Qed.
(** The edges of a concrete multigraph. *)
Definition medges_list (w : N) (m : mpg) : list (nat * nat) :=
  mjoin ((fun a => match m_neighbours w m a Outgoing with Ok l => pair a <$> l | Panic => [] end) <$> m_nodes_iter m).
Lemma medges_spec w m a b : (2 < w <= 63)%N -> mreach w m -> medge w m Outgoing a b -> (a, b) ∈ medges_list w m.
Proof.
  intros Hw Hr (x & y & L & Ha & Hd & Hb). pose proof (w1 w Hw) as Hw1. pose proof (mreach_minv w Hw m Hr) as I. pose proof (mi_reach _ _ _ I) as R.
  destruct (C54_multi_links_partial_pf w m Hw Hr) as (_ & _ & _ & HN & _ & HP & Hne).
  assert (Ca : m_contains_node m a = true). { destruct L as [V L]. destruct (HP _ V) as (n & Hn & ?). congruence. }
  destruct (Hne a Outgoing Ca) as (l & El & Hl). apply elem_of_list_join. exists (pair a <$> l). split.
  - apply elem_of_list_fmap. exists b. split; [done|]. apply Hl. split; [|by exists x, y].
    apply mlinked_iff in L; [|done|done]. destruct (rlink_dir w Hw1 m I _ _ L) as (n1 & d1 & n2 & M1 & M2 & C1 & C2).
    rewrite (pm_node _ _ _ _ M2) in Hb. injection Hb as ->. apply contains_node_m. split; [by eapply (r_node w _ R)|done].
  - apply elem_of_list_fmap. exists a. rewrite El. split; [done|]. by apply HN.
Qed.
Lemma macyclic_check w m : (2 < w <= 63)%N -> mreach w m -> forallb (fun x => bool_decide (x.1 < x.2)) (medges_list w m) = true -> macyclic w m.
Proof.
  intros Hw Hr Hc a Ha.
  assert (H : forall x y, tc (medge w m Outgoing) x y -> x < y).
  { assert (H1 : forall x y, medge w m Outgoing x y -> x < y).
    { intros x y H%(medges_spec w); [|done|done]. rewrite forallb_forall in Hc.
      apply elem_of_list_In in H. apply Hc in H. by apply bool_decide_eq_true in H. }
    intros x y. induction 1 as [x y Hxy|x y z Hxy _ IH]; [by apply H1|]. apply H1 in Hxy. lia. }
  apply H in Ha. lia.
Qed.
Lemma late_acyclic : macyclic 16 late_m.
Proof. apply macyclic_check; [lia|apply late_reach|]. vm_compute. reflexivity. Qed.

Lemma C46_toposort_multi_refuted_pf :
exists m, mreach 16 m /\ macyclic 16 m /\ medge 16 m Outgoing 1 2 /\
  topo_collect (gv_of_m 16 m) Outgoing (fun _ => true) (fun _ _ => true) 9
    (topo_new (gv_of_m 16 m) Outgoing (fun _ => true) [0]) = HOk [0; 2; 1].
Proof.
  exists late_m. split; [apply late_reach|]. split; [apply late_acyclic|]. split; [apply late_edge|]. vm_compute. reflexivity.
Qed.

Section medges.
  Context (w : N) (Hw : (1 < w <= 63)%N) (m : mpg) (I : minv w m []).
  Lemma medge_glink d a b : medge w m d a b <-> exists p q, glink (gv_vis w m) d a p q b.
  Proof.
    setoid_rewrite (vis_glink w Hw m I). split.
    - intros ([p i] & [q j] & L%mlinked_iff & Ha & Hd & Hb); try done. exists p, q, i, j. done.
    - intros (p & q & i & j & L & Ha & Hd & Hb). exists (p, i), (q, j). split; [by apply mlinked_iff|done].
  Qed.
  Lemma medge_nodes d a b : medge w m d a b -> a ∈ m_nodes_iter m /\ b ∈ m_nodes_iter m.
  Proof.
    intros (p & q & H1 & _ & H2)%medge_glink. pose proof (vis_wf w Hw m I) as W.
    split; [exact (wf_nodes _ W _ _ _ H1)|exact (wf_nodes _ W _ _ _ H2)].
  Qed.
  Lemma medge_rev d a b : medge w m d a b -> medge w m (rev_dir d) b a.
  Proof.
    intros (p & q & H1 & H2 & H3)%medge_glink. apply medge_glink. exists q, p. split; [done|].
    destruct (wf_sym _ (vis_wf w Hw m I) _ _ _ _ H1 H2) as [H _]. split; [done|]. by rewrite rev_dir_invol.
  Qed.
  Lemma medge_acc d : macyclic w m -> forall x, Acc (medge w m d) x.
  Proof.
    intros Hac. apply (fin_acc _ (m_nodes_iter m)); [apply medge_nodes|]. intros a Ha. destruct d; [|by apply (Hac a)]. apply (Hac a).
    assert (H : forall x y, tc (medge w m Incoming) x y -> tc (medge w m Outgoing) y x).
    { intros x y. induction 1 as [x y Hxy|x y z Hxy _ IH].
      - apply tc_once. by apply (medge_rev Incoming).
      - eapply tc_r; [exact IH|]. by apply (medge_rev Incoming). }
    by apply H.
  Qed.
End medges.

Lemma C46_toposort_multi_partial_pf :
forall w m d src, (2 < w <= 63)%N -> mreach w m -> NoDup src -> (forall n, n ∈ src -> m_contains_node m n = true) ->
  exists l,
    (forall fuel, length l < fuel ->
       topo_collect (gv_of_m w m) d (fun _ => true) (fun _ _ => true) fuel
         (topo_new (gv_of_m w m) d (fun _ => true) src) = HOk l)
    /\ NoDup l
    /\ (exists rest, l = src ++ rest)
    /\ (forall n, n ∈ l -> m_contains_node m n = true)
    /\ (forall n, n ∈ l -> n ∉ src -> (exists a, medge w m d a n) /\
          forall x y, mlinked w m x y -> port_node (m_graph m) y.1 = Some n -> port_direction (m_graph m) y.1 = Some (rev_dir d) ->
            exists x' y' a, mlinked w m x' y' /\ y'.1 = y.1 /\ port_node (m_graph m) x'.1 = Some a /\ before l a n)
    /\ ((forall q i p j i' p' j', port_direction (m_graph m) q = Some (rev_dir d) ->
            mlinked w m (q, i) (p, j) -> mlinked w m (q, i') (p', j') -> port_node (m_graph m) p = port_node (m_graph m) p') ->
        forall n a, n ∈ l -> n ∉ src -> medge w m d a n -> before l a n)
    /\ (forall n, (exists a, medge w m d a n) -> (forall a, medge w m d a n -> a ∈ l) -> n ∈ l)
    /\ (macyclic w m ->
        (forall n, m_contains_node m n = true -> (~ exists a, medge w m d a n) -> n ∈ src) ->
        l ≡ₚ m_nodes_iter m).
Proof.
  intros w m d src Hw Hr Hnd Hsrc. pose proof (w1 w Hw) as Hw1. pose proof (mreach_minv w Hw m Hr) as I. pose proof (mi_reach _ _ _ I) as R.
  pose proof (vis_wf w Hw1 m I) as W.
  destruct (topo_gen0 (gv_vis w m) d tt1 tt2 W src Hnd) as (l & x & Hx & Hrun & Hndl & Hel & Hord).
  exists l. split.
  { intros fuel Hf. rewrite vis_collect; [|done|done|]. 2:{ intros n Hn%Hsrc. by apply contains_node_m in Hn as [_ ?]. }
    unfold topo_new. change (fun n => true = true) with (fun n => tt1 n = true). rewrite filter_tt. by apply Hrun. }
  split; [done|]. split; [by exists x|].
  assert (Hnodes : forall n, n ∈ l -> n ∈ m_nodes_iter m).
  { intros n [Hn|(_ & (u & p & q & _ & (_ & _ & Hq) & _) & _)]%Hel; [by apply (MultiView.nodes_iter_elem w Hw1 m I), Hsrc|exact (wf_nodes _ W _ _ _ Hq)]. }
  split; [intros n Hn; by apply (MultiView.nodes_iter_elem w Hw1 m I), Hnodes|].
  assert (HG : forall u p q n, glink (gv_vis w m) d u p q n -> medge w m d u n) by (intros u p q n H; apply medge_glink; eauto).
  assert (Hin : forall n, (exists a, medge w m d a n) -> (forall a, medge w m d a n -> a ∈ l) -> n ∈ l).
  { intros n (a & (p & q & Hpq)%medge_glink) Hall; [|done|done]. apply Hel. right. split; [done|]. split.
    - exists a, p, q. split; [apply Hall; by eapply HG|done].
    - intros q' z Hq' Hz _. destruct (wf_sym _ W _ _ _ _ Hq' Hz) as [Hz' [u Hu]]. rewrite rev_dir_invol in Hu.
      assert (G : glink (gv_vis w m) d u z q' n) by (by split_and!). exists u, z. split; [apply Hall; by eapply HG|done]. }
  assert (Hq : forall n x y, mlinked w m x y -> port_node (m_graph m) y.1 = Some n -> port_direction (m_graph m) y.1 = Some (rev_dir d) ->
     y.1 ∈ gv_ports (gv_vis w m) n (rev_dir d) /\ glk (gv_vis w m) y.1 x.1).
  { intros n [p i] [q j] L%mlinked_iff Hn Hd; [|done|done]. cbn [fst] in *. destruct (rlink_dir w Hw1 m I _ _ L) as (n1 & d1 & n2 & M1 & M2 & C1 & C2). cbn [fst] in *.
    rewrite (pm_node _ _ _ _ M2) in Hn. injection Hn as ->. rewrite (pm_dir _ _ _ _ M2) in Hd. injection Hd as Hd. rewrite Hd in M2. split.
    - by apply (vis_ports w Hw1 m I).
    - apply (vis_glk w Hw1 m I); [by exists n, (rev_dir d)|]. exists j, i. by apply (rlink_sym w). }
  split_and!.
  - intros n Hn Hns. apply elem_of_list_split in Hn as (L1 & L2 & ->).
    destruct (Hord L1 n L2 eq_refl Hns) as [(u & p & q & Hl & _) Hall]. split; [exists u; by eapply HG|].
    intros x' y' L Hy Hd. destruct (Hq _ _ _ L Hy Hd) as [A B].
    destruct (Hall y'.1 x'.1 A B eq_refl) as (u' & p' & G & _ & Hu'). apply vis_glink in G as (i & j & L' & Hp' & _); [|done|done].
    exists (p', i), (y'.1, j), u'. split; [by apply mlinked_iff|]. split; [done|]. split; [done|]. by apply before_app.
  - intros Hs n a Hn Hns ([p i] & [q j] & L & Ha & Hd & Hb). apply elem_of_list_split in Hn as (L1 & L2 & ->).
    destruct (Hord L1 n L2 eq_refl Hns) as [_ Hall]. apply mlinked_iff in L; [|done|done]. destruct (rlink_dir w Hw1 m I _ _ L) as (n1 & d1 & n2 & M1 & M2 & C1 & C2). cbn [fst] in *.
    rewrite (pm_dir _ _ _ _ M1) in Hd. injection Hd as ->. pose proof (pm_dir _ _ _ _ M2) as Hd2.
    destruct (Hq n (p, i) (q, j)) as [A B]; [by apply mlinked_iff|done|done|]. cbn [fst] in *.
    destruct (Hall q p A B eq_refl) as (u' & p' & G & _ & Hu'). apply vis_glink in G as (i' & j' & L' & Hp' & _); [|done|done].
    assert (port_node (m_graph m) p = port_node (m_graph m) p') as Ep.
    { apply (Hs q j p i j' p' i'); [done| |]; apply mlinked_iff; try done; by apply (rlink_sym w). }
    assert (a = u') as -> by congruence. by apply before_app.
  - done.
  - intros Hac Hroots. apply NoDup_Permutation; [done|apply sorted_lt_nodup, (nodes_iter_sorted w m I)|].
    intros n. split; [apply Hnodes|].
    pose proof (medge_acc w Hw1 m I d Hac n) as Hacc. induction Hacc as [n _ IH]. intros Hn.
    destruct (decide (n ∈ l)) as [|Hnl]; [done|]. exfalso. apply Hnl.
    destruct (decide (n ∈ src)) as [Hs|Hs]; [rewrite Hx; set_solver|].
    assert (Hpred : ~ ~ exists a, medge w m d a n) by (intros Hno; apply Hs, Hroots; [by apply (MultiView.nodes_iter_elem w Hw1 m I)|done]).
    exfalso. apply Hpred. intros Hex. apply Hnl, Hin; [done|].
    intros a Ha. apply IH; [done|]. exact (proj1 (medge_nodes w Hw1 m I d _ _ Ha)).
Qed.
