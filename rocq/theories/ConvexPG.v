(** The convexity checkers on a [PortGraph]. *)
From Verif Require Export TccProofs.

Lemma before_lt l a b i j : NoDup l -> before l a b -> l !! i = Some a -> l !! j = Some b -> i < j.
Proof.
  intros Hnd (i' & j' & Hij & Hi & Hj) Ha Hb.
  assert (i = i') as -> by exact (NoDup_lookup _ _ _ _ Hnd Ha Hi). assert (j = j') as -> by exact (NoDup_lookup _ _ _ _ Hnd Hb Hj). done.
Qed.

Lemma rfilter_ok {A} (f : A -> res bool) (P : A -> Prop) l : (forall a, a ∈ l -> exists b, f a = Ok b /\ (b = true <-> P a)) ->
  exists r, rfilter f l = Ok r /\ (forall a, a ∈ r <-> a ∈ l /\ P a) /\ (NoDup l -> NoDup r).
Proof.
  induction l as [|a l IH]; intros H; cbn [rfilter].
  - exists []. split; [done|]. split; [|intros; apply NoDup_nil_2]. intros a. rewrite elem_of_nil. tauto.
  - destruct (H a) as (b & -> & Hb); [by left|]. cbn [mbind res_bind].
    destruct IH as (r & -> & Hr & Hnd); [intros x Hx; apply H; by right|]. cbn [mbind res_bind].
    eexists. split; [done|]. split.
    + intros x. destruct b.
      * rewrite !elem_of_cons, Hr. split; [intros [->|?]; [|tauto]; split; [tauto|by apply Hb]|tauto].
      * rewrite Hr, elem_of_cons. split; [tauto|]. intros [[->|?] ?]; [|tauto]. by assert (false = true) by (by apply Hb).
    + intros [Ha Hl]%NoDup_cons. destruct b; [|by apply Hnd]. constructor; [|by apply Hnd]. rewrite Hr. tauto.
Qed.

Lemma F2_l {A B} (P : A -> B -> Prop) l k x : Forall2 P l k -> x ∈ l -> exists y, y ∈ k /\ P x y.
Proof.
  intros H Hx. apply elem_of_list_lookup in Hx as [i Hi]. destruct (Forall2_lookup_l _ _ _ _ _ H Hi) as (y & Hy & ?).
  exists y. split; [by eapply elem_of_list_lookup_2|done].
Qed.
Lemma F2_r {A B} (P : A -> B -> Prop) l k y : Forall2 P l k -> y ∈ k -> exists x, x ∈ l /\ P x y.
Proof.
  intros H Hx. apply elem_of_list_lookup in Hx as [i Hi]. destruct (Forall2_lookup_r _ _ _ _ _ H Hi) as (x & Hy & ?).
  exists x. split; [by eapply elem_of_list_lookup_2|done].
Qed.

(** Queries of the topological checker, for nodes [Nd] and edges [R]. *)
Definition gconvex (R : nat -> nat -> Prop) (S : list nat) : Prop :=
  forall a x b, a ∈ S -> b ∈ S -> tc R a x -> tc R x b -> x ∈ S.
Section tcc.
  Context (Nd : nat -> Prop) (R : nat -> nat -> Prop) (nb : nat -> dir -> res (list nat)).
  Context (HR : forall a b, R a b -> Nd a /\ Nd b) (Hac : forall a, ~ tc R a a).
  Context (Hnb : forall n, Nd n -> exists l, nb n Outgoing = Ok l /\ forall m, m ∈ l <-> R n m).
  (** A checker: the nodes in topological order, and their positions. *)
  Record tcc_good (c : tcc) : Prop := {
    tg_nd : NoDup (tcc_nodes c);
    tg_all : forall n, n ∈ tcc_nodes c <-> Nd n;
    tg_ord : forall a b, R a b -> before (tcc_nodes c) a b;
    tg_ind : forall i x, tcc_nodes c !! i = Some x -> um_get (tcc_ind c) x = i;
  }.
  Section q.
    Context (c : tcc) (G : tcc_good c).
    Let ix := um_get (tcc_ind c).
    Lemma ix_at n : Nd n -> tcc_nodes c !! ix n = Some n.
    Proof.
      intros Hn%(tg_all _ G). apply elem_of_list_lookup in Hn as [i Hi]. unfold ix. by rewrite (tg_ind _ G _ _ Hi).
    Qed.
    Lemma ix_inj n m : Nd n -> Nd m -> ix n = ix m -> n = m.
    Proof. intros Hn%ix_at Hm%ix_at E. rewrite E in Hn. congruence. Qed.
    Lemma edge_ix a b : R a b -> ix a < ix b < length (tcc_nodes c) /\ Nd a /\ Nd b.
    Proof.
      intros Hab. destruct (HR _ _ Hab) as [Ha Hb]. split; [|done]. split.
      - eapply before_lt; [apply G|by apply (tg_ord _ G)|by apply ix_at|by apply ix_at].
      - apply lookup_lt_is_Some. exists b. by apply ix_at.
    Qed.

    Lemma tcc_run_ok s fuel : (forall n, n ∈ s -> Nd n) -> length (tcc_nodes c) < fuel ->
      exists r, tcc_is_node_convex (nb) c fuel s = HOk r /\ (r = true <-> gconvex R s).
    Proof.
      intros Hs Hf. unfold tcc_is_node_convex. fold ix. set (S := bt_of (map ix s)).
      assert (HS : forall i, i ∈ S <-> exists n, n ∈ s /\ i = ix n).
      { intros i. unfold S. rewrite bt_of_elem, elem_of_list_In, in_map_iff. setoid_rewrite <- elem_of_list_In. naive_solver. }
      pose proof (bt_of_sorted (map ix s)) as HSs. fold S in HSs.
      assert (Hsmall : (forall i j, i ∈ S -> j ∈ S -> i = j) -> gconvex R s).
      { intros Hone a x b Ha Hb Hax Hxb. exfalso.
        assert (a = b) as ->.
        { apply ix_inj; [by apply Hs|by apply Hs|]. apply Hone; apply HS; eauto. }
        apply (Hac b). by etrans. }
      clearbody S. destruct S as [|i S].
      { exists true. split; [done|]. split; [|done]. intros _. apply Hsmall. intros i j Hi%elem_of_nil. done. }
      destruct S as [|j S].
      { exists true. split; [done|]. split; [|done]. intros _. apply Hsmall. intros x y ->%elem_of_list_singleton ->%elem_of_list_singleton. done. }
      set (SS := i :: j :: S) in *. clear Hsmall.
      destruct (last SS) as [hi|] eqn:El; [|by apply last_None in El].
      destruct (sorted_last _ _ HSs El) as [Hhi Hmax]. destruct (sorted_cons_inv _ _ HSs) as [_ Hmin].
      assert (HSN : forall k, k ∈ SS -> k < length (tcc_nodes c)).
      { intros k (n & Hn & ->)%HS. apply lookup_lt_is_Some. exists n. apply ix_at. by apply Hs. }
      set (succ k := match tcc_nodes c !! k with
                     | Some n => match nb n Outgoing with Ok l => map ix l | Panic => [] end
                     | None => [] end).
      assert (Hsucc_e : forall n x, Nd n -> x ∈ succ (ix n) <-> exists m, R n m /\ x = ix m).
      { intros n x Hn. unfold succ. rewrite ix_at by done. destruct (Hnb n Hn) as (N & -> & HN).
        rewrite elem_of_list_In, in_map_iff. setoid_rewrite <- elem_of_list_In. setoid_rewrite HN. naive_solver. }
      assert (Hnode : forall k, k < length (tcc_nodes c) -> exists n, Nd n /\ k = ix n).
      { intros k [n Hn]%lookup_lt_is_Some. exists n. split; [apply (tg_all _ G); by eapply elem_of_list_lookup_2|]. symmetry. by apply (tg_ind _ G). }
      destruct (tcc_loop_run (nb) c succ (length (tcc_nodes c))) with (S := SS) (lo := i) (hi := hi) (fuel := fuel)
        as (r & Hrun & Hr).
      - intros lo hi' k Hk. unfold tcc_succs, succ. destruct (Hnode k Hk) as (n & Hn & ->). unfold vget. rewrite ix_at by done. cbn [unwrap mbind res_bind].
        destruct (Hnb n Hn) as (N & -> & HN). done.
      - intros k x Hk Hx. destruct (Hnode k Hk) as (n & Hn & ->). apply Hsucc_e in Hx as (m & Hm & ->); [|done]. by apply edge_ix.
      - done.
      - done.
      - unfold SS; by left.
      - done.
      - intros k Hk. split; [|by apply Hmax]. unfold SS in Hk. apply elem_of_cons in Hk as [->|Hk]; [lia|]. specialize (Hmin _ Hk). lia.
      - specialize (HSN _ Hhi). lia.
      - exists r. split; [done|]. rewrite Hr. unfold gconvex. rewrite (convex_out R s).
        assert (HSi : forall n, Nd n -> ix n ∈ SS <-> n ∈ s).
        { intros n Hn. rewrite HS. split; [|eauto]. intros (m & Hm & E). apply ix_inj in E as ->; [done|done|by apply Hs]. }
        assert (Hfo : forall k, fr succ SS k -> exists n, k = ix n /\ Nd n /\ out R s n).
        { induction 1 as [y x Hy Hx Hn|y x _ (n & -> & Hcn & Hon) Hx Hn].
          - apply HS in Hy as (n & Hns & ->). apply Hsucc_e in Hx as (m & Hm & ->); [|by apply Hs].
            exists m. split; [done|]. destruct (edge_ix _ _ Hm) as (_ & _ & Hcm). split; [done|]. eapply out_in; [done|done|].
            by rewrite HSi in Hn.
          - apply Hsucc_e in Hx as (m & Hm & ->); [|done].
            exists m. split; [done|]. destruct (edge_ix _ _ Hm) as (_ & _ & Hcm). split; [done|]. eapply out_step; [done|done|].
            by rewrite HSi in Hn. }
        assert (Hof : forall n, out R s n -> Nd n /\ fr succ SS (ix n)).
        { induction 1 as [y x Hy Hx Hn|y x _ [IH1 IH2] Hx Hn].
          - destruct (edge_ix _ _ Hx) as (_ & Hcy & Hcm). split; [done|]. eapply (fr_in _ _ (ix y)); [by apply HSi| |by rewrite HSi].
            apply Hsucc_e; [done|]. by exists x.
          - destruct (edge_ix _ _ Hx) as (_ & Hcy & Hcm). split; [done|]. eapply (fr_step _ _ (ix y)); [done| |by rewrite HSi].
            apply Hsucc_e; [done|]. by exists x. }
        unfold bad. apply not_iff_compat. split.
        + intros (y & z & Hy & Hz & HzS). destruct (Hfo _ Hy) as (n & -> & Hcn & Hon).
          apply Hsucc_e in Hz as (m & Hm & ->); [|done]. exists n, m. split; [done|]. split; [|done].
          apply HSi; [|done]. by destruct (edge_ix _ _ Hm) as (_ & _ & ?).
        + intros (y & z & Hy & Hz & Hyz). destruct (Hof _ Hy) as [Hcy Hfy]. exists (ix y), (ix z). split; [done|].
          split; [apply Hsucc_e; [done|]; by exists z|]. apply HSi; [|done]. by apply Hs.
    Qed.
  End q.

End tcc.

Lemma nti_ok' l : NoDup l -> exists m, rfold (fun m x => um_set m x.2 x.1) (enumerate l) (um_with_default 0) = Ok m /\
  (forall i x, l !! i = Some x -> um_get m x = i) /\ (forall x, x ∉ l -> um_get m x = 0).
Proof.
  intros Hnd.
  assert (H : forall k l' m, NoDup l' ->
    exists m', rfold (fun m x => um_set m x.2 x.1) (imap (fun i x => (k + i, x)) l') m = Ok m' /\
      (forall i x, l' !! i = Some x -> um_get m' x = k + i) /\ (forall x, x ∉ l' -> um_get m' x = um_get m x)).
  { intros k l'. revert k. induction l' as [|a l' IH]; intros k m Hnd'.
    - exists m. split; [done|]. split; [done|]. done.
    - cbn [imap rfold fst snd]. destruct (um_set_ok m a (k + 0)) as (m1 & -> & Hdef & Hget). cbn [mbind res_bind].
      apply NoDup_cons in Hnd' as [Ha Hnd']. destruct (IH (S k) m1) as (m' & Hr & H1 & H2); [done|].
      exists m'. split; [|split].
      + rewrite <- Hr. f_equal. apply imap_ext. intros i x _. cbn. f_equal. lia.
      + intros [|i] x; cbn; [|intros Hx; rewrite (H1 _ _ Hx); lia]. intros [= ->]. rewrite H2 by done. rewrite Hget.
        by rewrite decide_True.
      + intros x Hx. rewrite H2 by set_solver. rewrite Hget. rewrite decide_False by set_solver. done. }
  destruct (H 0 l (um_with_default 0) Hnd) as (m & Hr & H1 & H2).
  exists m. split; [exact Hr|]. split; [exact H1|]. intros x Hx. by rewrite H2.
Qed.

Section cpg.
  Context (w : N) (g : pg) (Hreach : reach w g).

  Lemma nb_ok n d : exists N, neighbours g n d = Ok N /\ forall m, m ∈ N <-> pedge g d n m.
  Proof.
    destruct (reach_inv _ _ Hreach) as (fnl & F & I).
    destruct (C18_links_pf w g n Hreach) as [H _]. destruct (H d) as (L & N & s & _ & HL & HN & HF & _). clear H.
    exists N. split; [done|]. intros m. split.
    - intros Hm. destruct (F2_r _ _ _ _ HF Hm) as ([p q] & Hx & Hq). cbn in Hq.
      rewrite HL in Hx. apply elem_of_list_omap in Hx as (p' & Hp & [E Hl]%link_of_Some). cbn in *. subst p'.
      exists p, q. split; [done|]. split; [done|].
      pose proof (proj2 (glk_iff g fnl F I p q) Hl) as Hg.
      destruct (wf_sym _ (gv_wf g fnl F I) p q n d Hp Hg) as [_ [m' Hm']].
      assert (m' = m) as ->; [|done]. assert (port_node g q = Some m') as E; [|congruence].
      apply (wf_node _ (gv_wf g fnl F I)). eauto.
    - intros (p & q & Hp & Hl & Hq).
      assert ((p, q) ∈ L) as HpL.
      { rewrite HL. apply elem_of_list_omap. exists p. split; [done|]. by apply link_of_Some. }
      destruct (F2_l _ _ _ _ HF HpL) as (m' & Hm' & E). cbn in E.
      assert (port_node g q = Some m) as E'; [|congruence].
      apply (wf_node _ (gv_wf g fnl F I)). eauto.
  Qed.

  Context (Hac : pacyclic g).

  Lemma cc_topsort_ok : exists l,
    (forall fuel, length l < fuel -> cc_topsort (gv_of g) (neighbours g) fuel = HOk l)
    /\ NoDup l /\ (forall n, n ∈ l <-> contains_node g n = true)
    /\ (forall a b, pedge g Outgoing a b -> before l a b).
  Proof.
    destruct (reach_inv _ _ Hreach) as (fnl & F & I).
    destruct (rfilter_ok (fun n => l ← neighbours g n Incoming; Ok (bool_decide (length l = 0)))
      (fun n => ~ exists a, pedge g Outgoing a n) (nodes_iter g)) as (src & Hsrc & Hel & Hnd).
    { intros n _. destruct (nb_ok n Incoming) as (N & -> & HN). cbn [mbind res_bind]. eexists. split; [done|].
      rewrite bool_decide_eq_true. split.
      - intros HN0 (a & Ha). apply (pedge_rev _ _ _ I) in Ha. apply HN in Ha. destruct N; [by apply elem_of_nil in Ha|done].
      - intros Hno. destruct N as [|a N]; [done|]. exfalso. apply Hno. exists a. apply (pedge_rev _ _ _ I Incoming), HN. by left. }
    specialize (Hnd (nodes_iter_nd g)).
    destruct (C45_toposort_pf w g Outgoing src Hreach Hnd) as (l & Hrun & Hndl & _ & Hord & _ & Hall).
    assert (Hl : l ≡ₚ nodes_iter g).
    { apply Hall; [done| |].
      - intros n [Hn _]%Hel. by apply nodes_iter_elem.
      - intros n Hn Hno. apply Hel. split; [by apply nodes_iter_elem|done]. }
    exists l. split.
    { intros fuel Hf. unfold cc_topsort. change (gv_nodes (gv_of g)) with (nodes_iter g). rewrite Hsrc. cbn [lift mbind hres_bind]. by apply Hrun. }
    split; [done|]. split; [intros n; by rewrite Hl, nodes_iter_elem|].
    intros a b Hab. apply Hord; [|intros [_ Hn]%Hel; by apply Hn; exists a|done].
    rewrite Hl. by destruct (pedge_nodes g fnl F I _ _ _ Hab).
  Qed.

  Lemma tcc_new_ok : exists c N, tcc_good (fun n => contains_node g n = true) (pedge g Outgoing) c /\ N = length (tcc_nodes c) /\
    forall fuel, N < fuel -> tcc_new (gv_of g) (neighbours g) fuel = HOk c.
  Proof.
    destruct cc_topsort_ok as (l & Hrun & Hnd & Hall & Hord). destruct (nti_ok' l Hnd) as (m & Hm & H1 & _).
    exists (TCC l m), (length l). split; [by split|]. split; [done|]. intros fuel Hf. unfold tcc_new. rewrite Hrun by done. cbn [mbind hres_bind].
    by rewrite Hm.
  Qed.

  Lemma tcc_query_ok c (G : tcc_good (fun n => contains_node g n = true) (pedge g Outgoing) c) s fuel :
    (forall n, n ∈ s -> contains_node g n = true) -> length (tcc_nodes c) < fuel ->
    exists r, tcc_is_node_convex (neighbours g) c fuel s = HOk r /\ (r = true <-> convex g s).
  Proof.
    apply (tcc_run_ok _ _ (neighbours g)); [|done|intros n _; apply nb_ok|done].
    intros a b Hab. destruct (reach_inv _ _ Hreach) as (fnl & F & I). destruct (pedge_nodes g fnl F I _ _ _ Hab) as [Ha Hb].
    by rewrite <- !nodes_iter_elem.
  Qed.

  Lemma clash_ok inputs outputs : (forall p, p ∈ outputs -> is_Some (port_node g p)) ->
    exists b, cc_boundary_clash (gv_of g) inputs outputs = Ok b /\
      (b = true <-> exists o i, o ∈ outputs /\ i ∈ inputs /\ linked g o i).
  Proof.
    intros Hout. destruct (reach_inv _ _ Hreach) as (fnl & F & I). unfold cc_boundary_clash.
    assert (H : exists pre, rmap (gv_link (gv_of g)) outputs = Ok pre /\ forall q, Some q ∈ pre <-> exists o, o ∈ outputs /\ linked g o q).
    { induction outputs as [|o outputs IH]; cbn [rmap].
      - exists []. split; [done|]. intros q. rewrite elem_of_nil. split; [done|]. by intros (o & Ho%elem_of_nil & _).
      - rewrite (gv_link_eq _ _ _ I), (port_link_eq _ _ _ I). destruct (Hout o) as [n Hn]; [by left|]. apply port_node_iff in Hn as [d Hn].
        rewrite Hn. cbn [mbind res_bind]. destruct IH as (pre & -> & Hpre); [intros p Hp; apply Hout; by right|].
        cbn [mbind res_bind]. eexists. split; [done|]. intros q. rewrite elem_of_cons, Hpre. split.
        + intros [E|(o' & ? & ?)]; [exists o|exists o'; split; [by right|done]]. split; [by left|]. apply (linked_iff _ _ _ I). split; [by rewrite Hn|done].
        + intros (o' & [->|Ho']%elem_of_cons & Hl); [left|right; by exists o']. apply (linked_iff _ _ _ I) in Hl as [_ Hl]. done. }
    destruct H as (pre & -> & Hpre). cbn [mbind res_bind]. eexists. split; [done|].
    rewrite existsb_exists. setoid_rewrite <- elem_of_list_In. setoid_rewrite bool_decide_eq_true. split.
    - intros (i & Hi & (o' & Ho & E)%elem_of_list_omap). cbn in E. subst o'. apply Hpre in Ho as (o & ? & ?). by exists o, i.
    - intros (o & i & Ho & Hi & Hl). exists i. split; [done|]. apply elem_of_list_omap. exists (Some i). split; [|done]. apply Hpre. by exists o.
  Qed.
End cpg.
