(** A multigraph as a view: the visible part is well formed, and a traversal
    that starts at visible nodes stays there. *)
From Verif Require Export MTopoModel MultiThms AlgPG.

Lemma rfold_cong {A S} (P : S -> Prop) (f f' : S -> A -> res S) l : forall s, P s ->
  (forall s a, a ∈ l -> P s -> f s a = f' s a /\ forall s', f s a = Ok s' -> P s') ->
  rfold f l s = rfold f' l s /\ forall s', rfold f l s = Ok s' -> P s'.
Proof.
  induction l as [|a l IH]; intros s Hs H; cbn; [split; [done|]; by intros s' [= <-]|].
  destruct (H s a ltac:(by left) Hs) as [E HP]. rewrite <- E. destruct (f s a) as [s1|]; cbn; [|done].
  apply IH; [by apply HP|]. intros s2 b Hb. apply H. by right.
Qed.

Section cong.
  Context (v v' : gview) (G : nat -> Prop) (d : dir) (nf : nat -> bool) (pf : nat -> nat -> bool).
  Context (HL : gv_links v = gv_links v').
  Context (HP : forall n dd, G n -> gv_ports v n dd = gv_ports v' n dd).
  Context (HN : forall n p q, G n -> p ∈ gv_ports v n d -> glk v p q -> gv_node v q = gv_node v' q /\ forall t, gv_node v q = Some t -> G t).

  Lemma ready_cong n q : forall ps V, topo_ready_all v pf n q ps V = topo_ready_all v' pf n q ps V.
  Proof.
    induction ps as [|p ps IH]; intros V; [done|]. cbn [topo_ready_all]. unfold gv_link. rewrite <- HL.
    destruct (decide (p = q)); [destruct (decide (p ∈ V)); [done|apply IH]|]. destruct (decide (p ∈ V)); [apply IH|].
    destruct (gv_links v p); [|done]. cbn [mbind res_bind]. destruct (decide _); [apply IH|]. destruct (pf n p); [done|apply IH].
  Qed.
  Lemma port_step_cong n p V C : G n -> p ∈ gv_ports v n d -> (forall c, c ∈ C -> G c) ->
    topo_port_step v d nf pf n (V, C) p = topo_port_step v' d nf pf n (V, C) p /\
    forall V' C', topo_port_step v d nf pf n (V, C) p = Ok (V', C') -> forall c, c ∈ C' -> G c.
  Proof.
    intros Gn Hp GC. unfold topo_port_step. destruct (pf n p); [|split; [done|]; by intros V' C' [= _ <-]].
    rewrite <- HL. destruct (gv_links v p) as [qs|] eqn:E; [|done]. cbn [mbind res_bind].
    assert (H : rfold (topo_link_step v d nf pf) qs ({[p]} ∪ V, C) = rfold (topo_link_step v' d nf pf) qs ({[p]} ∪ V, C) /\
      forall s', rfold (topo_link_step v d nf pf) qs ({[p]} ∪ V, C) = Ok s' -> forall c, c ∈ s'.2 -> G c).
    { apply (rfold_cong (fun s => forall c, c ∈ s.2 -> G c)); [done|]. intros [V1 C1] q Hq GC1. cbn in GC1.
      destruct (HN n p q Gn Hp) as [E1 E2]; [by exists qs|]. unfold topo_link_step. rewrite <- E1.
      destruct (gv_node v q) as [t|] eqn:Et; [|done]. cbn [unwrap mbind res_bind]. specialize (E2 t eq_refl).
      unfold topo_ready. rewrite ready_cong, <- HP by done. split; [done|]. intros s'.
      destruct (if nf t then _ else _) as [[b V2]|]; [|done]. cbn. intros [= <-]. destruct b; [|done].
      intros c [?| ->%elem_of_list_singleton]%elem_of_app; [by apply GC1|done]. }
    destruct H as [H1 H2]. split; [done|]. intros V' C' E'. exact (H2 _ E').
  Qed.
  Lemma next_cong V C k : (forall c, c ∈ C -> G c) ->
    topo_next v d nf pf (TS V C k) = topo_next v' d nf pf (TS V C k) /\
    forall o s, topo_next v d nf pf (TS V C k) = Ok (o, s) -> forall c, c ∈ ts_cand s -> G c.
  Proof.
    intros GC. unfold topo_next. cbn. destruct C as [|n C]; [split; [done|]; by intros o s [= _ <-]|].
    assert (Gn : G n) by (apply GC; by left). rewrite <- HP by done.
    assert (H : rfold (topo_port_step v d nf pf n) (gv_ports v n d) (V, C) = rfold (topo_port_step v' d nf pf n) (gv_ports v n d) (V, C) /\
      forall s', rfold (topo_port_step v d nf pf n) (gv_ports v n d) (V, C) = Ok s' -> forall c, c ∈ s'.2 -> G c).
    { apply (rfold_cong (fun s => forall c, c ∈ s.2 -> G c)); [intros c Hc; apply GC; by right|]. intros [V1 C1] p Hp GC1.
      destruct (port_step_cong n p V1 C1 Gn Hp GC1) as [E1 E2]. split; [done|]. intros [V2 C2] E. cbn. by eapply E2. }
    destruct H as [H1 H2]. rewrite <- H1. split; [done|]. intros o s. destruct (rfold _ _ _) as [[V2 C2]|]; [|done]. cbn. intros [= _ <-]. cbn.
    exact (H2 _ eq_refl).
  Qed.
  Lemma collect_cong : forall fuel V C k, (forall c, c ∈ C -> G c) ->
    topo_collect v d nf pf fuel (TS V C k) = topo_collect v' d nf pf fuel (TS V C k).
  Proof.
    induction fuel as [|fuel IH]; intros V C k GC; [done|]. cbn [topo_collect]. destruct (next_cong V C k GC) as [E1 E2]. rewrite <- E1.
    destruct (topo_next v d nf pf (TS V C k)) as [[[n|] [V' C' k']]|]; [|done|done]. cbn [lift mbind hres_bind]. rewrite IH; [done|].
    exact (E2 _ _ eq_refl).
  Qed.
End cong.

Section mview.
  Context (w : N) (Hw : (1 < w <= 63)%N) (m : mpg) (I : minv w m []).
  Let R := mi_reach _ _ _ I.

  (** The visible part. *)
  Definition gv_vis : gview :=
    GV (m_nodes_iter m) (fun n d => if is_copy m n then [] else ports (m_graph m) n d) (gv_links (gv_of_m w m))
       (fun p => if m_contains_port m p then port_node (m_graph m) p else None).

  Lemma vis_ports p n d : p ∈ gv_ports gv_vis n d <-> pmeta (m_graph m) p = Some (n, d) /\ is_copy m n = false.
  Proof.
    cbn. destruct (is_copy m n) eqn:C; [split; [by intros ?%elem_of_nil|by intros []]|]. rewrite (r_elem w _ R). tauto.
  Qed.
  Lemma vis_links p : vis m p -> gv_links gv_vis p = Ok (map (fun x => x.2.1) (plinks w m p)).
  Proof. intros V. cbn. by rewrite (port_links_eq w Hw m I p V). Qed.
  Lemma vis_glk p q : vis m p -> glk gv_vis p q <-> exists i j, rlink m (p, i) (q, j).
  Proof.
    intros V. unfold glk. rewrite (vis_links p V). split.
    - intros (l & [= <-] & Hq). apply elem_of_list_In, in_map_iff in Hq as ([[p' i] [q' j]] & <- & H%elem_of_list_In). cbn.
      apply plinks_elem in H as [Hp H]; [|done|done|done]. cbn in Hp. subst. eauto.
    - intros (i & j & H). eexists. split; [done|]. apply elem_of_list_In, in_map_iff. exists ((p, i), (q, j)). split; [done|].
      apply elem_of_list_In, plinks_elem; [done|done|done|done].
  Qed.
  Lemma vis_wf : wfv gv_vis.
  Proof.
    split.
    - intros n d. cbn. destruct (is_copy m n); [apply NoDup_nil_2|apply r_nodup].
    - intros p n d n' d' [H1 _]%vis_ports [H2 _]%vis_ports. rewrite H1 in H2. by injection H2 as -> ->.
    - intros p n. setoid_rewrite vis_ports. cbn. split.
      + destruct (m_contains_port m p) eqn:V; [|done]. apply vis_contains in V as (k & d & M & C).
        unfold port_node. rewrite M. cbn. intros [= <-]. eauto.
      + intros (d & M & C). assert (m_contains_port m p = true) as -> by (apply vis_contains; by exists n, d). by eapply pm_node.
    - intros p n d [M C]%vis_ports. rewrite vis_links by (by exists n, d). eauto.
    - intros p q n d [M C]%vis_ports Hl. assert (V : vis m p) by (by exists n, d). apply (vis_glk p q V) in Hl as (i & j & L).
      destruct (rlink_dir w Hw m I _ _ L) as (n1 & d1 & n2 & M1 & M2 & C1 & C2). cbn in *.
      assert (d1 = d) as -> by congruence. split.
      + apply vis_glk; [by exists n2, (rev_dir d)|]. exists j, i. by apply (rlink_sym w).
      + exists n2. by apply vis_ports.
    - intros p n d [M C]%vis_ports. apply (MultiView.nodes_iter_elem w Hw m I), contains_node_m. split; [by eapply (r_node w _ R)|done].
  Qed.
  Lemma vis_glink d a p q b : glink gv_vis d a p q b <->
    exists i j, rlink m (p, i) (q, j) /\ port_node (m_graph m) p = Some a /\ port_direction (m_graph m) p = Some d /\ port_node (m_graph m) q = Some b.
  Proof.
    unfold glink. rewrite !vis_ports. split.
    - intros ([M C] & Hl & [M' C']). apply vis_glk in Hl as (i & j & L); [|by exists a, d]. exists i, j. split; [done|].
      split; [by eapply pm_node|]. split; [by eapply pm_dir|by eapply pm_node].
    - intros (i & j & L & Hp & Hd & Hq). destruct (rlink_dir w Hw m I _ _ L) as (n1 & d1 & n2 & M1 & M2 & C1 & C2). cbn in *.
      rewrite (pm_node _ _ _ _ M1) in Hp. rewrite (pm_dir _ _ _ _ M1) in Hd. rewrite (pm_node _ _ _ _ M2) in Hq.
      injection Hp as ->. injection Hd as ->. injection Hq as ->. split; [done|]. split; [|done].
      apply vis_glk; [by exists a, d|]. eauto.
  Qed.
  Lemma vis_collect d nf pf src fuel : (forall n, n ∈ src -> is_copy m n = false) ->
    topo_collect (gv_of_m w m) d nf pf fuel (topo_new (gv_of_m w m) d nf src) = topo_collect gv_vis d nf pf fuel (topo_new gv_vis d nf src).
  Proof.
    intros Hs. unfold topo_new.
    assert (E : forall V, foldl (fun vis n => mark_all (gv_ports (gv_of_m w m) n (rev_dir d)) vis) V (filter (fun n => nf n = true) src) =
                foldl (fun vis n => mark_all (gv_ports gv_vis n (rev_dir d)) vis) V (filter (fun n => nf n = true) src)).
    { assert (Hs' : forall n, n ∈ filter (fun n => nf n = true) src -> is_copy m n = false) by (intros n [_ Hn]%elem_of_list_filter; by apply Hs).
      revert Hs'. generalize (filter (fun n => nf n = true) src). intros l Hl. induction l as [|n l IH]; intros V; cbn [foldl]; [done|].
      rewrite IH by (intros; apply Hl; by right). cbn. rewrite (Hl n) by (by left). done. }
    rewrite E. apply (collect_cong _ _ (fun n => is_copy m n = false)); [done| | |intros n [_ Hn]%elem_of_list_filter; by apply Hs].
    - intros n dd C. cbn. by rewrite C.
    - intros n p q C Hp Hq. cbn [gv_of_m gv_ports gv_node] in *. assert (Hp' : p ∈ gv_ports gv_vis n d) by (cbn; by rewrite C).
      destruct (wf_sym _ vis_wf p q n d Hp' Hq) as [_ [t Ht]]. pose proof (proj1 (vis_ports _ _ _) Ht) as [M Ct].
      cbn. assert (m_contains_port m q = true) as -> by (apply vis_contains; by exists t, (rev_dir d)). split; [done|].
      intros t' E'. rewrite (pm_node _ _ _ _ M) in E'. by injection E' as <-.
  Qed.
End mview.
