(** Proofs of C138. *)
From Verif Require Export DynThms.

Definition par_ops : list op := [OAdd 0 2; OAdd 0 0; OAdd 2 0; OLink 0 2; OLink 1 3].
Definition par_g : pg := default pg_new (run 16 par_ops pg_new).
Lemma par_reach : reach 16 par_g.
Proof. exists par_ops. apply run_hist. vm_compute. reflexivity. Qed.
Lemma par_acyclic : pacyclic par_g.
Proof. apply (acyclic_check 16); [apply par_reach|]. vm_compute. reflexivity. Qed.

Lemma C138_stale_refuted_pf :
  exists g c c1 c2 log, reach 16 g /\ pacyclic g /\ dc_new 9 g = HOk c /\ dc_remove_node c 1 = Ok c1 /\
    dc_compact_nodes c1 = Ok (c2, log) /\ port_link (dc_graph c2) 0 = Ok (Some 2) /\ contains_node (dc_graph c2) 1 = true /\
    dc_unlink_port c2 0 = Panic /\ dc_remove_node c2 1 = Panic.
Proof.
  exists par_g. destruct (dc_new 9 par_g) as [c| |] eqn:E; [|vm_compute in E; discriminate E|vm_compute in E; discriminate E].
  exists c. vm_compute in E. injection E as <-. eexists _, _, _. split; [apply par_reach|]. split; [apply par_acyclic|].
  split; [reflexivity|]. split; [vm_compute; reflexivity|]. split; [vm_compute; reflexivity|].
  split; [vm_compute; reflexivity|]. split; [vm_compute; reflexivity|]. split; vm_compute; reflexivity.
Qed.

Lemma C138_unlink_partial_pf :
  forall w c p, reach w (dc_graph c) -> dt_sync (dc_topo c) ->
    exists g' r, unlink_port (dc_graph c) p = Ok (g', r) /\
      (dc_unlink_port c p = Ok (DC (dc_topo c) g', r) \/ dc_unlink_port c p = Panic) /\
      (dc_unlink_port c p = Panic <->
        exists q a b, r = Some q /\ port_node (dc_graph c) p = Some a /\ pedge g' Outgoing a b /\
          (a ∉ dt_order (dc_topo c) \/ b ∉ dt_order (dc_topo c))).
Proof.
  intros w [t g] p Hr Hs. cbn [dc_graph dc_topo] in *.
  assert (Hk : forall n, n ∈ dt_order t <-> dt_pos t !! n <> None).
  { intros n. rewrite elem_of_list_lookup. split.
    - intros [i Hi%Hs]. congruence.
    - destruct (dt_pos t !! n) as [i|] eqn:E; [|done]. intros _. exists i. by apply Hs. }
  destruct (C09_unlink_port_pf w g p Hr) as (g' & r & Eu & Hl & _ & H3). exists g', r. split; [done|].
  unfold dc_unlink_port. cbn [dc_graph dc_topo]. rewrite Eu. cbn [mbind res_bind]. destruct r as [q|].
  2:{ split; [by left|]. split; [done|]. by intros (? & ? & ? & ? & _). }
  assert (Hr' : reach w g') by (apply (reach_step w g (OUnlink p) g' (RUnlink (Some q)) Hr); [done|cbn; by rewrite Eu]).
  destruct (H3 q eq_refl) as (_ & _ & _ & Hp & Hn & _). destruct (Hp p) as (_ & Hpn & _).
  assert (Hlp : linked g p q) by by apply Hl. destruct (C01_links_symmetric_pf w g p q Hr Hlp) as (_ & _ & Hcp & _).
  rewrite Hpn. apply contains_port_true in Hcp as [[n d] Hm].
  assert (Epn : port_node g p = Some n) by (unfold port_node; by rewrite Hm).
  rewrite Epn. cbn [unwrap mbind res_bind].
  destruct (nb_ok w g' Hr' n Outgoing) as (l & -> & Hl'). cbn [mbind res_bind].
  assert (Hd : forall b, dt_disconnect t n b <> None <-> n ∉ dt_order t \/ b ∉ dt_order t).
  { intros b. rewrite !Hk. unfold dt_disconnect. destruct (dt_pos t !! n), (dt_pos t !! b); split; intros H; try tauto; try done; try (by left; intros H'; apply H'); try (by right; intros H'; apply H').
    destruct H as [H|H]; exfalso; by apply H. }
  destruct (existsb (λ to_node : nat, negb (bool_decide (dt_disconnect t n to_node = None))) l) eqn:Ex.
  - split; [by right|]. split; [intros _|done]. apply existsb_exists in Ex as (b & Hb & Hx%negb_true_iff%bool_decide_eq_false).
    exists q, n, b. split; [done|]. split; [done|]. split; [apply Hl'; by apply elem_of_list_In|]. by apply Hd.
  - split; [by left|]. split; [done|]. intros (q' & a & b & _ & [= <-] & He & Ho). exfalso.
    apply not_true_iff_false in Ex. apply Ex, existsb_exists. exists b. split; [by apply elem_of_list_In, Hl'|].
    apply negb_true_iff, bool_decide_eq_false. by apply Hd.
Qed.

Lemma C138_remove_partial_pf :
  forall w c n, reach w (dc_graph c) -> dt_sync (dc_topo c) -> NoDup (dt_order (dc_topo c)) ->
    exists g', remove_node (dc_graph c) n = Ok g' /\
      (n ∉ dt_order (dc_topo c) -> dc_remove_node c n = Panic) /\
      (n ∈ dt_order (dc_topo c) -> exists t, dc_remove_node c n = Ok (DC t g') /\
        dt_sync t /\ exists l1 l2, dt_order (dc_topo c) = l1 ++ n :: l2 /\ dt_order t = l1 ++ l2).
Proof.
  intros w [t g] n Hr Hs Hnd. cbn [dc_graph dc_topo] in *.
  destruct (C05_remove_node_pf w g n Hr) as (g' & Er & _). exists g'. split; [done|].
  unfold dc_remove_node. cbn [dc_graph dc_topo]. rewrite Er. cbn [mbind res_bind]. unfold dt_remove_node. split.
  - intros Hn. destruct (dt_pos t !! n) as [i|] eqn:E; [|done]. apply Hs in E. exfalso. apply Hn. by eapply elem_of_list_lookup_2.
  - intros [i Hi]%elem_of_list_lookup. pose proof (proj2 (Hs n i) Hi) as Hpos. rewrite Hpos.
    pose proof (lookup_lt_Some _ _ _ Hi) as Hlt. rewrite decide_True by done. cbn [mbind res_bind].
    eexists. split; [done|].
    assert (HP : dt_order t ≡ₚ n :: delete i (dt_order t)) by by apply delete_Permutation.
    assert (Hnd' : NoDup (delete i (dt_order t)) /\ n ∉ delete i (dt_order t)).
    { rewrite HP in Hnd. by apply NoDup_cons in Hnd as [? ?]. }
    destruct Hnd' as [Hnd' Hnn]. split.
    + intros x k. cbn [dt_pos dt_order]. rewrite dt_number_ok by done. split; [|by left]. intros [?|[Hx Hk]]; [done|].
      exfalso. rewrite lookup_delete_Some in Hk. destruct Hk as [Hne Hk]. apply Hs in Hk. apply elem_of_list_lookup_2 in Hk.
      rewrite HP in Hk. apply elem_of_cons in Hk as [->|Hk]; [by apply Hne|by apply Hx].
    + exists (take i (dt_order t)), (drop (S i) (dt_order t)). split; [by rewrite take_drop_middle|]. cbn [dt_order]. apply delete_take_drop.
Qed.

Lemma C138_link_result_pf :
  forall fuel c p q c' r, dt_sync (dc_topo c) -> dc_link_ports fuel c p q = HOk (c', r) ->
    (forall x, r = inr x -> link_ports (dc_graph c) p q = Ok (dc_graph c', inr x) /\
       exists a b, port_node (dc_graph c) p = Some a /\ port_node (dc_graph c) q = Some b /\
         a ∈ dt_order (dc_topo c) /\ b ∈ dt_order (dc_topo c)) /\
    (forall e, r = inl e -> dc_topo c' = dc_topo c /\
       ((c' = c /\ exists x, (x = p \/ x = q) /\ port_node (dc_graph c) x = None /\ e = UnknownPort x) \/
        link_ports (dc_graph c) p q = Ok (dc_graph c', inl e) \/
        (e = UnknownPort p /\ exists x a b, link_ports (dc_graph c) p q = Ok (dc_graph c', inr x) /\
           port_node (dc_graph c) p = Some a /\ port_node (dc_graph c) q = Some b /\
           (a ∉ dt_order (dc_topo c) \/ b ∉ dt_order (dc_topo c))))).
Proof.
  intros fuel [t g] p q c' r Hs. cbn [dc_graph dc_topo] in *.
  assert (Hk : forall n i, dt_pos t !! n = Some i -> n ∈ dt_order t).
  { intros n i Hi%Hs. by eapply elem_of_list_lookup_2. }
  assert (Hk' : forall n, dt_pos t !! n = None -> n ∉ dt_order t).
  { intros n Hn [i Hi%Hs]%elem_of_list_lookup. congruence. }
  unfold dc_link_ports. cbn [dc_graph dc_topo].
  destruct (port_node g p) as [a|] eqn:Ea.
  2:{ intros [= <- <-]. split; [done|]. intros e [= <-]. split; [done|]. left. split; [done|]. exists p. auto. }
  destruct (port_node g q) as [b|] eqn:Eb.
  2:{ intros [= <- <-]. split; [done|]. intros e [= <-]. split; [done|]. left. split; [done|]. exists q. auto. }
  destruct (dt_would_create_cycle (neighbours g) fuel t b a) as [[|]| |]; cbn [mbind hres_bind]; [done| |done|done].
  destruct (link_ports g p q) as [[g' r']|] eqn:El; cbn [lift mbind hres_bind]; [|done].
  destruct r' as [e'|x].
  { intros [= <- <-]. split; [done|]. intros e [= <-]. split; [done|]. right. by left. }
  unfold dt_connect. destruct (dt_pos t !! a) as [i|] eqn:Ei.
  2:{ cbn [mbind hres_bind]. intros [= <- <-]. split; [done|]. intros e [= <-]. split; [done|]. right. right.
      split; [done|]. exists x, a, b. split; [done|]. split; [done|]. split; [done|]. left. by apply Hk'. }
  destruct (dt_pos t !! b) as [j|] eqn:Ej.
  2:{ cbn [mbind hres_bind]. intros [= <- <-]. split; [done|]. intros e [= <-]. split; [done|]. right. right.
      split; [done|]. exists x, a, b. split; [done|]. split; [done|]. split; [done|]. right. by apply Hk'. }
  destruct (dt_would_create_cycle (neighbours g') fuel t a b) as [[|]| |]; cbn [mbind hres_bind]; [done| |done|done].
  assert (Hfin : forall t', c' = DC t' g' -> r = inr x -> 
    (forall y, r = inr y -> Ok (g', inr (A:=link_error) x) = Ok (dc_graph c', inr y) /\
       exists a0 b0, Some a = Some a0 /\ Some b = Some b0 /\ a0 ∈ dt_order t /\ b0 ∈ dt_order t)).
  { intros t' -> -> y [= <-]. split; [done|]. exists a, b. split; [done|]. split; [done|]. split; by eapply Hk. }
  destruct (decide (j <= i)).
  - destruct (dt_update_order (neighbours g') fuel t a b) as [t'| |]; cbn [mbind hres_bind]; [|done|done].
    intros [= <- <-]. split; [by eapply Hfin|done].
  - cbn [mbind hres_bind]. intros [= <- <-]. split; [by eapply Hfin|done].
Qed.
