(** Proofs of properties C88 and C89. *)
From Verif Require Export IterMulti2.

Definition loop_ops : list op := [OAdd 1 1; OLink 0 1].
Definition loop_g : pg := default pg_new (run 16 loop_ops pg_new).
Lemma loop_reach : reach 16 loop_g.
Proof. exists loop_ops. apply run_hist. vm_compute. reflexivity. Qed.

Lemma C88_links_both_ends_refuted_pf :
exists w g n s L, reach w g /\ all_links_init g n = Ok s /\ all_links g n = Ok L /\ length L = 1 /\
  exists x y h1 h2, x <> y /\
    run_hint (fun s => Ok (links_next s)) (fun s => Ok (links_next_back s)) links_hint [false; false] s =
      Ok [(Some x, h1); (Some y, h2)].
Proof.
  exists 16%N, loop_g, 0, ([(0, Some 1); (1, Some 0)], (1, 2)), [(1, 0)]. split; [apply loop_reach|].
  split; [vm_compute; reflexivity|]. split; [vm_compute; reflexivity|]. split; [done|].
  exists (1, 0), (0, 1), (0, Some 1), (0, Some 0). split; [done|]. vm_compute. reflexivity.
Qed.

Lemma C88_links_both_ends_partial_pf :
forall w g n, reach w g ->
  (forall d, exists s L N, links_init g n d = Ok s /\ links g n d = Ok L /\ neighbours g n d = Ok N /\
     iter_ok (fun s => Ok (links_next s)) (fun s => Ok (links_next_back s)) links_hint s L /\
     iter_ok (neigh_next g) (neigh_next_back g) links_hint s N) /\
  (forall b, exists s C, links_init g n Outgoing = Ok s /\ get_connections g n b = Ok C /\
     iter_ok (fun s => Ok (conn_next g b s)) (fun s => Ok (conn_next_back g b s)) links_hint s C) /\
  (exists s L N, all_links_init g n = Ok s /\ all_links g n = Ok L /\ all_neighbours g n = Ok N /\
     fwd_ok (fun s => Ok (links_next s)) links_hint s L /\
     fwd_ok (neigh_next g) links_hint s N /\
     ((forall p q, linked g p q -> port_node g p = Some n -> port_node g q <> Some n) ->
        iter_ok (fun s => Ok (links_next s)) (fun s => Ok (links_next_back s)) links_hint s L /\
        iter_ok (neigh_next g) (neigh_next_back g) links_hint s N)).
Proof.
  intros w g n (fnl & F & I)%reach_inv.
  assert (HL : forall L : list (nat * nat), (forall x, x ∈ L -> exists p, link_of g p = Some x) -> forall x, x ∈ L -> linked g x.1 x.2).
  { intros L H x Hx. destruct (H x Hx) as [p Hp]. by apply link_of_Some in Hp as [<- ?]. }
  split_and!.
  - intros d. destruct (links_spec _ _ _ I n d) as (s & Hs & HL0).
    assert (Hls : lsim s (links_list s)).
    { pose proof (links_noign _ _ _ _ Hs) as Hn. split; [done|]. apply (lsim_list s). by split. }
    destruct (neigh_list _ _ _ I (links_list s)) as (N & EN & FN).
    { rewrite HL0. apply HL. intros x Hx%elem_of_list_omap. destruct Hx as (p & _ & ?). eauto. }
    exists s, (links_list s), N. unfold neighbours, links. rewrite Hs, !bind_Ok. split_and!; [done|done|done|by apply lsim_iter|].
    apply nsim_iter. apply pn_list in FN as [P ->]. by exists (links_list s).
  - intros b. destruct (links_spec _ _ _ I n Outgoing) as (s & Hs & HL0).
    assert (Hls : lsim s (links_list s)).
    { pose proof (links_noign _ _ _ _ Hs) as Hn. split; [done|]. apply (lsim_list s). by split. }
    exists s, (filter (toB g b) (links_list s)). unfold get_connections, links. rewrite Hs, !bind_Ok. split_and!; [done|done|].
    apply csim_iter. by exists (links_list s).
  - destruct (all_links_spec _ _ _ I n) as (s & Hs & HL0).
    destruct (neigh_list _ _ _ I (links_list s)) as (N & EN & FN).
    { rewrite HL0. apply HL. intros x Hx%elem_of_list_omap. destruct Hx as (p & _ & Hx). exists p. destruct (link_of g p) as [y|]; [|done].
      cbn in Hx. destruct (decide _); [done|]. by injection Hx as ->. }
    exists s, (links_list s), N. unfold all_neighbours, all_links. rewrite Hs, !bind_Ok. split_and!; [done|done|done|by apply links_fwd|exact (neigh_fwd g s _ N eq_refl FN)|].
    intros Hself. pose proof (all_links_noign _ _ _ I n s Hself Hs) as Hn.
    assert (Hls : lsim s (links_list s)).
    { split; [done|]. apply (lsim_list s). by split. }
    split; [by apply lsim_iter|]. apply nsim_iter. apply pn_list in FN as [P ->]. by exists (links_list s).
Qed.

Lemma C89_multi_iterators_refuted_pf :
exists w m p s, mreach w m /\ m_contains_port m p = true /\ pl_new m p = Ok s /\
  pl_hint s = (1, Some 1) /\ exists s', pl_next w m s = Ok (None, s').
Proof.
  exists 16%N, (default m_new (mrun 16 [MAdd 0 1] m_new)), 0, (PLSingle 0 false). split.
  { exists [MAdd 0 1]. apply mrun_hist. vm_compute. reflexivity. }
  split; [vm_compute; reflexivity|]. split; [vm_compute; reflexivity|]. split; [done|]. exists (PLSingle 0 true). vm_compute. reflexivity.
Qed.

Lemma C89_multi_iterators_partial_pf :
forall w m n, (2 < w <= 63)%N -> mreach w m -> m_contains_node m n = true ->
  (exists s, mn_init m = Ok s /\ iter_ok (mn_next m) (mn_next_back m) mn_hint s (m_nodes_iter m)) /\
  (exists l, m_ports_iter m = Ok l /\ iter_ok (mp_next m) (mp_next_back m) mp_hint (ports_iter_init (m_graph m)) l) /\
  (forall p, m_contains_port m p = true -> exists s l, pl_new m p = Ok s /\ m_port_links w m p = Ok l /\
     iter_ok (pl_next w m) (pl_next_back w m) (fun s => (0, (pl_hint s).2)) s l /\
     (l <> [] -> iter_ok (pl_next w m) (pl_next_back w m) pl_hint s l)) /\
  (forall d, exists l, m_subports m n d = Ok l /\ fwd_ok (ns_next m) ns_hint (ns_init (ports (m_graph m) n d)) l) /\
  (exists l, m_all_subports m n = Ok l /\ fwd_ok (ns_next m) ns_hint (ns_init (all_ports (m_graph m) n)) l) /\
  exists K, forall k, K <= k ->
    (forall d, exists l, m_neighbours w m n d = Ok l /\
       fwd_ok (nb_next w m n false k) no_hint (ns_init (ports (m_graph m) n d), None) l) /\
    (exists l, m_all_neighbours w m n = Ok l /\
       fwd_ok (nb_next w m n true k) no_hint (ns_init (all_ports (m_graph m) n), None) l) /\
    (forall d, exists l, m_links w m n d = Ok l /\ fwd_ok (nl_next w m k) no_hint (nl_links m n d) l) /\
    (exists l, m_all_links w m n = Ok l /\ fwd_ok (nl_next w m k) no_hint (nl_all_links m n) l) /\
    (forall b, exists l, m_get_connections w m n b = Ok l /\
       fwd_ok (nc_next w m b k k) no_hint (nl_links m n Outgoing) l).
Proof.
  intros w m n Hw Hr [Hn Cn]%contains_node_m. pose proof (w1 w Hw) as Hw1. pose proof (mreach_minv w Hw m Hr) as I. pose proof (mi_reach _ _ _ I) as R.
  assert (HV : forall p d, p ∈ ports (m_graph m) n d -> vis m p) by (intros p d Hp; by eapply (vis_port w m I n d)).
  assert (HV' : forall p, p ∈ all_ports (m_graph m) n -> vis m p) by (intros p Hp; by eapply (vis_all w m I n)).
  split_and!.
  - destruct (C55_multi_counts_partial_pf w m Hw Hr) as (kn & kp & kl & lp & En & _ & _ & _ & _ & _ & Hk & _).
    unfold mn_init. rewrite En, bind_Ok. eexists. split; [done|]. apply (mns_iter w Hw1 m). exists (nodes_iter (m_graph m)). split_and!.
    + split; [done|]. cbn. destruct (C17_nodes_and_ports_pf w _ R) as (_ & _ & E & _). by rewrite E.
    + done.
    + cbn. done.
  - exists (filter (pseen m) (ports_iter (m_graph m))). split; [by apply (mp_list w Hw1 m I)|]. apply (mps_iter w Hw1 m). exists (ports_iter (m_graph m)).
    destruct (C17_nodes_and_ports_pf w _ R) as (_ & _ & _ & _ & HP & _ & E & _). split_and!; [split; [done|]; cbn; by rewrite E| |done].
    intros p Hp%HP. unfold contains_port in Hp. apply bool_decide_eq_true in Hp as [[k d] Mp]. rewrite (pm_node _ _ _ _ Mp). eauto.
  - intros p V%vis_contains. destruct (pl_new_sim w m I p V) as (s & Es & Hs). exists s, (plinks w m p). split; [done|]. split; [by apply port_links_eq|].
    split; [by apply (pls_iter w Hw1 m I)|]. intros Hne. apply (pls1_iter w Hw1 m I). split; [done|]. by destruct s as [q [|]|].
  - intros d. exists (concat (map (subs m) (ports (m_graph m) n d))). split.
    + unfold m_subports. rewrite (subs_all w Hw1 m I) by eauto. by rewrite bind_Ok.
    + apply (nss_iter w Hw1 m I), (nss_init w Hw1). eauto.
  - exists (concat (map (subs m) (all_ports (m_graph m) n))). split.
    + unfold m_all_subports. rewrite (subs_all w Hw1 m I) by eauto. by rewrite bind_Ok.
    + apply (nss_iter w Hw1 m I), (nss_init w Hw1). eauto.
  - set (ps := all_ports (m_graph m) n). set (B := fun ps => length (concat (map (subs m) ps)) + length (concat (map (plinks w m) ps)) + 2 * length ps + 2).
    exists (B (ports (m_graph m) n Incoming) + B (ports (m_graph m) n Outgoing) + B ps). intros k Hk.
    assert (HB : forall d, B (ports (m_graph m) n d) <= k) by (intros []; lia). assert (HB' : B ps <= k) by lia. clear Hk.
    assert (NB : forall ig ps, (forall p, p ∈ ps -> vis m p) -> B ps <= k ->
      fwd_ok (nb_next w m n ig k) no_hint (ns_init ps, None) (somes (concat (map (fun p => map (nitem w m n ig p) (enumerate (raws m p))) ps)))).
    { intros ig qs V Hk. apply (nbs_iter w Hw1 m I). eexists _, _. split; [by apply (nss_init w Hw1)|]. split; [by apply (neigh_ports w Hw1 m I)|]. split; [done|].
      split; [intros [_ H]; cbn in H; lia|]. unfold B in Hk. lia. }
    assert (NLl : forall qs r, (forall p, p ∈ qs -> vis m p) -> B qs <= k ->
      nls w m k (NL qs None r) (filter (unign r) (concat (map (plinks w m) qs)))).
    { intros qs r V Hk. exists []. cbn [nl_ports nl_cur nl_ignore]. split_and!; [done|done|done|]. unfold B in Hk. cbn [app]. lia. }
    assert (FA : forall l : list (subport * subport), filter (unign (0, 0)) l = l).
    { intros l. induction l as [|x l IH]; [done|]. rewrite filter_cons, decide_True by (unfold unign; cbn; lia). by rewrite IH. }
    split_and!.
    + intros d. eexists. split; [|apply NB; [eauto|apply HB]].
      unfold m_neighbours, m_subports. rewrite (subs_all w Hw1 m I) by eauto. rewrite !bind_Ok, (neigh_ports w Hw1 m I) by eauto. by rewrite bind_Ok.
    + eexists. split; [|apply NB; [eauto|done]].
      unfold m_all_neighbours, m_all_subports. rewrite (subs_all w Hw1 m I) by eauto. rewrite !bind_Ok, (neigh_ports w Hw1 m I) by eauto. by rewrite bind_Ok.
    + intros d. eexists. split; [by apply links_eq|]. apply (nls_iter w Hw1 m I). rewrite <- (FA (concat _)). by apply NLl; eauto.
    + eexists. split; [by apply all_links_eq|]. apply (nls_iter w Hw1 m I).
      assert (E : filter (not_own m n) (concat (map (plinks w m) (all_ports (m_graph m) n))) = filter (unign (ports_init (m_graph m) n Outgoing)) (concat (map (plinks w m) (all_ports (m_graph m) n)))).
      { apply list_filter_iff. intros x. unfold not_own, unign, ports, ports_init. destruct (nmeta (m_graph m) n) as [me|]; cbn [fst snd].
        - unfold nm_ports. rewrite elem_of_seq. done.
        - split; [lia|intros _; by apply not_elem_of_nil]. }
      rewrite E. by apply NLl.
    + intros b. exists (filter (mto m b) (concat (map (plinks w m) (ports (m_graph m) n Outgoing)))). split.
      * unfold m_get_connections. rewrite (links_eq w Hw1 m I) by done. rewrite bind_Ok. done.
      * apply (ncs_iter w Hw1 m I). eexists. split; [apply NLl; [eauto|apply HB]|]. rewrite FA. split; [done|]. specialize (HB Outgoing). unfold B in HB. lia.
Qed.
