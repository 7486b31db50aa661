(** Proofs of properties C92 and C93. *)
From Verif Require Export FlatSpec ViewThms.

Lemma C92_flat_graph_pf :
forall w m, (2 < w <= 63)%N -> mreach w m ->
  (forall n, m_contains_node m n = true -> m_main_node m n = Ok n)
  /\ (forall c, copy_node m c -> exists n d q p, m_main_node m c = Ok n /\ m_contains_node m n = true
        /\ ports (m_graph m) c d = [q] /\ linked (m_graph m) q p /\ port_node (m_graph m) p = Some n
        /\ 2 <= num_ports (m_graph m) c (rev_dir d))
  /\ exists f : nat -> subport,
       (forall s t, linked (m_graph m) s t -> ~ spine m s -> ~ spine m t ->
          mlinked w m (f s) (f t) /\ exists n, at_main m s n /\ port_node (m_graph m) (f s).1 = Some n)
       /\ (forall x y, mlinked w m x y -> exists s t, linked (m_graph m) s t /\ ~ spine m s /\ ~ spine m t /\ f s = x /\ f t = y)
       /\ (forall s t s' t', linked (m_graph m) s t -> ~ spine m s -> ~ spine m t -> linked (m_graph m) s' t' -> ~ spine m s' -> ~ spine m t' ->
             f s = f s' -> s = s').
Proof.
  intros w m Hw Hr. assert (Hw1 : (1 < w <= 63)%N) by lia. pose proof (mreach_minv w Hw m Hr) as I. pose proof (mi_reach _ _ _ I) as R.
  assert (Hhid : forall c, copy_node m c <-> is_copy m c = true).
  { intros c. unfold copy_node. split.
    - intros [H1 H2]. destruct (is_copy m c) eqn:E; [done|]. exfalso. assert (m_contains_node m c = true) by (by apply contains_node_m). congruence.
    - intros Hc. destruct (copy_vis w Hw1 m I c Hc) as (q & d & p & n & Hq & _ & _ & _ & _ & _ & Hmq & _). split; [by eapply (r_node w _ R)|].
      apply not_true_iff_false. intros [_ H]%contains_node_m. congruence. }
  assert (Hsp : forall s, spine m s -> is_multi m s = true).
  { intros s (c & d & Hc%Hhid & Hs). destruct (mi_copy _ _ _ I c Hc) as (q & d' & Hq & Hf & H2 & _).
    destruct (dir_rev_or d' d) as [-> | ->]; [congruence|]. rewrite <- (r_len (m_graph m)), Hs in H2. cbn in H2. lia. }
  assert (Hfl : forall s t, linked (m_graph m) s t -> ~ spine m s -> ~ spine m t -> is_multi m s = false).
  { intros s t Hl Hs Ht. destruct (is_multi m s) eqn:Hf; [|done]. exfalso. apply linked_lk in Hl.
    destruct (flag_paired w m I s Hf) as (n & d & y & n' & M & Hy & Hfy & M' & Hc). rewrite Hl in Hy. injection Hy as <-.
    destruct (is_copy m n) eqn:Hn.
    - apply Hs. destruct (mi_copy _ _ _ I n Hn) as (q & d' & Hq & _ & _ & _ & Ho).
      destruct (dir_rev_or d' d) as [-> | ->].
      + exists n, d'. split; [by apply Hhid|]. apply (r_elem w _ R) in M. rewrite Hq in M. apply elem_of_list_singleton in M as ->. done.
      + apply (r_elem w _ R) in M. rewrite (Ho s M) in Hf. done.
    - cbn in Hc. apply Ht. destruct (mi_copy _ _ _ I n' Hc) as (q & d' & Hq & _ & _ & _ & Ho).
      destruct (dir_rev_or d' (rev_dir d)) as [E | E]; rewrite E in M'.
      + exists n', d'. split; [by apply Hhid|]. apply (r_elem w _ R) in M'. rewrite Hq in M'. apply elem_of_list_singleton in M' as ->. done.
      + apply (r_elem w _ R) in M'. rewrite (Ho t M') in Hfy. done. }
  assert (Hmain : forall n, is_copy m n = false -> m_main_node m n = Ok n) by (intros n Hn; unfold m_main_node; by rewrite Hn).
  assert (Hcm : forall c, is_copy m c = true -> exists n d q p, m_main_node m c = Ok n /\ m_contains_node m n = true
        /\ ports (m_graph m) c d = [q] /\ linked (m_graph m) q p /\ port_node (m_graph m) p = Some n
        /\ 2 <= num_ports (m_graph m) c (rev_dir d) /\ raws m p = ports (m_graph m) c (rev_dir d) /\ vis m p).
  { intros c Hc. destruct (copy_vis w Hw1 m I c Hc) as (q & d & p & n & Hq & Hfq & Hl & Hl' & Hfp & Hp & Hmq & Hn & Hr' & Hcp & H2 & _).
    exists n, d, q, p. split_and!; try done.
    - unfold m_main_node. rewrite Hc. cbn [negb]. rewrite Hcp. cbn [mbind res_bind unwrap]. by rewrite (pm_node _ _ _ _ Hp).
    - apply contains_node_m. split; [|done]. by eapply (r_node w _ R).
    - by apply linked_lk.
    - by eapply pm_node.
    - by exists n, (rev_dir d). }
  split; [intros n [_ Hn]%contains_node_m; by apply Hmain|]. split.
  { intros c Hc%Hhid. destruct (Hcm c Hc) as (n & d & q & p & H1 & H2 & H3 & H4 & H5 & H6 & _). by exists n, d, q, p. }
  exists (psub w m).
  assert (Hps : forall s t, linked (m_graph m) s t -> ~ spine m s -> ~ spine m t ->
    vis m (psub w m s).1 /\ raws m (psub w m s).1 !! (psub w m s).2 = Some s).
  { intros s t Hl Hs Ht. apply (psub_ok w Hw1 m I); [|by eapply Hfl]. apply linked_lk in Hl.
    destruct (r_lk_meta w _ R _ _ Hl) as (n & d & n' & M & _). eauto. }
  assert (Hsym : forall s t, linked (m_graph m) s t -> linked (m_graph m) t s).
  { intros s t Hl%linked_lk. apply linked_lk. by apply (r_lk_sym w _ R). }
  split; [|split].
  - intros s t Hl Hs Ht. destruct (Hps s t Hl Hs Ht) as [V1 R1]. destruct (Hps t s (Hsym _ _ Hl) Ht Hs) as [V2 R2]. split.
    + apply (mlinked_iff w Hw1 m I). split; [done|]. split; [done|]. exists s, t. split_and!; try done. by apply linked_lk.
    + pose proof V1 as (n & d & M & Hn). exists n. split; [|by eapply pm_node].
      destruct (is_multi m (psub w m s).1) eqn:Hf.
      * destruct (flag_vis w m I _ _ _ Hf M Hn) as (q & c & Hlq & Hql & Hfq & Mq & Hc & Hq & Hr' & _). rewrite Hr' in R1.
        apply (r_look w _ R) in R1. exists c. split; [by eapply pm_node|].
        destruct (Hcm c Hc) as (n2 & d2 & q2 & p2 & H1 & H2 & H3 & H4 & H5 & H6 & H7 & V2').
        rewrite H1. f_equal. destruct (dir_rev_or d2 (rev_dir d)) as [E|E].
        -- rewrite E in Hq. rewrite H3 in Hq. injection Hq as ->. apply linked_lk in H4. rewrite Hql in H4. injection H4 as <-.
           rewrite (pm_node _ _ _ _ M) in H5. congruence.
        -- rewrite <- E in H6. rewrite <- (r_len (m_graph m)), Hq in H6. cbn in H6. lia.
      * rewrite raws_single in R1 by done. apply list_lookup_singleton_Some in R1 as [_ E]. rewrite E in M. exists n. split; [by eapply pm_node|]. by apply Hmain.
  - intros x y (V1 & V2 & s & t & R1 & R2 & El)%(mlinked_iff w Hw1 m I). exists s, t.
    assert (Hns : forall p i s, vis m p -> raws m p !! i = Some s -> ~ spine m s).
    { intros p i s' (n & d & M & Hn) Hi Hsp'%Hsp. destruct (raws_some w Hw1 m I p i s' n d M Hn Hi) as (Hf & _). congruence. }
    split_and!; [by apply linked_lk|exact (Hns _ _ _ V1 R1)|exact (Hns _ _ _ V2 R2)| |].
    + rewrite (psub_raw w Hw1 m I x.1 x.2 s V1 R1). by destruct x.
    + rewrite (psub_raw w Hw1 m I y.1 y.2 t V2 R2). by destruct y.
  - intros s t s' t' Hl Hs Ht Hl' Hs' Ht' E. destruct (Hps s t Hl Hs Ht) as [_ R1]. destruct (Hps s' t' Hl' Hs' Ht') as [_ R2].
    rewrite <- E in R2. congruence.
Qed.

Lemma C93_view_shorthands_pf :
forall E (V : lview E) N R, shows V N R ->
  (forall a b, N a -> exists l o c, lv_conn V a b = HOk l /\ lv_conn1 V a b = HOk o /\ o = head l /\ lv_connected V a b = HOk c
     /\ (c = true <-> exists x y, R x y /\ lv_pnode V (lv_port V x) = Some a /\ lv_pdir V (lv_port V x) = Some Outgoing
           /\ lv_pnode V (lv_port V y) = Some b)
     /\ forall x y, o = Some (x, y) -> R x y /\ lv_pnode V (lv_port V x) = Some a /\ lv_pdir V (lv_port V x) = Some Outgoing
           /\ lv_pnode V (lv_port V y) = Some b)
  /\ (forall p, port_in V N p -> exists l o, lv_plinks V p = HOk l /\ lv_plink V p = HOk o /\ o = snd <$> head l
     /\ (o = None <-> forall x y, R x y -> lv_port V x <> p)
     /\ forall y, o = Some y -> exists x, R x y /\ lv_port V x = p).
Proof.
  intros E V N R H. split.
  - intros a b Ha. destruct (lvs_conn _ _ _ H a b Ha) as (lo & l & Hlo & Hl & Hsub & Hel).
    assert (Hmem : forall x y, (x, y) ∈ lo <-> R x y /\ lv_pnode V (lv_port V x) = Some a /\ lv_pdir V (lv_port V x) = Some Outgoing).
    { intros x y. destruct (lvs_links _ _ _ H a Outgoing Ha) as (ls & l' & r & HF & -> & Hl' & _). rewrite Hlo in Hl'. injection Hl' as ->.
      destruct (lvs_ports _ _ _ H a Outgoing Ha) as [_ Hps]. rewrite elem_of_list_In, in_concat. split.
      - intros (l1 & Hl1 & Hxy). apply elem_of_list_In in Hl1. apply elem_of_list_lookup_1 in Hl1 as [i Hi].
        destruct (Forall2_lookup_r _ _ _ _ _ HF Hi) as (p & Hp & Elp). apply elem_of_list_lookup_2 in Hp.
        assert (Hpi : port_in V N p) by (exists a; split; [by apply Hps|done]).
        destruct (lvs_plinks _ _ _ H p Hpi) as (l2 & E2 & _ & H2). rewrite Elp in E2. injection E2 as <-.
        apply elem_of_list_In in Hxy. destruct (proj1 (H2 x y) Hxy) as [Hx HR]. rewrite Hx. split; [done|]. by apply Hps.
      - intros (HR & Hn & Hd). assert (Hp : lv_port V x ∈ lv_ports V a Outgoing) by (by apply Hps).
        apply elem_of_list_lookup_1 in Hp as [i Hi]. destruct (Forall2_lookup_l _ _ _ _ _ HF Hi) as (l1 & Hl1 & El1).
        exists l1. split; [apply elem_of_list_In; by eapply elem_of_list_lookup_2|].
        assert (Hpi : port_in V N (lv_port V x)) by (by exists a).
        destruct (lvs_plinks _ _ _ H _ Hpi) as (l2 & E2 & _ & H2). rewrite El1 in E2. injection E2 as <-.
        apply elem_of_list_In, H2. done. }
    exists l, (head l), (match head l with Some _ => true | None => false end).
    unfold lv_connected, lv_conn1. rewrite Hl. cbn [mbind hres_bind]. do 4 (split; [done|]).
    assert (Hin : forall x y, (x, y) ∈ l <-> R x y /\ lv_pnode V (lv_port V x) = Some a /\ lv_pdir V (lv_port V x) = Some Outgoing
           /\ lv_pnode V (lv_port V y) = Some b).
    { intros x y. rewrite Hel, Hmem. cbn [snd]. tauto. }
    split.
    + split.
      * destruct l as [|[x y] l]; [done|]. intros _. exists x, y. apply Hin. by left.
      * intros (x & y & Hxy%Hin). destruct l; [by apply elem_of_nil in Hxy|done].
    + intros x y Hh. apply Hin. destruct l; [done|]. injection Hh as ->. by left.
  - intros p Hp. destruct (lvs_plinks _ _ _ H p Hp) as (l & El & _ & Hl).
    exists l, (snd <$> head l). unfold lv_plink. rewrite El. cbn [mbind hres_bind]. do 3 (split; [done|]). split.
    + split.
      * destruct l as [|[x y] l]; [|done]. intros _ x y HR Hx. assert (Hxy : (x, y) ∈ []) by (by apply Hl). by apply elem_of_nil in Hxy.
      * intros Hno. destruct l as [|[x y] l]; [done|]. exfalso. destruct (proj1 (Hl x y)) as [Hx HR]; [by left|]. by eapply Hno.
    + intros y Hy. destruct l as [|[x y'] l]; [done|]. injection Hy as ->. destruct (proj1 (Hl x y)) as [Hx HR]; [by left|]. by exists x.
Qed.
