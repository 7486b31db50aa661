(** [PortGraph] and [MultiPortGraph] as views; link counts of filtered views;
    the multigraph methods of views. *)
From Verif Require Export ViewInst.

(** ** [PortGraph] *)
Section pg.
  Context (w : N) (g : pg) (Rg : reach w g).
  Lemma pg_pin p : port_in (lv_of_pg g) (fun n => contains_node g n = true) p <-> contains_port g p = true.
  Proof.
    unfold port_in, contains_port. cbn. unfold port_node. rewrite bool_decide_eq_true. split.
    - intros (n & E & _). destruct (pmeta g p); by eauto.
    - intros [[n d] E]. exists n. rewrite E. split; [done|]. by eapply (r_node w g Rg).
  Qed.
  Lemma pg_plinks p : contains_port g p = true -> port_links g p = Ok (option_list (link_of g p)).
  Proof.
    intros Hp. unfold contains_port in Hp. apply bool_decide_eq_true in Hp as [x Hp]. pose proof (r_port_link w g Rg p x Hp) as E. unfold link_of. rewrite E.
    unfold port_link in E. unfold port_links in *. rewrite Hp in *. cbn [unwrap] in *. rewrite bind_Ok in *.
    destruct (vget (pg_link g) p) as [[q|]|]; cbn in *; [| |done]; by injection E as <-.
  Qed.
  Lemma concat_omap {A B} (f : A -> option B) l : omap f l = concat (map (fun a => option_list (f a)) l).
  Proof. induction l as [|a l IH]; [done|]. cbn. by destruct (f a); rewrite <- IH. Qed.
  Lemma link_of_elem p x y : (x, y) ∈ option_list (link_of g p) <-> x = p /\ linked g x y.
  Proof.
    unfold link_of, linked. destruct (port_link g p) as [[q|]|] eqn:El; cbn; rewrite ?elem_of_list_singleton, ?elem_of_nil; split.
    - by intros [= -> ->].
    - intros [-> E]. congruence.
    - done.
    - intros [-> E]. congruence.
    - done.
    - intros [-> E]. congruence.
  Qed.
  Lemma pg_shows : shows (lv_of_pg g) (fun n => contains_node g n = true) (linked g).
  Proof.
    destruct (C17_nodes_and_ports_pf w g Rg) as (N1 & N2 & N3 & _ & P1 & P2 & P3 & _).
    split; cbn [lv_has_node lv_of_pg lv_nodes lv_node_count lv_has_port lv_port_list lv_port_count lv_ports lv_all_ports lv_pnode lv_pdir lv_port id
      lv_plinks lv_links lv_neigh lv_all_links lv_all_neigh lv_conn].
    - done.
    - exists (nodes_iter g). split_and!; [done|by apply sorted_lt_nodup|done|by rewrite N3].
    - intros p. eexists. split; [done|]. by rewrite pg_pin.
    - exists (ports_iter g). split_and!; [done|by apply sorted_lt_nodup| |by rewrite P3]. intros p. by rewrite pg_pin.
    - intros n d Hn. split; [apply r_nodup|]. intros p. rewrite (r_elem w g Rg). split.
      + intros Hp. split; [by eapply pm_node|by eapply pm_dir].
      + intros [H1 H2]. by apply pm_of.
    - intros n. apply (all_ports_app (m_from g)).
    - intros p. unfold port_node, port_direction. by destruct (pmeta g p).
    - intros x y H. by apply (C01_links_symmetric_pf w g x y Rg).
    - unfold linked. congruence.
    - intros x y H. apply pg_pin. by apply (C01_links_symmetric_pf w g x y Rg).
    - intros x y d H. apply (C01_links_symmetric_pf w g x y Rg) in H as (_ & _ & _ & _ & (d' & E1 & E2) & _). congruence.
    - intros p Hp%pg_pin. rewrite pg_plinks by done. cbn. eexists. split; [done|]. split; [by destruct (link_of g p); repeat constructor; apply not_elem_of_nil|].
      intros x y. by rewrite link_of_elem.
    - intros n d Hn. destruct (C18_links_pf w g n Rg) as [HL _]. destruct (HL d) as (L & Nn & s & EL & HLe & EN & F & _).
      exists (map (fun p => option_list (link_of g p)) (ports g n d)), L, Nn. split_and!.
      + apply Forall2_fmap_r, Forall2_same_length_lookup. split; [done|]. intros i p q Hp Hq. assert (q = p) as -> by congruence.
        rewrite pg_plinks; [done|]. unfold contains_port. apply bool_decide_eq_true. eexists. by eapply (r_look w g Rg).
      + by rewrite HLe, concat_omap.
      + by rewrite EL.
      + by rewrite EN.
      + done.
    - intros n Hn. destruct (C18_links_pf w g n Rg) as [HL (L & Nn & s & EL & HLe & EN & F & _)].
      destruct (HL Incoming) as (Li & _ & _ & ELi & Hi & _). destruct (HL Outgoing) as (Lo & _ & _ & ELo & Ho & _).
      exists Li, Lo, L, Nn. rewrite ELi, ELo, EL, EN. rewrite omap_app, <- Hi, <- Ho in HLe. split_and!; try done.
      + rewrite HLe. apply sublist_filter'.
      + intros x. rewrite HLe, elem_of_list_filter. tauto.
    - intros a b Ha. destruct (C18_connections_pf w g a b Rg) as (C & s & EC & HC & _). destruct (C18_links_pf w g a Rg) as [HL _].
      destruct (HL Outgoing) as (Lo & _ & _ & ELo & Ho & _). exists Lo, C. rewrite ELo, EC. rewrite <- Ho in HC. split_and!; try done.
      + rewrite HC. apply sublist_filter'.
      + intros x. rewrite HC, elem_of_list_filter. tauto.
  Qed.
  Lemma pg_empty : tells_empty (lv_of_pg g) (fun n => contains_node g n = true).
  Proof.
    destruct (C03_counts_pf w g Rg) as (_ & _ & _ & _ & H). eexists. split; [done|]. rewrite H. split; intros HH n; specialize (HH n); destruct (contains_node g n); congruence.
  Qed.
  Lemma pg_counts : counts_links (lv_of_pg g) (linked g).
  Proof.
    destruct (C03_counts_pf w g Rg) as (_ & _ & (L & Hnd & HL & Hlen) & _ & _).
    exists (omap (link_of g) L). assert (HA : forall L', (forall p, p ∈ L' -> exists q, linked g p q) -> length (omap (link_of g) L') = length L').
    { induction L' as [|p L' IH]; intros HP; [done|]. cbn. destruct (HP p) as [q Hq]; [by left|]. unfold link_of at 1. rewrite Hq. cbn.
      rewrite IH; [done|]. intros; apply HP; by right. }
    split; [split|].
    - assert (HN : forall L', NoDup L' -> NoDup (omap (link_of g) L')).
      { induction 1 as [|p L' Hp _ IH]; [constructor|]. cbn. destruct (link_of g p) as [[a b]|] eqn:E; [|done]. constructor; [|done].
        intros (p' & Hp' & E')%elem_of_list_omap. assert (a = p /\ a = p') as [-> ->]; [|done].
        split; [eapply link_of_elem|eapply link_of_elem]; [erewrite E|erewrite E']; by left. }
      by apply HN.
    - intros x y. rewrite elem_of_list_omap. setoid_rewrite HL. split.
      + intros (p & [Hd _] & E). assert ((x, y) ∈ option_list (link_of g p)) as [-> HH]%link_of_elem by (rewrite E; by left). done.
      + intros [Hl Hd]. exists x. split; [eauto|]. unfold link_of. by rewrite Hl.
    - cbn. rewrite HA; [by rewrite Hlen|]. intros p [_ Hp]%HL. done.
  Qed.
End pg.

(** ** [MultiPortGraph] *)
Section m.
  Context (w : N) (Hw2 : (2 < w <= 63)%N) (m : mpg) (Rm : mreach w m).
  Let Hw : (1 < w <= 63)%N := w1 w Hw2.
  Let I : minv w m [] := mreach_minv w Hw2 m Rm.
  Let Rg : reach w (m_graph m) := mi_reach w m [] I.
  Lemma m_pin p : port_in (lv_of_m w m) (fun n => m_contains_node m n = true) p <-> m_contains_port m p = true.
  Proof.
    unfold port_in, m_contains_port. cbn. destruct (port_node (m_graph m) p) as [n|] eqn:E.
    - rewrite negb_true_iff. split.
      + intros (n' & [= <-] & H%contains_node_m). tauto.
      + intros H. exists n. split; [done|]. apply contains_node_m. split; [|done].
        unfold port_node in E. destruct (pmeta (m_graph m) p) as [[n' d]|] eqn:Ep; [|done]. injection E as ->. by eapply (r_node w _ Rg).
    - split; [by intros (n & ? & _)|done].
  Qed.
  Lemma m_shows : shows (lv_of_m w m) (fun n => m_contains_node m n = true) (mlinked w m).
  Proof.
    destruct (C55_multi_counts_partial_pf w m Hw2 Rm) as (kn & kp & kl & lp & En & Ep & El & _ & _ & _ & Cn & Elp & Cp & _).
    destruct (ports_iter_ok w m I) as (lp' & Elp' & Hlp & Slp). rewrite Elp in Elp'. injection Elp' as <-.
    assert (Vn : forall n d p, m_contains_node m n = true -> p ∈ ports (m_graph m) n d -> vis m p).
    { intros n d p [_ Hc]%contains_node_m Hp%(r_elem w _ Rg). by exists n, d. }
    split; cbn [lv_has_node lv_of_m lv_nodes lv_node_count lv_has_port lv_port_list lv_port_count lv_ports lv_all_ports lv_pnode lv_pdir lv_port id
      lv_plinks lv_links lv_neigh lv_all_links lv_all_neigh lv_conn].
    - done.
    - exists (m_nodes_iter m). split_and!; [done|by apply sorted_lt_nodup, (nodes_iter_sorted w m I)| |rewrite En, Cn; done].
      intros n. by apply (MultiView.nodes_iter_elem w Hw m I).
    - intros p. eexists. split; [done|]. by rewrite m_pin.
    - exists lp. rewrite Elp, Ep, Cp. split_and!; [done|by apply sorted_lt_nodup| |done]. intros p. by rewrite m_pin.
    - intros n d Hn. split; [apply r_nodup|]. intros p. rewrite (r_elem w _ Rg). split.
      + intros Hp. split; [by eapply pm_node|by eapply pm_dir].
      + intros [H1 H2]. by apply pm_of.
    - intros n. apply all_ports_app.
    - intros p. unfold port_node, port_direction. by destruct (pmeta (m_graph m) p).
    - intros x y. rewrite !(mlinked_iff w Hw m I). apply (rlink_sym w m I).
    - intros x y z. rewrite !(mlinked_iff w Hw m I). apply (rlink_fun w Hw m I).
    - intros x y [H _]. by apply m_pin.
    - intros x y d. rewrite (mlinked_iff w Hw m I). intros (n & d' & n' & E1 & E2 & _)%(rlink_dir w Hw m I).
      rewrite (pm_dir _ _ _ _ E1), (pm_dir _ _ _ _ E2). by intros [= ->].
    - intros p Hp%m_pin. apply vis_contains in Hp. rewrite (port_links_eq w Hw m I p Hp). cbn. eexists. split; [done|].
      split; [by apply (plinks_nodup w)|]. intros x y. by rewrite (plinks_elem w Hw m I p x y Hp), (mlinked_iff w Hw m I).
    - intros n d Hn. pose proof Hn as [_ Hc]%contains_node_m. destruct (neighbours_ok w Hw m I n d Hc) as (l & r & E1 & E2 & F).
      pose proof E1 as E3. rewrite (links_eq w Hw m I n d Hc) in E3. injection E3 as E3.
      exists (map (plinks w m) (ports (m_graph m) n d)), l, r. rewrite E1, E2. split_and!; try done.
      apply Forall2_fmap_r, Forall2_same_length_lookup. split; [done|]. intros i p q Hp Hq. assert (q = p) as -> by congruence.
      rewrite (port_links_eq w Hw m I); [done|]. apply (Vn n d); [done|]. by eapply elem_of_list_lookup_2.
    - intros n Hn. pose proof Hn as [_ Hc]%contains_node_m. destruct (all_neighbours_ok w Hw m I n Hc) as (l & r & E1 & E2 & F).
      pose proof E1 as E3. rewrite (all_links_eq w Hw m I n Hc) in E3. injection E3 as E3.
      rewrite !(links_eq w Hw m I n _ Hc), E1, E2. cbn [lift]. eexists _, _, l, r. split; [done|]. split; [done|]. rewrite <- concat_app, <- map_app, <- all_ports_app.
      split; [rewrite <- E3; apply sublist_filter'|]. split; [|done]. intros [x y]. rewrite <- E3, elem_of_list_filter. cbn [fst snd].
      enough (HH : (x, y) ∈ concat (map (plinks w m) (all_ports (m_graph m) n)) ->
        not_own m n (x, y) <-> ~ (port_direction (m_graph m) x.1 = Some Incoming /\ port_node (m_graph m) y.1 = Some n)) by tauto.
      intros (l' & Hx & (p & -> & Hp)%elem_of_list_fmap)%elem_concat.
      assert (Vp : vis m p) by (by eapply (vis_all w m I)).
      apply (plinks_elem w Hw m I p x y Vp) in Hx as [Hxp HR]. destruct (rlink_dir w Hw m I x y HR) as (nx & d & ny & M1 & M2 & _).
      unfold not_own. cbn [snd]. rewrite (r_elem w _ Rg), (pm_dir _ _ _ _ M1), (pm_node _ _ _ _ M2), M2. destruct d; naive_solver.
    - intros a b Ha. pose proof Ha as [_ Hc]%contains_node_m. unfold m_get_connections. rewrite (links_eq w Hw m I a _ Hc), bind_Ok. cbn [lift].
      eexists _, _. split; [done|]. split; [done|]. split; [apply sublist_filter'|]. intros x. rewrite elem_of_list_filter. tauto.
  Qed.
  Lemma m_empty : tells_empty (lv_of_m w m) (fun n => m_contains_node m n = true).
  Proof.
    destruct (C55_multi_counts_partial_pf w m Hw2 Rm) as (kn & kp & kl & lp & _ & _ & _ & _ & _ & _ & _ & _ & _ & e & Ee & He).
    exists e. cbn. rewrite Ee. split; [done|]. rewrite He. split; intros HH n; specialize (HH n); destruct (m_contains_node m n); congruence.
  Qed.
  Lemma m_counts : counts_links (lv_of_m w m) (mlinked w m).
  Proof.
    destruct (C55_multi_counts_partial_pf w m Hw2 Rm) as (kn & kp & kl & lp & _ & _ & El & _ & _ & (L & Hnd & HL & Hlen) & _).
    exists L. cbn. rewrite El, Hlen. split; [|done]. split; [done|]. intros x y. by rewrite HL.
  Qed.
  Lemma m_shows_sub : shows_sub (mv_of_m w m) (fun n => m_contains_node m n = true) (mlinked w m).
  Proof.
    assert (Vn : forall n d p, m_contains_node m n = true -> p ∈ ports (m_graph m) n d -> vis m p).
    { intros n d p [_ Hc]%contains_node_m Hp%(r_elem w _ Rg). by exists n, d. }
    assert (Es : forall n d, m_contains_node m n = true -> m_subports m n d = Ok (concat (map (subs m) (ports (m_graph m) n d)))).
    { intros n d Hn. unfold m_subports. rewrite (subs_all w Hw m I); [done|]. intros p. by apply Vn. }
    assert (Ee : forall n d x, m_contains_node m n = true -> x ∈ concat (map (subs m) (ports (m_graph m) n d)) <-> x.1 ∈ ports (m_graph m) n d /\ x.2 < length (raws m x.1)).
    { intros n d x Hn. rewrite elem_concat. split.
      - intros (l & Hx & (p & -> & Hp)%elem_of_list_fmap). apply (subs_elem w Hw) in Hx as [<- ?]. done.
      - intros [Hp Hx]. exists (subs m x.1). split; [by apply (subs_elem w Hw)|]. apply elem_of_list_fmap. eauto. }
    split; cbn [mv_view mv_of_m mv_subports mv_all_subports mv_sublink lv_of_m lv_port lv_ports].
    - intros n d Hn. rewrite Es by done. eexists. split; [done|]. split_and!.
      + pose proof (r_nodup (m_graph m) n d) as Hnd. induction Hnd as [|p ps Hp Hps IH]; [constructor|]. cbn [map concat]. apply NoDup_app.
        split; [unfold subs; apply NoDup_fmap_2; [intros ? ? [= ->]; done|apply NoDup_seq]|]. split; [|done].
        intros x [Hx _]%(subs_elem w Hw) (l & Hx' & (q & -> & Hq)%elem_of_list_fmap)%elem_concat. apply (subs_elem w Hw) in Hx' as [Hx' _]. by subst.
      + intros x Hx%Ee; [|done]. apply Hx.
      + intros x y Hl Hx. apply Ee; [done|]. split; [done|]. apply (mlinked_iff w Hw m I) in Hl as (_ & _ & s & t & Hs & _). by eapply lookup_lt_Some.
    - intros n Hn. rewrite !Es by done. unfold m_all_subports. rewrite all_ports_app, (subs_all w Hw m I).
      2:{ intros p [Hp|Hp]%elem_of_app; by eapply Vn. }
      rewrite bind_Ok. eexists _, _. split; [done|]. split; [done|]. cbn. by rewrite map_app, concat_app.
    - intros n d l x Hn El Hx. rewrite Es in El by done. apply hok_inj in El as <-. apply Ee in Hx as [Hp Hx]; [|done].
      apply lookup_lt_is_Some in Hx as [s Hs]. pose proof (Vn n d _ Hn Hp) as Vx. destruct x as [p k]. cbn [fst snd] in *.
      rewrite (subport_link_eq w Hw m I p k s Vx Hs). eexists. split; [done|]. intros y. rewrite (mlinked_iff w Hw m I). split.
      + intros Hy. destruct (rlink_dec w Hw m I (p, k)) as [[y' HR]|HR].
        * pose proof (subport_link_rlink w Hw m I _ _ HR) as E. rewrite (subport_link_eq w Hw m I p k s Vx Hs) in E. injection E as E. rewrite E in Hy. by injection Hy as ->.
        * exfalso. destruct Vx as (n0 & d0 & Mp & Cn). destruct (raws_some w Hw m I _ _ _ _ _ Mp Cn Hs) as (F & _).
          destruct (lk (m_graph m) s) as [t|] eqn:L; [|done]. destruct (lk_psub w Hw m I s t L F) as (E & V' & Hr). eapply (HR (psub w m t)).
          split; [by exists n0, d0|]. split; [done|]. exists s, t. done.
      + intros HR. pose proof (subport_link_rlink w Hw m I _ _ HR) as E. rewrite (subport_link_eq w Hw m I p k s Vx Hs) in E. by injection E as E.
  Qed.
End m.
