(** Topological sorting and convexity checking on views. *)
From Verif Require Export VAlgSpec PordLoop TopoThms GLcc.

Section vtopo.
  Context {E : Type} (V : lview E) (N : nat -> Prop) (R : E -> E -> Prop) (H : shows V N R).

  Lemma gvis_dlink d a p q b : glink (gvis V) d a p q b <->
    exists x y, R x y /\ lv_port V x = p /\ lv_port V y = q /\ lv_pnode V p = Some a /\ lv_pdir V p = Some d /\ lv_pnode V q = Some b.
  Proof.
    unfold glink. rewrite !(vis_ports' V N R H). split.
    - intros ((Ha & Hp & Hd) & Hl & (Hb & Hq & _)). apply (vis_glk' V N R H) in Hl as (x & y & Hr & Hx & Hy); [|by exists a]. by exists x, y.
    - intros (x & y & Hr & Hx & Hy & Hp & Hd & Hq). destruct (lvs_end _ _ _ H _ _ Hr) as (a' & Ha & HNa). rewrite Hx, Hp in Ha. injection Ha as <-.
      destruct (lvs_end _ _ _ H _ _ (lvs_sym _ _ _ H _ _ Hr)) as (b' & Hb & HNb). rewrite Hy, Hq in Hb. injection Hb as <-.
      split; [done|]. split; [apply (vis_glk' V N R H); [by exists a|by exists x, y]|]. split; [done|]. split; [done|]. rewrite <- Hy. apply (lvs_opp _ _ _ H _ _ _ Hr). by rewrite Hx.
  Qed.
  Lemma dedge_glink d a b : vdedge V R d a b <-> exists p q, glink (gvis V) d a p q b.
  Proof.
    setoid_rewrite gvis_dlink. split.
    - intros (x & y & Hr & Ha & Hd & Hb). exists (lv_port V x), (lv_port V y), x, y. done.
    - intros (p & q & x & y & Hr & <- & <- & Ha & Hd & Hb). by exists x, y.
  Qed.
  Lemma dedge_N d a b : vdedge V R d a b -> N a /\ N b.
  Proof. intros (p & q & Hp & _ & Hq)%dedge_glink. apply (vis_ports' V N R H) in Hp as [Ha _]. by apply (vis_ports' V N R H) in Hq as [Hb _]. Qed.
  Lemma dedge_rev d a b : vdedge V R d a b -> vdedge V R (rev_dir d) b a.
  Proof. intros (x & y & Hr & Ha & Hd & Hb). exists y, x. split; [by apply H|]. split; [done|]. split; [|done]. by apply (lvs_opp _ _ _ H _ _ _ Hr). Qed.
  Lemma nodes_N : exists L, gv_nodes (gv_of_lv V) = L /\ NoDup L /\ forall n, n ∈ L <-> N n.
  Proof. destruct (lvs_nodes _ _ _ H) as (L & EL & Hnd & HL & _). exists L. cbn. by rewrite EL. Qed.
  Lemma dedge_acc d : vacyclic V R -> forall x, Acc (vdedge V R d) x.
  Proof.
    intros Hac. destruct nodes_N as (L & _ & _ & HL). apply (fin_acc _ L); [intros x y Hxy; rewrite !HL; by apply (dedge_N d)|].
    intros a Ha. destruct d; [|by apply (Hac a)]. apply (Hac a).
    assert (Hf : forall x y, tc (vdedge V R Incoming) x y -> tc (vdedge V R Outgoing) y x).
    { intros x y. induction 1 as [x y Hxy|x y z Hxy _ IH].
      - apply tc_once. by apply (dedge_rev Incoming).
      - eapply tc_r; [exact IH|]. by apply (dedge_rev Incoming). }
    by apply Hf.
  Qed.
  Lemma vcollect d nf pf src fuel : (forall n, n ∈ src -> N n) ->
    topo_collect (gv_of_lv V) d nf pf fuel (topo_new (gv_of_lv V) d nf src) = topo_collect (gvis V) d nf pf fuel (topo_new (gvis V) d nf src).
  Proof.
    intros Hs. rewrite (topo_new_cong (gv_of_lv V) (gvis V)) by (intros n dd Hn; by apply (ports_eq V N R H), Hs).
    unfold topo_new. apply (collect_cong _ _ N); [done| | |intros n [_ Hn]%elem_of_list_filter; by apply Hs].
    - intros n dd. apply (ports_eq V N R H).
    - intros n p q Hn Hpp Hl. rewrite (ports_eq V N R H) in Hpp by done. apply (vis_ports' V N R H) in Hpp as (_ & Hpn & _).
      change (glk (gv_of_lv V) p q) with (glk (gvis V) p q) in Hl. apply (vis_glk' V N R H) in Hl as (x & y & Hr & Hx & Hy); [|by exists n].
      destruct (lvs_end _ _ _ H _ _ (lvs_sym _ _ _ H _ _ Hr)) as (m & Hm & HNm). rewrite Hy in Hm. cbn. rewrite Hm, (proj2 (has_N V N R H m) HNm).
      split; [done|]. by intros t [= <-].
  Qed.

  Lemma vtopo_ok d src : NoDup src -> (forall n, n ∈ src -> N n) -> exists l,
    (forall fuel, length l < fuel ->
       topo_collect (gv_of_lv V) d (fun _ => true) (fun _ _ => true) fuel (topo_new (gv_of_lv V) d (fun _ => true) src) = HOk l)
    /\ NoDup l
    /\ (exists rest, l = src ++ rest)
    /\ (forall n, n ∈ l -> N n)
    /\ (forall n, n ∈ l -> n ∉ src -> (exists a, vdedge V R d a n) /\
          forall x y, R x y -> lv_pnode V (lv_port V y) = Some n -> lv_pdir V (lv_port V y) = Some (rev_dir d) ->
            exists x' y' a, R x' y' /\ lv_port V y' = lv_port V y /\ lv_pnode V (lv_port V x') = Some a /\ before l a n)
    /\ (one_node V R (rev_dir d) -> forall n a, n ∈ l -> n ∉ src -> vdedge V R d a n -> before l a n)
    /\ (forall n, (exists a, vdedge V R d a n) -> (forall a, vdedge V R d a n -> a ∈ l) -> n ∈ l)
    /\ (vacyclic V R -> (forall n, N n -> (~ exists a, vdedge V R d a n) -> n ∈ src) -> forall n, n ∈ l <-> N n).
  Proof.
    intros Hnd Hsrc. pose proof (gvis_wf V N R H) as W.
    destruct (topo_gen0 (gvis V) d tt1 tt2 W src Hnd) as (l & x & Hx & Hrun & Hndl & Hel & Hord).
    exists l. split.
    { intros fuel Hf. rewrite vcollect by done. unfold topo_new. change (fun n => true = true) with (fun n => tt1 n = true). rewrite filter_tt. by apply Hrun. }
    split; [done|]. split; [by exists x|].
    assert (Hnodes : forall n, n ∈ l -> N n).
    { intros n [Hn|(_ & (u & p & q & _ & (_ & _ & Hq) & _) & _)]%Hel; [by apply Hsrc|]. by apply (vis_ports' V N R H) in Hq as [? _]. }
    split; [done|].
    assert (HG : forall u p q n, glink (gvis V) d u p q n -> vdedge V R d u n) by (intros u p q n G; apply dedge_glink; eauto).
    assert (Hin : forall n, (exists a, vdedge V R d a n) -> (forall a, vdedge V R d a n -> a ∈ l) -> n ∈ l).
    { intros n (a & (p & q & Hpq)%dedge_glink) Hall. apply Hel. right. split; [done|]. split.
      - exists a, p, q. split; [apply Hall; by eapply HG|done].
      - intros q' z Hq' Hz _. destruct (wf_sym _ W _ _ _ _ Hq' Hz) as [Hz' [u Hu]]. rewrite rev_dir_invol in Hu.
        assert (G : glink (gvis V) d u z q' n) by (by split_and!). exists u, z. split; [apply Hall; by eapply HG|done]. }
    assert (Hq : forall n x y, R x y -> lv_pnode V (lv_port V y) = Some n -> lv_pdir V (lv_port V y) = Some (rev_dir d) ->
       lv_port V y ∈ gv_ports (gvis V) n (rev_dir d) /\ glk (gvis V) (lv_port V y) (lv_port V x)).
    { intros n y z Hr Hn Hd. pose proof (lvs_sym _ _ _ H _ _ Hr) as Hr'. pose proof (lvs_end _ _ _ H _ _ Hr') as Hz. pose proof Hz as (n' & En & HNn).
      rewrite Hn in En. injection En as <-. split; [by apply (vis_ports' V N R H)|]. apply (vis_glk' V N R H); [done|]. by exists z, y. }
    assert (Hstep : forall n, n ∈ l -> n ∉ src -> (exists a, vdedge V R d a n) /\
          forall x y, R x y -> lv_pnode V (lv_port V y) = Some n -> lv_pdir V (lv_port V y) = Some (rev_dir d) ->
            exists x' y' a, R x' y' /\ lv_port V y' = lv_port V y /\ lv_pnode V (lv_port V x') = Some a /\ before l a n).
    { intros n Hn Hns. apply elem_of_list_split in Hn as (L1 & L2 & ->).
      destruct (Hord L1 n L2 eq_refl Hns) as [(u & p & q & Hl & _) Hall]. split; [exists u; by eapply HG|].
      intros x' y' L Hy Hd. destruct (Hq _ _ _ L Hy Hd) as [A B].
      destruct (Hall _ _ A B eq_refl) as (u' & p' & G & _ & Hu'). apply gvis_dlink in G as (x1 & y1 & R1 & <- & E1 & Hp' & _).
      exists x1, y1, u'. split; [done|]. split; [done|]. split; [done|]. by apply before_app. }
    split; [done|]. split.
    { intros Hs n a Hn Hns (x1 & y1 & R1 & Ha & Hd & Hb). destruct (Hstep n Hn Hns) as [_ Hall].
      pose proof (proj1 (conj (lvs_opp _ _ _ H _ _ _ R1 Hd) I)) as Hd'.
      destruct (Hall x1 y1 R1 Hb Hd') as (x2 & y2 & a2 & R2 & Ep & Ha2 & Hbef).
      assert (lv_pnode V (lv_port V x1) = lv_pnode V (lv_port V x2)) as Ex.
      { apply (Hs y1 x1 y2 x2); [by apply H|by apply H|done|done]. }
      rewrite Ha, Ha2 in Ex. by injection Ex as ->. }
    split; [done|].
    intros Hac Hroots n. split; [apply Hnodes|].
    pose proof (dedge_acc d Hac n) as Hacc. induction Hacc as [n _ IH]. intros Hn.
    destruct (decide (n ∈ l)) as [|Hnl]; [done|]. exfalso. apply Hnl.
    destruct (decide (n ∈ src)) as [Hs|Hs]; [rewrite Hx; set_solver|].
    assert (Hpred : ~ ~ exists a, vdedge V R d a n) by (intros Hno; apply Hs, Hroots; done).
    exfalso. apply Hpred. intros Hex. apply Hnl, Hin; [done|].
    intros a Ha. apply IH; [done|]. exact (proj1 (dedge_N d _ _ Ha)).
  Qed.

  (** ** Convexity *)
  Lemma lv_nb_ok n d : N n -> exists l, lv_nb V n d = Ok l /\ forall m, m ∈ l <-> vdedge V R d n m.
  Proof.
    intros Hn. destruct (neigh_ok V N R H n d Hn) as (_ & r & E0 & _ & _ & _ & Hr). exists r. unfold lv_nb. rewrite E0. split; [done|].
    intros m. rewrite Hr. destruct d; cbn; [|done]. split; [apply (dedge_rev Outgoing)|apply (dedge_rev Incoming)].
  Qed.
  Section cc.
    Context (Hac : vacyclic V R) (Hone : one_node V R Incoming).
    Lemma vtopsort_ok : exists l,
      (forall fuel, length l < fuel -> cc_topsort (gv_of_lv V) (lv_nb V) fuel = HOk l)
      /\ NoDup l /\ (forall n, n ∈ l <-> N n) /\ (forall a b, vdedge V R Outgoing a b -> before l a b).
    Proof.
      destruct nodes_N as (L & EL & HndL & HL).
      destruct (rfilter_ok (fun n => l ← lv_nb V n Incoming; Ok (bool_decide (length l = 0)))
        (fun n => ~ exists a, vdedge V R Outgoing a n) L) as (src & Hsrc & Hel & Hnd).
      { intros n Hn%HL. destruct (lv_nb_ok n Incoming Hn) as (r & -> & Hr). cbn [mbind res_bind]. eexists. split; [done|].
        rewrite bool_decide_eq_true. split.
        - intros HN0 (a & Ha). apply (dedge_rev Outgoing) in Ha. apply Hr in Ha. destruct r; [by apply elem_of_nil in Ha|done].
        - intros Hno. destruct r as [|a r]; [done|]. exfalso. apply Hno. exists a. apply (dedge_rev Incoming), Hr. by left. }
      specialize (Hnd HndL).
      destruct (vtopo_ok Outgoing src Hnd) as (l & Hrun & Hndl & _ & _ & _ & Hord & _ & Hall); [intros n [Hn _]%Hel; by apply HL|].
      assert (Hl : forall n, n ∈ l <-> N n).
      { apply Hall; [done|]. intros n Hn Hno. apply Hel. split; [by apply HL|done]. }
      exists l. split.
      { intros fuel Hf. unfold cc_topsort. rewrite EL, Hsrc. cbn [lift mbind hres_bind]. by apply Hrun. }
      split; [done|]. split; [done|].
      intros a b Hab. apply Hord; [done|apply Hl; by apply (dedge_N Outgoing a b)|intros [_ Hn]%Hel; by apply Hn; exists a|done].
    Qed.
    Lemma vtcc_new_ok : exists c n, tcc_good N (vdedge V R Outgoing) c /\ n = length (tcc_nodes c) /\
      forall fuel, n < fuel -> tcc_new (gv_of_lv V) (lv_nb V) fuel = HOk c.
    Proof.
      destruct vtopsort_ok as (l & Hrun & Hnd & Hall & Hord). destruct (nti_ok' l Hnd) as (m & Hm & H1 & _).
      exists (TCC l m), (length l). split; [by split|]. split; [done|]. intros fuel Hf. unfold tcc_new. rewrite Hrun by done. cbn [mbind hres_bind].
      by rewrite Hm.
    Qed.

    Definition vlk (p : nat) : list nat := match gv_links (gv_of_lv V) p with Ok l => l | Panic => [] end.
    Lemma vlk_ok p : port_in V N p -> exists l, lv_plinks V p = HOk l /\ NoDup l /\ (forall x y, (x, y) ∈ l <-> lv_port V x = p /\ R x y) /\
      vlk p = map (fun x => lv_port V x.2) l /\ gv_links (gv_of_lv V) p = Ok (vlk p).
    Proof.
      intros Hp. destruct (lvs_plinks _ _ _ H p Hp) as (l & El & Hnd & Hl). exists l. split; [done|]. split; [done|]. split; [done|].
      unfold vlk. cbn. rewrite El. done.
    Qed.
    Lemma vlk_elem p q : port_in V N p -> q ∈ vlk p <-> vlinked V R p q.
    Proof.
      intros Hp. destruct (vlk_ok p Hp) as (l & _ & _ & Hl & -> & _). rewrite elem_of_list_In, in_map_iff. setoid_rewrite <- elem_of_list_In. split.
      - intros ([x y] & <- & [Hx Hr]%Hl). by exists x, y.
      - intros (x & y & Hr & Hx & <-). exists (x, y). split; [done|]. by apply Hl.
    Qed.
    Lemma occ_map {A} (f : A -> nat) q (l : list A) : occ q (map f l) = length (filter (fun x => f x = q) l).
    Proof. clear. induction l as [|x l IH]; [done|]. cbn [map]. rewrite occ_cons, filter_cons, IH. by destruct (decide (f x = q)). Qed.
    Lemma vlk_occ p q : port_in V N p -> port_in V N q -> occ q (vlk p) = occ p (vlk q).
    Proof.
      intros Hp Hq. destruct (vlk_ok p Hp) as (l & _ & Hnd & Hl & -> & _). destruct (vlk_ok q Hq) as (k & _ & Hndk & Hk & -> & _).
      rewrite !occ_map. rewrite <- (map_length (fun x : E * E => (x.2, x.1)) (filter _ l)). apply Permutation_length, NoDup_Permutation.
      - apply (NoDup_fmap_2_strong (fun x : E * E => (x.2, x.1))); [by intros [x y] [x' y'] _ _ [= -> ->]|by apply NoDup_filter].
      - by apply NoDup_filter.
      - intros [y x]. rewrite elem_of_list_In, in_map_iff, elem_of_list_filter, Hk. cbn [fst snd]. split.
        + intros ([x' y'] & [= -> ->] & [Hy [Hx Hr]%Hl]%elem_of_list_In%elem_of_list_filter). cbn in Hy. split; [done|]. split; [done|by apply H].
        + intros (Hx & Hy & Hr). exists (x, y). split; [done|]. apply elem_of_list_In, elem_of_list_filter. cbn. split; [done|]. apply Hl. split; [done|by apply H].
    Qed.
    Lemma vpin n d p : N n -> p ∈ gv_ports (gv_of_lv V) n d -> port_in V N p /\ lv_pnode V p = Some n /\ lv_pdir V p = Some d.
    Proof. intros Hn Hp. apply (proj2 (lvs_ports _ _ _ H n d Hn)) in Hp as [Hp Hd]. split; [by exists n|done]. Qed.
    Lemma vlge a b : lge (gv_of_lv V) N vlk a b <-> vdedge V R Outgoing a b.
    Proof.
      unfold lge. split.
      - intros (Ha & Hb & p & q & Hp & Hq & Hqb). destruct (vpin _ _ _ Ha Hp) as (Hpi & Hpn & Hpd). apply (vlk_elem p q Hpi) in Hq as (x & y & Hr & <- & <-).
        destruct (vpin _ _ _ Hb Hqb) as (_ & Hqn & _). by exists x, y.
      - intros Hab. destruct (dedge_N _ _ _ Hab) as [Ha Hb]. destruct Hab as (x & y & Hr & Hx & Hd & Hy). split; [done|]. split; [done|].
        exists (lv_port V x), (lv_port V y). split; [by apply (proj2 (lvs_ports _ _ _ H a Outgoing Ha))|].
        split; [apply vlk_elem; [by eapply lvs_end|by exists x, y]|]. apply (proj2 (lvs_ports _ _ _ H b Incoming Hb)). split; [done|].
        by apply (lvs_opp _ _ _ H _ _ _ Hr) in Hd.
    Qed.
    Lemma vlcc_new_ok : exists c n, qgood N (vdedge V R Outgoing) c /\ forall fuel, n < fuel -> lcc_new (gv_of_lv V) (lv_nb V) fuel = HOk c.
    Proof.
      destruct vtopsort_ok as (l & Hrun & Hnd & Hall & Hord).
      destruct (build_m (gv_of_lv V) N vlk) with (l := l) as (f & pos & lines & Eb & [G1 G2 G3 G4 G5]).
      - intros n d Hn. by apply H.
      - intros p n d n' d' Hn Hn' Hp Hp'. destruct (vpin _ _ _ Hn Hp) as (_ & A1 & A2). destruct (vpin _ _ _ Hn' Hp') as (_ & B1 & B2). split; congruence.
      - intros n d p Hn Hp. destruct (vpin _ _ _ Hn Hp) as (Hpi & _). destruct (vlk_ok p Hpi) as (? & _ & _ & _ & _ & E0). exact E0.
      - intros n d p q Hn Hp Hq. destruct (vpin _ _ _ Hn Hp) as (Hpi & Hpn & Hpd). apply (vlk_elem p q Hpi) in Hq as (x & y & Hr & <- & <-).
        destruct (lvs_end _ _ _ H _ _ (lvs_sym _ _ _ H _ _ Hr)) as (m & Hm & HNm). exists m. split; [done|].
        apply (proj2 (lvs_ports _ _ _ H m (rev_dir d) HNm)). split; [done|]. by apply (lvs_opp _ _ _ H _ _ _ Hr).
      - intros a b p q Ha Hb Hp Hq. apply vlk_occ; [by apply (vpin a Outgoing)|by apply (vpin b Incoming)].
      - done.
      - done.
      - intros a b Hab%vlge. by apply Hord.
      - exists (LCC pos lines), (length l). split.
        + split; [done|done| | |].
          * intros k i x y E1 E2. apply vlge. by eapply G3.
          * intros a b Hab%vlge. by apply G4.
          * intros a b Hab%vlge. by apply G5.
        + intros fuel Hf. unfold lcc_new. rewrite Hrun by done. cbn [mbind hres_bind]. rewrite Eb. done.
    Qed.
  End cc.
  Lemma vclash_ok inputs outputs : (forall p, p ∈ outputs -> port_in V N p) ->
    (forall p q q', p ∈ outputs -> vlinked V R p q -> vlinked V R p q' -> q = q') ->
    exists b, cc_boundary_clash (gv_of_lv V) inputs outputs = Ok b /\
      (b = true <-> exists o i, o ∈ outputs /\ i ∈ inputs /\ vlinked V R o i).
  Proof.
    intros Hout H1. unfold cc_boundary_clash.
    assert (HH : exists pre, rmap (gv_link (gv_of_lv V)) outputs = Ok pre /\ forall q, Some q ∈ pre <-> exists o, o ∈ outputs /\ vlinked V R o q).
    { induction outputs as [|o outputs IH]; cbn [rmap].
      - exists []. split; [done|]. intros q. rewrite elem_of_nil. split; [done|]. by intros (o & Ho%elem_of_nil & _).
      - assert (Hpo : port_in V N o) by (apply Hout; by left). destruct (vlk_ok o Hpo) as (_ & _ & _ & _ & _ & Eo). assert (gv_link (gv_of_lv V) o = Ok (head (vlk o))) as -> by (unfold gv_link; by rewrite Eo). cbn [mbind res_bind].
        destruct IH as (pre & -> & Hpre); [intros p Hp; apply Hout; by right|intros p q q' Hp; apply H1; by right|].
        cbn [mbind res_bind]. eexists. split; [done|]. intros q. rewrite elem_of_cons, Hpre. split.
        + intros [E0|(o' & ? & ?)]; [exists o|exists o'; split; [by right|done]]. split; [by left|]. apply vlk_elem; [done|]. destruct (vlk o); [done|]. injection E0 as ->. by left.
        + intros (o' & [->|Ho']%elem_of_cons & Hl); [left|right; by exists o']. pose proof (proj2 (vlk_elem o q Hpo) Hl) as Hq.
          destruct (vlk o) as [|q' k] eqn:Ek; [by apply elem_of_nil in Hq|]. cbn. f_equal. apply (H1 o); [by left|done|]. apply vlk_elem; [done|]. rewrite Ek. by left. }
    destruct HH as (pre & -> & Hpre). cbn [mbind res_bind]. eexists. split; [done|].
    rewrite existsb_exists. setoid_rewrite <- elem_of_list_In. setoid_rewrite bool_decide_eq_true. split.
    - intros (i & Hi & (o' & Ho & E0)%elem_of_list_omap). cbn in E0. subst o'. apply Hpre in Ho as (o & ? & ?). by exists o, i.
    - intros (o & i & Ho & Hi & Hl). exists i. split; [done|]. apply elem_of_list_omap. exists (Some i). split; [|done]. apply Hpre. by exists o.
  Qed.
End vtopo.
