(** What [FilteredGraph] and the node-set views show. *)
From Verif Require Export ViewProofs.

Lemma elem_concat {A} (x : A) ls : x ∈ concat ls <-> exists l, x ∈ l /\ l ∈ ls.
Proof.
  induction ls as [|l ls IH]; cbn; [split; [intros ?%elem_of_nil; done|intros (l & _ & ?%elem_of_nil); done]|].
  rewrite elem_of_app, IH. setoid_rewrite elem_of_cons. naive_solver.
Qed.

Section filt.
  Context {E : Type} (V : lview E) (N : nat -> Prop) (R : E -> E -> Prop) (H : shows V N R) (nf lf : nat -> bool).
  Definition kf (x : E * E) : bool :=
    match lv_pnode V (lv_port V x.1), lv_pnode V (lv_port V x.2) with
    | Some a, Some b => nf a && nf b && lf (lv_port V x.1) && lf (lv_port V x.2)
    | _, _ => false
    end.
  Lemma kf_true x y : kf (x, y) = true <-> port_in V (fun n => nf n = true) (lv_port V x) /\ port_in V (fun n => nf n = true) (lv_port V y) /\
    lf (lv_port V x) = true /\ lf (lv_port V y) = true.
  Proof.
    unfold kf, port_in. cbn [fst snd]. destruct (lv_pnode V (lv_port V x)) as [a|], (lv_pnode V (lv_port V y)) as [b|].
    - rewrite !andb_true_iff. split; [|naive_solver]. intros [[[H1 H2] H3] H4]. split_and!; eauto.
    - naive_solver.
    - naive_solver.
    - naive_solver.
  Qed.
  Lemma f_link_eq x : port_in V N (lv_port V x.1) -> port_in V N (lv_port V x.2) -> f_link_filter V nf lf x = HOk (kf x).
  Proof.
    intros (a & Ea & _) (b & Eb & _). unfold f_link_filter, f_port_filter, kf. rewrite Ea, Eb. cbn.
    destruct (nf a); [|done]. cbn. destruct (nf b); [|done]. cbn. by destruct (lf _).
  Qed.
  Lemma f_links_filter l : (forall x y, (x, y) ∈ l -> R x y) -> hfilter (f_link_filter V nf lf) l = HOk (filter (fun x => kf x = true) l).
  Proof.
    intros Hl. apply hfilter_filter. intros [x y] Hx%Hl. apply f_link_eq; cbn; [by eapply lvs_end|by eapply lvs_end2].
  Qed.
  Definition Nf n := N n /\ nf n = true.
  Lemma pin_f p : port_in V Nf p <-> port_in V N p /\ port_in V (fun n => nf n = true) p.
  Proof. unfold port_in, Nf. split; [naive_solver|]. intros ((n & E1 & ?) & m & E2 & ?). rewrite E1 in E2. injection E2 as <-. eauto. Qed.

  Lemma f_nodes_eq : exists L, lv_nodes (filtered V nf lf) = HOk L /\ NoDup L /\ (forall n, n ∈ L <-> Nf n).
  Proof.
    destruct (lvs_nodes _ _ _ H) as (L & El & Hnd & HL & _). cbn. unfold f_nodes. rewrite El, hbind_Ok. eexists. split; [done|].
    split; [by apply NoDup_filter|]. intros n. rewrite elem_of_list_filter, HL. unfold Nf. tauto.
  Qed.
  Lemma f_neigh_eq l : (forall x y, (x, y) ∈ l -> R x y) -> exists r, hmap (f_other V) l = HOk r /\
    Forall2 (fun x m => lv_pnode V (lv_port V x.2) = Some m) l r.
  Proof.
    induction l as [|[x y] l IH]; intros Hl; [by exists []; split|]. destruct IH as (r & Er & F); [intros; apply Hl; by right|].
    assert (HR : R x y) by (apply Hl; by left). destruct (lvs_end2 _ _ _ H x y HR) as (m & Em & _). exists (m :: r). cbn [hmap].
    assert (Ef : f_other V (x, y) = HOk m) by (unfold f_other; cbn [snd]; by rewrite Em). rewrite Ef, hbind_Ok, Er, hbind_Ok. split; [done|]. by constructor.
  Qed.
  Lemma f_links_R n d l x y : N n -> lv_links V n d = HOk l -> (x, y) ∈ l -> R x y.
  Proof. intros Hn El Hx. by apply (lvs_links_elem _ _ _ H n d l Hn El) in Hx as []. Qed.
  Lemma f_all_R n l x y : N n -> lv_all_links V n = HOk l -> (x, y) ∈ l -> R x y.
  Proof. intros Hn El Hx. by apply (lvs_all_elem _ _ _ H n l Hn El) in Hx as []. Qed.

  Lemma filtered_shows : shows (filtered V nf lf) Nf (link_passes V nf lf R).
  Proof.
    eapply (shows_ext _ Nf Nf (fun x y => R x y /\ kf (x, y) = true)); [done| |].
    { intros x y. unfold link_passes. by rewrite kf_true. }
    apply (keep_shows V (filtered V nf lf) N Nf R kf H); try done.
    - by intros n [].
    - intros x y HR. rewrite !kf_true. tauto.
    - intros x y HR HK%kf_true. apply pin_f. split; [by eapply lvs_end|apply HK].
    - intros n. cbn. unfold f_has_node. rewrite andb_true_iff, (lvs_node _ _ _ H). done.
    - destruct f_nodes_eq as (L & El & Hnd & HL). exists L. split_and!; try done. cbn. unfold f_node_count. cbn in El. by rewrite El.
    - intros p. cbn. unfold f_has_port. destruct (lvs_port _ _ _ H p) as (b & Eb & Hb). rewrite Eb, hbind_Ok. destruct b.
      + destruct (proj1 Hb eq_refl) as (n & En & Hn). rewrite En. cbn. eexists. split; [done|]. unfold f_has_node.
        rewrite andb_true_iff, (lvs_node _ _ _ H). unfold port_in, Nf. rewrite En. naive_solver.
      + exists false. split; [done|]. split; [done|]. intros [Hp _]%pin_f. by apply Hb in Hp.
    - destruct (lvs_port_list _ _ _ H) as (L & El & Hnd & HL & _). cbn. unfold f_port_count, f_port_list. rewrite El, hbind_Ok.
      rewrite (hfilter_filter _ (fun p => match lv_pnode V p with Some n => nf n | None => false end)).
      2:{ intros p (n & En & _)%HL. unfold f_port_filter. by rewrite En. }
      eexists. split; [done|]. split; [by apply NoDup_filter|]. split; [|done]. intros p. rewrite elem_of_list_filter, HL, pin_f. unfold port_in at 3.
      destruct (lv_pnode V p) as [n|]; [naive_solver|]. split; [by intros []|]. intros [_ (n & ? & _)]. done.
    - intros p l Hp El. cbn. unfold f_plinks. rewrite El, hbind_Ok. apply f_links_filter. intros x y Hx.
      apply pin_f in Hp as [Hp _]. destruct (lvs_plinks _ _ _ H p Hp) as (l' & El' & _ & Hl'). rewrite El in El'. apply hok_inj in El' as <-.
      by apply Hl' in Hx as [].
    - intros n d l [Hn _] El. cbn. unfold f_links. rewrite El, hbind_Ok. apply f_links_filter. intros x y. by eapply f_links_R.
    - intros n l [Hn _] El. cbn. unfold f_all_links. rewrite El, hbind_Ok. apply f_links_filter. intros x y. by eapply f_all_R.
    - intros n d l r [Hn _] El Er _. cbn. unfold f_neigh, f_links. rewrite El, hbind_Ok. rewrite f_links_filter by (intros x y; by eapply f_links_R).
      rewrite hbind_Ok. apply f_neigh_eq. intros x y [_ Hx]%elem_of_list_filter. by eapply f_links_R.
    - intros n l r [Hn _] El Er _. cbn. unfold f_all_neigh, f_all_links. rewrite El, hbind_Ok. rewrite f_links_filter by (intros x y; by eapply f_all_R).
      rewrite hbind_Ok. apply f_neigh_eq. intros x y [_ Hx]%elem_of_list_filter. by eapply f_all_R.
    - intros a b lo l [Ha _] Eo S Hl El. cbn. unfold f_conn. rewrite El, hbind_Ok. apply f_links_filter. intros x y [Hx _]%Hl. by eapply f_links_R.
  Qed.
  Lemma filtered_empty : tells_empty (filtered V nf lf) Nf.
  Proof.
    destruct f_nodes_eq as (L & El & Hnd & HL). cbn in El. unfold tells_empty. cbn. unfold f_empty, f_node_count. rewrite El, !hbind_Ok. eexists. split; [done|].
    rewrite bool_decide_eq_true. setoid_rewrite <- HL. destruct L as [|n L]; cbn; split; try done.
    - intros _ n Hn%elem_of_nil. done.
    - intros HN. exfalso. apply (HN n). by left.
  Qed.
End filt.

Section sub.
  Context {E : Type} (V : lview E) (N : nat -> Prop) (R : E -> E -> Prop) (H : shows V N R).
  Context (memb : nat -> bool) (nodes : hres (list nat)) (count : hres nat) (empty : hres bool) (L : list nat).
  Context (Hin : forall n, memb n = true -> N n) (HL : nodes = HOk L) (Hnd : NoDup L) (HLm : forall n, n ∈ L <-> memb n = true)
    (Hc : count = HOk (length L)).
  Definition Ns n := memb n = true.
  Lemma s_port_in p : s_has_port V memb p = true <-> port_in V Ns p.
  Proof. unfold s_has_port, port_in, Ns. destruct (lv_pnode V p) as [n|]; naive_solver. Qed.
  Lemma s_link_true x y : s_link V memb (x, y) = true <-> port_in V Ns (lv_port V x) /\ port_in V Ns (lv_port V y).
  Proof. unfold s_link. by rewrite andb_true_iff, !s_port_in. Qed.
  Lemma s_neigh_eq n l r : memb n = true -> (forall x y, (x, y) ∈ l -> lv_pnode V (lv_port V x) = Some n) ->
    Forall2 (fun x m => lv_pnode V (lv_port V x.2) = Some m) l r ->
    Forall2 (fun x m => lv_pnode V (lv_port V x.2) = Some m) (filter (fun x => s_link V memb x = true) l) (filter (fun x => memb x = true) r).
  Proof.
    intros Hn Hl F. induction F as [|[x y] m l r Em F IH]; [constructor|]. cbn [snd] in Em.
    assert (Ex : lv_pnode V (lv_port V x) = Some n) by (apply (Hl x y); by left).
    specialize (IH (fun x y Hx => Hl x y (elem_of_list_further _ _ _ Hx))). rewrite !filter_cons.
    assert (Es : s_link V memb (x, y) = memb m) by (unfold s_link, s_has_port; cbn [fst snd]; by rewrite Ex, Em, Hn). rewrite Es.
    destruct (decide (memb m = true)); [|done]. by constructor.
  Qed.
  Lemma links_node n d l x y : N n -> lv_links V n d = HOk l -> (x, y) ∈ l -> lv_pnode V (lv_port V x) = Some n.
  Proof. intros Hn El [Hx _]%(lvs_links_elem _ _ _ H n d l Hn El). by apply (lvs_ports _ _ _ H) in Hx as []. Qed.

  Lemma sub_shows : shows (sub_view V memb nodes count empty) Ns (link_inside V Ns R).
  Proof.
    eapply (shows_ext _ Ns Ns (fun x y => R x y /\ s_link V memb (x, y) = true)); [done| |].
    { intros x y. unfold link_inside. by rewrite s_link_true. }
    apply (keep_shows V (sub_view V memb nodes count empty) N Ns R (s_link V memb) H); try done.
    - intros x y HR. rewrite !s_link_true. tauto.
    - intros x y HR HK%s_link_true. apply HK.
    - exists L. split_and!; try done.
    - intros p. eexists. split; [done|]. apply s_port_in.
    - cbn. unfold s_port_count, s_port_list. rewrite HL, hbind_Ok. eexists. split; [done|]. split; [|split; [|done]].
      + clear Hc HL. assert (HLm' : forall n, n ∈ L -> N n) by (intros n Hn; by apply Hin, HLm). clear HLm.
        induction L as [|n L' IH]; [constructor|]. apply NoDup_cons in Hnd as [Hn Hnd']. cbn [map concat]. apply NoDup_app.
        assert (Hall : forall m p, m ∈ n :: L' -> p ∈ lv_all_ports V m -> lv_pnode V p = Some m).
        { intros m p Hm. rewrite (lvs_all_ports _ _ _ H), elem_of_app. intros [Hp|Hp]; by apply (lvs_ports _ _ _ H m _ (HLm' m Hm)) in Hp as []. }
        split; [|split].
        * rewrite (lvs_all_ports _ _ _ H). pose proof (HLm' n (elem_of_list_here _ _)) as Nn. apply NoDup_app.
          split; [by apply (lvs_ports _ _ _ H)|]. split; [|by apply (lvs_ports _ _ _ H)].
          intros p [_ Hp]%(lvs_ports _ _ _ H n _ Nn) [_ Hp']%(lvs_ports _ _ _ H n _ Nn). congruence.
        * intros p Hp (l & Hpl & Hl)%elem_concat. apply elem_of_list_fmap in Hl as (m & -> & Hm).
          apply Hall in Hp; [|by left]. apply Hall in Hpl; [|by right]. assert (n = m) as -> by congruence. done.
        * apply IH; [done|]. intros m Hm. apply HLm'. by right.
      + intros p. rewrite elem_concat. unfold port_in, Ns. split.
        * intros (l & Hp & (n & -> & Hn%HLm)%elem_of_list_fmap). exists n. split; [|done]. rewrite (lvs_all_ports _ _ _ H), elem_of_app in Hp.
          destruct Hp as [Hp|Hp]; by apply (lvs_ports _ _ _ H n _ (Hin n Hn)) in Hp as [].
        * intros (n & En & Hn). exists (lv_all_ports V n). split; [|apply elem_of_list_fmap; exists n; split; [done|by apply HLm]].
          rewrite (lvs_all_ports _ _ _ H), elem_of_app, !(proj2 (lvs_ports _ _ _ H n _ (Hin n Hn))).
          destruct (lv_pdir V p) as [[]|] eqn:Ed; [by left|by right|]. exfalso. eapply (lvs_dir _ _ _ H); [|exact Ed]. congruence.
    - intros p l Hp El. cbn. unfold s_plinks. by rewrite El.
    - intros n d l Hn El. cbn. unfold s_links. by rewrite El.
    - intros n l Hn El. cbn. unfold s_all_links. by rewrite El.
    - intros n d l r Hn El Er F. cbn. unfold s_neigh. rewrite Er, hbind_Ok. eexists. split; [done|]. apply (s_neigh_eq n); [done| |done].
      intros x y. apply links_node with d; [by apply Hin|done].
    - intros n l r Hn El Er F. cbn. unfold s_all_neigh. rewrite Er, hbind_Ok. eexists. split; [done|]. apply (s_neigh_eq n); [done| |done].
      intros x y Hx. by apply (lvs_all_elem _ _ _ H n l (Hin n Hn) El) in Hx as (_ & ? & _).
    - intros a b lo l Ha Eo S Hl El. cbn. unfold s_conn. rewrite Ha. cbn [andb]. destruct (memb b) eqn:Eb.
      + rewrite filter_all; [done|]. intros [x y] [Hx Hy]%Hl. apply s_link_true. cbn [snd] in Hy. split; [exists a|by exists b].
        split; [|done]. by eapply links_node; [apply Hin, Ha|exact Eo|].
      + rewrite filter_none; [done|]. intros [x y] [Hx Hy]%Hl [_ (m & Em & Hm)]%s_link_true. cbn [snd] in Hy. unfold Ns in Hm. congruence.
  Qed.
  (** every link once, at the node of its output end *)
  Lemma sub_counts : counts_links (sub_view V memb nodes count empty) (link_inside V Ns R).
  Proof.
    pose proof sub_shows as HS. unfold counts_links, link_list. cbn. unfold s_link_count. rewrite HL, hbind_Ok.
    assert (HLm' : forall n, n ∈ L -> Ns n) by (intros n Hn; by apply HLm).
    assert (Hex : exists ls, hmap (fun n => s_links V memb n Outgoing) L = HOk ls /\ NoDup (concat ls) /\
      forall x y, (x, y) ∈ concat ls <-> link_inside V Ns R x y /\ lv_pdir V (lv_port V x) = Some Outgoing /\ exists n, n ∈ L /\ lv_pnode V (lv_port V x) = Some n).
    { clear HL HLm Hc. induction L as [|n L' IH].
      - exists []. split; [done|]. split; [constructor|]. intros x y. split; [intros ?%elem_of_nil; done|]. intros (_ & _ & n & ?%elem_of_nil & _). done.
      - apply NoDup_cons in Hnd as [Hn Hnd']. destruct IH as (ls & El & Hls & IL); [done|intros m Hm; apply HLm'; by right|].
        assert (Nn : Ns n) by (apply HLm'; by left). destruct (lvs_links_eq _ _ _ HS n Outgoing Nn) as (l & r & Ell & _ & _ & Hl1 & Hl2).
        cbn in Ell. exists (l :: ls). cbn [hmap]. rewrite Ell, hbind_Ok, El, hbind_Ok. split; [done|]. cbn [concat].
        assert (Hl3 : forall x y, (x, y) ∈ l <-> (lv_pnode V (lv_port V x) = Some n /\ lv_pdir V (lv_port V x) = Some Outgoing) /\ link_inside V Ns R x y).
        { intros x y. rewrite Hl2. cbn. by rewrite (proj2 (lvs_ports _ _ _ H n Outgoing (Hin n Nn))). }
        split.
        + apply NoDup_app. split; [done|]. split; [|done]. intros [x y] [[Hx _] _]%Hl3 (_ & _ & m & Hm & Em)%IL. assert (n = m) as -> by congruence. done.
        + intros x y. rewrite elem_of_app, Hl3, IL. setoid_rewrite elem_of_cons. split.
          * intros [[[H1 H2] H3]|(H1 & H2 & m & H3 & H4)]; split_and!; eauto.
          * intros (H1 & H2 & m & [->|H3] & H4); [by left|]. right. eauto. }
    destruct Hex as (ls & El & Hls & IL). rewrite El, hbind_Ok. exists (concat ls). split; [|done]. split; [done|]. intros x y. rewrite IL. split; [naive_solver|].
    intros [HR Hd]. split; [done|]. split; [done|]. destruct HR as (_ & (n & En & Hn) & _). exists n. split; [by apply HLm|done].
  Qed.
End sub.
