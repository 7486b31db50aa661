(** Link counts of filtered views; the multigraph methods of views; the nodes of
    flat regions and regions. *)
From Verif Require Export ViewBase HierThms.

Section fcount.
  Context {E : Type} (V : lview E) (N : nat -> Prop) (R : E -> E -> Prop) (H : shows V N R) (nf lf : nat -> bool).
  Let F := filtered V nf lf.
  Let R' := link_passes V nf lf R.
  Definition crosses (x : E * E) : Prop := lv_pnode V (lv_port V x.1) <> lv_pnode V (lv_port V x.2).
  Global Instance crosses_dec x : Decision (crosses x).
  Proof. unfold crosses. apply _. Defined.
  Definition swap (x : E * E) : E * E := (x.2, x.1).

  (** all links of a view, from a list of its nodes *)
  Lemma outs_all (W : lview E) (M : nat -> Prop) (Q : E -> E -> Prop) (HW : shows W M Q) : exists L, link_list W Q L.
  Proof.
    destruct (lvs_nodes _ _ _ HW) as (L & _ & Hnd & HL & _).
    assert (Hex : exists X, NoDup X /\ forall x y, (x, y) ∈ X <-> Q x y /\ lv_pdir W (lv_port W x) = Some Outgoing /\ exists n, n ∈ L /\ lv_pnode W (lv_port W x) = Some n).
    { assert (HLm : forall n, n ∈ L -> M n) by (intros n; by rewrite HL). clear HL. induction Hnd as [|n L' Hn _ IH].
      - exists []. split; [constructor|]. intros x y. split; [intros ?%elem_of_nil; done|]. intros (_ & _ & n & ?%elem_of_nil & _). done.
      - destruct IH as (X & HX & IX); [intros m Hm; apply HLm; by right|]. assert (Mn : M n) by (apply HLm; by left).
        destruct (lvs_links_eq _ _ _ HW n Outgoing Mn) as (l & r & _ & _ & _ & Hl1 & Hl2).
        assert (Hl3 : forall x y, (x, y) ∈ l <-> (lv_pnode W (lv_port W x) = Some n /\ lv_pdir W (lv_port W x) = Some Outgoing) /\ Q x y).
        { intros x y. by rewrite Hl2, (proj2 (lvs_ports _ _ _ HW n Outgoing Mn)). }
        exists (l ++ X). split.
        + apply NoDup_app. split; [done|]. split; [|done]. intros [x y] [[Hx _] _]%Hl3 (_ & _ & m & Hm & Em)%IX. assert (n = m) as -> by congruence. done.
        + intros x y. rewrite elem_of_app, Hl3, IX. setoid_rewrite elem_of_cons. split.
          * intros [[[H1 H2] H3]|(H1 & H2 & m & H3 & H4)]; split_and!; eauto.
          * intros (H1 & H2 & m & [->|H3] & H4); [by left|]. right. eauto. }
    destruct Hex as (X & HX & IX). exists X. split; [done|]. intros x y. rewrite IX. split; [naive_solver|]. intros [HR Hd]. split; [done|]. split; [done|].
    destruct (lvs_end _ _ _ HW x y HR) as (n & En & Hn). exists n. split; [by apply HL|done].
  Qed.
  Lemma link_list_length (W : lview E) (Q : E -> E -> Prop) L L' : link_list W Q L -> link_list W Q L' -> Permutation L L'.
  Proof. intros [N1 H1] [N2 H2]. apply NoDup_Permutation; [done..|]. intros [x y]. by rewrite H1, H2. Qed.

  Lemma filtered_count L : link_list F R' L -> lv_link_count F = HOk (length L + length (filter crosses L)).
  Proof.
    intros [HL1 HL2]. pose proof (filtered_shows V N R H nf lf) as HS. fold F R' in HS. set (M := Nf N nf) in *.
    destruct (lvs_nodes _ _ _ HS) as (ns & Ens & Hnd & Hns & _). cbn. unfold f_link_count. cbn in Ens. rewrite Ens, hbind_Ok.
    assert (Hex : exists ls, hmap (f_all_links V nf lf) ns = HOk ls /\ NoDup (concat ls) /\
      forall x y, (x, y) ∈ concat ls <-> R' x y /\ (exists n, n ∈ ns /\ lv_pnode V (lv_port V x) = Some n) /\ (lv_pdir V (lv_port V x) = Some Outgoing \/ crosses (x, y))).
    { assert (HLm : forall n, n ∈ ns -> M n) by (intros n; by rewrite Hns). clear Hns Ens. induction Hnd as [|n ns' Hn _ IH].
      - exists []. split; [done|]. split; [constructor|]. intros x y. split; [intros ?%elem_of_nil; done|]. intros (_ & (n & ?%elem_of_nil & _) & _). done.
      - destruct IH as (ls & El & Hls & IL); [intros m Hm; apply HLm; by right|]. assert (Mn : M n) by (apply HLm; by left).
        destruct (lvs_all_links _ _ _ HS n Mn) as (_ & _ & l & _ & _ & _ & _ & _ & Ell & _).
        destruct (lvs_all_elem _ _ _ HS n l Mn Ell) as [Hl1 Hl2]. cbn in Ell. exists (l :: ls). cbn [hmap]. rewrite Ell, hbind_Ok, El, hbind_Ok.
        split; [done|]. cbn [concat]. cbn in Hl2. split.
        + apply NoDup_app. split; [done|]. split; [|done]. intros [x y] (_ & Hx & _)%Hl2 (_ & (m & Hm & Em) & _)%IL. assert (n = m) as -> by congruence. done.
        + intros x y. rewrite elem_of_app, Hl2, IL. setoid_rewrite elem_of_cons. split.
          * intros [(H1 & H2 & H3)|(H1 & (m & H3 & H4) & H5)]; split_and!; eauto. unfold crosses. cbn [fst snd].
            destruct (lv_pdir V (lv_port V x)) as [[]|] eqn:Ed; [|by left|].
            -- right. rewrite H2. intros E1. by apply H3.
            -- exfalso. eapply (lvs_dir _ _ _ H); [|exact Ed]. congruence.
          * intros (H1 & (m & [->|H3] & H4) & H5); [|right; eauto 10]. left. split_and!; try done. intros [Hd Hy]. destruct H5 as [H5|H5]; [congruence|].
            apply H5. cbn. congruence. }
    destruct Hex as (ls & El & Hls & IL). rewrite El, hbind_Ok. f_equal. rewrite <- (map_length swap (filter crosses L)), <- app_length.
    apply Permutation_length, NoDup_Permutation; [done| |].
    - apply NoDup_app. split; [done|]. split.
      + intros [x y] [_ Hd]%HL2 ([a b] & [= -> ->] & [_ Hab]%elem_of_list_filter)%elem_of_list_fmap. apply HL2 in Hab as [HR Hd'].
        pose proof (lvs_opp _ _ _ HS _ _ _ HR Hd') as HH. cbn in *. congruence.
      + apply NoDup_fmap_2; [intros [] [] [= -> ->]; done|by apply NoDup_filter].
    - intros [x y]. rewrite IL, elem_of_app, HL2, elem_of_list_fmap. split.
      + intros (HR & Hn & [Hd|Hc]); [by left|]. destruct (lv_pdir V (lv_port V x)) as [[]|] eqn:Ed; [|by left|].
        * right. exists (y, x). split; [done|]. apply elem_of_list_filter. split; [unfold crosses in *; cbn in *; congruence|].
          apply HL2. split; [by apply (lvs_sym _ _ _ HS)|]. by apply (lvs_opp _ _ _ HS _ _ Incoming HR).
        * exfalso. destruct Hn as (n & _ & En). eapply (lvs_dir _ _ _ H); [|exact Ed]. congruence.
      + intros [[HR Hd]|([a b] & [= -> ->] & [Hc [HR Hd]%HL2]%elem_of_list_filter)].
        * split; [done|]. split; [|by left]. destruct (lvs_end _ _ _ HS _ _ HR) as (n & En & Hn). exists n. by rewrite Hns.
        * split; [by apply (lvs_sym _ _ _ HS)|]. split; [|right; unfold crosses in *; cbn in *; congruence].
          destruct (lvs_end2 _ _ _ HS _ _ HR) as (n & En & Hn). exists n. by rewrite Hns.
  Qed.
End fcount.

(** ** The multigraph methods *)
Section msub.
  Context {E : Type} (V : mview E) (N : nat -> Prop) (R : E -> E -> Prop) (H : shows (mv_view V) N R) (HM : shows_sub V N R).
  Context (memb : nat -> bool) (W : lview E) (Hin : forall n, memb n = true -> N n).
  Context (Wport : forall x, lv_port W x = lv_port (mv_view V) x) (Wports : forall n d, lv_ports W n d = lv_ports (mv_view V) n d).
  Notation G := (mv_view V).
  Lemma sm_port_in p : s_has_port G memb p = true <-> port_in G (fun n => memb n = true) p.
  Proof. unfold s_has_port, port_in. destruct (lv_pnode G p) as [n|]; [|naive_solver]. naive_solver. Qed.
  Lemma keep_own n d x : memb n = true -> lv_port G x ∈ lv_ports G n d -> s_has_port G memb (lv_port G x) = true.
  Proof. intros Hn [Hx _]%(lvs_ports _ _ _ H n d (Hin n Hn)). unfold s_has_port. by rewrite Hx. Qed.
  Lemma keep_all n d l : memb n = true -> mv_subports V n d = HOk l -> filter (fun x => s_has_port G memb (lv_port G x) = true) l = l.
  Proof.
    intros Hn El. apply filter_all. intros x Hx. destruct (ss_subports _ _ _ HM n d (Hin n Hn)) as (l' & El' & _ & Hl & _). rewrite El in El'.
    apply hok_inj in El' as <-. by eapply keep_own, Hl.
  Qed.
  Lemma sub_mview_shows : shows_sub (sub_mview V memb W) (fun n => memb n = true) (link_inside G (fun n => memb n = true) R).
  Proof.
    split; cbn [sub_mview mv_view mv_subports mv_all_subports mv_sublink].
    - intros n d Hn. destruct (ss_subports _ _ _ HM n d (Hin n Hn)) as (l & El & Hnd & H1 & H2). rewrite El, hbind_Ok, (keep_all n d l Hn El).
      exists l. split_and!; try done.
      + intros x. rewrite Wport, Wports. apply H1.
      + intros x y [HR _]. rewrite Wport, Wports. by eapply H2.
    - intros n Hn. destruct (ss_all_subports _ _ _ HM n (Hin n Hn)) as (li & lo & Ei & Eo & Ea). rewrite Ei, Eo, Ea, !hbind_Ok.
      rewrite filter_app, !(keep_all n _ _ Hn Ei), !(keep_all n _ _ Hn Eo). by exists li, lo.
    - intros n d l x Hn El Hx. destruct (ss_subports _ _ _ HM n d (Hin n Hn)) as (l' & El' & Hnd & H1 & H2). rewrite El', hbind_Ok, (keep_all n d l' Hn El') in El.
      apply hok_inj in El as <-. destruct (ss_sublink _ _ _ HM n d l' x (Hin n Hn) El' Hx) as (o & Eo & Ho). rewrite Eo, hbind_Ok. eexists. split; [done|].
      assert (Px : port_in G (fun n => memb n = true) (lv_port G x)).
      { exists n. split; [|done]. by apply H1, (lvs_ports _ _ _ H n d (Hin n Hn)) in Hx as []. }
      intros y. unfold link_inside. rewrite <- Ho. destruct o as [z|]; [|naive_solver].
      destruct (s_has_port G memb (lv_port G z)) eqn:Ez.
      + apply sm_port_in in Ez. naive_solver.
      + split; [done|]. intros ([= ->] & _ & Hy). apply sm_port_in in Hy. congruence.
  Qed.
  (** [Subgraph] delegates [subports] and [all_subports] *)
  Lemma sub_mview_shows' : shows_sub (MV E W (mv_subports V) (mv_all_subports V) (mv_sublink (sub_mview V memb W)))
    (fun n => memb n = true) (link_inside G (fun n => memb n = true) R).
  Proof.
    split; cbn [mv_view mv_subports mv_all_subports mv_sublink].
    - intros n d Hn. destruct (ss_subports _ _ _ HM n d (Hin n Hn)) as (l & El & Hnd & H1 & H2). exists l. split_and!; try done.
      + intros x. rewrite Wport, Wports. apply H1.
      + intros x y [HR _]. rewrite Wport, Wports. by eapply H2.
    - intros n Hn. apply (ss_all_subports _ _ _ HM n (Hin n Hn)).
    - intros n d l x Hn El Hx. eapply (ss_sublink _ _ _ sub_mview_shows n d l x Hn); [|done]. cbn. rewrite El, hbind_Ok. f_equal. by eapply keep_all.
  Qed.
End msub.

(** ** Flat regions and regions *)
Lemma run_children h l : forall s, (forall sched, run_iter (children_next h) (children_next_back h) children_len sched s = Ok (deque sched l)) ->
  children_list (S (length l)) h s = Ok l.
Proof.
  induction l as [|c l IH]; intros s Hs.
  - specialize (Hs [true]). cbn in Hs. cbn [children_list length]. destruct (children_next h s) as [[o s']|]; [|done]. cbn in *. by injection Hs as -> _.
  - pose proof (Hs [true]) as H1. cbn in H1. cbn [length]. change (children_list (S (S (length l))) h s) with
      ('(o, s) ← children_next h s; match o with Some c => mbind (M := res) (fun l => Ok (c :: l)) (children_list (S (length l)) h s) | None => Ok [] end).
    destruct (children_next h s) as [[o s']|] eqn:Es; [|done]. cbn in H1. injection H1 as -> _.
    cbn [mbind res_bind]. rewrite IH; [done|]. intros sched. specialize (Hs (true :: sched)). cbn in Hs. rewrite Es in Hs. cbn in Hs.
    destruct (run_iter _ _ _ sched s') as [r|]; [|done]. cbn in Hs. by injection Hs as _ ->.
Qed.
Lemma fr_nodes_ok h ch root ir : hreach h -> forest h ch -> fr_nodes h root ir = HOk ((if ir then [root] else []) ++ ch root).
Proof.
  intros Hr Hf. unfold fr_nodes. destruct (C40_children_pf h ch root [] Hr Hf) as [Hlen _]. rewrite Hlen, (run_children h (ch root)); [done|].
  intros sched. by apply (C40_children_pf h ch root sched Hr Hf).
Qed.
Lemma fr_mem h ch root ir n : forest h ch -> fr_has_node h root ir n = true <-> (ir = true /\ n = root) \/ n ∈ ch root.
Proof.
  intros (_ & Hp & _). unfold fr_has_node. rewrite orb_true_iff, andb_true_iff, !bool_decide_eq_true, Hp. done.
Qed.
Lemma fr_nodup h ch root (ir : bool) : hreach h -> forest h ch -> NoDup ((if ir then [root] else []) ++ ch root).
Proof.
  intros Hr Hf. pose proof Hf as (Hl & Hp & _). destruct (Hl root) as (Hnd & _). destruct ir; [|done]. cbn. constructor; [|done].
  intros Hin%Hp. destruct (C38_acyclic_partial_pf h Hr) as [Ha _]. apply (Ha root). by apply tc_once.
Qed.

Lemma run_desc h D : forall fuel s, length D <= fuel -> (forall k, run_fwd (fun s => Ok (desc_next h s)) k s = Ok (fwd k D)) -> desc_list fuel h s = HOk D.
Proof.
  induction D as [|c D IH]; intros fuel s Hf Hs.
  - specialize (Hs 1). cbn in Hs. destruct fuel; cbn [desc_list]; destruct (desc_next h s) as [o s'] eqn:Es; cbn in Hs; by injection Hs as ->.
  - destruct fuel as [|fuel]; [cbn in Hf; lia|]. cbn [desc_list]. pose proof (Hs 1) as H1. cbn in H1. destruct (desc_next h s) as [o s'] eqn:Es. cbn in H1. injection H1 as ->.
    rewrite (IH fuel s'); [done|cbn in Hf; lia|]. intros k. specialize (Hs (S k)). cbn [run_fwd] in Hs. rewrite Es in Hs. cbn in Hs.
    destruct (run_fwd _ k s') as [r|]; [|done]. cbn in Hs. injection Hs as ->. by rewrite <- fmap_S_seq, <- list_fmap_compose.
Qed.
Lemma rg_nodes_ok h root : hreach h -> exists D, rg_nodes h root = HOk D /\ NoDup D /\ forall c, c ∈ D <-> anc h root c.
Proof.
  intros Hr. destruct (hreach_inv _ Hr) as (ch & HI). assert (HF : forest h ch) by apply HI.
  destruct (C41_descendants_pf h ch root Hr HF) as (_ & depth & _ & Hnd & HD & Hk). set (D := concat _) in *. exists D. split; [|done].
  unfold rg_nodes. apply run_desc; [|exact Hk]. unfold h_fuel.
  assert (length D <= length (root :: seq 0 (length (um_data h)))) as Hle; [|cbn in Hle; rewrite seq_length in Hle; lia].
  apply submseteq_length, NoDup_submseteq; [done|]. intros c Hc%HD. apply elem_of_cons. inversion Hc as [|? q ? Hcq]; subst; [by left|]. right. apply elem_of_seq.
  assert (c < length (um_data h)) by (by eapply par_bound). lia.
Qed.
