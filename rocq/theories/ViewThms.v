(** Proofs of properties C59, C60, C63, C64, C77 and C78. *)
From Verif Require Export ViewMore HierProps.

Lemma C59_filtered_pf :
forall E (V : lview E) N R (nf lf : nat -> bool), shows V N R ->
  shows (filtered V nf lf) (fun n => N n /\ nf n = true) (link_passes V nf lf R)
  /\ tells_empty (filtered V nf lf) (fun n => N n /\ nf n = true).
Proof.
intros E V N R nf lf H. split; [exact (filtered_shows V N R H nf lf)|exact (filtered_empty V N R H nf lf)].
Qed.

Lemma C59_filtered_portgraph_pf :
forall w g (nf lf : nat -> bool), reach w g ->
  let F := filtered (lv_of_pg g) nf lf in
  let N n := contains_node g n = true /\ nf n = true in
  shows F N (fun p q => linked g p q /\ port_in F N p /\ port_in F N q /\ lf p = true /\ lf q = true) /\ tells_empty F N.
Proof.
intros w g nf lf Rg F N. split; [|exact (filtered_empty _ _ _ (pg_shows w g Rg) nf lf)].
  eapply (shows_ext _ N N (link_passes (lv_of_pg g) nf lf (linked g))); [done| |exact (filtered_shows _ _ _ (pg_shows w g Rg) nf lf)].
  intros p q. unfold link_passes, port_in. cbn. split; [|unfold N; naive_solver]. intros (L & (n & Hn & Pn) & (m & Hm & Pm) & ?).
  pose proof (pg_shows w g Rg) as HS. destruct (lvs_end _ _ _ HS _ _ L) as (n' & En & Cn). destruct (lvs_end _ _ _ HS _ _ (lvs_sym _ _ _ HS _ _ L)) as (m' & Em & Cm).
  cbn in *. rewrite Hn in En. rewrite Hm in Em. injection En as <-. injection Em as <-. unfold N. split_and!; naive_solver.
Qed.

Lemma C59_filtered_multigraph_pf :
forall w m (nf lf : nat -> bool), (2 < w <= 63)%N -> mreach w m ->
  let F := filtered (lv_of_m w m) nf lf in
  let N n := m_contains_node m n = true /\ nf n = true in
  shows F N (fun x y => mlinked w m x y /\ port_in F N x.1 /\ port_in F N y.1 /\ lf x.1 = true /\ lf y.1 = true) /\ tells_empty F N.
Proof.
intros w g nf lf Hw Rg F N. pose proof (m_shows w Hw g Rg) as HS. split; [|exact (filtered_empty _ _ _ HS nf lf)].
  eapply (shows_ext _ N N (link_passes (lv_of_m w g) nf lf (mlinked w g))); [done| |exact (filtered_shows _ _ _ HS nf lf)].
  intros p q. unfold link_passes, port_in. cbn. split; [|unfold N; naive_solver]. intros (L & (n & Hn & Pn) & (m & Hm & Pm) & ?).
  destruct (lvs_end _ _ _ HS _ _ L) as (n' & En & Cn). destruct (lvs_end _ _ _ HS _ _ (lvs_sym _ _ _ HS _ _ L)) as (m' & Em & Cm).
  cbn in *. rewrite Hn in En. rewrite Hm in Em. injection En as <-. injection Em as <-. unfold N. split_and!; naive_solver.
Qed.

Lemma hfilter_none {A} (f : A -> hres bool) l : (forall x, x ∈ l -> f x = HOk false) -> hfilter f l = HOk [].
Proof.
  induction l as [|x l IH]; intros Hf; [done|]. cbn. rewrite Hf by (by left). cbn. rewrite IH; [done|]. intros y Hy. apply Hf. by right.
Qed.

Lemma C59_filtered_hidden_pf :
forall E (V : lview E) N R (nf lf : nat -> bool) n, shows V N R -> N n -> nf n = false ->
  let F := filtered V nf lf in
  lv_has_node F n = false
  /\ (forall d, lv_links F n d = HOk [] /\ lv_neigh F n d = HOk [])
  /\ lv_all_links F n = HOk [] /\ lv_all_neigh F n = HOk []
  /\ (forall b, lv_conn F n b = HOk []) /\ (forall p, lv_pnode V p = Some n -> lv_has_port F p = HOk false /\ lv_plinks F p = HOk []).
Proof.
intros E V N R nf lf n H Hn Hf F.
  assert (HF : forall x, lv_pnode V (lv_port V x.1) = Some n -> f_link_filter V nf lf x = HOk false).
  { intros x Hx. unfold f_link_filter, f_port_filter. rewrite Hx. cbn. by rewrite Hf. }
  assert (HL : forall d l x, lv_links V n d = HOk l -> x ∈ l -> lv_pnode V (lv_port V x.1) = Some n).
  { intros d l [x y] El Hx. destruct (lvs_links_eq _ _ _ H n d Hn) as (l' & r & El' & _ & _ & _ & Hl). rewrite El in El'. apply hok_inj in El' as <-.
    apply Hl in Hx as [Hx _]. by apply (lvs_ports _ _ _ H n d Hn) in Hx as []. }
  assert (F1 : forall d, lv_links F n d = HOk []).
  { intros d. destruct (lvs_links_eq _ _ _ H n d Hn) as (l & r & El & _). cbn. unfold f_links. rewrite El, hbind_Ok. apply hfilter_none. intros x Hx. eapply HF, HL; eauto. }
  assert (F2 : lv_all_links F n = HOk []).
  { destruct (lvs_all_links _ _ _ H n Hn) as (li & lo & l & r & Ei & Eo & Hs & _ & El & _). cbn. unfold f_all_links. rewrite El, hbind_Ok. apply hfilter_none.
    intros x Hx. apply HF. eapply sublist_elem in Hx; [|done]. apply elem_of_app in Hx as [Hx|Hx]; [exact (HL Incoming li x Ei Hx)|exact (HL Outgoing lo x Eo Hx)]. }
  cbn. split; [unfold f_has_node; by rewrite Hf, andb_false_r|]. split.
  { intros d. split; [apply F1|]. cbn. unfold f_neigh. specialize (F1 d). cbn in F1. by rewrite F1, hbind_Ok. }
  split; [done|]. split; [cbn in *; unfold f_all_neigh; by rewrite F2, hbind_Ok|]. split.
  { intros b. destruct (lvs_conn _ _ _ H n b Hn) as (lo & l & Eo & El & Hs & _). cbn. unfold f_conn. rewrite El, hbind_Ok. apply hfilter_none.
    intros x Hx. eapply sublist_elem in Hx; [|done]. exact (HF x (HL Outgoing lo x Eo Hx)). }
  intros p Hp. split.
  - cbn. unfold f_has_port. destruct (lvs_port _ _ _ H p) as (b & Eb & Hb). rewrite Eb, hbind_Ok. destruct b; [|done]. rewrite Hp. cbn. unfold f_has_node. by rewrite Hf, andb_false_r.
  - destruct (lvs_plinks _ _ _ H p) as (l & El & _ & Hl); [by exists n|]. cbn. unfold f_plinks. rewrite El, hbind_Ok. apply hfilter_none.
    intros [x y] [Hx _]%Hl. apply HF. cbn. by rewrite Hx.
Qed.

Definition two_ops : list op := [OAdd 0 1; OAdd 1 0; OLink 0 1].
Definition two_g : pg := default pg_new (run 16 two_ops pg_new).

Lemma C60_filtered_link_count_refuted_pf :
exists g, reach 16 g /\ link_count g = 1 /\
  lv_link_count (filtered (lv_of_pg g) (fun _ => true) (fun _ => true)) = HOk 2.
Proof.
exists two_g. split; [exists two_ops; apply run_hist; vm_compute; reflexivity|]. split; vm_compute; reflexivity.
Qed.

Lemma C60_filtered_link_count_partial_pf :
forall E (V : lview E) N R (nf lf : nat -> bool), shows V N R ->
  let F := filtered V nf lf in
  exists L L', link_list F (link_passes V nf lf R) L /\ sublist L' L
  /\ (forall x y, (x, y) ∈ L' <-> (x, y) ∈ L /\ lv_pnode V (lv_port V x) <> lv_pnode V (lv_port V y))
  /\ lv_link_count F = HOk (length L + length L').
Proof.
intros E V N R nf lf H F. destruct (outs_all V R nf lf _ _ _ (filtered_shows V N R H nf lf)) as [L HL]. exists L, (filter (crosses V) L).
  split; [exact HL|]. split; [apply sublist_filter'|]. split; [|exact (filtered_count V N R H nf lf L HL)].
  intros x y. rewrite elem_of_list_filter. unfold crosses. cbn. tauto.
Qed.

Lemma C77_filtered_subports_refuted_pf :
exists m (nf : nat -> bool), mreach 16 m /\ let F := filtered_m (mv_of_m 16 m) nf (fun _ => true) in
  mv_subports F 0 Outgoing = HOk [(0, 0)] /\ lv_links (mv_view F) 0 Outgoing = HOk []
  /\ mv_sublink F (0, 0) = HOk (Some (1, 0)) /\ lv_has_node (mv_view F) 1 = false.
Proof.
exists (default m_new (mrun 16 [MAdd 0 1; MAdd 1 0; MLink 0 1] m_new)), (fun n => n =? 0).
  split; [exists [MAdd 0 1; MAdd 1 0; MLink 0 1]; apply mrun_hist; vm_compute; reflexivity|]. vm_compute. repeat split.
Qed.

Lemma hfilter_true {A} (f : A -> hres bool) l : (forall x, x ∈ l -> f x = HOk true) -> hfilter f l = HOk l.
Proof.
  induction l as [|x l IH]; intros Hf; [done|]. cbn. rewrite Hf by (by left). cbn. rewrite IH; [done|]. intros y Hy. apply Hf. by right.
Qed.

Lemma C77_filtered_subports_partial_pf :
forall E (V : mview E) N R (nf lf : nat -> bool), shows (mv_view V) N R -> shows_sub V N R ->
  let F := filtered_m V nf lf in
  shows_sub (MV E (mv_view F) (mv_subports F) (mv_all_subports F) (mv_sublink V)) (fun n => N n /\ nf n = true) R
  /\ forall n d l x, N n -> nf n = true -> mv_subports F n d = HOk l -> x ∈ l -> exists o, mv_sublink F x = HOk o
     /\ forall y, o = Some y <-> R x y /\ lf (lv_port (mv_view V) x) = true /\ lf (lv_port (mv_view V) y) = true.
Proof.
intros E V N R nf lf H HM F.
  assert (HS : forall n d, N n -> nf n = true -> mv_subports F n d = mv_subports V n d).
  { intros n d Hn Hf. destruct (ss_subports _ _ _ HM n d Hn) as (l & El & _ & H1 & _). cbn. rewrite El, hbind_Ok. apply hfilter_true.
    intros x Hx. apply H1, (lvs_ports _ _ _ H n d Hn) in Hx as [Hx _]. unfold f_port_filter. rewrite Hx. cbn. by rewrite Hf. }
  split.
  - split; cbn [mv_view mv_subports mv_all_subports mv_sublink].
    + intros n d [Hn Hf]. rewrite HS by done. destruct (ss_subports _ _ _ HM n d Hn) as (l & El & Hnd & H1 & H2). by exists l.
    + intros n [Hn Hf]. rewrite !HS by done. destruct (ss_all_subports _ _ _ HM n Hn) as (li & lo & Ei & Eo & Ea). exists li, lo. split_and!; try done.
      cbn. rewrite Ea, hbind_Ok. apply hfilter_true. intros x Hx.
      assert (Hp : exists d, lv_port (mv_view V) x ∈ lv_ports (mv_view V) n d).
      { apply elem_of_app in Hx as [Hx|Hx]; [exists Incoming|exists Outgoing];
        [destruct (ss_subports _ _ _ HM n Incoming Hn) as (l & El & _ & H1 & _)|destruct (ss_subports _ _ _ HM n Outgoing Hn) as (l & El & _ & H1 & _)]; apply H1; congruence. }
      destruct Hp as [d [Hp _]%(lvs_ports _ _ _ H n d Hn)]. unfold f_port_filter. rewrite Hp. cbn. by rewrite Hf.
    + intros n d l x [Hn Hf]. rewrite HS by done. apply (ss_sublink _ _ _ HM n d l x Hn).
  - intros n d l x Hn Hf. rewrite HS by done. intros El Hx. destruct (ss_sublink _ _ _ HM n d l x Hn El Hx) as (o & Eo & Ho). cbn.
    destruct (lf (lv_port (mv_view V) x)) eqn:Ex; cbn; [|eexists; split; [done|]; naive_solver].
    rewrite Eo, hbind_Ok. destruct o as [z|]; [|eexists; split; [done|]; intros y; rewrite <- Ho; naive_solver].
    destruct (lf (lv_port (mv_view V) z)) eqn:Ez; cbn; (eexists; split; [done|]); intros y; rewrite <- Ho; naive_solver congruence.
Qed.

Lemma C63_flat_region_pf :
forall E (V : lview E) h root (ir : bool), hreach h ->
  let F := flat_region V h root ir in
  (forall n, lv_has_node F n = true <-> (ir = true /\ n = root) \/ h_parent h n = Some root)
  /\ exists L, lv_nodes F = HOk L /\ NoDup L /\ (forall n, n ∈ L <-> lv_has_node F n = true) /\ lv_node_count F = HOk (length L).
Proof.
intros E V h root ir Hr F. destruct (hreach_inv _ Hr) as (ch & HI). assert (HF : forest h ch) by apply HI. pose proof HF as (Hl & Hp & _).
  assert (Hm : forall n, lv_has_node F n = true <-> (ir = true /\ n = root) \/ n ∈ ch root) by (intros n; exact (fr_mem h ch root ir n HF)).
  split; [intros n; rewrite Hm, Hp; done|]. exists ((if ir then [root] else []) ++ ch root). split; [by apply fr_nodes_ok|]. split; [by apply (fr_nodup h)|]. split.
  - intros n. rewrite Hm, elem_of_app. destruct ir; [rewrite elem_of_list_singleton|rewrite elem_of_nil]; naive_solver.
  - cbn. unfold fr_node_count. destruct (Hl root) as (_ & _ & _ & Hc). rewrite app_length, <- Hc. f_equal. destruct ir; cbn; unfold h_child_count; lia.
Qed.

Lemma C64_flat_region_empty_refuted_pf :
exists g h root, reach 16 g /\ hreach h /\ contains_node g root = true /\
  let F := flat_region (lv_of_pg g) h root false in lv_node_count F = HOk 0 /\ lv_empty F = HOk false.
Proof.
exists two_g, h_new, 0. split; [exists two_ops; apply run_hist; vm_compute; reflexivity|]. split; [constructor|]. vm_compute. repeat split.
Qed.

Lemma C64_flat_region_empty_partial_pf :
forall E (V : lview E) h root (ir : bool), hreach h ->
  let F := flat_region V h root ir in
  exists c b, lv_node_count F = HOk c /\ lv_empty F = HOk b /\ b = false
  /\ (ir = true \/ (exists n, h_parent h n = Some root) <-> c <> 0).
Proof.
intros E V h root ir Hr F. destruct (C63_flat_region_pf E V h root ir Hr) as (Hm & L & _ & _ & HL & Hc). fold F in Hm, HL, Hc.
  exists (length L), false. split; [done|]. split; [done|]. split; [done|]. split.
  - intros Hx Hz. destruct L; [|done]. destruct Hx as [->|[n Hn]]; [eapply elem_of_nil, HL, Hm; by left|eapply elem_of_nil, (HL n), Hm; by right].
  - destruct L as [|n L]; [done|]. intros _. assert (Hn : lv_has_node F n = true) by (apply HL; by left). apply Hm in Hn as [[? _]|?]; eauto.
Qed.

Lemma C78_flat_region_view_pf :
forall E (V : lview E) N R h root (ir : bool), shows V N R -> hreach h ->
  (ir = true -> N root) -> (forall n, h_parent h n = Some root -> N n) ->
  let F := flat_region V h root ir in
  let S n := (ir = true /\ n = root) \/ h_parent h n = Some root in
  shows F S (link_inside V S R) /\ counts_links F (link_inside V S R).
Proof.
intros E V N R h root ir H Hr Hroot Hch F S. destruct (C63_flat_region_pf E V h root ir Hr) as (Hm & L & EL & Hnd & HL & Hc). fold F in Hm, HL, Hc, EL.
  assert (Hin : forall n, fr_has_node h root ir n = true -> N n). { intros n Hn. apply Hm in Hn as [[? ->]|?]; auto. }
  assert (HX : forall x y, link_inside V (Ns (fr_has_node h root ir)) R x y <-> link_inside V S R x y).
  { intros x y. unfold link_inside, port_in, Ns. setoid_rewrite (Hm : forall n, fr_has_node h root ir n = true <-> S n). done. }
  split.
  - eapply shows_ext; [exact Hm|exact HX|]. exact (sub_shows V N R H _ _ _ (HOk false) L Hin EL Hnd HL Hc).
  - destruct (sub_counts V N R H _ _ _ (HOk false) L Hin EL Hnd HL Hc) as (X & [HX1 HX2] & HX3). exists X. split; [|exact HX3]. split; [done|].
    intros x y. rewrite HX2, HX. done.
Qed.

Lemma C78_subgraph_view_pf :
forall E (V : lview E) N R nodes, shows V N R -> NoDup nodes -> (forall n, n ∈ nodes -> N n) ->
  let F := subgraph V nodes in
  let S n := n ∈ nodes in
  shows F S (link_inside V S R) /\ counts_links F (link_inside V S R) /\ tells_empty F S.
Proof.
intros E V N R L H Hnd HLN F S.
  assert (Hm : forall n, bool_decide (n ∈ L) = true <-> S n) by (intros n; apply bool_decide_eq_true).
  assert (Hin : forall n, bool_decide (n ∈ L) = true -> N n) by (intros n Hn%Hm; auto).
  assert (HX : forall x y, link_inside V (Ns (fun n => bool_decide (n ∈ L))) R x y <-> link_inside V S R x y).
  { intros x y. unfold link_inside, port_in, Ns. setoid_rewrite Hm. done. }
  assert (HL : forall n, n ∈ L <-> bool_decide (n ∈ L) = true) by (intros n; by rewrite Hm).
  split; [|split].
  - eapply shows_ext; [exact Hm|exact HX|]. exact (sub_shows V N R H _ _ _ _ L Hin eq_refl Hnd HL eq_refl).
  - destruct (sub_counts V N R H _ _ _ (HOk (bool_decide (L = []))) L Hin eq_refl Hnd HL eq_refl) as (X & [HX1 HX2] & HX3). exists X. split; [|exact HX3]. split; [done|].
    intros x y. rewrite HX2, HX. done.
  - eexists. split; [done|]. rewrite bool_decide_eq_true. unfold S. split; [intros -> n ?%elem_of_nil; done|]. intros HH. destruct L as [|n L]; [done|]. exfalso. apply (HH n). by left.
Qed.

Lemma shows_sub_ext {E} (V : mview E) (N N' : nat -> Prop) (R R' : E -> E -> Prop) : (forall n, N n <-> N' n) -> (forall x y, R x y <-> R' x y) ->
  shows_sub V N R -> shows_sub V N' R'.
Proof.
  intros HN HR [H1 H2 H3]. split.
  - intros n d Hn%HN. destruct (H1 n d Hn) as (l & El & Hnd & Hl & Hl'). exists l. split_and!; try done. intros x y Hx%HR. by eapply Hl'.
  - intros n Hn%HN. by apply H2.
  - intros n d l x Hn%HN El Hx. destruct (H3 n d l x Hn El Hx) as (o & Eo & Ho). exists o. split; [done|]. intros y. by rewrite Ho, HR.
Qed.

Lemma C78_subports_pf :
forall E (V : mview E) N R, shows (mv_view V) N R -> shows_sub V N R ->
  (forall h root (ir : bool), hreach h -> (ir = true -> N root) -> (forall n, h_parent h n = Some root -> N n) ->
     let S n := (ir = true /\ n = root) \/ h_parent h n = Some root in
     shows_sub (flat_region_m V h root ir) S (link_inside (mv_view V) S R))
  /\ (forall nodes, NoDup nodes -> (forall n, n ∈ nodes -> N n) ->
      let S n := n ∈ nodes in shows_sub (subgraph_m V nodes) S (link_inside (mv_view V) S R)).
Proof.
intros E V N R H HM. split.
  - intros h root ir Hr Hroot Hch S. destruct (C63_flat_region_pf E (mv_view V) h root ir Hr) as (Hm & _).
    assert (Hin : forall n, fr_has_node h root ir n = true -> N n). { intros n Hn. apply Hm in Hn as [[? ->]|?]; auto. }
    eapply shows_sub_ext; [exact Hm| |exact (sub_mview_shows V N R H HM _ (flat_region (mv_view V) h root ir) Hin (fun _ => eq_refl) (fun _ _ => eq_refl))].
    intros x y. unfold link_inside, port_in. setoid_rewrite (Hm : forall n, fr_has_node h root ir n = true <-> S n). done.
  - intros L Hnd HLN S. assert (Hm : forall n, bool_decide (n ∈ L) = true <-> S n) by (intros n; apply bool_decide_eq_true).
    assert (Hin : forall n, bool_decide (n ∈ L) = true -> N n) by (intros n Hn%Hm; auto).
    eapply shows_sub_ext; [exact Hm| |exact (sub_mview_shows' V N R H HM _ (subgraph (mv_view V) L) Hin (fun _ => eq_refl) (fun _ _ => eq_refl))].
    intros x y. unfold link_inside, port_in. setoid_rewrite Hm. done.
Qed.
