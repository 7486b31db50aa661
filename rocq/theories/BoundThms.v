(** Proofs of properties C65, C80, C81 and C82. *)
From Verif Require Export BoundProofs BoundCopy ViewThms ConvexThms.

Lemma pg_one_link g : one_link (lv_of_pg g) (linked g).
Proof. intros x y x' y' H1 H2 E. cbn in E. subst x'. split; [done|]. unfold linked in *. congruence. Qed.


Lemma C65_new_subgraph_pf :
forall E (V : lview E) N R (B : boundary), shows V N R -> one_link V R -> (forall p, p ∈ bd_ports B -> port_in V N p) ->
  exists L K, (forall fuel, K < fuel -> new_subgraph V fuel B = HOk L) /\
    NoDup L /\ Sorted le L /\ (forall n, n ∈ L <-> induced V N R (bd_ports B) n) /\
    let S n := induced V N R (bd_ports B) n in shows (subgraph V L) S (link_inside V S R).
Proof.
  intros E V N R B H H1 Hps. destruct (internal_nodes_ok V N R B H Hps) as (l & K & El & Hl & Hi & _).
  exists (btree_list (list_to_set l)), K.
  assert (He : forall n, n ∈ btree_list (list_to_set l) <-> induced V N R (bd_ports B) n).
  { intros n. rewrite btree_list_elem, elem_of_list_to_set. by apply Hi. }
  split; [|split; [apply btree_list_nd|split; [apply btree_list_sorted|split; [exact He|]]]].
  - intros fuel Hf. unfold new_subgraph. by rewrite El.
  - cbn zeta. destruct (C78_subgraph_view_pf E V N R (btree_list (list_to_set l)) H (btree_list_nd _)) as [Hs _].
    { intros n Hn. apply Hl. by rewrite btree_list_elem, elem_of_list_to_set in Hn. }
    eapply ViewProofs.shows_ext; [| |exact Hs].
    + exact He.
    + intros x y. unfold link_inside, port_in. split; (intros (Hr & (n & Hn & Hx) & (m & Hm & Hy)); split; [done|]; split; [exists n|exists m]; (split; [done|])); by apply He.
Qed.

Lemma C65_new_subgraph_multigraph_refuted_pf :
exists m B, mreach 16 m /\ new_subgraph (lv_of_m 16 m) 9 B = HOk [0; 1] /\
  (forall p, p ∈ bd_ports B -> port_in (lv_of_m 16 m) (fun n => m_contains_node m n = true) p) /\
  induced (lv_of_m 16 m) (fun n => m_contains_node m n = true) (mlinked 16 m) (bd_ports B) 2.
Proof.
  set (ops := [MAdd 1 1; MAdd 1 1; MAdd 1 1; MLink 1 2; MLink 1 4]).
  exists (default m_new (mrun 16 ops m_new)), (Bd [0] []). split.
  { exists ops. apply mrun_hist. vm_compute. reflexivity. }
  split; [vm_compute; reflexivity|]. split.
  - intros p Hp. unfold bd_ports in Hp. cbn [bd_inputs bd_outputs app] in Hp. apply elem_of_cons in Hp as [->|Hp]; [exists 0; vm_compute; split; reflexivity|].
    apply elem_of_nil in Hp. destruct Hp.
  - right. exists 0, 0. split; [by left|]. split; [vm_compute; reflexivity|]. apply rtc_once.
    exists (1, 1), (4, 0). split; [split; [vm_compute; reflexivity|eexists; split; [vm_compute; reflexivity|right; left]]|]. split; [vm_compute; reflexivity|]. split; [vm_compute; reflexivity|].
    split; vm_compute; intros Hx; apply elem_of_cons in Hx as [Hx|Hx]; [discriminate Hx|apply elem_of_nil in Hx; destruct Hx|discriminate Hx|apply elem_of_nil in Hx; destruct Hx].
Qed.

Lemma C65_internal_nodes_any_pf :
forall E (V : lview E) N R (B : boundary), shows V N R -> (forall p, p ∈ bd_ports B -> port_in V N p) ->
  exists L K, (forall fuel, K < fuel -> new_subgraph V fuel B = HOk L) /\ NoDup L /\ Sorted le L /\ forall n, n ∈ L -> N n.
Proof.
  intros E V N R B H Hps. destruct (internal_nodes_ok V N R B H Hps) as (l & K & El & Hl & Hi & _).
  exists (btree_list (list_to_set l)), K. split; [intros fuel Hf; unfold new_subgraph; by rewrite El|].
  split; [apply btree_list_nd|]. split; [apply btree_list_sorted|]. intros n. rewrite btree_list_elem, elem_of_list_to_set. apply Hl.
Qed.

Lemma C65_copy_in_parent_pf :
forall w ops g nodes order, (1 < w <= 63)%N -> hist w ops g -> NoDup nodes -> (forall n, n ∈ nodes -> contains_node g n = true) ->
  (forall l, order l ≡ₚ l) -> (forall n d, (N.of_nat (num_ports g n d) <= po_max_offset w)%N) ->
  (N.of_nat (sum_list (node_cost <$> ops) + length nodes) <= 2 ^ 31 - 1)%N ->
  (N.of_nat (sum_list (port_cost <$> ops) + sum_list ((fun n => num_ports g n Incoming + num_ports g n Outgoing)%nat <$> nodes)) <= 2 ^ 31 - 1)%N ->
  let inside p := exists n, n ∈ nodes /\ port_node g p = Some n in
  ((forall p q, inside p -> linked g p q -> inside q) ->
   exists g' R, copy_in_parent w order nodes g = Ok (g', inr R) /\ reach w g' /\
      R.*1 ≡ₚ nodes /\ NoDup R.*2 /\
      (forall n, contains_node g' n = true <-> contains_node g n = true \/ n ∈ R.*2) /\
      (forall n, contains_node g n = true -> n ∉ R.*2 /\ same_node g g' n) /\
      (forall p, contains_port g p = true -> same_port g g' p) /\
      (forall o n d, (o, n) ∈ R -> num_ports g' n d = num_ports g o d) /\
      (forall o n o2 n2 d k d2 k2 p q p' q', (o, n) ∈ R -> (o2, n2) ∈ R ->
         port_at g o d k p -> port_at g o2 d2 k2 q -> port_at g' n d k p' -> port_at g' n2 d2 k2 q' ->
         (linked g' p' q' <-> linked g p q)) /\
      (forall n p' q', n ∈ R.*2 -> port_node g' p' = Some n -> linked g' p' q' -> exists n2, n2 ∈ R.*2 /\ port_node g' q' = Some n2)) /\
  (~ (forall p q, inside p -> linked g p q -> inside q) ->
   exists g' p q, copy_in_parent w order nodes g = Ok (g', inl (q, p)) /\ reach w g' /\ same_graph g g' /\
     inside p /\ linked g p q /\ ~ inside q).
Proof.
  intros w ops g nodes order Hw Hh Hnd Hn Hord Hmax Hb1 Hb2 inside0. pose proof (reach_inv w g (ex_intro _ _ Hh)) as (fo & Fo & Io).
  destruct (cp_add_ok w Hw ops g fo Fo Io Hmax nodes [] g) as (g1 & R0 & E0 & X0 & ER0).
  { by apply ins_nil. }
  { done. }
  { intros n Hx. by apply contains_node_true, Hn. }
  { exact Hb1. }
  { exact Hb2. }
  cbn [app] in X0.
  set (R := order R0). assert (HP : R0 ≡ₚ R) by (symmetry; apply Hord). pose proof (ins_perm w ops g R0 R [] g1 HP X0) as X.
  assert (HR1 : R.*1 ≡ₚ nodes) by (rewrite <- HP, ER0; done).
  assert (Hins : forall p, inside g R p <-> inside0 p) by (intros p; unfold inside, inside0; by setoid_rewrite HR1).
  assert (Ecopy : copy_in_parent w order nodes g = ('(g, e) ← cp_nodes w R R g1; Ok (g, match e with Some e => inl e | None => inr R end))).
  { unfold copy_in_parent, reserve. by rewrite E0, bind_Ok. }
  destruct (cp_nodes_ok w Hw ops g Hh fo Fo Io Hmax R R) with (D := @nil (nat * nat)) (K := @nil (nat * nat)) (gc := g1)
    as [(g' & K & E & X' & HK & Hcl)|(g' & p & q & E & Hsg & Hrg & Hp & Hl & Hq)].
  { intros o. rewrite HR1. intros Ho. by apply contains_node_true, Hn. }
  { done. }
  { exact X. }
  { intros p q. split; [by intros ?%elem_of_nil|]. by intros (o & n & ?%elem_of_nil & _). }
  { by intros o n p q ?%elem_of_nil. }
  - split; [|intros Hx; exfalso; apply Hx; intros p q Hp%Hins Hl; apply Hins; by eapply Hcl].
    intros _. pose proof (ins_inv _ _ _ _ _ _ _ X') as (fc & Fc & Ic).
    assert (Hlsym : forall p q, linked g p q -> linked g q p).
    { intros p q Hl. pose proof Hl as [[[n1 d1] Hx1] Hlc]%(linked_iff _ _ _ Io). destruct (inv_link _ _ _ Io _ _ _ _ Hx1 Hlc) as [Hx [n3 Hqm]]. apply (linked_iff _ _ _ Io). eauto. }
    assert (HKl : forall p q, inside g R p -> inside g R q -> linked g p q <-> (p, q) ∈ K \/ (q, p) ∈ K).
    { intros p q (o & Ho & Hp) (o2 & Ho2 & Hq). split.
      - intros Hl. apply elem_of_list_fmap in Ho as ([o' n] & E1 & HR). cbn in E1. subst o'. apply elem_of_list_fmap in Ho2 as ([o' n2] & E1 & HR2). cbn in E1. subst o'.
        assert (C1 : ~ n2 < n -> (o = o2 -> port_direction g p = Some Outgoing) -> (p, q) ∈ K).
        { intros Hlt Hd. apply HK. exists o, n. split_and!; try done; [by exists o2, n2|]. intros Hq'. apply Hd. congruence. }
        assert (C2 : ~ n < n2 -> (o = o2 -> port_direction g q = Some Outgoing) -> (q, p) ∈ K).
        { intros Hlt Hd. apply HK. exists o2, n2. split_and!; try done; [by apply Hlsym|by exists o, n|]. intros Hq'. apply Hd. congruence. }
        destruct (decide (o = o2)) as [->|Hne].
        + pose proof (R_fun _ _ _ _ (in_nd1 _ _ _ _ _ _ _ X') HR HR2) as ->.
          pose proof Hl as [[[n1 d1] Hx1] Hlc]%(linked_iff _ _ _ Io). destruct (inv_link _ _ _ Io _ _ _ _ Hx1 Hlc) as [Hx [n3 Hqm]].
          unfold port_direction in C1, C2. rewrite Hx1 in C1. rewrite Hqm in C2. destruct d1; cbn in *; [right; apply C2|left; apply C1]; done || lia.
        + destruct (decide (n2 < n)); [right; apply C2; [lia|done]|left; apply C1; done].
      - intros [(? & ? & _ & _ & ? & _)%HK|(? & ? & _ & _ & ? & _)%HK]; [done|by apply Hlsym]. }
    exists g', R. rewrite Ecopy, E, bind_Ok. split_and!; [done| |done| | | | | | |].
    + by eapply (ins_reach w ops).
    + apply X'.
    + intros n. rewrite !contains_node_true. apply X'.
    + intros n Hx%contains_node_true. destruct (in_old_n _ _ _ _ _ _ _ X' n Hx). split; [done|]. by apply same_node_nmeta.
    + intros p Hp%contains_port_true. destruct (in_old_p _ _ _ _ _ _ _ X' p Hp). by eapply same_port_meta.
    + apply X'.
    + intros o n o2 n2 d k d2 k2 p q p' q' HR HR2 Hp Hq Hp' Hq'.
      assert (Rp : ren g R g' p p') by (exists o, n, d, k; done).
      assert (Rq : ren g R g' q q') by (exists o2, n2, d2, k2; done).
      rewrite HKl.
      2:{ exists o. split; [apply elem_of_list_fmap; by exists (o, n)|]. apply port_node_iff. exists d. by eapply port_at_pmeta. }
      2:{ exists o2. split; [apply elem_of_list_fmap; by exists (o2, n2)|]. apply port_node_iff. exists d2. by eapply port_at_pmeta. }
      rewrite (linked_iff _ _ _ Ic), (in_link _ _ _ _ _ _ _ X' _ _ Rp). split.
      * intros [_ (q0 & Hq0 & HKq)]. pose proof (ren_inj _ _ _ _ _ _ _ _ _ _ X' Hq0 Rq) as ->. done.
      * intros HKq. split; [|eauto]. apply (port_at_pmeta _ _ _ Ic) in Hp'. eauto.
    + intros n p' q' Hx [d Hd]%port_node_iff [_ Hl]%(linked_iff _ _ _ Ic).
      apply elem_of_list_fmap in Hx as ([o n'] & En & HR). cbn in En. subst n'.
      destruct (pmeta_port_at _ _ _ Ic _ _ _ Hd) as [k Hk].
      assert (Hlt : k < length (ports g o d)).
      { rewrite ports_length, <- (in_num _ _ _ _ _ _ _ X' _ _ _ HR), <- ports_length. by eapply lookup_lt_Some. }
      apply lookup_lt_is_Some_2 in Hlt as [p Hp].
      assert (Rp : ren g R g' p p') by (exists o, n, d, k; done).
      apply (in_link _ _ _ _ _ _ _ X' _ _ Rp) in Hl as (q & (o2 & n2 & d2 & k2 & HR2 & _ & Hk2) & _).
      exists n2. split; [apply elem_of_list_fmap; by exists (o2, n2)|]. apply port_node_iff. exists d2. by eapply port_at_pmeta.
  - split; [intros Hx; exfalso; apply Hq, Hins, (Hx p); [by apply Hins|done]|].
    intros _. exists g', p, q. rewrite Ecopy, E, bind_Ok. split_and!; try done; [by apply Hins|]. by intros Hx%Hins.
Qed.

Lemma hany_ok {A} (f : A -> hres bool) (P : A -> Prop) l : (forall a, a ∈ l -> exists b, f a = HOk b /\ (b = true <-> P a)) ->
  exists b, hany f l = HOk b /\ (b = true <-> exists a, a ∈ l /\ P a).
Proof.
  induction l as [|a l IH]; intros H; cbn [hany].
  - exists false. split; [done|]. split; [done|]. by intros (a & ?%elem_of_nil & _).
  - destruct (H a) as (b & -> & Hb); [by left|]. cbn [mbind hres_bind]. destruct b.
    + exists true. split; [done|]. split; [|done]. intros _. exists a. split; [by left|by apply Hb].
    + destruct IH as (b' & -> & Hb'); [intros; apply H; by right|]. exists b'. split; [done|]. rewrite Hb'. split.
      * intros (x & ? & ?). exists x. split; [by right|done].
      * intros (x & [->|?]%elem_of_cons & ?); [exfalso; assert (false = true) by (by apply Hb); done|by exists x].
Qed.
Lemma hfilter_P {A} (f : A -> hres bool) (P : A -> Prop) l : (forall a, a ∈ l -> exists b, f a = HOk b /\ (b = true <-> P a)) ->
  exists l', hfilter f l = HOk l' /\ sublist l' l /\ forall a, a ∈ l' <-> a ∈ l /\ P a.
Proof.
  induction l as [|a l IH]; intros H; cbn [hfilter].
  - exists []. split; [done|]. split; [done|]. intros a. rewrite elem_of_nil. tauto.
  - destruct (H a) as (b & -> & Hb); [by left|]. cbn [mbind hres_bind]. destruct IH as (l' & -> & Hs & Hl'); [intros; apply H; by right|]. cbn [mbind hres_bind].
    destruct b.
    + exists (a :: l'). split; [done|]. split; [by constructor|]. intros x. rewrite !elem_of_cons, Hl'. split.
      * intros [->|[? ?]]; [split; [by left|by apply Hb]|split; [by right|done]].
      * intros [[->|?] ?]; [by left|right; done].
    + exists l'. split; [done|]. split; [by constructor|]. intros x. rewrite !elem_of_cons, Hl'. split; [tauto|].
      intros [[->|?] Hp]; [apply Hb in Hp; done|done].
Qed.
Lemma sg_external_ok {E} (V : lview E) N R (S : gset nat) p : shows V N R -> port_in V N p ->
  exists b, sg_external V S p = HOk b /\ (b = true <-> exists x y m, R x y /\ lv_port V x = p /\ lv_pnode V (lv_port V y) = Some m /\ m ∉ S).
Proof.
  intros H Hp. destruct (lvs_plinks _ _ _ H p Hp) as (l & El & _ & Hl). unfold sg_external. rewrite El. cbn [mbind hres_bind].
  destruct (hany_ok (sg_external_link V S) (fun x => exists m, lv_pnode V (lv_port V x.2) = Some m /\ m ∉ S) l) as (b & Eb & Hb).
  - intros [x y] [_ Hr]%Hl. destruct (link_node V N R H x y Hr) as (m & Hm & _). unfold sg_external_link. cbn [snd]. rewrite Hm. cbn.
    exists (bool_decide (m ∉ S)). split; [done|]. rewrite bool_decide_eq_true. split; [intros; by exists m|]. intros (m' & [= ->] & ?). done.
  - exists b. split; [done|]. rewrite Hb. split.
    + intros ([x y] & [Hx Hr]%Hl & m & Hm & Hs). by exists x, y, m.
    + intros (x & y & m & Hr & Hx & Hm & Hs). exists (x, y). split; [by apply Hl|by exists m].
Qed.
Lemma sg_boundary_ok {E} (V : lview E) N R (S : gset nat) : shows V N R -> forall ns, (forall n, n ∈ ns -> N n) ->
  exists B, sg_boundary V ns S = HOk B /\ forall d, exists ls, bd_list B d = concat ls /\
    Forall2 (fun n l => sublist l (lv_ports V n d) /\ forall p, p ∈ l <-> p ∈ lv_ports V n d /\
        exists x y m, R x y /\ lv_port V x = p /\ lv_pnode V (lv_port V y) = Some m /\ m ∉ S) ns ls.
Proof.
  intros H. induction ns as [|n ns IH]; intros Hn; cbn [sg_boundary].
  - exists (Bd [] []). split; [done|]. intros d. exists []. split; [by destruct d|constructor].
  - assert (Hn0 : N n) by (apply Hn; by left).
    assert (Hf : forall d, exists l, hfilter (sg_external V S) (lv_ports V n d) = HOk l /\ sublist l (lv_ports V n d) /\ forall p, p ∈ l <-> p ∈ lv_ports V n d /\
        exists x y m, R x y /\ lv_port V x = p /\ lv_pnode V (lv_port V y) = Some m /\ m ∉ S).
    { intros d. apply hfilter_P. intros p Hp. apply (sg_external_ok V N R S p H). apply (proj2 (lvs_ports _ _ _ H n d Hn0)) in Hp as [Hp _]. by exists n. }
    destruct (Hf Incoming) as (li & -> & Hi). destruct (Hf Outgoing) as (lo & -> & Ho). cbn [mbind hres_bind].
    destruct IH as (B & -> & HB); [intros; apply Hn; by right|]. cbn [mbind hres_bind]. eexists. split; [reflexivity|]. intros d.
    destruct (HB d) as (ls & Els & HF). destruct d; cbn [bd_list bd_inputs bd_outputs] in *; [exists (li :: ls)|exists (lo :: ls)]; cbn [concat]; (split; [by rewrite Els|by constructor]).
Qed.

Lemma C80_with_nodes_pf :
forall E (V : lview E) N R ns, shows V N R -> (forall n, n ∈ ns -> N n) ->
  exists L B, sg_with_nodes V ns = HOk (L, B) /\ NoDup L /\ Sorted le L /\ (forall n, n ∈ L <-> n ∈ ns) /\
    forall d, exists ls, bd_list B d = concat ls /\
      Forall2 (fun n l => sublist l (lv_ports V n d) /\ forall p, p ∈ l <-> p ∈ lv_ports V n d /\
        exists x y m, R x y /\ lv_port V x = p /\ lv_pnode V (lv_port V y) = Some m /\ m ∉ ns) ns ls.
Proof.
  intros E V N R ns H Hns. destruct (sg_boundary_ok V N R (list_to_set ns) H ns Hns) as (B & EB & HB).
  exists (btree_list (list_to_set ns)), B. unfold sg_with_nodes. rewrite EB. split; [done|]. split; [apply btree_list_nd|]. split; [apply btree_list_sorted|].
  split; [intros n; by rewrite btree_list_elem, elem_of_list_to_set|]. intros d. destruct (HB d) as (ls & E1 & HF). exists ls. split; [done|].
  eapply Forall2_impl; [exact HF|]. intros n l [Hs Hl]. split; [done|]. intros p. rewrite Hl. by setoid_rewrite elem_of_list_to_set.
Qed.

Lemma C81_subgraph_convex_pf :
forall w g nodes B, reach w g -> pacyclic g -> (forall n, n ∈ nodes -> contains_node g n = true) ->
  (forall d p, p ∈ bd_list B d -> exists n, n ∈ nodes /\ p ∈ ports g n d) ->
  exists r K, (forall fuel, K < fuel -> sg_is_convex g fuel nodes B = HOk r) /\
    (r = true <-> convex g nodes /\ ~ exists o i, o ∈ bd_outputs B /\ i ∈ bd_inputs B /\ linked g o i).
Proof.
  intros w g nodes B Hr Ha Hn HB. unfold sg_is_convex. destruct (decide (length nodes <= 1)) as [Hle|Hgt].
  - exists true, 0. split; [done|]. split; [|done]. intros _.
    assert (H1 : forall a b, a ∈ nodes -> b ∈ nodes -> a = b).
    { intros a b. destruct nodes as [|x [|y l]]; [by intros ?%elem_of_nil| |cbn in Hle; lia]. by intros ->%elem_of_list_singleton ->%elem_of_list_singleton. }
    split.
    + intros a x b Hx Hb H2 H3. exfalso. rewrite (H1 b a Hb Hx) in H3. apply (Ha a). by etrans.
    + intros (o & i & Ho & Hi & Hl). destruct (HB Outgoing o Ho) as (n & Hx & Hp). destruct (HB Incoming i Hi) as (m & Hm & Hq).
      rewrite (H1 m n Hm Hx) in Hq. apply (Ha n), tc_once. exists o, i. done.
  - destruct (C50_topo_convex_pf w g Hr Ha) as (c & K & Hc & Hq). 
    assert (Ho : forall p, p ∈ bd_outputs B -> is_Some (port_node g p)).
    { intros p Hp. destruct (HB Outgoing p Hp) as (n & _ & Hx). pose proof (reach_inv _ _ Hr) as (f & F & I). exists n. apply port_node_iff. exists Outgoing. by apply (elem_ports _ _ _ I). }
    destruct (Hq nodes (S K) Hn ltac:(lia)) as (_ & H2). destruct (H2 (bd_inputs B) (bd_outputs B) Ho) as (r & Er & Hrr).
    exists r, K. split; [|exact Hrr]. intros fuel Hf. rewrite (Hc fuel Hf). cbn [mbind hres_bind].
    destruct (Hq nodes fuel Hn Hf) as (_ & H3). destruct (H3 (bd_inputs B) (bd_outputs B) Ho) as (r' & Er' & Hrr').
    rewrite Er'. f_equal. apply eq_true_iff_eq. by rewrite Hrr, Hrr'.
Qed.

Lemma C81_with_nodes_convex_pf :
forall w g ns, reach w g -> pacyclic g -> (forall n, n ∈ ns -> contains_node g n = true) ->
  exists L B r K, sg_with_nodes (lv_of_pg g) ns = HOk (L, B) /\ (forall fuel, K < fuel -> sg_is_convex g fuel L B = HOk r) /\
    (r = true <-> convex g ns).
Proof.
  intros w g ns Hr Ha Hns. destruct (C80_with_nodes_pf nat (lv_of_pg g) _ _ ns (pg_shows w g Hr) Hns) as (L & B & EL & _ & _ & HL & HB).
  assert (Hbd : forall d p, p ∈ bd_list B d -> exists n, n ∈ ns /\ p ∈ ports g n d /\ exists y m, linked g p y /\ port_node g y = Some m /\ m ∉ ns).
  { intros d p Hp. destruct (HB d) as (ls & Els & HF). rewrite Els in Hp. apply elem_of_list_In, in_concat in Hp as (l & Hl%elem_of_list_In & Hp%elem_of_list_In).
    apply elem_of_list_lookup in Hl as [i Hi]. destruct (Forall2_lookup_r _ _ _ _ _ HF Hi) as (n & Hn & _ & Hx). apply Hx in Hp as (Hp & x & y & m & Hl & <- & Hm & Hm').
    exists n. split; [by eapply elem_of_list_lookup_2|]. split; [exact Hp|]. exists y, m. done. }
  destruct (C81_subgraph_convex_pf w g L B Hr Ha) as (r & K & Er & Hrr).
  { intros n. rewrite HL. apply Hns. }
  { intros d p Hp. destruct (Hbd d p Hp) as (n & Hn & Hx & _). exists n. split; [by apply HL|done]. }
  exists L, B, r, K. split; [done|]. split; [done|]. rewrite Hrr. split.
  - intros [Hc _] a x b Hx Hb H1 H2. apply HL. apply (Hc a x b); by try apply HL.
  - intros Hc. split; [intros a x b Hx%HL Hb%HL H1 H2; apply HL; exact (Hc a x b Hx Hb H1 H2)|].
    intros (o & i & Ho & Hi & Hl). destruct (Hbd Outgoing o Ho) as (n & _ & _ & y & m & Hl2 & Hm & Hm'). destruct (Hbd Incoming i Hi) as (n' & Hn' & Hp' & _).
    assert (y = i) as -> by (unfold linked in *; congruence). pose proof (reach_inv _ _ Hr) as (f & F & I).
    apply (elem_ports _ _ _ I) in Hp'. apply port_node_iff in Hm as [d Hd]. congruence.
Qed.

Lemma lposition_ok l p : p ∈ l -> exists i, lposition l p = Some i /\ l !! i = Some p.
Proof.
  induction l as [|q l IH]; [by intros ?%elem_of_nil|]. intros Hp. cbn [lposition]. destruct (decide (q = p)) as [->|Hne]; [by exists 0|].
  destruct IH as (i & -> & Hi); [apply elem_of_cons in Hp as [?|?]; [congruence|done]|]. by exists (S i).
Qed.

Lemma C82_boundary_ports_pf :
(forall E (V : lview E) ps, (forall p, p ∈ ps -> lv_pdir V p <> None) ->
   exists B, bd_from_ports V ps = HOk B /\ forall d, bd_list B d = filter (fun p => lv_pdir V p = Some d) ps) /\
(forall B d, NoDup (bd_list B d) ->
   (forall p, p ∈ bd_list B d -> exists x, bd_find_port B p d = HOk x /\ bp_dir x = d /\ bd_port_index B x = HOk p) /\
   (forall x p, bp_dir x = d -> bd_port_index B x = HOk p -> bd_find_port B p d = HOk x) /\
   NoDup (bd_bports B d) /\ (forall x, x ∈ bd_bports B d <-> bp_dir x = d /\ exists p, bd_port_index B x = HOk p)) /\
(forall B C, bd_is_compatible B C = true <-> forall d, (fun x => bp_index x) <$> bd_bports B d = (fun x => bp_index x) <$> bd_bports C d).
Proof.
  split; [|split].
  - intros E V ps. induction ps as [|p ps IH]; intros Hp; cbn [bd_from_ports].
    { exists (Bd [] []). split; [done|]. by intros []. }
    destruct (lv_pdir V p) as [d|] eqn:Ed; [|exfalso; by apply (Hp p); [left|]]. cbn [unwrap lift mbind hres_bind].
    destruct IH as (B & -> & HB); [intros; apply Hp; by right|]. cbn [mbind hres_bind]. eexists. split; [reflexivity|]. intros d'.
    rewrite filter_cons, <- (HB d'). rewrite Ed. destruct d, d'; cbn; by try rewrite decide_True by done.
  - intros B d Hnd.
    assert (Hidx : forall x p, bp_dir x = d -> bd_port_index B x = HOk p <-> bd_list B d !! bp_index x = Some p).
    { intros x p <-. unfold bd_port_index, vget. destruct (bd_list B (bp_dir x) !! bp_index x) as [q|]; cbn; split; congruence. }
    split; [|split; [|split]].
    + intros p (i & Ei & Hi)%lposition_ok. exists (BP i d). unfold bd_find_port. rewrite Ei. split; [done|]. split; [done|]. by apply Hidx.
    + intros x p Hd Hx%Hidx; [|done]. destruct (lposition_ok (bd_list B d) p) as (i & Ei & Hi); [by eapply elem_of_list_lookup_2|].
      unfold bd_find_port. rewrite Ei. cbn. assert (i = bp_index x) as -> by (by eapply NoDup_lookup). destruct x. cbn in *. by subst.
    + unfold bd_bports. apply (NoDup_fmap_2_strong _); [|apply NoDup_seq]. intros i j _ _ [= ->]. done.
    + intros x. unfold bd_bports. rewrite elem_of_list_fmap. split.
      * intros (i & -> & Hi%elem_of_seq). split; [done|]. cbn in Hi. destruct (lookup_lt_is_Some_2 (bd_list B d) i ltac:(lia)) as [p Hp]. exists p. by apply Hidx.
      * intros (Hd & p & Hp%Hidx); [|done]. exists (bp_index x). split; [destruct x; cbn in *; by subst|]. apply elem_of_seq. apply lookup_lt_Some in Hp. lia.
  - intros B C. unfold bd_is_compatible. rewrite andb_true_iff, !bool_decide_eq_true.
    assert (Hf : forall B d, (fun x => bp_index x) <$> bd_bports B d = seq 0 (length (bd_list B d))).
    { intros. unfold bd_bports. rewrite <- list_fmap_compose. apply list_fmap_id. }
    setoid_rewrite Hf. split.
    + intros [H1 H2] []; cbn; congruence.
    + intros H. pose proof (f_equal length (H Incoming)) as H1. pose proof (f_equal length (H Outgoing)) as H2. rewrite !seq_length in H1, H2. done.
Qed.
