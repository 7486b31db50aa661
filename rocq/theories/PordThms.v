(** Proofs of property C66. *)
From Verif Require Export PordLoop BoundThms.

Lemma hall_ok {A} (f : A -> hres bool) (P : A -> Prop) l : (forall a, a ∈ l -> exists b, f a = HOk b /\ (b = true -> P a)) ->
  exists b, hall f l = HOk b /\ (b = true -> forall a, a ∈ l -> P a).
Proof.
  induction l as [|a l IH]; intros Hf; cbn [hall].
  - exists true. split; [done|]. by intros _ a ?%elem_of_nil.
  - destruct (Hf a ltac:(by left)) as (b & -> & Hb). cbn [mbind hres_bind]. destruct b; [|by exists false].
    destruct IH as (b' & -> & Hb'); [intros; apply Hf; by right|]. exists b'. split; [done|]. intros E' x [->|Hx]%elem_of_cons; [by apply Hb|by apply Hb'].
Qed.
Lemma hfilter_sub {A} (f : A -> hres bool) (P : A -> Prop) l : (forall a, a ∈ l -> exists b, f a = HOk b /\ (b = true -> P a)) ->
  exists l', hfilter f l = HOk l' /\ sublist l' l /\ forall a, a ∈ l' -> P a.
Proof.
  induction l as [|a l IH]; intros Hf; cbn [hfilter].
  - exists []. split; [done|]. split; [done|]. by intros a ?%elem_of_nil.
  - destruct (Hf a ltac:(by left)) as (b & -> & Hb). cbn [mbind hres_bind]. destruct IH as (l' & -> & Hs & HP); [intros; apply Hf; by right|]. cbn [mbind hres_bind].
    destruct b; [exists (a :: l')|exists l']; (split; [done|]); (split; [by constructor|]); [|done].
    intros x [->|Hx]%elem_of_cons; [by apply Hb|by apply HP].
Qed.

Lemma vedge_pedge w g (Hr : reach w g) u v : vedge (lv_of_pg g) (linked g) u v <-> pedge g Outgoing u v.
Proof.
  pose proof (pg_shows w g Hr) as H. split.
  - intros (x & y & Hl & Hx & Hd & Hy).
    destruct (lvs_end _ _ _ H _ _ Hl) as (n & En & HN). rewrite Hx in En. injection En as <-.
    pose proof (lvs_sym _ _ _ H _ _ Hl) as Hl'. destruct (lvs_end _ _ _ H _ _ Hl') as (n & En & HN'). rewrite Hy in En. injection En as <-.
    exists x, y. split; [|split; [exact Hl|]].
    + apply (proj2 (lvs_ports _ _ _ H u Outgoing HN)). done.
    + apply (proj2 (lvs_ports _ _ _ H v Incoming HN')). split; [done|]. by apply (lvs_opp _ _ _ H _ _ _ Hl) in Hd.
  - intros (x & y & Hx & Hl & Hy). pose proof (lvs_sym _ _ _ H _ _ Hl) as Hl'.
    exists x, y. split; [exact Hl|].
    assert (Hpn : forall n d p, p ∈ ports g n d -> port_node g p = Some n /\ port_direction g p = Some d).
    { intros n d p Hp. destruct (contains_node g n) eqn:En.
      - by apply (proj2 (lvs_ports _ _ _ H n d En)).
      - exfalso. apply contains_node_false in En. unfold ports in Hp. rewrite En in Hp. by apply elem_of_nil in Hp. }
    destruct (Hpn _ _ _ Hx), (Hpn _ _ _ Hy). repeat split; assumption.
Qed.


Lemma C66_port_ordering_partial_pf :
forall E (V : lview E) N R B order, shows V N R -> one_link V R -> (forall n, ~ tc (vedge V R) n n) -> cut_boundary V N R B ->
  (forall l, order l ≡ₚ l) ->
  exists o K, (forall fuel, K < fuel -> port_ordering V B order fuel = HOk o) /\
    holds_order o (length (bd_inputs B)) (length (bd_outputs B)) (port_path V R B).
Proof.
  intros E V N R B order H One Hac [Hni Hno Hp Hun] Hord.
  destruct (internal_nodes_ok V N R B H Hp) as (Li & Ki & ELi & HLiN & HLi & _). specialize (HLi One).
  destruct (lvs_nodes _ _ _ H) as (Ln & _ & _ & HLn & _).
  assert (Hs : forall p, p ∈ bd_ports B -> is_Some (lv_pnode V p)) by (intros p (n & Hn & _)%Hp; by exists n).
  destruct (pn_map_ok V (bd_inputs B) [] ∅) as (im & Eim & Him); [intros p Hx; by apply Hs, in_bd|intros n; by rewrite lookup_empty|].
  destruct (pn_map_ok V (bd_outputs B) [] ∅) as (om & Eom & Hom); [intros p Hx; by apply Hs, out_bd|intros n; by rewrite lookup_empty|].
  cbn [app] in Him, Hom.
  assert (HimN : forall n, n ∈ btree_list (dom im) -> N n).
  { intros n [l Hl]%btree_list_elem%elem_of_dom. rewrite Him in Hl. unfold nmap, at_node in Hl. destruct (filter _ (bd_inputs B)) as [|p l'] eqn:Ef; [done|].
    assert (Hx : p ∈ filter (fun p => lv_pnode V p = Some n) (bd_inputs B)) by (rewrite Ef; by left). apply elem_of_list_filter in Hx as [Hx1 Hx2].
    destruct (Hp p (in_bd B p Hx2)) as (n' & Hn' & HN). rewrite Hx1 in Hn'. by injection Hn' as <-. }
  destruct (hfilter_sub (po_is_source V B) (fun n => forall u, ~ vedge V R u n) (btree_list (dom im))) as (src & Esrc & Hsub & Hsrc).
  { intros n Hn. pose proof (HimN n Hn) as HN.
    destruct (hall_ok (po_source_port V B) (fun p => forall y x, R y x -> lv_port V y <> p) (lv_ports V n Incoming)) as (b & Eb & Hb).
    - intros p Hpn. unfold po_source_port. destruct (decide (p ∈ bd_ports B)) as [Hb|Hb].
      + exists true. split; [done|]. intros _ y x Hr <-. by eapply Hun.
      + pose proof (lvs_pin V N R H n Incoming p HN Hpn) as Hpin. destruct (lvs_plinks _ _ _ H p Hpin) as (l & El & _ & Hl). rewrite El. cbn [mbind hres_bind].
        eexists. split; [done|]. intros Hz%bool_decide_eq_true y x Hr <-. assert (Hy : (y, x) ∈ l) by (by apply Hl). destruct l; [by apply elem_of_nil in Hy|done].
    - exists b. split; [exact Eb|]. intros -> u (x & y & Hr & Hx & Hd & Hy). apply (Hb eq_refl (lv_port V y)) with (y := y) (x := x); [|by apply H|done].
      apply (proj2 (lvs_ports _ _ _ H n Incoming HN)). split; [done|]. by apply (lvs_opp _ _ _ H _ _ _ Hr) in Hd. }
  assert (HsrcN : forall n, n ∈ src -> N n) by (intros n Hn; apply HimN; by eapply sublist_elem).
  assert (Hnd : NoDup src) by (eapply sublist_NoDup; [exact Hsub|apply btree_list_nd]).
  set (V0 := foldl (fun vis n => mark_all (gv_ports (gvis V) n Incoming) vis) ∅ src).
  destruct (phase1 V N R H One B order Hord Hni Hno Hp Hun Hac Li Ki ELi HLi HLiN Ln HLn (length Ln) src [] src V0 im om ∅ (pord_new (length (bd_inputs B)) (length (bd_outputs B))) 0)
    as (o & K & Hrun & Ho).
  { split.
    - exact (init_ok (gvis V) Outgoing (fun _ => true) (po_filter B) (gvis_wf V N R H) src Hnd).
    - exact Hsrc.
    - exact HsrcN.
    - intros n. rewrite decide_False by (by intros ?%elem_of_nil). apply Him.
    - intros n. rewrite decide_False by (by intros ?%elem_of_nil). apply Hom.
    - intros n. rewrite decide_False by (by intros ?%elem_of_nil). lia.
    - eapply holds_iff; [|apply holds_new]. intros i j. split; [done|]. by intros (p & q & k & _ & _ & _ & ?%elem_of_nil & _). }
  { cbn. lia. }
  exists o, (Ki + K). split; [|done]. intros fuel Hf. unfold port_ordering, pn_map. rewrite Eim. cbn [mbind hres_bind]. rewrite Eom. cbn [mbind hres_bind]. rewrite Esrc. cbn [mbind hres_bind].
  rewrite (topo_new_cong (gv_of_lv V) (gvis V)) by (intros n dd Hn; by apply (ports_eq V N R H), HsrcN).
  change (fun _ : nat => true) with tt1. unfold topo_new. rewrite filter_tt. apply Hrun; lia.
Qed.

Lemma C66_outside_refuted_pf :
exists g B, reach 16 g /\ pacyclic g /\ NoDup (bd_ports B) /\ (forall d p, p ∈ bd_list B d -> port_direction g p = Some d) /\
  port_ordering (lv_of_pg g) B (@id _) 9 = HPanic.
Proof.
  set (ops := [OAdd 1 1; OAdd 1 1; OAdd 1 1; OAdd 1 1; OLink 1 2; OLink 3 4; OLink 5 6]).
  assert (Hr : reach 16 (default pg_new (run 16 ops pg_new))).
  { exists ops. apply run_hist. vm_compute. reflexivity. }
  exists (default pg_new (run 16 ops pg_new)), (Bd [2] [5]). split; [exact Hr|]. split; [apply (acyclic_check 16); [exact Hr|vm_compute; reflexivity]|].
  split; [vmdec|]. split; [|vm_compute; reflexivity].
  intros d p Hp. destruct d; cbn [bd_list bd_inputs bd_outputs] in Hp; apply elem_of_list_singleton in Hp as ->; vm_compute; reflexivity.
Qed.

Lemma C66_inside_link_refuted_pf :
exists g B nodes, reach 16 g /\ pacyclic g /\ NoDup (bd_ports B) /\ (forall d p, p ∈ bd_list B d -> port_direction g p = Some d) /\
  new_subgraph (lv_of_pg g) 9 B = HOk nodes /\ port_ordering (subgraph (lv_of_pg g) nodes) B (@id _) 9 = HPanic.
Proof.
  set (ops := [OAdd 1 1; OAdd 1 1; OLink 3 0]).
  assert (Hr : reach 16 (default pg_new (run 16 ops pg_new))).
  { exists ops. apply run_hist. vm_compute. reflexivity. }
  exists (default pg_new (run 16 ops pg_new)), (Bd [0; 2] [1; 3]), [0; 1]. split; [exact Hr|]. split.
  { intros n Ht. assert (Hs : forall u v, pedge (default pg_new (run 16 ops pg_new)) Outgoing u v -> u = 1 /\ v = 0).
    { intros u v He. apply (edges_list_spec 16) in He; [|exact Hr]. replace (edges_list _) with [(1,0)] in He by (vm_compute; reflexivity).
      apply elem_of_list_singleton in He as [= -> ->]. done. }
    assert (Hs' : forall u v, tc (pedge (default pg_new (run 16 ops pg_new)) Outgoing) u v -> u = 1 /\ v = 0).
    { induction 1 as [u v He|u v z He _ IH]; [by apply Hs|]. split; [by apply (Hs u v)|apply IH]. }
    destruct (Hs' n n Ht) as [-> ?]. done. }
  split; [vmdec|]. split; [|split; vm_compute; reflexivity].
  intros d p Hp. destruct d; cbn [bd_list bd_inputs bd_outputs] in Hp; (apply elem_of_cons in Hp as [->|Hp]; [vm_compute; reflexivity|]);
    apply elem_of_list_singleton in Hp as ->; vm_compute; reflexivity.
Qed.

Lemma C66_subgraph_partial_pf :
forall E (V : lview E) N R B order, shows V N R -> one_link V R -> (forall n, ~ tc (vedge V R) n n) ->
  NoDup (bd_inputs B) -> NoDup (bd_outputs B) -> (forall p, p ∈ bd_ports B -> port_in V N p) ->
  (forall x y n, R x y -> lv_port V x ∈ bd_ports B -> lv_pnode V (lv_port V y) = Some n -> ~ induced V N R (bd_ports B) n) ->
  (forall l, order l ≡ₚ l) ->
  exists L o K, (forall fuel, K < fuel -> new_subgraph V fuel B = HOk L /\ port_ordering (subgraph V L) B order fuel = HOk o) /\
    (forall n, n ∈ L <-> induced V N R (bd_ports B) n) /\
    holds_order o (length (bd_inputs B)) (length (bd_outputs B))
      (port_path (subgraph V L) (link_inside V (induced V N R (bd_ports B)) R) B).
Proof.
  intros E V N R B order H One Hac Hni Hno Hp Hun Hord.
  destruct (C65_new_subgraph_pf E V N R B H One Hp) as (L & K1 & EL & _ & _ & HL & HS). cbn zeta in HS.
  set (S := induced V N R (bd_ports B)) in *.
  destruct (C66_port_ordering_partial_pf E (subgraph V L) S (link_inside V S R) B order HS) as (o & K2 & Eo & Ho).
  - intros x y x' y' (H1 & _) (H2 & _) Eq. exact (One x y x' y' H1 H2 Eq).
  - intros n Ht. apply (Hac n).
    assert (Hg : forall a b, tc (vedge (subgraph V L) (link_inside V S R)) a b -> tc (vedge V R) a b); [|by apply Hg].
    intros a b. induction 1 as [u v (x & y & (Hr & _) & Hx & Hd & Hy)|u v z (x & y & (Hr & _) & Hx & Hd & Hy) _ IH].
    + apply tc_once. exists x, y. repeat split; assumption.
    + eapply tc_l; [|exact IH]. exists x, y. repeat split; assumption.
  - split; [done|done| |].
    + intros p Hb. destruct (Hp p Hb) as (n & Hn & HN). exists n. split; [exact Hn|]. right. exists p, n. split; [done|]. split; [done|apply rtc_refl].
    + intros x y (Hr & _ & (n & Hn & HSn)) Hb. exact (Hun x y n Hr Hb Hn HSn).
  - exact Hord.
  - exists L, o, (K1 + K2). split; [|done]. intros fuel Hf. split; [apply EL; lia|apply Eo; lia].
Qed.

Lemma all_contained_ok l : po_all_contained l = true <-> forall s t z, (s, t) ∈ l -> z ∈ t -> z ∈ s.
Proof.
  induction l as [|[s t] l IH]; cbn [po_all_contained]; [split; [by intros _ s t z ?%elem_of_nil|done]|].
  destruct (existsb _ (elements t)) eqn:Ex.
  - split; [done|]. intros Hz. apply existsb_exists in Ex as (z & Hz1%elem_of_list_In & Hz2%bool_decide_eq_true). exfalso. apply Hz2. apply (Hz s t z); [by left|by apply elem_of_elements].
  - rewrite IH. split; [|intros Hz s' t' z Hs; apply Hz; by right]. intros Hz s' t' z [[= -> ->]|Hs]%elem_of_cons Hzt; [|by eapply Hz].
    destruct (decide (z ∈ s)) as [|Hn]; [done|]. apply not_true_iff_false in Ex. exfalso. apply Ex. apply existsb_exists. exists z.
    split; [by apply elem_of_list_In, elem_of_elements|by apply bool_decide_eq_true].
Qed.
Lemma zip_lookup {A B} (l : list A) (k : list B) i a b : zip l k !! i = Some (a, b) <-> l !! i = Some a /\ k !! i = Some b.
Proof.
  revert k i. induction l as [|x l IH]; intros [|y k] i; cbn.
  - rewrite !lookup_nil. naive_solver.
  - rewrite !lookup_nil. naive_solver.
  - rewrite !lookup_nil. naive_solver.
  - destruct i; cbn; [naive_solver|apply IH].
Qed.
Lemma missing_ok order (Hord : forall l : list bport, order l ≡ₚ l) l : forall k,
  let ms := concat (imap (fun i (x : gset bport * gset bport) =>
    (fun p => (BP (k + i) Incoming, p)) <$> filter (fun p => p ∉ x.1) (order (elements x.2))) l) in
  NoDup ms /\ forall x z, (x, z) ∈ ms <-> exists i s t, x = BP (k + i) Incoming /\ l !! i = Some (s, t) /\ z ∈ t /\ z ∉ s.
Proof.
  induction l as [|[s t] l IH]; intros k; cbn zeta.
  - cbn. split; [constructor|]. intros x z. split; [by intros ?%elem_of_nil|]. intros (i & s & t & _ & Hi & _). by rewrite lookup_nil in Hi.
  - rewrite imap_cons. cbn [concat].
    assert (Heq : imap ((fun i (x : gset bport * gset bport) => (fun p => (BP (k + i) Incoming, p)) <$> filter (fun p => p ∉ x.1) (order (elements x.2))) ∘ S) l =
      imap (fun i (x : gset bport * gset bport) => (fun p => (BP (S k + i) Incoming, p)) <$> filter (fun p => p ∉ x.1) (order (elements x.2))) l).
    { apply imap_ext. intros i x _. cbn. by rewrite Nat.add_succ_r. }
    rewrite Heq. destruct (IH (S k)) as [Hnd Hel]. clear Heq.
    assert (Hhd : forall x z, (x, z) ∈ (fun p => (BP (k + 0) Incoming, p)) <$> filter (fun p => p ∉ s) (order (elements t)) <-> x = BP k Incoming /\ z ∈ t /\ z ∉ s).
    { intros x z. rewrite elem_of_list_fmap. setoid_rewrite elem_of_list_filter. setoid_rewrite Hord. setoid_rewrite elem_of_elements. rewrite Nat.add_0_r. split.
      - intros (p & [= -> ->] & ? & ?). done.
      - intros (-> & ? & ?). by exists z. }
    split.
    + apply NoDup_app. split; [|split; [|exact Hnd]].
      * apply (NoDup_fmap_2_strong _); [by intros p q _ _ [= ->]|]. apply NoDup_filter. rewrite Hord. apply NoDup_elements.
      * intros [x z] [-> _]%Hhd (i & s' & t' & Hx & _)%Hel. injection Hx. lia.
    + intros x z. rewrite elem_of_app. cbn [fst snd]. rewrite Hhd, Hel. split.
      * intros [(-> & ? & ?)|(i & s' & t' & -> & ? & ?)]; [exists 0, s, t; by rewrite Nat.add_0_r|exists (S i), s', t'; by rewrite Nat.add_succ_r].
      * intros ([|i] & s' & t' & -> & Hi & ? & ?); [left; rewrite Nat.add_0_r; cbn in Hi; by injection Hi as -> ->|right; exists i, s', t'; by rewrite Nat.add_succ_r].
Qed.

Lemma C66_is_stronger_pf :
forall order a b, (forall l, order l ≡ₚ l) ->
  (length (po_reachable a) = length (po_reachable b) /\ length (po_reaching a) = length (po_reaching b) ->
   exists r l, po_is_stronger_than a b = HOk r /\ po_missing_pairs order a b = HOk l /\
     (r = true <-> forall i s t z, po_reachable a !! i = Some s -> po_reachable b !! i = Some t -> z ∈ t -> z ∈ s) /\
     NoDup l /\ (forall x z, (x, z) ∈ l <-> exists i s t, x = BP i Incoming /\ po_reachable a !! i = Some s /\ po_reachable b !! i = Some t /\ z ∈ t /\ z ∉ s) /\
     (r = true <-> l = [])) /\
  (~ (length (po_reachable a) = length (po_reachable b) /\ length (po_reaching a) = length (po_reaching b)) ->
   po_is_stronger_than a b = HPanic /\ po_missing_pairs order a b = HPanic).
Proof.
  intros order a b Hord. split.
  - intros [L1 L2]. assert (Hc : po_incompatible a b = false) by (unfold po_incompatible; rewrite !bool_decide_eq_true_2 by done; done).
    unfold po_is_stronger_than, po_missing_pairs. rewrite Hc. destruct (missing_ok order Hord (zip (po_reachable a) (po_reachable b)) 0) as [Hnd Hel]. cbn zeta in *.
    cbn [Nat.add] in *. set (ms := concat _) in *. exists (po_all_contained (zip (po_reachable a) (po_reachable b))), ms. split; [done|]. split; [done|].
    assert (Hst : po_all_contained (zip (po_reachable a) (po_reachable b)) = true <-> forall i s t z, po_reachable a !! i = Some s -> po_reachable b !! i = Some t -> z ∈ t -> z ∈ s).
    { rewrite all_contained_ok. split.
      - intros Hz i s t z Hs Ht. apply (Hz s t z). apply elem_of_list_lookup. exists i. by apply zip_lookup.
      - intros Hz s t z [i [Hs Ht]%zip_lookup]%elem_of_list_lookup. by apply (Hz i s t z). }
    assert (Hel' : forall x z, (x, z) ∈ ms <-> exists i s t, x = BP i Incoming /\ po_reachable a !! i = Some s /\ po_reachable b !! i = Some t /\ z ∈ t /\ z ∉ s).
    { intros x z. rewrite Hel. setoid_rewrite zip_lookup. naive_solver. }
    split; [exact Hst|]. split; [done|]. split; [exact Hel'|]. rewrite Hst. split.
    + intros Hz. destruct ms as [|[x z] ms']; [done|]. exfalso. destruct (proj1 (Hel' x z) ltac:(by left)) as (i & s & t & _ & Hs & Ht & Hzt & Hzs). by apply Hzs, (Hz i s t z).
    + intros E0 i s t z Hs Ht Hzt. destruct (decide (z ∈ s)) as [|Hn]; [done|]. exfalso. assert (Hin : (BP i Incoming, z) ∈ ms) by (apply Hel'; by exists i, s, t).
      rewrite E0 in Hin. by apply elem_of_nil in Hin.
  - intros Hne. assert (Hc : po_incompatible a b = true).
    { unfold po_incompatible. destruct (decide (length (po_reachable a) = length (po_reachable b))) as [E1|E1]; [|by rewrite (bool_decide_eq_false_2 _ E1)].
      destruct (decide (length (po_reaching a) = length (po_reaching b))) as [E2|E2]; [tauto|]. rewrite (bool_decide_eq_false_2 _ E2). apply orb_true_r. }
    unfold po_is_stronger_than, po_missing_pairs. by rewrite Hc.
Qed.

Lemma C66_boundary_stronger_partial_pf :
forall E E' (V : lview E) (V' : lview E') N N' R R' B B' order,
  shows V N R -> one_link V R -> (forall n, ~ tc (vedge V R) n n) -> cut_boundary V N R B ->
  shows V' N' R' -> one_link V' R' -> (forall n, ~ tc (vedge V' R') n n) -> cut_boundary V' N' R' B' ->
  (forall l, order l ≡ₚ l) -> bd_is_compatible B B' = true ->
  exists r K, (forall fuel, K < fuel -> bd_is_stronger_than order fuel V V' B B' = HOk r) /\
    (r = true <-> forall i j, port_path V' R' B' i j -> port_path V R B i j).
Proof.
  intros E E' V V' N N' R R' B B' order H1 H2 H3 H4 G1 G2 G3 G4 Hord Hc.
  destruct (C66_port_ordering_partial_pf E V N R B order H1 H2 H3 H4 Hord) as (a & K & Ea & (A1 & A2 & A3 & A4)).
  destruct (C66_port_ordering_partial_pf E' V' N' R' B' order G1 G2 G3 G4 Hord) as (b & K' & Eb & (B1 & B2 & B3 & B4)).
  unfold bd_is_compatible in Hc. rewrite andb_true_iff, !bool_decide_eq_true in Hc. destruct Hc as [C1 C2].
  destruct (C66_is_stronger_pf (@id _) a b ltac:(done)) as [Hgo _]. destruct Hgo as (r & l & Er & _ & Hr & _); [split; congruence|].
  exists r, (K + K'). split; [intros fuel Hf; unfold bd_is_stronger_than; rewrite Ea by lia; cbn [mbind hres_bind]; rewrite Eb by lia; exact Er|].
  rewrite Hr. split.
  - intros Hz i j Hpath. pose proof Hpath as (p & q & _ & _ & Hi & _). apply lookup_lt_Some in Hi.
    destruct (lookup_lt_is_Some_2 (po_reachable a) i ltac:(lia)) as [s Hs]. destruct (lookup_lt_is_Some_2 (po_reachable b) i ltac:(lia)) as [t Ht].
    assert (Hin : BP j Outgoing ∈ s). { apply (Hz i s t _ Hs Ht). apply (B3 i t Ht). by exists j. }
    apply (A3 i s Hs) in Hin as (j' & [= <-] & ?). done.
  - intros Hz i s t z Hs Ht (j & -> & Hj)%(B3 i t Ht). apply (A3 i s Hs). exists j. split; [done|by apply Hz].
Qed.
