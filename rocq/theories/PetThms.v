(** Proofs of properties C105 to C110. *)
From Verif Require Export PetSpec ViewProofs ViewBase MapThms ViewThms BoundThms.

Section ers.
  Context {E : Type} (V : lview E) (pe : E * E -> edge_ref E).
  Lemma ers_step_ok c ps : forall ls lls, Forall2 (fun p l => lv_plinks V p = HOk l) ps lls ->
    (forall x, x ∈ ls ++ concat lls -> pet_edge V x = HOk (pe x)) ->
    match ls ++ concat lls with
    | [] => exists s, ers_step V ps ls c = HOk (None, s)
    | x :: rest => exists ps' ls' lls', ers_step V ps ls c = HOk (Some (pe x), ERS ps' ls' c) /\
        Forall2 (fun p l => lv_plinks V p = HOk l) ps' lls' /\ rest = ls' ++ concat lls'
    end.
  Proof.
    induction ps as [|p ps IH]; intros ls lls F He.
    - apply Forall2_nil_inv_l in F as ->. destruct ls as [|x ls]; cbn [app concat]; [eexists; reflexivity|].
      exists [], ls, []. cbn [ers_step]. rewrite (He x) by apply elem_of_list_here. rewrite hbind_Ok. split; [reflexivity|]. split; [constructor|done].
    - destruct ls as [|x ls]; cbn [app].
      + apply Forall2_cons_inv_l in F as (l & lls' & Hl & F & ->). cbn [concat ers_step]. cbn [app concat] in He. rewrite Hl, hbind_Ok. by apply IH.
      + exists (p :: ps), ls, lls. cbn [ers_step]. rewrite (He x) by apply elem_of_list_here. rewrite hbind_Ok. done.
  Qed.
  Lemma ers_collect_ok c : forall l ps ls lls fuel, Forall2 (fun p l => lv_plinks V p = HOk l) ps lls ->
    ls ++ concat lls = l -> (forall x, x ∈ l -> pet_edge V x = HOk (pe x)) -> length l < fuel ->
    ers_collect V fuel (ERS ps ls c) = HOk (map pe l).
  Proof.
    induction l as [|x l IH]; intros ps ls lls [|fuel] F El He Hf; [lia| |lia|]; cbn [ers_collect]; unfold ers_next; cbn [ers_ports ers_links ers_count];
      pose proof (ers_step_ok c ps ls lls F ltac:(by rewrite El)) as Hs; rewrite El in Hs.
    - destruct Hs as [s ->]. reflexivity.
    - destruct Hs as (ps' & ls' & lls' & -> & F' & Hr). rewrite hbind_Ok. cbn [length] in Hf.
      rewrite (IH ps' ls' lls' fuel F') by (done || lia || (intros y Hy; apply He; by apply elem_of_list_further)). reflexivity.
  Qed.
End ers.

Section pets.
  Context {E : Type} (V : lview E) (N : nat -> Prop) (R : E -> E -> Prop) (H : shows V N R).
  Lemma pet_edge_ok x y : R x y -> exists a b, lv_pnode V (lv_port V x) = Some a /\ lv_pnode V (lv_port V y) = Some b /\ N a /\ N b /\ pet_edge V (x, y) = HOk (ER a b (x, y)).
  Proof.
    intros HR. destruct (lvs_end _ _ _ H x y HR) as (a & Ha & Na), (lvs_end2 V N R H x y HR) as (b & Hb & Nb).
    exists a, b. split_and!; try done. unfold pet_edge. cbn [fst snd]. by rewrite Ha, Hb.
  Qed.
  Lemma pet_edges_ok l : (forall x y, (x, y) ∈ l -> R x y) -> exists r, hmap (pet_edge V) l = HOk r /\ Forall2 (refers_to V) r l.
  Proof.
    induction l as [|[x y] l IH]; intros Hl; [exists []; by split|].
    destruct (pet_edge_ok x y (Hl x y (elem_of_list_here _ _))) as (a & b & Ha & Hb & _ & _ & Ee).
    destruct IH as (r & Er & F); [intros x' y' Hx; apply Hl; by apply elem_of_list_further|].
    exists (ER a b (x, y) :: r). cbn [hmap]. rewrite Ee, hbind_Ok, Er, hbind_Ok. split; [done|]. constructor; [|done]. done.
  Qed.
  Lemma lists_at n d l : N n -> lv_links V n d = HOk l -> lists_links_at V R n d l.
  Proof.
    intros Hn El. destruct (lvs_links_elem V N R H n d l Hn El) as [L1 L2]. split; [done|]. intros x y.
    rewrite L2, (proj2 (lvs_ports _ _ _ H n d Hn)). tauto.
  Qed.
  Lemma neigh_edge n r b : N n -> lv_neigh V n Outgoing = HOk r -> b ∈ r <-> has_edge V R n b.
  Proof.
    intros Hn Er. destruct (lvs_links_eq V N R H n Outgoing Hn) as (l & r' & El & Er' & F & _ & _). rewrite Er in Er'. apply hok_inj in Er' as <-.
    destruct (lists_at n Outgoing l Hn El) as [_ L2]. split.
    - intros Hb. apply elem_of_list_lookup in Hb as [i Hi]. destruct (Forall2_lookup_r _ _ _ _ _ F Hi) as ([x y] & Hx & Hy).
      apply elem_of_list_lookup_2, L2 in Hx as (HR & H1 & H2). exists x, y. done.
    - intros (x & y & HR & Hd & Hx & Hy). assert (Hi : (x, y) ∈ l) by (by apply L2). apply elem_of_list_lookup in Hi as [i Hi].
      destruct (Forall2_lookup_l _ _ _ _ _ F Hi) as (m & Hm & Hm'). cbn [snd] in Hm'. rewrite Hy in Hm'. injection Hm' as <-. by eapply elem_of_list_lookup_2.
  Qed.
  Lemma neigh_ok n : N n -> exists r, lv_neigh V n Outgoing = HOk r.
  Proof. intros Hn. destruct (lvs_links_eq V N R H n Outgoing Hn) as (l & r' & El & Er' & F & _ & _). eauto. Qed.
  Lemma edge_in a b : has_edge V R a b -> N a /\ N b.
  Proof.
    intros (x & y & HR & _ & Hx & Hy). destruct (pet_edge_ok x y HR) as (a' & b' & Ha & Hb & Na & Nb & _).
    rewrite Hx in Ha. rewrite Hy in Hb. injection Ha as <-. injection Hb as <-. done.
  Qed.

  Lemma row_ok cap n l : forall m, length m = cap * cap -> n < cap -> (forall b, b ∈ l -> b < cap) ->
    exists m', pet_row cap n l m = HOk m' /\ length m' = cap * cap /\
      forall a b, a < cap -> b < cap -> (m' !! (a * cap + b) = Some true <-> m !! (a * cap + b) = Some true \/ a = n /\ b ∈ l).
  Proof.
    induction l as [|c l IH]; intros m Hm Hn Hl; cbn [pet_row].
    - exists m. split_and!; try done. intros a b _ _. rewrite elem_of_nil. tauto.
    - assert (Hc : c < cap) by (apply Hl, elem_of_list_here).
      rewrite vset_ok by nia. cbn [lift]. rewrite hbind_Ok.
      destruct (IH (<[n * cap + c := true]> m)) as (m' & E1 & E2 & E3); [by rewrite insert_length|done|intros b Hb; apply Hl; by apply elem_of_list_further|].
      exists m'. split_and!; try done. intros a b Ha Hb. rewrite E3, elem_of_cons by done.
      destruct (decide (a * cap + b = n * cap + c)) as [Ei|Ei].
      + rewrite Ei, list_lookup_insert by nia. assert (a = n) as ->.
        { destruct (lt_eq_lt_dec a n) as [[Hlt|Heq]|Hlt]; [|done|]; [assert (S a * cap <= n * cap) by (apply Nat.mul_le_mono_r; lia)|assert (S n * cap <= a * cap) by (apply Nat.mul_le_mono_r; lia)]; lia. }
        assert (b = c) as -> by lia. tauto.
      + rewrite list_lookup_insert_ne by done. assert (~ (a = n /\ b = c)) by (intros [-> ->]; done). tauto.
  Qed.
  Lemma rows_ok cap (Hcap : forall n, N n -> n < cap) ns : forall m, length m = cap * cap -> (forall n, n ∈ ns -> N n) ->
    exists m', pet_rows V cap ns m = HOk m' /\ length m' = cap * cap /\
      forall a b, a < cap -> b < cap -> (m' !! (a * cap + b) = Some true <-> m !! (a * cap + b) = Some true \/ a ∈ ns /\ has_edge V R a b).
  Proof.
    induction ns as [|n ns IH]; intros m Hm Hns; cbn [pet_rows].
    - exists m. split_and!; try done. intros a b _ _. rewrite elem_of_nil. tauto.
    - assert (Nn : N n) by apply Hns, elem_of_list_here. destruct (neigh_ok n Nn) as [r Er]. rewrite Er, hbind_Ok.
      pose proof (fun b => neigh_edge n r b Nn Er) as Hr.
      destruct (row_ok cap n r m Hm (Hcap _ Nn)) as (m1 & E1 & L1 & I1); [intros b Hb%Hr; apply Hcap; by apply (edge_in n b)|].
      rewrite E1, hbind_Ok. destruct (IH m1 L1) as (m2 & E2 & L2 & I2); [intros a Ha; apply Hns; by apply elem_of_list_further|].
      exists m2. split_and!; try done. intros a b Ha Hb. rewrite I2, I1, elem_of_cons by done. split.
      + intros [[?|[-> ?%Hr]]|[? ?]]; tauto.
      + intros [?|[[-> | ?] He]]; [tauto| |tauto]. left. right. split; [done|]. by apply Hr.
  Qed.
  Lemma pairs_fold n (l : list nat) : forall m : gset (nat * nat), forall x, x ∈ foldl (fun m b => {[(n, b)]} ∪ m) m l <-> x ∈ m \/ x.1 = n /\ x.2 ∈ l.
  Proof.
    induction l as [|c l IH]; intros m [a b]; cbn [foldl fst snd].
    - rewrite elem_of_nil. tauto.
    - rewrite IH, elem_of_union, elem_of_singleton, elem_of_cons. cbn [fst snd]. split.
      + intros [[[= -> ->]|?]|[? ?]]; tauto.
      + intros [?|[-> [-> |?]]]; tauto.
  Qed.
  Lemma pairs_ok ns : forall m, (forall n, n ∈ ns -> N n) -> exists m', pet_pairs V ns m = HOk m' /\
    forall a b, (a, b) ∈ m' <-> (a, b) ∈ m \/ a ∈ ns /\ has_edge V R a b.
  Proof.
    induction ns as [|n ns IH]; intros m Hns; cbn [pet_pairs].
    - exists m. split; [done|]. intros a b. rewrite elem_of_nil. tauto.
    - assert (Nn : N n) by apply Hns, elem_of_list_here. destruct (neigh_ok n Nn) as [r Er]. rewrite Er, hbind_Ok.
      pose proof (fun b => neigh_edge n r b Nn Er) as Hr.
      destruct (IH (foldl (fun m b => {[(n, b)]} ∪ m) m r)) as (m2 & E2 & I2); [intros a Ha; apply Hns; by apply elem_of_list_further|].
      exists m2. split; [done|]. intros a b. rewrite I2, pairs_fold, elem_of_cons. cbn [fst snd]. split.
      + intros [[?|[-> ?%Hr]]|[? ?]]; tauto.
      + intros [?|[[-> | ?] He]]; [tauto| |tauto]. left. right. split; [done|]. by apply Hr.
  Qed.
End pets.

Lemma vrun_app cs c : forall m, vrun m (cs ++ [c]) = (vrun m cs ≫= fun m => vrun1 m c).
Proof.
  induction cs as [|c' cs IH]; intros m; cbn [vrun app].
  - cbn. by destruct (vrun1 m c).
  - destruct (vrun1 m c') as [m'|]; [|done]. cbn. apply IH.
Qed.
Lemma two_edge : has_edge (lv_of_pg two_g) (linked two_g) 0 1 /\ ~ has_edge (lv_of_pg two_g) (linked two_g) 1 0.
Proof.
  split; [exists 0, 1; vm_compute; repeat split|]. intros (x & y & HR & Hd & Hx & Hy).
  destruct x as [|[|x]]; [vm_compute in Hx; discriminate Hx|vm_compute in Hd; discriminate Hd|].
  vm_compute in Hx. destruct x; discriminate Hx.
Qed.

Lemma C105_nodes_and_neighbours_pf :
forall E (V : lview E) N R, shows V N R ->
  (exists L, pet_node_identifiers V = HOk L /\ pet_node_references V = HOk L /\ NoDup L /\ (forall n, n ∈ L <-> N n) /\
     pet_node_count V = HOk (length L))
  /\ (counts_links V R -> exists L, link_list V R L /\ pet_edge_count V = HOk (length L))
  /\ forall n d, N n -> exists L r, lists_links_at V R n d L /\ pet_neighbors_directed V n d = HOk r /\
       Forall2 (fun x m => lv_pnode V (lv_port V x.2) = Some m) L r /\ (d = Outgoing -> pet_neighbors V n = HOk r).
Proof.
  intros E V N R H. split; [|split].
  - destruct (lvs_nodes _ _ _ H) as (L & H1 & H2 & H3 & H4). exists L. done.
  - intros (L & H1 & H2). exists L. done.
  - intros n d Hn. destruct (lvs_links_eq V N R H n d Hn) as (l & r & El & Er & F & _ & _). exists l, r.
    split; [by apply (lists_at V N R H)|]. split_and!; try done. by intros ->.
Qed.

Lemma C106_edge_references_refuted_pf :
exists g s r, reach 16 g /\ pet_edge_references (lv_of_pg g) = HOk s /\ ers_collect (lv_of_pg g) 3 s = HOk r /\
  link_count g = 1 /\ ers_len s = 1 /\ length r = 2 /\
  r = [ER 0 1 (0, 1); ER 1 0 (1, 0)] /\ ~ has_edge (lv_of_pg g) (linked g) 1 0.
Proof.
  exists two_g. eexists _, _. split; [exists two_ops; apply run_hist; vm_compute; reflexivity|]. split; [vm_compute; reflexivity|].
  split; [vm_compute; reflexivity|]. split; [vm_compute; reflexivity|]. split; [vm_compute; reflexivity|]. split; [vm_compute; reflexivity|].
  split; [reflexivity|]. exact (proj2 two_edge).
Qed.

Lemma C106_edge_references_partial_pf :
forall E (V : lview E) N R c, shows V N R -> lv_link_count V = HOk c ->
  exists s r L, pet_edge_references V = HOk s /\ ers_len s = c /\ link_list V R L /\
    (forall fuel, length r < fuel -> ers_collect V fuel s = HOk r) /\
    er_id <$> r ≡ₚ L ++ ((fun x => (x.2, x.1)) <$> L) /\ Forall (fun e => refers_to V e (er_id e)) r.
Proof.
  intros E V N R c H Hc. destruct (lvs_port_list _ _ _ H) as (ps & Eps & Pnd & Pin & _).
  assert (HF : exists lls, Forall2 (fun p l => lv_plinks V p = HOk l) ps lls).
  { assert (Hps : forall p, p ∈ ps -> port_in V N p) by (intros p; apply Pin). clear -Hps H. induction ps as [|p ps IH]; [exists []; constructor|].
    destruct (lvs_plinks _ _ _ H p (Hps p (elem_of_list_here _ _))) as (l & El & _).
    destruct IH as [lls F]; [intros q Hq; apply Hps; by apply elem_of_list_further|]. exists (l :: lls). by constructor. }
  destruct HF as [lls F].
  assert (HC : NoDup (concat lls) /\ forall x y, (x, y) ∈ concat lls <-> R x y).
  { destruct ps as [|p0 ps'] eqn:Eq.
    - apply Forall2_nil_inv_l in F as ->. split; [constructor|]. intros x y. cbn. rewrite elem_of_nil. split; [done|]. intros HR.
      apply (lvs_end _ _ _ H) in HR. apply Pin in HR. by apply elem_of_nil in HR.
    - rewrite <- Eq in *. assert (Hp0 : port_in V N p0) by (apply Pin; rewrite Eq; apply elem_of_list_here). destruct Hp0 as (n0 & _ & Hn0).
      destruct (lvs_concat V N R H n0 ps lls Hn0 Pnd (fun p Hp => proj1 (Pin p) Hp) F) as [C1 C2]. split; [done|]. intros x y. rewrite C2. split; [tauto|].
      intros HR. split; [|done]. by apply Pin, (lvs_end _ _ _ H x y). }
  destruct HC as [Cnd Cin].
  set (pe := fun x : E * E => ER (default 0 (lv_pnode V (lv_port V x.1))) (default 0 (lv_pnode V (lv_port V x.2))) x).
  assert (Hpe : forall x, x ∈ concat lls -> pet_edge V x = HOk (pe x) /\ refers_to V (pe x) x).
  { intros [x y] HR%Cin. destruct (pet_edge_ok V N R H x y HR) as (a & b & Ha & Hb & _ & _ & Ee). rewrite Ee. unfold pe. cbn [fst snd].
    unfold refers_to. cbn [er_id er_source er_target fst snd]. by rewrite Ha, Hb. }
  exists (ERS ps [] c), (map pe (concat lls)), (filter (fun x => lv_pdir V (lv_port V x.1) = Some Outgoing) (concat lls)).
  split; [unfold pet_edge_references; rewrite Eps, hbind_Ok, Hc, hbind_Ok; done|]. split; [done|].
  assert (LL : link_list V R (filter (fun x => lv_pdir V (lv_port V x.1) = Some Outgoing) (concat lls))).
  { split; [by apply NoDup_filter|]. intros x y. rewrite elem_of_list_filter, Cin. cbn [fst]. tauto. }
  split; [done|]. split; [intros fuel Hf; rewrite map_length in Hf; apply (ers_collect_ok V pe c (concat lls) ps [] lls fuel F); [done|by intros x Hx; apply Hpe|done]|].
  split.
  - assert (er_id <$> map pe (concat lls) = concat lls) as -> by (clear; induction (concat lls) as [|x l IH]; [done|]; cbn; f_equal; exact IH).
    set (L := filter _ _) in *. destruct LL as [L1 L2]. apply NoDup_Permutation; [done| |].
    + apply NoDup_app. split; [done|]. split.
      * intros [x y] [HR Hd]%L2 Hs. apply elem_of_list_fmap in Hs as ([x' y'] & [= -> ->] & [HR' Hd']%L2).
        pose proof (lvs_opp _ _ _ H _ _ _ HR Hd) as Ho. rewrite Hd' in Ho. discriminate Ho.
      * apply NoDup_fmap_2; [|done]. intros [a b] [a' b'] [= -> ->]. done.
    + intros [x y]. rewrite Cin, elem_of_app, L2, elem_of_list_fmap. split.
      * intros HR. destruct (lvs_end _ _ _ H x y HR) as (a & Ha & _). destruct (lv_pdir V (lv_port V x)) as [[]|] eqn:Ed.
        -- right. exists (y, x). split; [done|]. apply L2. split; [by apply (lvs_sym _ _ _ H)|]. exact (lvs_opp _ _ _ H _ _ _ HR Ed).
        -- by left.
        -- exfalso. eapply (lvs_dir _ _ _ H); [|exact Ed]. congruence.
      * intros [[HR _]|([x' y'] & [= -> ->] & [HR _]%L2)]; [done|]. by apply (lvs_sym _ _ _ H).
  - apply Forall_forall. intros e He. apply elem_of_list_fmap in He as (x & -> & Hx). by apply Hpe.
Qed.

Lemma C107_node_edges_refuted_pf :
exists g, reach 16 g /\ contains_node g 1 = true /\
  pet_edges (lv_of_pg g) 1 = HOk [ER 1 0 (1, 0)] /\ pet_edges_directed (lv_of_pg g) 1 Incoming = HOk [ER 1 0 (1, 0)] /\
  has_edge (lv_of_pg g) (linked g) 0 1 /\ ~ has_edge (lv_of_pg g) (linked g) 1 0.
Proof.
  exists two_g. split; [exists two_ops; apply run_hist; vm_compute; reflexivity|]. split; [vm_compute; reflexivity|].
  split; [vm_compute; reflexivity|]. split; [vm_compute; reflexivity|]. exact two_edge.
Qed.

Lemma C107_node_edges_partial_pf :
forall E (V : lview E) N R n, shows V N R -> N n ->
  (forall d, exists L r, lists_links_at V R n d L /\ pet_edges_directed V n d = HOk r /\ Forall2 (refers_to V) r L /\
     Forall (fun e => er_source e = n) r)
  /\ exists L r, pet_edges V n = HOk r /\ Forall2 (refers_to V) r L /\ NoDup L /\
     (forall x y, (x, y) ∈ L <-> R x y /\ lv_pnode V (lv_port V x) = Some n /\
        ~ (lv_pdir V (lv_port V x) = Some Incoming /\ lv_pnode V (lv_port V y) = Some n)) /\
     ((forall a, has_edge V R a n -> a = n) -> lists_links_at V R n Outgoing L).
Proof.
  intros E V N R n H Hn. split.
  - intros d. destruct (lvs_links_eq V N R H n d Hn) as (l & r0 & El & _ & _ & _ & _). pose proof (lists_at V N R H n d l Hn El) as Hl.
    destruct (pet_edges_ok V N R H l) as (r & Er & F); [intros x y Hx; by apply (proj2 Hl)|]. exists l, r. split; [done|].
    split; [unfold pet_edges_directed; by rewrite El, hbind_Ok|]. split; [done|]. apply Forall_forall. intros e He.
    apply elem_of_list_lookup in He as [i Hi]. destruct (Forall2_lookup_l _ _ _ _ _ F Hi) as ([x y] & Hx & _ & Hs & _).
    apply elem_of_list_lookup_2, (proj2 Hl) in Hx as (_ & Hx & _). cbn [fst] in Hs. congruence.
  - destruct (lvs_all_links _ _ _ H n Hn) as (li & lo & l & r0 & _ & _ & _ & _ & El & _).
    destruct (lvs_all_elem V N R H n l Hn El) as [L1 L2].
    destruct (pet_edges_ok V N R H l) as (r & Er & F); [intros x y Hx; by apply L2 in Hx as [? _]|]. exists l, r.
    split; [unfold pet_edges; by rewrite El, hbind_Ok|]. split_and!; try done. intros Hself. split; [done|]. intros x y. rewrite L2. split.
    + intros (HR & Hx & Hno). split_and!; try done. destruct (lv_pdir V (lv_port V x)) as [[]|] eqn:Ed; [|done|].
      * exfalso. apply Hno. split; [done|]. destruct (lvs_end2 V N R H x y HR) as (a & Ha & _). rewrite Ha. f_equal. apply Hself.
        exists y, x. split; [by apply (lvs_sym _ _ _ H)|]. split; [exact (lvs_opp _ _ _ H _ _ _ HR Ed)|]. done.
      * exfalso. eapply (lvs_dir _ _ _ H); [|exact Ed]. congruence.
    + intros (HR & Hx & Hd). split_and!; try done. intros [Hd' _]. rewrite Hd in Hd'. discriminate Hd'.
Qed.

Lemma C108_visit_map_refuted_pf :
exists n m1 m2, pet_visit pet_visit_map n = Ok (m1, false) /\ pet_visit m1 n = Ok (m2, true).
Proof.
  exists 0. eexists _, _. split; vm_compute; reflexivity.
Qed.

Lemma C108_visit_map_partial_pf :
forall cs, exists m, vrun pet_visit_map cs = Ok m /\ forall n,
  pet_is_visited m n = visited_after (rev cs) n /\
  (exists m', pet_visit m n = Ok (m', visited_after (rev cs) n)) /\ exists m', pet_unvisit m n = Ok (m', visited_after (rev cs) n).
Proof.
  assert (Hm : forall cs, exists m, vrun pet_visit_map cs = Ok m /\ forall n, pet_is_visited m n = visited_after (rev cs) n).
  { intros cs. induction cs as [|c cs IH] using rev_ind; [exists []; done|]. destruct IH as (m & Em & Hm). rewrite vrun_app, Em, rev_unit.
    change (exists m', vrun1 m c = Ok m' /\ forall n, pet_is_visited m' n = visited_after (c :: rev cs) n). destruct c as [k|k|]; cbn [vrun1 visited_after].
    - unfold pet_visit. destruct (bv_set_ok m k true) as (b & -> & Hb). exists b. split; [done|]. intros n. unfold pet_is_visited in *. rewrite Hb. unfold tset. by rewrite Hm.
    - unfold pet_unvisit. destruct (bv_set_ok m k false) as (b & -> & Hb). exists b. split; [done|]. intros n. unfold pet_is_visited in *. rewrite Hb. unfold tset. by rewrite Hm.
    - exists []. done. }
  intros cs. destruct (Hm cs) as (m & Em & Hv). exists m. split; [done|]. intros n. split; [done|]. rewrite <- Hv. unfold pet_visit, pet_unvisit.
  destruct (bv_set_ok m n true) as (b & -> & _), (bv_set_ok m n false) as (b' & -> & _). split; eexists; reflexivity.
Qed.

Lemma C109_node_bound_refuted_pf :
exists g n b, reach 16 g /\ contains_node g n = true /\ pet_node_bound (lv_of_pg g) = HOk b /\ ~ pet_to_index n < b.
Proof.
  exists (default pg_new (run 16 [OAdd 0 0; OAdd 0 0; ORemove 0] pg_new)), 1, 1.
  split; [exists [OAdd 0 0; OAdd 0 0; ORemove 0]; apply run_hist; vm_compute; reflexivity|]. split; [vm_compute; reflexivity|]. split; [vm_compute; reflexivity|].
  unfold pet_to_index. lia.
Qed.

Lemma C109_node_bound_partial_pf :
forall E (V : lview E) N R, shows V N R ->
  ((forall n m, N n -> m < n -> N m) -> exists b, pet_node_bound V = HOk b /\ forall n, N n <-> pet_to_index n < b)
  /\ forall n, (N.of_nat n < 2 ^ 31 - 1)%N -> pet_from_index (pet_to_index n) = HOk n.
Proof.
  intros E V N R H. split.
  - intros Hdown. destruct (lvs_nodes _ _ _ H) as (L & _ & Lnd & Lin & Ec). exists (length L). split; [done|].
    assert (Hle : forall n, N n -> S n <= length L).
    { intros n Hn. rewrite <- (seq_length (S n) 0). apply submseteq_length, NoDup_submseteq; [apply NoDup_seq|].
      intros m Hm%elem_of_seq. apply Lin. destruct (decide (m = n)) as [-> |]; [done|]. apply (Hdown n); [done|lia]. }
    intros n. unfold pet_to_index. split; [intros Hn%Hle; lia|]. intros Hn.
    destruct (decide (n ∈ L)) as [Hi|Hi]; [by apply Lin|]. exfalso.
    assert (length L <= length (seq 0 n)); [|rewrite seq_length in *; lia]. apply submseteq_length, NoDup_submseteq; [done|].
    intros m Hm. apply elem_of_seq. split; [lia|]. cbn. destruct (decide (m < n)) as [|Hge]; [done|]. exfalso. apply Hi.
    destruct (decide (m = n)) as [-> |]; [done|]. apply Lin. apply (Hdown m); [by apply Lin|lia].
  - intros n Hn. unfold pet_from_index, pet_to_index. by rewrite decide_True.
Qed.

Lemma C110_adjacency_pf :
forall E (V : lview E) N R, shows V N R ->
  (forall cap, (forall n, N n -> n < cap) -> exists m, pet_adjacency_dense V cap = HOk m /\
     forall a b, N a -> N b -> exists r, pet_is_adjacent_dense m a b = HOk r /\ (r = true <-> has_edge V R a b))
  /\ exists m, pet_adjacency_sparse V = HOk m /\ forall a b, pet_is_adjacent_sparse m a b = true <-> has_edge V R a b.
Proof.
  intros E V N R H. destruct (lvs_nodes _ _ _ H) as (L & EL & _ & Lin & _). split.
  - intros cap Hcap. destruct (rows_ok V N R H cap Hcap L (replicate (cap * cap) false)) as (m & Em & Lm & Hm); [apply replicate_length|intros n; apply Lin|].
    exists (m, cap). unfold pet_adjacency_dense. rewrite EL, hbind_Ok, Em, hbind_Ok. split; [done|]. intros a b Na Nb.
    pose proof (Hcap a Na). pose proof (Hcap b Nb). unfold pet_is_adjacent_dense. cbn [fst snd].
    destruct (lookup_lt_is_Some_2 m (a * cap + b)) as [r Hr]; [nia|]. exists r. split; [unfold vget; rewrite Hr; reflexivity|].
    specialize (Hm a b ltac:(done) ltac:(done)). rewrite Hr in Hm. split.
    + intros ->. destruct (proj1 Hm eq_refl) as [Hrep|[_ He]]; [|done]. apply lookup_replicate in Hrep as [? _]. done.
    + intros He. assert (Some r = Some true) as [= ->]; [|done]. apply Hm. right. split; [by apply Lin|done].
  - destruct (pairs_ok V N R H L ∅) as (m & Em & Hm); [intros n; apply Lin|]. exists m. unfold pet_adjacency_sparse. rewrite EL, hbind_Ok. split; [done|].
    intros a b. unfold pet_is_adjacent_sparse. rewrite bool_decide_eq_true, Hm. split; [intros [?%not_elem_of_empty|[_ ?]]; done|].
    intros He. right. split; [|done]. apply Lin. by apply (edge_in V N R H a b).
Qed.
