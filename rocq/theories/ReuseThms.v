(** Proofs of C135. *)
From Verif Require Export CapThms.
From Verif Require Import PGGrow.

Lemma free_step_heads g i g' : free_port_step g i = Ok g' -> pg_nfree g' = pg_nfree g.
Proof.
  unfold free_port_step. intros H. apply bind_inv in H as (pm & _ & H). apply bind_inv in H as (l & _ & H). apply bind_inv in H as (lk & _ & H).
  destruct l; [|by injection H as <-]. apply bind_inv in H as (lk' & _ & H). apply bind_inv in H as (c & _ & H). by injection H as <-.
Qed.
Lemma free_fold_heads l : forall g g', rfold free_port_step l g = Ok g' -> pg_nfree g' = pg_nfree g.
Proof.
  induction l as [|i l IH]; intros g g'; cbn [rfold]; [by intros [= ->]|]. intros (g1 & E & H)%bind_inv. apply IH in H. rewrite H. by eapply free_step_heads.
Qed.
Lemma free_ports_heads g s n g' : free_ports g s n = Ok g' -> pg_nfree g' = pg_nfree g /\ (0 < n -> pg_pfree g' !! (n - 1) = Some (Some s)).
Proof.
  unfold free_ports. set (g0 := if decide (length _ < _) then _ else _). intros H.
  assert (E0 : pg_nfree g0 = pg_nfree g) by (unfold g0; destruct (decide _); done). clearbody g0.
  destruct (decide _); [injection H as <-; split; [done|lia]|].
  apply bind_inv in H as (g1 & E1 & H). apply free_fold_heads in E1. apply bind_inv in H as (x & _ & H).
  apply bind_inv in H as (x1 & (Hl & ->)%vset_inv & H). apply bind_inv in H as (x2 & _ & H). injection H as <-. cbn. split; [congruence|].
  intros _. by apply list_lookup_insert.
Qed.
Lemma remove_heads g n m g1 : nmeta g n = Some m -> remove_node g n = Ok g1 ->
  pg_nfree g1 = Some n /\ (0 < nm_cap m -> pg_pfree g1 !! (nm_cap m - 1) = Some (Some (nm_first m))) /\ same_len g g1.
Proof.
  intros Em E. unfold remove_node in E. rewrite (nmeta_Some _ _ _ Em) in E. apply bind_inv in E as (g0 & E0 & E).
  assert (Hn : pg_nfree g0 = Some n).
  { unfold free_node in E0. apply bind_inv in E0 as (ns & _ & E0). apply bind_inv in E0 as (ns' & _ & E0). by injection E0 as <-. }
  apply free_node_grow in E0 as [L1 L2]. apply bind_inv in E as (nc & _ & E). cbn zeta in E. destruct (decide _) as [Hc|Hc].
  - apply bind_inv in E as (pc & _ & E). apply bind_inv in E as (? & _ & E). apply bind_inv in E as (? & _ & E).
    pose proof (free_ports_heads _ _ _ _ E) as [H1 H2]. apply free_ports_grow in E. cbn in *. split; [congruence|]. split; [done|].
    unfold same_len in *. cbn in E. rewrite L2 in E. lia.
  - injection E as <-. cbn. split; [done|]. split; [done|]. unfold same_len. cbn. by rewrite L2.
Qed.
Lemma alloc_node_head g n g' x : pg_nfree g = Some n -> alloc_node g = Ok (g', x) ->
  x = n /\ length (pg_nodes g') = length (pg_nodes g) /\ pg_pmeta g' = pg_pmeta g /\ pg_pfree g' = pg_pfree g.
Proof.
  unfold alloc_node. intros -> H. apply bind_inv in H as (e & _ & H). destruct e as [p nx|]; [|done].
  destruct nx as [y|]; [|by injection H as <- <-].
  apply bind_inv in H as (e & _ & H). destruct e as [p' nx|]; [|done].
  apply bind_inv in H as (ns & (_ & ->)%vset_inv & H). injection H as <- <-. cbn. by rewrite insert_length.
Qed.
Lemma alloc_ports_head g n i j s g' m : 0 < i + j -> (N.of_nat i <= 65534 /\ N.of_nat (i + j) <= 65535)%N ->
  pg_pfree g !! (i + j - 1) = Some (Some s) -> alloc_ports g n i j 0 = Ok (g', m) ->
  m = NM s i j (i + j) /\ length (pg_pmeta g') = length (pg_pmeta g).
Proof.
  intros Hp Hb Hf H. unfold alloc_ports in H. cbn zeta in H. rewrite Nat.add_0_r in H. rewrite decide_False in H by lia. rewrite Hf in H.
  rewrite !trunc16_id in H by lia.
  apply bind_inv in H as (x & _ & H). apply bind_inv in H as (x1 & _ & H). apply bind_inv in H as (x2 & _ & H).
  rewrite nm_new_ok in H by lia. cbn [mbind res_bind] in H. apply bind_inv in H as (pm1 & E1 & H). apply bind_inv in H as (pm2 & E2 & H).
  apply bind_inv in H as (x4 & _ & H). apply bind_inv in H as (pm3 & E3 & H). apply bind_inv in H as (x5 & _ & H).
  injection H as <- <-. cbn. split; [done|].
  apply vfill_inv in E1 as [? ->]. apply vfill_inv in E2 as [? ->]. apply vfill_inv in E3 as [? ->]. by rewrite !inserts_length.
Qed.
Lemma add_heads pm g n i j g' x : pg_nfree g = Some n -> (N.of_nat i <= 65534 /\ N.of_nat (i + j) <= 65535)%N -> add_node pm g i j = Ok (g', x) ->
  x = n /\ length (pg_nodes g') = length (pg_nodes g) /\
  (i + j = 0 -> nmeta g' n = Some nm_default /\ length (pg_pmeta g') = length (pg_pmeta g)) /\
  forall s, 0 < i + j -> pg_pfree g !! (i + j - 1) = Some (Some s) -> nmeta g' n = Some (NM s i j (i + j)) /\ length (pg_pmeta g') = length (pg_pmeta g).
Proof.
  intros Hn Hb H. unfold add_node in H. apply bind_inv in H as (? & _ & H). apply bind_inv in H as (? & _ & H).
  apply bind_inv in H as ([g1 y] & E1 & H). apply bind_inv in H as ([g2 m] & E2 & H). apply bind_inv in H as (ns & (Hl & ->)%vset_inv & H).
  injection H as <- <-. apply (alloc_node_head _ _ _ _ Hn) in E1 as (-> & L1 & P1 & F1).
  pose proof (alloc_ports_grow _ _ _ _ _ _ _ E2) as [N2 G2]. cbn. rewrite insert_length, N2. split; [done|]. split; [done|]. split.
  - intros H0. unfold alloc_ports in E2. rewrite decide_True in E2 by lia. injection E2 as <- <-. split; [|by rewrite P1]. unfold nmeta. cbn. by rewrite list_lookup_insert.
  - intros s Hp Hf. rewrite <- F1 in Hf. destruct (alloc_ports_head _ _ _ _ _ _ _ Hp Hb Hf E2) as [-> L2]. split; [|by rewrite L2, P1].
    rewrite N2 in Hl. unfold nmeta. cbn. by rewrite list_lookup_insert.
Qed.

Lemma C135_reuse_pf :
forall w g n g1 i j g2 x, reach w g -> contains_node g n = true -> remove_node g n = Ok g1 ->
  (N.of_nat i <= 65534 /\ N.of_nat (i + j) <= 65535)%N -> add_node (po_max_offset w) g1 i j = Ok (g2, x) ->
  x = n /\
  (i + j = node_port_capacity g n ->
     (forall p, p ∈ all_ports g n -> p ∈ all_ports g2 n) /\
     (num_ports g n Incoming + num_ports g n Outgoing = i + j -> all_ports g2 n = all_ports g n) /\
     (num_ports g n Incoming = i -> num_ports g n Outgoing = j -> forall d, ports g2 n d = ports g n d)).
Proof.
intros w g n g1 i j g2 x Hr Hc E1 Hb E2. apply contains_node_true in Hc as [m Em].
destruct (remove_heads _ _ _ _ Em E1) as (H1 & H2 & _). destruct (add_heads _ _ _ _ _ _ _ H1 Hb E2) as (-> & _ & H5 & H3). split; [done|].
unfold node_port_capacity, num_ports, all_ports, ports. rewrite Em. intros Hcap. apply reach_inv in Hr as (fnl & F & I).
pose proof (inv_meta_ok _ _ _ I _ _ Em) as Hmo. unfold meta_ok in Hmo.
destruct (decide (i + j = 0)) as [H0|H0].
- destruct (H5 H0) as [-> _]. assert (nm_inc m = 0) as Hi by lia. assert (nm_out m = 0) as Ho by lia.
  unfold nm_all_ports, nm_ports, nm_num. rewrite Hi, Ho. cbn. split; [|split]; [by intros p ?%elem_of_nil|done|]. intros _ _ d. destruct d; cbn; by rewrite ?Hi, ?Ho.
- rewrite <- Hcap in H2. destruct (H3 _ ltac:(lia) (H2 ltac:(lia))) as [-> _]. unfold nm_all_ports, nm_ports, nm_num, nm_start. cbn [nm_first nm_inc nm_out].
  split; [|split].
  + intros p. rewrite !elem_of_seq. lia.
  + by intros ->.
  + intros E3 E4 d. subst i j. by destruct d.
Qed.

Lemma c135_room grow cap len : len <= cap -> v_room grow cap len = cap.
Proof. intros H. unfold v_room. by rewrite decide_True. Qed.

Lemma C135_capacity_pf :
forall grow fit w a b ops c, alloc_ok grow fit -> cg_hist grow fit w (cg_with_capacity grow a b) ops c ->
  (forall n c1 r1 i j c2 r2, contains_node (cg_g c) n = true -> cg_step grow fit w c (ORemove n) = Ok (c1, r1) ->
     allowed (cg_g c1) (OAdd i j) -> cg_step grow fit w c1 (OAdd i j) = Ok (c2, r2) ->
     r2 = RNode n /\ cg_node_capacity c2 = cg_node_capacity c /\
     (i + j = node_port_capacity (cg_g c) n -> cg_port_capacity c2 = cg_port_capacity c)) /\
  (forall x y i j c1 r1, x < y -> contains_node (cg_g c) x = false -> contains_node (cg_g c) y = true ->
     allowed (cg_g c) (OAdd i j) -> cg_step grow fit w c (OAdd i j) = Ok (c1, r1) -> cg_node_capacity c1 = cg_node_capacity c).
Proof.
intros grow fit w a b ops c Hal Hh. assert (H0 : reach w (cg_g (cg_with_capacity grow a b))) by (exists []; constructor).
pose proof (cg_reach _ _ _ _ _ _ H0 Hh) as Hr. destruct (cg_len _ _ _ _ _ _ Hal H0 Hh) as [L1 L2]; [cbn; lia|cbn; lia|].
unfold cg_node_capacity, cg_port_capacity. split.
- intros n c1 r1 i j c2 r2 Hc E1 Ha E2. apply contains_node_true in Hc as [m Em].
  apply cg_step_inv in E1 as [E1 K1]. apply cg_step_inv in E2 as [E2 K2]. destruct (K1 Logic.I) as [K3 K4]. destruct (K2 Logic.I) as [K5 K6]. clear K1 K2.
  cbn [step] in E1, E2. apply bind_inv in E1 as (g1 & E1 & H). injection H as Hg1 _. apply bind_inv in E2 as ([g2 x] & E2 & H). injection H as Hg2 <-. subst g1 g2.
  destruct (remove_heads _ _ _ _ Em E1) as (H1 & H2 & H3 & H4). destruct (add_heads _ _ _ _ _ _ _ H1 Ha E2) as (-> & H5 & H6 & H7). split; [done|].
  rewrite H5, H3 in K5. rewrite H3 in K3. rewrite H4 in K4. rewrite c135_room in K3 by done. rewrite c135_room in K4 by done. rewrite K3 in K5. rewrite c135_room in K5 by done.
  split; [done|]. unfold node_port_capacity. rewrite Em. intros Hcap.
  assert (length (pg_pmeta (cg_g c2)) = length (pg_pmeta (cg_g c))) as HL.
  { rewrite <- H4. destruct (decide (i + j = 0)) as [Hz|Hz]; [by apply H6|]. rewrite <- Hcap in H2. by destruct (H7 _ ltac:(lia) (H2 ltac:(lia))). }
  rewrite HL, K4 in K6. by rewrite c135_room in K6.
- intros x y i j c1 r1 Hxy Hx Hy Ha E. apply cg_step_inv in E as [E K]. destruct (K Logic.I) as [K1 _].
  cbn [step] in E. apply bind_inv in E as ([g1 z] & E & H). injection H as Hg _. subst g1.
  apply reach_inv in Hr as (fnl & F & I). apply contains_node_true in Hy as [m Em]. apply nmeta_lt in Em. apply contains_node_false in Hx.
  destruct (i_nfree _ _ _ I) as [N1 _ N3 _]. assert (Hf : is_Some (nfree (cg_g c) x)).
  { unfold nmeta in Hx. unfold nfree. destruct (lookup_lt_is_Some_2 (pg_nodes (cg_g c)) x ltac:(lia)) as [e Ee]. rewrite Ee in *. destruct e; [by eexists|done]. }
  apply N3 in Hf. destruct fnl as [|h fnl]; [by apply elem_of_nil in Hf|]. cbn in N1.
  destruct (add_heads _ _ _ _ _ _ _ N1 Ha E) as (_ & L & _). rewrite L in K1. by rewrite c135_room in K1.
Qed.
