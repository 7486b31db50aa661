(** Proofs of C131-C134. *)
From Verif Require Export CapSpec PG3Thms MapThms MultiThms.
From Verif Require Import PGGrow.

Definition bad_g : pg := default pg_new (run 16 [OAdd 2 0; OAdd 3 0] pg_new).
Definition resized (g : pg) (n i j : nat) : pg * list (nat * port_op) := match set_num_ports g n i j with Ok x => x | Panic => (g, []) end.

Lemma C131_port_capacity_refuted_pf :
exists g g1 l1 g2 l2, reach 16 g /\
  node_port_capacity g 0 = 2 /\ ports g 0 Incoming = [0; 1] /\
  set_num_ports g 0 1 1 = Ok (g1, l1) /\ ports g1 0 Incoming = [5] /\ (0, Moved 5) ∈ l1 /\
  node_port_capacity g 1 = 3 /\ set_num_ports g 1 0 0 = Ok (g2, l2) /\ node_port_capacity g2 1 = 1.
Proof.
exists bad_g, (resized bad_g 0 1 1).1, (resized bad_g 0 1 1).2, (resized bad_g 1 0 0).1, (resized bad_g 1 0 0).2.
split; [exists [OAdd 2 0; OAdd 3 0]; apply run_hist; vm_compute; reflexivity|].
split; [vm_compute; reflexivity|]. split; [vm_compute; reflexivity|]. split; [vm_compute; reflexivity|]. split; [vm_compute; reflexivity|].
split; [apply elem_of_list_In; vm_compute; tauto|]. split; [vm_compute; reflexivity|]. split; vm_compute; reflexivity.
Qed.

Lemma slab_own g m n p : Inv g -> nmeta g n = Some m -> nm_first m <= p < nm_first m + nm_cap m -> port_node g p = Some n \/ port_node g p = None.
Proof.
  intros (fnl & F & I) Hm Hp. unfold port_node. destruct (pmeta g p) as [[n' d]|] eqn:Ep; [|by right]. left. cbn. f_equal.
  by destruct (inv_slab_owner _ _ _ I _ _ _ _ Hm Hp Ep) as [H _].
Qed.

Lemma C131_port_capacity_partial_pf :
forall w g n i j, reach w g -> contains_node g n = true ->
  num_ports g n Incoming + num_ports g n Outgoing <= node_port_capacity g n /\
  forall g' log, set_num_ports g n i j = Ok (g', log) -> 1 <= i + j < node_port_capacity g n ->
    node_port_capacity g' n = node_port_capacity g n /\
    exists b, all_ports g n = seq b (num_ports g n Incoming + num_ports g n Outgoing) /\ all_ports g' n = seq b (i + j) /\
      forall p, b <= p < b + node_port_capacity g n ->
        (port_node g p = Some n \/ port_node g p = None) /\ (port_node g' p = Some n \/ port_node g' p = None).
Proof.
intros w g n i j Hr Hc. pose proof (reach_inv _ _ Hr) as HI. apply contains_node_true in Hc as [m Hm].
pose proof HI as (fnl & F & I). pose proof (inv_meta_ok _ _ _ I _ _ Hm) as Hmo. unfold num_ports, node_port_capacity. rewrite Hm.
split; [unfold meta_ok in Hmo; cbn [nm_num]; lia|]. intros g' log E Hij.
assert (Hr' : reach w g').
{ destruct Hr as [ops Hh]. exists (ops ++ [OSetPorts n i j]). eapply hist_step; [exact Hh|done|]. cbn [step]. rewrite E. reflexivity. }
assert (exists m', nmeta g' n = Some m' /\ nm_first m' = nm_first m /\ nm_cap m' = nm_cap m /\ nm_inc m' + nm_out m' = i + j) as (m' & Hm' & E1 & E2 & E3).
{ unfold set_num_ports in E. apply bind_inv in E as (_u & _ & E). apply bind_inv in E as (_u' & _ & E). rewrite Hm in E.
  destruct (decide (nm_inc m = i /\ nm_out m = j)) as [[<- <-]|Hne]; [injection E as <- <-; by exists m|].
  rewrite decide_True in E by done. unfold resize_inplace in E. rewrite Hm in E. cbn [unwrap] in E. rewrite bind_Ok in E.
  unfold meta_ok in Hmo. rewrite !trunc16_id in E by lia. rewrite nm_new_ok in E by lia. rewrite bind_Ok in E.
  apply bind_inv in E as ([g1 l1] & E1%drop_grow & E). apply bind_inv in E as ([g2 l2] & E2%move_grow & E).
  apply bind_inv in E as (g3 & E3%init_grow & E). apply bind_inv in E as (g4 & E4%init_grow & E).
  apply bind_inv in E as (g5 & E5%empty_grow & E). apply bind_inv in E as (ns & (Hl & ->)%vset_inv & E).
  apply bind_inv in E as (pc & _ & E). injection E as <- <-. exists (NM (nm_first m) i j (nm_cap m)). split; [|done]. unfold nmeta. cbn. by rewrite list_lookup_insert. }
rewrite Hm'. split; [done|]. exists (nm_first m). unfold all_ports. rewrite Hm, Hm'. unfold nm_all_ports. rewrite E1, E3. split; [done|]. split; [done|].
intros p Hp. split; [by eapply slab_own|]. eapply (slab_own g' m'); [by eapply reach_inv|done|]. rewrite E1, E2. done.
Qed.

Lemma room_ge grow fit cap need : alloc_ok grow fit -> need <= v_room grow cap need /\ cap <= v_room grow cap need.
Proof. intros [H _]. unfold v_room. case_decide; [lia|]. specialize (H cap need). lia. Qed.
Lemma cg_step_inv grow fit w c o c' r : cg_step grow fit w c o = Ok (c', r) -> step w (cg_g c) o = Ok (cg_g c', r) /\
  (no_cap_call o -> cg_ncap c' = v_room grow (cg_ncap c) (length (pg_nodes (cg_g c'))) /\ cg_pcap c' = v_room grow (cg_pcap c) (length (pg_pmeta (cg_g c')))).
Proof.
  unfold cg_step. intros ([g r'] & E & H)%bind_inv. rewrite E. destruct o; injection H as <- <-; done.
Qed.
Lemma cg_reach grow fit w c0 ops c : reach w (cg_g c0) -> cg_hist grow fit w c0 ops c -> reach w (cg_g c).
Proof.
  intros H0. induction 1 as [|ops c o c' r _ IH Ha E]; [done|]. apply cg_step_inv in E as [E _]. destruct IH as [ops' Hh]. exists (ops' ++ [o]). by eapply hist_step.
Qed.
Lemma cg_len grow fit w c0 ops c : alloc_ok grow fit -> reach w (cg_g c0) -> cg_hist grow fit w c0 ops c ->
  length (pg_nodes (cg_g c0)) <= cg_ncap c0 -> length (pg_pmeta (cg_g c0)) <= cg_pcap c0 ->
  length (pg_nodes (cg_g c)) <= cg_ncap c /\ length (pg_pmeta (cg_g c)) <= cg_pcap c.
Proof.
  intros Hal Hr Hh Hn Hp. induction Hh as [|ops c o c' r Hh IH Ha E]; [done|]. pose proof (cg_step_inv _ _ _ _ _ _ _ E) as [_ E2].
  unfold cg_step in E. apply bind_inv in E as ([g r'] & E & H). destruct IH as [IH1 IH2].
  destruct o; injection H as <- <-; cbn [cg_g cg_ncap cg_pcap]; try (split; eapply room_ge; exact Hal).
  - cbn [step] in E. injection E as <- <-. unfold reserve. pose proof (room_ge grow fit (cg_ncap c) (length (pg_nodes (cg_g c)) + nodes) Hal). 
    pose proof (room_ge grow fit (cg_pcap c) (length (pg_pmeta (cg_g c)) + ports) Hal). lia.
  - cbn [step] in E. injection E as <- <-. unfold shrink_to_fit. destruct Hal as [_ Hal]. split; by apply Hal.
Qed.
Lemma cg_run_same grow fit w c0 ops c : alloc_ok grow fit -> reach w (cg_g c0) -> cg_hist grow fit w c0 ops c -> Forall no_cap_call ops ->
  length (pg_nodes (cg_g c0)) + sum_list (node_cost <$> ops) <= cg_ncap c0 ->
  length (pg_pmeta (cg_g c0)) + sum_list (port_cost <$> ops) <= cg_pcap c0 ->
  cg_ncap c = cg_ncap c0 /\ cg_pcap c = cg_pcap c0 /\
  length (pg_nodes (cg_g c)) <= length (pg_nodes (cg_g c0)) + sum_list (node_cost <$> ops) /\
  length (pg_pmeta (cg_g c)) <= length (pg_pmeta (cg_g c0)) + sum_list (port_cost <$> ops).
Proof.
  intros Hal Hr Hh. induction Hh as [|ops c o c' r Hh IH Ha E]; intros Hf Hn Hp; [cbn; lia|].
  apply Forall_app in Hf as [Hf Ho]. inversion_clear Ho as [|? ? Ho' _]. rewrite !fmap_app, !sum_list_with_app in *.
  apply cg_step_inv in E as [E E2]. specialize (E2 Ho') as [E2 E3]. cbn [fmap list_fmap sum_list sum_list_with] in *.
  destruct IH as (I1 & I2 & I3 & I4); [done|lia|lia|]. pose proof (reach_inv _ _ (cg_reach _ _ _ _ _ _ Hr Hh)) as HI.
  destruct (step_grow _ _ _ _ _ HI Ha E) as [G1 G2]. unfold v_room in E2, E3. rewrite decide_True in E2 by (cbn in *; lia). rewrite decide_True in E3 by (cbn in *; lia).
  cbn in *. lia.
Qed.
Lemma count_le g : Inv g -> pg_ncount g <= length (pg_nodes g) /\ pg_pcount g <= length (pg_pmeta g).
Proof.
  intros (fnl & F & I). destruct (i_counts _ _ _ I) as (C1 & C2 & _). split.
  - edestruct (card_minus (fun x => 0 <= x < 0 + length (pg_nodes g)) (fun n => nmeta g n <> None)) as [H _]; [|apply card_seq|exact C1|exact H].
    intros x Hx. destruct (nmeta g x) as [m|] eqn:E; [|done]. apply nmeta_lt in E. lia.
  - edestruct (card_minus (fun x => 0 <= x < 0 + length (pg_pmeta g)) (fun n => pmeta g n <> None)) as [H _]; [|apply card_seq|exact C2|exact H].
    intros x Hx. destruct (pmeta g x) as [m|] eqn:E; [|done]. apply pmeta_lt in E. lia.
Qed.

Lemma C132_graph_capacity_pf :
forall grow fit w a b ops c, alloc_ok grow fit -> cg_hist grow fit w (cg_with_capacity grow a b) ops c ->
  (node_count (cg_g c) <= cg_node_capacity c /\ port_count (cg_g c) <= cg_port_capacity c /\
   (forall n, contains_node (cg_g c) n = true -> n < cg_node_capacity c) /\
   (forall p, contains_port (cg_g c) p = true -> p < cg_port_capacity c)) /\
  (Forall no_cap_call ops -> sum_list (node_cost <$> ops) <= a -> sum_list (port_cost <$> ops) <= b ->
     cg_node_capacity c = cg_node_capacity (cg_with_capacity grow a b) /\ cg_port_capacity c = cg_port_capacity (cg_with_capacity grow a b)) /\
  (forall a' b', exists c1, cg_step grow fit w c (OReserve a' b') = Ok (c1, RUnit) /\ cg_g c1 = cg_g c /\
     cg_node_capacity c <= cg_node_capacity c1 /\ cg_port_capacity c <= cg_port_capacity c1 /\
     forall ops' c2, cg_hist grow fit w c1 ops' c2 -> Forall no_cap_call ops' ->
       sum_list (node_cost <$> ops') <= a' -> sum_list (port_cost <$> ops') <= b' ->
       cg_node_capacity c2 = cg_node_capacity c1 /\ cg_port_capacity c2 = cg_port_capacity c1).
Proof.
intros grow fit w a b ops c Hal Hh. assert (H0 : reach w (cg_g (cg_with_capacity grow a b))) by (exists []; constructor).
pose proof (cg_reach _ _ _ _ _ _ H0 Hh) as Hr. pose proof (reach_inv _ _ Hr) as HI. destruct (count_le _ HI) as [K1 K2].
destruct (cg_len _ _ _ _ _ _ Hal H0 Hh) as [L1 L2]; [cbn; lia|cbn; lia|]. unfold cg_node_capacity, cg_port_capacity, node_count, port_count.
split; [|split].
- split; [lia|]. split; [lia|]. split.
  + intros n [m Hm]%contains_node_true. apply nmeta_lt in Hm. lia.
  + intros p [m Hm]%contains_port_true. apply pmeta_lt in Hm. lia.
- intros Hf Hn Hp. pose proof (room_ge grow fit 0 a Hal) as [R1 _]. pose proof (room_ge grow fit 0 b Hal) as [R2 _].
  destruct (cg_run_same _ _ _ _ _ _ Hal H0 Hh Hf) as (E1 & E2 & _); [cbn; lia|cbn; lia|]. done.
- intros a' b'. eexists. split; [reflexivity|]. cbn [cg_g cg_ncap cg_pcap]. unfold reserve.
  pose proof (room_ge grow fit (cg_ncap c) (length (pg_nodes (cg_g c)) + a') Hal) as [R1 R1'].
  pose proof (room_ge grow fit (cg_pcap c) (length (pg_pmeta (cg_g c)) + b') Hal) as [R2 R2'].
  split; [done|]. split; [done|]. split; [done|]. intros ops' c2 Hh2 Hf Hn Hp.
  destruct (cg_run_same _ _ _ (CG _ _ _) _ _ Hal Hr Hh2 Hf) as (E1 & E2 & _); [cbn in *; lia|cbn in *; lia|]. done.
Qed.

Lemma C132_view_capacity_pf :
(forall w m cn cp, (2 < w <= 63)%N -> mreach w m -> node_count (m_graph m) <= cn -> port_count (m_graph m) <= cp ->
   exists kn kp xn xp, m_node_count m = Ok kn /\ m_port_count m = Ok kp /\
     m_node_capacity cn m = Ok xn /\ m_port_capacity cp m = Ok xp /\ kn <= xn /\ kp <= xp) /\
  (forall cap count own, count <= cap -> own <= count -> exists x, view_capacity cap count own = Ok x /\ own <= x <= cap).
Proof.
split.
- intros w m cn cp Hw Hr Hn Hp. destruct (C55_multi_counts_partial_pf w m Hw Hr) as (kn & kp & _ & _ & E1 & E2 & _).
  exists kn, kp. unfold m_node_count, m_port_count, m_node_capacity, m_port_capacity, usub in *.
  destruct (decide _) as [H1|] in E1; [|discriminate E1]. injection E1 as <-. exists (cn - m_ccount m).
  destruct (decide _) as [H2|] in E2; [|discriminate E2]. cbn [mbind res_bind] in E2. destruct (decide _) as [H3|] in E2; [|discriminate E2]. injection E2 as <-.
  exists (cp - m_scount m - m_ccount m). split; [by rewrite decide_True|]. split; [rewrite decide_True by done; cbn [mbind res_bind]; by rewrite decide_True|].
  split; [by rewrite decide_True by lia|]. split; [rewrite decide_True by lia; cbn [mbind res_bind]; by rewrite decide_True by lia|]. lia.
- intros cap count own H1 H2. exists (cap - count + own). unfold view_capacity, usub. rewrite decide_True by done. split; [done|lia].
Qed.

Lemma um_step_len {V} (vdef : V) m o ks m' r L : mop_keys o = Some ks -> um_step vdef m o = Ok (m', r) ->
  length (um_data m) <= L -> (forall x, x ∈ ks -> x < L) -> length (um_data m') <= L.
Proof.
  intros Hk E HL HK.
  assert (Hres : forall u n, n <= L -> length (um_data (@um_resize V u n)) <= L) by (intros u n Hn; cbn; by rewrite vresize_length).
  assert (Hmut : forall u k, length (um_data u) <= L -> k < L -> length (um_data (@um_get_mut V u k)) <= L).
  { intros u k Hu Hx. unfold um_get_mut. case_decide; [apply Hres; lia|done]. }
  assert (Hw : forall u k (v : V) u', um_write u k v = Ok u' -> length (um_data u) <= L -> length (um_data u') <= L).
  { intros u k v u' Eu Hu. unfold um_write in Eu. apply bind_inv in Eu as (l & (_ & ->)%vset_inv & Eu). injection Eu as <-. cbn. by rewrite insert_length. }
  assert (Hif : forall u n, length (um_data u) <= L -> n < L -> length (um_data (if decide (length (um_data u) <= n) then @um_resize V u (n + 1) else u)) <= L).
  { intros u n Hu Hn. case_decide; [apply Hres; lia|done]. }
  assert (Htake : forall u k u' (v : V), um_take u k = Ok (u', v) -> length (um_data u) <= L -> length (um_data u') <= L).
  { intros u k u' v Eu Hu. unfold um_take in Eu. destruct (um_data u !! k); [|by injection Eu as <- <-]. apply bind_inv in Eu as (u1 & E1 & Eu). injection Eu as <- <-. by eapply Hw. }
  destruct o as [k|k v|k v|k|k|k|x y|old new|e k|ks'|]; cbn [um_step] in E; cbn [mop_keys] in Hk; try discriminate Hk; injection Hk as <-.
  - by injection E as <- <-.
  - apply bind_inv in E as (u & E1 & E). injection E as <- <-. unfold um_set in E1. eapply Hw; [exact E1|]. apply Hmut; [done|]. apply HK. by left.
  - apply bind_inv in E as (u & E1 & E). injection E as <- <-. eapply Hw; [exact E1|]. apply Hmut; [done|]. apply HK. by left.
  - apply bind_inv in E as (v & E1 & E). injection E as <- <-. apply Hmut; [done|]. apply HK. by left.
  - apply bind_inv in E as ([u v] & E1 & E). injection E as <- <-. by eapply Htake.
  - apply bind_inv in E as (u & E1 & E). injection E as <- <-. unfold um_remove in E1. apply bind_inv in E1 as ([u' v] & E1 & E). injection E as <-. by eapply Htake.
  - apply bind_inv in E as (u & E1 & E). injection E as <- <-. unfold um_swap in E1.
    apply bind_inv in E1 as (v1 & _ & E1). apply bind_inv in E1 as (v2 & _ & E1). apply bind_inv in E1 as (u1 & E2 & E1).
    eapply Hw; [exact E1|]. eapply Hw; [exact E2|]. apply Hif; [done|]. assert (x < L) by (apply HK; by left). assert (y < L) by (apply HK; right; by left). lia.
  - apply bind_inv in E as (u & E1 & E). injection E as <- <-. unfold um_rekey in E1.
    destruct (decide (old < length (um_data m))).
    + apply bind_inv in E1 as (v & _ & E1). apply bind_inv in E1 as (u1 & E2 & E1). apply Hw in E2; [|apply Hmut; [done|apply HK; by left]].
      destruct new as [k|]; [|by injection E1 as <-]. eapply Hw; [exact E1|]. apply Hif; [done|]. apply HK. right. by left.
    + destruct new as [k|]; [|by injection E1 as <-]. case_decide; [|by injection E1 as <-]. by eapply Hw.
  - unfold um_get_disjoint_mut in E. injection E as <- _. destruct ks' as [|k ks']; [done|]. apply Hif; [done|].
    assert (Hmax : forall l, l <> [] -> max_list l ∈ l).
    { clear. induction l as [|x l IH]; [done|]. intros _. cbn [max_list max_list_with]. destruct l as [|y l]; [rewrite Nat.max_0_r; by left|].
      change (x `max` max_list (y :: l) ∈ x :: y :: l). destruct (Nat.max_spec x (max_list (y :: l))) as [[_ ->]|[_ ->]]; [right; by apply IH|by left]. }
    apply HK, Hmax. done.
  - by injection E as <- <-.
Qed.
Lemma cm_len {V} grow fit (vdef : V) c0 ops c : alloc_ok grow fit -> length (um_data (cm_m c0)) <= cm_cap c0 ->
  cm_hist grow fit vdef c0 ops c -> length (um_data (cm_m c)) <= cm_cap c.
Proof.
  intros Hal H0. induction 1 as [|ops c o ks c' r _ IH Hk E|ops c k _ IH|ops c k _ IH]; [done| | |].
  - unfold cm_step in E. apply bind_inv in E as ([u r'] & E & H). injection H as <- <-. cbn. by eapply room_ge.
  - unfold cm_ensure, um_ensure_capacity. cbn [cm_m cm_cap]. case_decide; [cbn; rewrite vresize_length; by eapply room_ge|done].
  - unfold cm_shrink. cbn [cm_m cm_cap]. destruct Hal as [_ Hal]. apply Hal. cbn. rewrite take_length. lia.
Qed.

Lemma C133_dense_capacity_pf :
forall V grow fit (vdef d : V) a ops c, alloc_ok grow fit -> cm_hist grow fit vdef (cm_with_capacity grow a d) ops c ->
  a <= cm_cap (cm_with_capacity grow a d) /\
  (forall k, um_get (cm_m c) k <> um_default (cm_m c) -> k < cm_cap c) /\
  (forall ops' c', cm_hist grow fit vdef c ops' c' -> Forall (below (cm_cap c)) ops' -> cm_cap c' = cm_cap c) /\
  (forall k, k <= cm_cap (cm_ensure grow c k) /\ cm_cap c <= cm_cap (cm_ensure grow c k) /\
     (forall x, um_get (cm_m (cm_ensure grow c k)) x = um_get (cm_m c) x) /\ (k <= cm_cap c -> cm_ensure grow c k = c)).
Proof.
intros V grow fit vdef d a ops c Hal Hh. assert (HL : length (um_data (cm_m c)) <= cm_cap c) by (eapply cm_len; [done| |exact Hh]; cbn; lia).
split; [by eapply room_ge|]. split; [|split].
- intros k Hk. unfold um_get in Hk. destruct (um_data (cm_m c) !! k) eqn:E; [|done]. apply lookup_lt_Some in E. lia.
- intros ops' c' Hh' Hb. assert (cm_cap c' = cm_cap c /\ length (um_data (cm_m c')) <= cm_cap c) as [? _]; [|done].
  clear Hh. induction Hh' as [|ops' c1 o ks c2 r Hh' IH Hk E|ops' c1 k Hh' IH|ops' c1 k Hh' IH]; [done| | |].
  + apply Forall_app in Hb as [Hb Ho]. inversion_clear Ho as [|? ? Ho' _]. destruct (IH Hb) as [I1 I2].
    unfold cm_step in E. apply bind_inv in E as ([u r'] & E & H). injection H as <- <-. cbn [cm_m cm_cap].
    assert (length (um_data u) <= cm_cap c) by (eapply um_step_len; [exact Hk|exact E|done|intros x Hx; by eapply Ho']).
    rewrite I1. unfold v_room. by rewrite decide_True.
  + apply Forall_app in Hb as [_ Ho]. inversion_clear Ho as [|? ? Ho' _]. done.
  + apply Forall_app in Hb as [_ Ho]. inversion_clear Ho as [|? ? Ho' _]. done.
- intros k. unfold cm_ensure, um_ensure_capacity. cbn [cm_m cm_cap]. case_decide as Hk.
  + destruct (room_ge grow fit (v_room grow (cm_cap c) (length (um_data (cm_m c)) + (k - cm_cap c))) k Hal) as [R1 R2].
    destruct (room_ge grow fit (cm_cap c) (length (um_data (cm_m c)) + (k - cm_cap c)) Hal) as [R3 R4].
    split; [done|]. split; [lia|]. split; [|lia]. intros x. apply um_resize_get. lia.
  + split; [lia|]. split; [done|]. split; [done|]. intros _. by destruct c.
Qed.

Lemma C133_set_capacity_refuted_pf :
forall grow fit, alloc_ok grow fit ->
  let s := set_with_capacity grow 1 in
  1 <= s.2 /\ exists k, set_ensure grow s k = s /\ s.2 < k.
Proof.
intros grow fit Hal. cbn zeta. destruct (room_ge grow fit 0 1 Hal) as [H _]. split; [done|]. exists (v_room grow 0 1 + 1).
unfold set_ensure, set_with_capacity. cbn [fst snd]. split; [|lia]. f_equal. unfold v_room at 1. rewrite decide_True; [done|]. lia.
Qed.

Lemma C133_set_capacity_partial_pf :
forall grow fit len cap k, alloc_ok grow fit -> len <= cap ->
  let s := set_ensure grow (len, cap) k in
  s.1 = len /\ cap <= s.2 /\ len + (k - cap) <= s.2 /\ (len = cap -> k <= s.2) /\ (k <= cap -> s = (len, cap)).
Proof.
intros grow fit len cap k Hal Hle. cbn zeta. unfold set_ensure. cbn [fst snd]. destruct (room_ge grow fit cap (len + (k - cap)) Hal) as [H1 H2].
split; [done|]. split; [done|]. split; [done|]. split; [lia|]. intros Hk. unfold v_room. rewrite decide_True by lia. done.
Qed.

Lemma C134_shrink_refuted_pf :
forall grow fit, alloc_ok grow fit -> (forall cap len, len <= cap -> fit cap len = len) ->
  (exists (c : cmap nat) k, cm_hist grow fit 0 (cm_with_capacity grow 1 0) [] c /\ 0 < cm_cap c < k /\ cm_cap (cm_shrink fit c k) = 0) /\
  (exists (c : cmap nat) k, cm_hist grow fit 0 (cm_with_capacity grow 2 0) [] c /\ k < cm_cap c /\ cm_cap (cm_shrink fit c k) < k).
Proof.
intros grow fit Hal Hf. split.
- exists (cm_with_capacity grow 1 0), (S (cm_cap (cm_with_capacity grow 1 0))). split; [constructor|].
  destruct (room_ge grow fit 0 1 Hal) as [R1 R2]. cbn [cm_cap cm_with_capacity cm_shrink cm_m um_with_default um_shrink_to um_data take length] in *.
  split; [lia|]. rewrite Hf by lia. reflexivity.
- exists (cm_with_capacity grow 2 0), 1. split; [constructor|].
  destruct (room_ge grow fit 0 2 Hal) as [R1 R2]. cbn [cm_cap cm_with_capacity cm_shrink cm_m um_with_default um_shrink_to um_data] in *.
  split; [lia|]. rewrite Hf by (cbn; lia). cbn. lia.
Qed.

Lemma C134_shrink_partial_pf :
forall V grow fit (vdef d : V) a ops c k, alloc_ok grow fit -> cm_hist grow fit vdef (cm_with_capacity grow a d) ops c ->
  let c' := cm_shrink fit c k in
  cm_cap c' <= cm_cap c /\
  (forall x, um_get (cm_m c') x = if decide (x < k) then um_get (cm_m c) x else um_default (cm_m c)) /\
  (forall x, um_get (cm_m c') x <> um_default (cm_m c') -> x < cm_cap c') /\
  (forall e, (forall cap len, len <= cap -> fit cap len = len) -> cm_cap c < e ->
     cm_cap (cm_shrink fit (cm_ensure grow c e) k) = Nat.min k e).
Proof.
intros V grow fit vdef d a ops c k Hal Hh c'. assert (HL : length (um_data (cm_m c)) <= cm_cap c) by (eapply cm_len; [done| |exact Hh]; cbn; lia).
assert (HT : length (um_data (um_shrink_to (cm_m c) k)) <= cm_cap c) by (cbn; rewrite take_length; lia).
destruct Hal as [Ha1 Ha2]. split; [|split; [|split]].
- subst c'. cbn [cm_cap cm_shrink]. apply Ha2, HT.
- intros x. subst c'. cbn [cm_m cm_shrink]. destruct (C32_shrink_to_pf V (cm_m c) k) as (_ & H1 & H2). case_decide; [by apply H1|apply H2; lia].
- intros x Hx. unfold um_get in Hx. destruct (um_data (cm_m c') !! x) eqn:E; [|done]. apply lookup_lt_Some in E.
  assert (length (um_data (cm_m c')) <= cm_cap c'); [|lia]. subst c'. cbn [cm_cap cm_m cm_shrink]. apply Ha2, HT.
- intros e Hf He. unfold cm_shrink, cm_ensure, um_ensure_capacity. cbn [cm_m cm_cap]. rewrite !decide_True by done.
  assert (EL : length (um_data (um_shrink_to (um_resize (cm_m c) e) k)) = Nat.min k e) by (cbn; by rewrite take_length, vresize_length).
  unfold um_resize in EL. rewrite EL. apply Hf.
  destruct (room_ge grow fit (v_room grow (cm_cap c) (length (um_data (cm_m c)) + (e - cm_cap c))) e (conj Ha1 Ha2)) as [R1 R2]. lia.
Qed.
