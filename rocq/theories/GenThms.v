(** Proofs of the theorems of GenProps.v. *)
From Verif Require Export GenInst.

Lemma C121_portgraph_pf :
forall w maxn maxp maxe vs outs ins, (1 < w <= 63)%N ->
  NoDup outs -> NoDup ins -> Forall (in_sizes maxn maxp) outs -> Forall (in_sizes maxn maxp) ins ->
  length outs <= maxe -> lists_nodes vs (zip outs ins) ->
  1 <= maxn -> (N.of_nat maxn <= 2 ^ 31 - 1)%N -> (N.of_nat maxp <= N.min (po_max_offset w) 32767)%N ->
  (N.of_nat (2 * maxp * maxn) <= 2 ^ 31 - 1)%N ->
  exists g R K, gen_portgraph w vs outs ins = Ok g /\ reach w g /\
    built vs (zip outs ins) g (fun n => contains_node g n = true) (linked g) id R K /\
    1 <= node_count g <= maxn /\ (forall n d, num_ports g n d <= maxp) /\
    port_count g <= 2 * maxp * node_count g /\ link_count g = Nat.min (length outs) (length ins) /\ link_count g <= maxe.
Proof.
intros w maxn maxp maxe vs outs ins Hw No Ni Ho Hi He Hvs Hn1 Hn Hp Hs. change (2 ^ 31 - 1)%N with 2147483647%N in Hs.
assert (Hf : Forall (fun e => forall d, in_sizes maxn maxp (edge_end d e)) (zip outs ins)).
{ rewrite Forall_forall in Ho, Hi. apply Forall_forall. intros e [H1 H2]%zip_elem [|]; cbn [edge_end]; [by apply Hi|by apply Ho]. }
destruct (gen_graph_ok w Hw (t_pg w) contains_node linked id (fun g => Ok (node_count g)) (pg_fits w) 1 pg_new (pg_fits_reach w) (pg_fits_weak w)
  (pg_fits_add w) (pg_fits_link w Hw) (pg_fits_count w)) with (maxn := maxn) (maxp := maxp) (vs := vs) (outs := outs) (ins := ins)
  as (g & R & K & nn & np & nl & Eg & Hg & Hb); try done.
{ intros [] x; [apply (filter_once (fun e => e.2)), zip_nodup_snd; done|apply (filter_once (fun e => e.1)), zip_nodup_fst; done]. }
{ apply pg_fits_new; [|done]. change (2 ^ 31 - 1)%N with 2147483647%N in Hn. done. }
cbn [t_graph t_pg] in Hb. change (id g) with g in Hb. pose proof (pg_fits_reach w _ _ _ _ Hg) as Hr. exists g, R, K.
destruct (C03_counts_pf w g Hr) as (Cn & Cp & _). destruct (pg_counts w g Hr) as (L & [Ln1 Ln2] & Hl). cbn in Hl.
assert (Hlc : link_count g = Nat.min (length outs) (length ins)).
{ rewrite <- zip_len. injection Hl as ->. eapply card_unique; [|exact (built_card w Hw vs _ g Hr _ _ _ R K Hb)].
  exists L. split; [done|]. split; [|done]. intros [x y]. apply Ln2. }
assert (Hmax : forall n d, contains_node g n = true -> num_ports g n d <= maxp).
{ intros n d. by apply (built_max w Hw vs _ g _ _ _ R K Hb maxn maxp Hn1 Hf Hvs). }
split; [done|]. split; [done|]. split; [done|]. split; [by apply (built_nodes w Hw vs _ g _ _ _ R K Hb maxn maxp Hn1 Hf Hvs)|].
split. { intros n d. destruct (contains_node g n) eqn:E; [by apply Hmax|]. destruct (decide (num_ports g n d = 0)) as [->|H]; [lia|].
  destruct (C02_ports_and_nodes_pf w g Hw Hr) as (_ & _ & H2 & _). apply H2 in H. congruence. }
split; [|rewrite Hlc; lia].
apply (built_ports w Hw vs _ g _ _ _ R K Hb maxn maxp Hn1 Hf Hvs _ _ _ Cn Cp). intros p Hcp.
destruct (C02_ports_and_nodes_pf w g Hw Hr) as (_ & H1 & H2 & _ & H3 & _). destruct (H3 p Hcp) as (n & d & k & Hk). exists n, d.
assert (is_Some (ports g n d !! k)) as Hlt%H1 by (by eexists). split; [|by eapply elem_of_list_lookup_2].
apply (H2 n d). lia.
Qed.

Lemma C121_multiportgraph_pf :
forall w maxn maxp maxe vs outs ins, (2 < w <= 63)%N ->
  Forall (in_sizes maxn maxp) outs -> Forall (in_sizes maxn maxp) ins ->
  length outs <= maxe -> lists_nodes vs (zip outs ins) ->
  1 <= maxn -> (N.of_nat (maxn + 2 * maxe) <= 2 ^ 31 - 1)%N -> (N.of_nat maxp <= N.min (po_max_offset w) 32767)%N ->
  (N.of_nat maxe <= po_max_offset w + 1)%N -> (N.of_nat (2 * maxp * maxn) + 65536 * N.of_nat maxe <= 2 ^ 31 - 1)%N ->
  exists m R K kn kp kl, gen_multiportgraph w vs outs ins = Ok m /\ mreach w m /\
    built vs (zip outs ins) (m_graph m) (fun n => m_contains_node m n = true) (mlinked w m) fst R K /\
    m_node_count m = Ok kn /\ 1 <= kn <= maxn /\ (forall n d, m_contains_node m n = true -> num_ports (m_graph m) n d <= maxp) /\
    m_port_count m = Ok kp /\ kp <= 2 * maxp * kn /\ m_link_count m = Ok kl /\ kl = Nat.min (length outs) (length ins) /\ kl <= maxe.
Proof.
intros w maxn maxp maxe vs outs ins Hw Ho Hi He Hvs Hn1 Hn Hp HB Hs. change (2 ^ 31 - 1)%N with 2147483647%N in *. assert (Hw1 : (1 < w <= 63)%N) by lia.
assert (Hf : Forall (fun e => forall d, in_sizes maxn maxp (edge_end d e)) (zip outs ins)).
{ rewrite Forall_forall in Ho, Hi. apply Forall_forall. intros e [H1 H2]%zip_elem [|]; cbn [edge_end]; [by apply Hi|by apply Ho]. }
assert (HB2 : (N.of_nat maxe <= 32767)%N) by (clear - Hs; lia). assert (Hz : length (zip outs ins) <= maxe) by (rewrite zip_len; lia).
destruct (gen_graph_ok w Hw1 (t_m w) m_contains_node (mlinked w) fst m_node_count (m_room w) maxe m_new (m_room_reach w Hw) (m_room_weak w)
  (m_room_add w Hw) (m_room_link w Hw maxe HB HB2) (m_room_count w Hw)) with (maxn := maxn) (maxp := maxp) (vs := vs) (outs := outs) (ins := ins)
  as (m & R & K & nn & np & nl & Eg & Hg & Hb); try done.
{ intros x y [Hx _]. by destruct (x.1). }
{ change (2 ^ 31 - 1)%N with 2147483647%N. clear - Hn. lia. }
{ intros d x. etransitivity; [apply filter_length|done]. }
{ apply m_room_new; [clear - Hn Hz; lia|clear - Hs Hz; lia]. }
cbn [t_graph t_m] in Hb. pose proof (m_room_reach w Hw _ _ _ _ Hg) as Hr. pose proof Hg as [Hm _].
destruct (C55_multi_counts_partial_pf w m Hw Hm) as (kn & kp & kl & lp & En & Ep & El & Cn & Cp & Cl & _). exists m, R, K, kn, kp, kl.
split; [done|]. split; [done|]. split; [done|]. split; [done|]. split; [by apply (built_nodes w Hw1 vs _ (m_graph m) _ _ _ R K Hb maxn maxp Hn1 Hf Hvs)|].
split. { intros n d. by apply (built_max w Hw1 vs _ (m_graph m) _ _ _ R K Hb maxn maxp Hn1 Hf Hvs). }
split; [done|]. split.
{ apply (built_ports w Hw1 vs _ (m_graph m) _ _ _ R K Hb maxn maxp Hn1 Hf Hvs _ _ _ Cn Cp). intros p (n & d & Mx & Cx)%vis_contains. exists n, d.
  pose proof (mi_reach _ _ _ (mreach_minv w Hw m Hm)) as R0. split; [|by apply (r_elem w _ R0)].
  apply contains_node_m. split; [by eapply (r_node w _ R0)|done]. }
split; [done|]. rewrite <- zip_len. assert (kl = length (zip outs ins)) as ->; [|done].
eapply card_unique; [exact Cl|]. exact (built_card w Hw1 vs _ (m_graph m) Hr _ _ _ R K Hb).
Qed.

Lemma C121_node_index_pf :
forall w g, reach w g ->
  (forall i, i < node_count g -> exists n, gen_node_index g i = Ok n /\ contains_node g n = true) /\
  (forall n, contains_node g n = true -> exists i, i < node_count g /\ gen_node_index g i = Ok n) /\
  (forall i j n, gen_node_index g i = Ok n -> gen_node_index g j = Ok n -> i = j).
Proof.
intros w g Hr. destruct (C17_nodes_and_ports_pf w g Hr) as (N2 & N1 & N3 & _). apply sorted_lt_nodup in N1.
unfold gen_node_index, vget. rewrite <- N3. split_and!.
- intros i Hi. destruct (lookup_lt_is_Some_2 _ _ Hi) as [n Hn]. rewrite Hn. exists n. split; [done|]. apply N2. by eapply elem_of_list_lookup_2.
- intros n Hn%N2. apply elem_of_list_lookup_1 in Hn as [i Hi]. exists i. rewrite Hi. split; [by eapply lookup_lt_Some|done].
- intros i j n Hi Hj. destruct (nodes_iter g !! i) eqn:Ei; [|done]. destruct (nodes_iter g !! j) eqn:Ej; [|done]. injection Hi as ->. injection Hj as ->. by eapply (NoDup_lookup _ _ _ n N1).
Qed.
