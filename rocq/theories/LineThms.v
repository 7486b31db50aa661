From Verif Require Export LineProofs ConvexProps.

Lemma C83_line_intervals_pf :
forall w g rnd, reach w g -> pacyclic g ->
  (forall low high low_pos high_pos pos, low < high -> low_pos < pos < high_pos ->
     low <= rnd low high low_pos high_pos pos <= high) ->
  exists c N, (forall fuel, N < fuel -> lcc_new (gv_of g) (neighbours g) fuel = HOk c) /\
  forall S, NoDup S -> (forall n, n ∈ S -> contains_node g n = true) -> forall fuel, N < fuel ->
    (exists r, lcc_get_intervals rnd c fuel S = HOk r /\ (is_Some r <-> contiguous g c S) /\
       forall ivs, r = Some ivs -> intervals_of c S ivs) /\
    (convex g S -> contiguous g c S) /\
    forall ivs, contiguous g c S -> intervals_of c S ivs ->
      exists l, nodes_in_intervals rnd c fuel ivs = HOk l /\ StronglySorted (node_before c) l /\ forall n, n ∈ l <-> n ∈ S.
Proof.
  intros w g rnd Hr Hac Hrnd. destruct (lcc_new_ok w g Hr Hac) as (c & N & G & Hnew). exists c, (N `max` lbd c). split; [intros fuel Hf; apply Hnew; lia|].
  intros S Hnd HS fuel Hf. split; [|split].
  - destruct (get_intervals_ok _ _ rnd Hrnd c (lgood_q _ _ G) fuel S Hnd HS) as (r & E & Hr'); [lia|]. exists r. split; [done|]. destruct r as [ivs|].
    + destruct Hr' as [H1 H2]. split; [split; [done|eauto]|]. by intros ivs' [= <-].
    + split; [split; [by intros [? ?]|done]|done].
  - intros Hcv. by apply (convex_ctg _ _ rnd Hrnd c (lgood_q _ _ G)).
  - intros ivs Hct Hiv. apply (nodes_in_ok _ _ rnd Hrnd c (lgood_q _ _ G) S); try done. lia.
Qed.

Lemma C84_try_extend_pf :
forall w g rnd, reach w g -> pacyclic g ->
  (forall low high low_pos high_pos pos, low < high -> low_pos < pos < high_pos ->
     low <= rnd low high low_pos high_pos pos <= high) ->
  exists c N, (forall fuel, N < fuel -> lcc_new (gv_of g) (neighbours g) fuel = HOk c) /\
  forall S ivs n, (forall x, x ∈ n :: S -> contains_node g x = true) -> contiguous g c S -> intervals_of c S ivs ->
  forall fuel, N < fuel ->
    exists b ivs', try_extend_intervals rnd c fuel ivs n = HOk (b, ivs') /\ (b = true <-> contiguous g c (n :: S)) /\
      (b = true -> intervals_of c (n :: S) ivs') /\ (b = false -> ivs' = ivs).
Proof.
  intros w g rnd Hr Hac Hrnd. destruct (lcc_new_ok w g Hr Hac) as (c & N & G & Hnew). exists c, (N `max` lbd c). split; [intros fuel Hf; apply Hnew; lia|].
  intros S ivs n HS Hct Hiv fuel Hf. apply (try_extend_ok _ _ rnd Hrnd c (lgood_q _ _ G) S); try done; [intros x Hx; apply HS; by right|apply HS; by left|lia].
Qed.

Lemma C85_lines_at_port_pf :
forall w g, (1 < w <= 63)%N -> reach w g -> pacyclic g ->
  exists c N, (forall fuel, N < fuel -> lcc_new (gv_of g) (neighbours g) fuel = HOk c) /\
  (forall n d k p, port_at g n d k p -> (N.of_nat k <= po_max_offset w)%N -> port_link g p = Ok None -> lines_at_port c w g p = Ok []) /\
  (forall a b j k p q, port_at g a Outgoing j p -> port_at g b Incoming k q -> linked g p q ->
     (N.of_nat j <= po_max_offset w)%N -> (N.of_nat k <= po_max_offset w)%N ->
     exists l, lines_at_port c w g p = Ok [l] /\ lines_at_port c w g q = Ok [l] /\ l ∈ get_lines c a /\ l ∈ get_lines c b /\
       get_position c a < get_position c b /\
       forall x, contains_node g x = true -> l ∈ get_lines c x -> ~ (get_position c a < get_position c x < get_position c b)) /\
  (forall n d j k p q l, port_at g n d j p -> port_at g n d k q -> (N.of_nat j <= po_max_offset w)%N -> (N.of_nat k <= po_max_offset w)%N ->
     lines_at_port c w g p = Ok [l] -> lines_at_port c w g q = Ok [l] -> p = q).
Proof.
  intros w g Hw Hr Hac. destruct (lcc_new_ok w g Hr Hac) as (c & N & G & Hnew). exists c, N. split; [done|].
  set (rnd := fun low (_ _ _ _ : nat) => low : nat).
  assert (Hrnd : forall low high lp hp pos, low < high -> lp < pos < hp -> low <= rnd low high lp hp pos <= high) by (intros; unfold rnd; lia).
  split; [|split].
  - intros n d k p Hk Hko Hl. rewrite (at_port_eq w g Hw Hr c G n d k p Hk Hko). assert (lk g p = None) as -> by (unfold lk; by rewrite Hl). done.
  - intros a b j k p q Hj Hk Hl Hjo Hko.
    destruct (lg_port _ _ G a b p q) as (l & i & H1 & H2 & H3 & H4); [by eapply elem_of_list_lookup_2|done|by eapply elem_of_list_lookup_2|].
    exists l. split; [by apply (at_port_line w g Hw Hr c G a Outgoing j)|]. split; [by apply (at_port_line w g Hw Hr c G b Incoming k)|].
    split; [by eapply port_ln_in|]. split; [by eapply port_ln_in|]. split; [eapply (line_inc _ _ rnd Hrnd c (lgood_q _ _ G) l i (S i)); [lia|done|done]|].
    intros x Cx Kx [Hx1 Hx2]. destruct (node_line _ _ c (lgood_q _ _ G) l x Cx Kx) as [t Ht].
    apply (line_lt _ _ rnd Hrnd c (lgood_q _ _ G) l i t) in Hx1; [|done|done]. apply (line_lt _ _ rnd Hrnd c (lgood_q _ _ G) l t (S i)) in Hx2; [|done|done]. lia.
  - intros n d j k p q l Hj Hk Hjo Hko E1 E2.
    assert (H : forall i r, port_at g n d i r -> (N.of_nat i <= po_max_offset w)%N -> lines_at_port c w g r = Ok [l] -> port_ln g (lc_pos c) n d r l).
    { intros i r Hi Hio E. destruct (lk g r) as [s|] eqn:El.
      - destruct (port_has w g Hr c G n d r s) as [l' Hl']; [by eapply elem_of_list_lookup_2|done|].
        rewrite (at_port_line w g Hw Hr c G n d i r l' Hi Hio Hl') in E. by injection E as ->.
      - rewrite (at_port_eq w g Hw Hr c G n d i r Hi Hio), El in E. done. }
    destruct (H j p Hj Hjo E1) as (i & Hi & Hli). destruct (H k q Hk Hko E2) as (i' & Hi' & Hli').
    assert (Hcn : contains_node g n = true).
    { destruct (C02_ports_and_nodes_pf w g Hw Hr) as (_ & H2 & H3 & _). apply (H3 n d). assert (j < num_ports g n d) by (apply H2; by rewrite Hj). lia. }
    destruct (lg_nd _ _ G n Hcn) as [Hnd _]. rewrite (NoDup_lookup _ _ _ _ Hnd Hli Hli') in Hi. congruence.
Qed.
