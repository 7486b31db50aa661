(** Properties C102, C103 and C104: line intervals on graph views, convexity from
    intervals, and the intervals of a boundary. *)
From Verif Require Export VLineThms VAlgProps LineProps.
From Verif Require Import BoundProps.

(** Checkers for the multigraph [fan_m] and for the chain [bd_g]. *)
Definition fan_c : lcc := match lcc_new (gv_of_lv (lv_of_m 16 fan_m)) (lv_nb (lv_of_m 16 fan_m)) 9 with HOk c => c | _ => LCC (um_with_default lp_default) [] end.
Definition bd_c : lcc := match lcc_new (gv_of_lv (lv_of_pg bd_g)) (lv_nb (lv_of_pg bd_g)) 9 with HOk c => c | _ => LCC (um_with_default lp_default) [] end.

(** C102, the intervals of C83 and C84 on every acyclic graph view in which the links
of each input port come from one node: for distinct visible nodes,
[get_intervals_from_nodes] returns intervals iff the nodes are consecutive on
every line among the visible nodes, as convex sets are, and the intervals then
are from the first to the last position on each line of the nodes;
[nodes_in_intervals] gives back the nodes, each once, ordered by position and
index; and [try_extend_intervals] tells whether the nodes with one more are still
consecutive, and updates the intervals exactly in that case. *)
Theorem C102_view_intervals :
forall E (V : lview E) N R rnd, shows V N R -> vacyclic V R -> one_node V R Incoming ->
  (forall low high low_pos high_pos pos, low < high -> low_pos < pos < high_pos ->
     low <= rnd low high low_pos high_pos pos <= high) ->
  exists c K, (forall fuel, K < fuel -> lcc_new (gv_of_lv V) (lv_nb V) fuel = HOk c) /\
  forall S fuel, (forall n, n ∈ S -> N n) -> K < fuel ->
    (NoDup S -> exists r, lcc_get_intervals rnd c fuel S = HOk r /\ (is_Some r <-> contiguous_in N c S) /\
       forall ivs, r = Some ivs -> intervals_of c S ivs) /\
    (vconvex V R S -> contiguous_in N c S) /\
    forall ivs, contiguous_in N c S -> intervals_of c S ivs ->
      (exists l, nodes_in_intervals rnd c fuel ivs = HOk l /\ StronglySorted (node_before c) l /\ forall n, n ∈ l <-> n ∈ S) /\
      forall n, N n -> exists b ivs', try_extend_intervals rnd c fuel ivs n = HOk (b, ivs') /\
        (b = true <-> contiguous_in N c (n :: S)) /\ (b = true -> intervals_of c (n :: S) ivs') /\ (b = false -> ivs' = ivs).
Proof. exact C102_view_intervals_pf. Qed.
Print Assumptions C102_view_intervals.

(** The multigraph of C87, with lines [0; 2; 3], [0; 1] and [0; 1; 3]. *)
Example C102_case : let V := lv_of_m 16 fan_m in
  shows V (fun n => m_contains_node fan_m n = true) (mlinked 16 fan_m) /\ vacyclic V (mlinked 16 fan_m) /\ one_node V (mlinked 16 fan_m) Incoming
  /\ lcc_new (gv_of_lv V) (lv_nb V) 9 = HOk fan_c
  /\ lcc_get_intervals interpolate fan_c 30 [0; 1] = HOk (Some [(0, (0, 0)); (1, (0, 1)); (2, (0, 1))])
  /\ lcc_get_intervals interpolate fan_c 30 [0; 3] = HOk None
  /\ nodes_in_intervals interpolate fan_c 30 [(0, (0, 0)); (1, (0, 1)); (2, (0, 1))] = HOk [0; 1]
  /\ try_extend_intervals interpolate fan_c 30 [(0, (0, 0)); (1, (0, 1)); (2, (0, 1))] 2 = HOk (true, [(0, (0, 1)); (1, (0, 1)); (2, (0, 1))])
  /\ try_extend_intervals interpolate fan_c 30 [(0, (0, 0)); (1, (0, 1)); (2, (0, 1))] 3 = HOk (false, [(0, (0, 0)); (1, (0, 1)); (2, (0, 1))]).
Proof.
  cbn zeta. split; [exact fan_shows|]. split; [exact fan_acyclic|]. split; [exact fan_one|]. split; [vm_compute; reflexivity|].
  split; [vm_compute; reflexivity|]. split; [vm_compute; reflexivity|]. split; [vm_compute; reflexivity|]. split; vm_compute; reflexivity.
Qed.

(** C103. On every acyclic graph view in which the links of each input port come from
one node: whatever way the intervals of a non-empty set of nodes were obtained
(from the nodes or by extending smaller intervals, in any order of lines), as
long as the nodes are consecutive on every line, [is_convex_by_intervals] ends
without a panic and returns whether the set is convex. *)
Theorem C103_convex_by_intervals :
forall E (V : lview E) N R rnd, shows V N R -> vacyclic V R -> one_node V R Incoming ->
  (forall low high low_pos high_pos pos, low < high -> low_pos < pos < high_pos ->
     low <= rnd low high low_pos high_pos pos <= high) ->
  exists c K, (forall fuel, K < fuel -> lcc_new (gv_of_lv V) (lv_nb V) fuel = HOk c) /\
  forall S ivs fuel, S <> [] -> (forall n, n ∈ S -> N n) -> contiguous_in N c S -> intervals_of c S ivs -> K < fuel ->
    exists r, lcc_is_convex_by_intervals (lv_nb V) rnd c fuel ivs = HOk r /\ (r = true <-> vconvex V R S).
Proof. exact C103_convex_by_intervals_pf. Qed.
Print Assumptions C103_convex_by_intervals.

(** Nodes 2 and 3 of the multigraph of C87: the intervals of node 2 extended by
node 3 have the lines in another order than those found from the two nodes. *)
Example C103_case : let V := lv_of_m 16 fan_m in
  shows V (fun n => m_contains_node fan_m n = true) (mlinked 16 fan_m) /\ vacyclic V (mlinked 16 fan_m) /\ one_node V (mlinked 16 fan_m) Incoming
  /\ lcc_new (gv_of_lv V) (lv_nb V) 9 = HOk fan_c
  /\ lcc_get_intervals interpolate fan_c 30 [3; 2] = HOk (Some [(2, (2, 2)); (0, (1, 2))])
  /\ try_extend_intervals interpolate fan_c 30 [(0, (1, 1))] 3 = HOk (true, [(0, (1, 2)); (2, (2, 2))])
  /\ lcc_is_convex_by_intervals (lv_nb V) interpolate fan_c 30 [(0, (1, 2)); (2, (2, 2))] = HOk true.
Proof.
  cbn zeta. split; [exact fan_shows|]. split; [exact fan_acyclic|]. split; [exact fan_one|]. split; [vm_compute; reflexivity|].
  split; [vm_compute; reflexivity|]. split; vm_compute; reflexivity.
Qed.
(** Links 0 -> 1, 1 -> 2 and 1 -> 3, with lines [0; 1; 2] and [1; 3]: the nodes 0 and 3 are
consecutive on both lines but not convex. *)
Definition wye_ops : list op := [OAdd 0 1; OAdd 1 2; OAdd 1 0; OAdd 1 0; OLink 0 1; OLink 2 4; OLink 3 5].
Definition wye_g : pg := default pg_new (run 16 wye_ops pg_new).
Lemma wye_reach : reach 16 wye_g.
Proof. exists wye_ops. apply run_hist. vm_compute. reflexivity. Qed.
Definition wye_c : lcc := match lcc_new (gv_of_lv (lv_of_pg wye_g)) (lv_nb (lv_of_pg wye_g)) 9 with HOk c => c | _ => LCC (um_with_default lp_default) [] end.
Example C103_case_false : let V := lv_of_pg wye_g in
  shows V (fun n => contains_node wye_g n = true) (linked wye_g) /\ vacyclic V (linked wye_g)
  /\ lcc_new (gv_of_lv V) (lv_nb V) 9 = HOk wye_c /\ lc_lines wye_c = [[0; 1; 2]; [1; 3]]
  /\ lcc_get_intervals interpolate wye_c 30 [0; 3] = HOk (Some [(0, (0, 0)); (1, (2, 2))])
  /\ lcc_is_convex_by_intervals (lv_nb V) interpolate wye_c 30 [(0, (0, 0)); (1, (2, 2))] = HOk false.
Proof.
  cbn zeta. split; [exact (pg_shows 16 wye_g wye_reach)|]. split; [apply (pg_vacyclic 16); [exact wye_reach|apply (acyclic_check 16); [exact wye_reach|vm_compute; reflexivity]]|].
  split; [vm_compute; reflexivity|]. split; [vm_compute; reflexivity|]. split; vm_compute; reflexivity.
Qed.

(** C104, what holds: on every acyclic graph view with at most one link per port,
[get_intervals_from_boundary] with ports of the graph as boundary ends without a
panic; it returns intervals iff the nodes of the subgraph with this boundary are
consecutive on every line, and then the intervals of these nodes.
[get_intervals_from_boundary_ports] does the same for a list of ports. *)
Theorem C104_boundary_intervals_partial :
forall E (V : lview E) N R rnd, shows V N R -> vacyclic V R -> one_link V R ->
  (forall low high low_pos high_pos pos, low < high -> low_pos < pos < high_pos ->
     low <= rnd low high low_pos high_pos pos <= high) ->
  exists c K, (forall fuel, K < fuel -> lcc_new (gv_of_lv V) (lv_nb V) fuel = HOk c) /\
  forall (B : boundary) ps, (forall p, p ∈ ps -> port_in V N p) -> (forall p, p ∈ bd_ports B <-> p ∈ ps) ->
    exists S M r r', NoDup S /\ (forall n, n ∈ S <-> induced V N R ps n) /\
      (is_Some r <-> contiguous_in N c S) /\ (forall ivs, r = Some ivs -> intervals_of c S ivs) /\
      (is_Some r' <-> contiguous_in N c S) /\ (forall ivs, r' = Some ivs -> intervals_of c S ivs) /\
      forall fuel, M < fuel -> lcc_intervals_from_boundary V rnd c fuel B = HOk r /\ lcc_intervals_from_boundary_ports V rnd c fuel ps = HOk r'.
Proof. exact C104_boundary_intervals_partial_pf. Qed.
Print Assumptions C104_boundary_intervals_partial.

(** The chain of C65 with the lines [0; 1; 2; 3] and [4]. *)
Example C104_case : let V := lv_of_pg bd_g in
  shows V (fun n => contains_node bd_g n = true) (linked bd_g) /\ vacyclic V (linked bd_g) /\ one_link V (linked bd_g)
  /\ lcc_new (gv_of_lv V) (lv_nb V) 9 = HOk bd_c
  /\ (forall p, p ∈ [2; 5] -> port_in V (fun n => contains_node bd_g n = true) p) /\ bd_ports (Bd [2] [5]) = [2; 5]
  /\ lcc_intervals_from_boundary V interpolate bd_c 30 (Bd [2] [5]) = HOk (Some [(0, (1, 2))])
  /\ lcc_intervals_from_boundary_ports V interpolate bd_c 30 [5; 2] = HOk (Some [(0, (1, 2))])
  /\ lcc_intervals_from_boundary V interpolate bd_c 30 (Bd [2; 6] [3]) = HOk None.
Proof.
  cbn zeta. split; [exact (pg_shows 16 bd_g bd_reach)|]. split; [apply (pg_vacyclic 16); [exact bd_reach|apply (acyclic_check 16); [exact bd_reach|vm_compute; reflexivity]]|].
  split; [apply pg_one_link|]. split; [vm_compute; reflexivity|]. split; [|split; [reflexivity|split; [vm_compute; reflexivity|split; vm_compute; reflexivity]]].
  intros p Hp. apply elem_of_cons in Hp as [->|Hp]; [exists 1; vm_compute; split; reflexivity|].
  apply elem_of_cons in Hp as [->|Hp]; [exists 2; vm_compute; split; reflexivity|]. apply elem_of_nil in Hp. destruct Hp.
Qed.

(** C104 does not hold for a [MultiPortGraph], not even one whose input ports have one
link each. Port 0 of node 0 has links to the nodes 1 and 2. With the empty
boundary, for which the nodes are all the nodes of the graph, [internal_nodes]
yields node 0 twice and [get_intervals_from_boundary] panics, while
[get_intervals_from_nodes] finds the intervals of the three nodes. *)
Theorem C104_multigraph_refuted :
exists m c, mreach 16 m /\ vacyclic (lv_of_m 16 m) (mlinked 16 m) /\ one_node (lv_of_m 16 m) (mlinked 16 m) Incoming /\
  lcc_new (gv_of_lv (lv_of_m 16 m)) (lv_nb (lv_of_m 16 m)) 9 = HOk c /\
  (forall n, n ∈ [0; 1; 2] <-> induced (lv_of_m 16 m) (fun n => m_contains_node m n = true) (mlinked 16 m) [] n) /\
  contiguous_in (fun n => m_contains_node m n = true) c [0; 1; 2] /\
  lcc_get_intervals interpolate c 30 [0; 1; 2] = HOk (Some [(0, (0, 1)); (1, (0, 1))]) /\
  internal_nodes (lv_of_m 16 m) 30 (Bd [] []) = HOk [0; 1; 2; 0] /\
  lcc_intervals_from_boundary (lv_of_m 16 m) interpolate c 30 (Bd [] []) = HPanic.
Proof. exact C104_multigraph_refuted_pf. Qed.
Print Assumptions C104_multigraph_refuted.
