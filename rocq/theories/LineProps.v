From Verif Require Export LineThms.

(** A checker for the graph [dag_g] of TopoProps, with lines [0; 1; 2] and [0; 2; 3]. *)
Definition dag_c : lcc := match lcc_new (gv_of dag_g) (neighbours dag_g) 9 with HOk c => c | _ => LCC (um_with_default lp_default) [] end.

(** C83. For a list of distinct nodes, [get_intervals_from_nodes] returns intervals iff
the nodes are consecutive on every line; convex sets of nodes are. The intervals
then are, for each line of the nodes, from the first to the last position. From
them [nodes_in_intervals] gives back the nodes, each once, ordered by position
and, at the same position, by index. *)
Theorem C83_line_intervals :
forall w g rnd, reach w g -> pacyclic g ->
  (forall low high low_pos high_pos pos, low < high -> low_pos < pos < high_pos ->
     low <= rnd low high low_pos high_pos pos <= high) ->
  exists c N, (forall fuel, N < fuel -> lcc_new (gv_of g) (neighbours g) fuel = HOk c) /\
  forall S, NoDup S -> (forall n, n ∈ S -> contains_node g n = true) -> forall fuel, N < fuel ->
    (exists r, lcc_get_intervals rnd c fuel S = HOk r /\ (is_Some r <-> contiguous g c S) /\
       forall ivs, r = Some ivs -> intervals_of c S ivs) /\
    (convex g S -> contiguous g c S) /\
    forall ivs, contiguous g c S -> intervals_of c S ivs ->
      exists l, nodes_in_intervals rnd c fuel ivs = HOk l /\ StronglySorted (node_before c) l /\ forall n, n ∈ l <-> n ∈ S.
Proof. exact C83_line_intervals_pf. Qed.
Print Assumptions C83_line_intervals.

Example C83_case : reach 16 dag_g /\ pacyclic dag_g /\ lcc_new (gv_of dag_g) (neighbours dag_g) 9 = HOk dag_c
  /\ lc_lines dag_c = [[0; 1; 2]; [0; 2; 3]]
  /\ lcc_get_intervals interpolate dag_c 30 [2; 0; 1] = HOk (Some [(1, (0, 2)); (0, (0, 2))])
  /\ lcc_get_intervals interpolate dag_c 30 [2; 0] = HOk None
  /\ nodes_in_intervals interpolate dag_c 30 [(1, (0, 2)); (0, (0, 2))] = HOk [0; 1; 2].
Proof.
  split; [apply dag_reach|]. split; [apply dag_acyclic|]. split; [vm_compute; reflexivity|]. split; [vm_compute; reflexivity|].
  split; [vm_compute; reflexivity|]. split; vm_compute; reflexivity.
Qed.

(** C84. Given the intervals of a list of nodes, [try_extend_intervals] with a further node
returns whether the nodes together with it are consecutive on every line. If so
the intervals become those of the larger list, and otherwise they are unchanged. *)
Theorem C84_try_extend :
forall w g rnd, reach w g -> pacyclic g ->
  (forall low high low_pos high_pos pos, low < high -> low_pos < pos < high_pos ->
     low <= rnd low high low_pos high_pos pos <= high) ->
  exists c N, (forall fuel, N < fuel -> lcc_new (gv_of g) (neighbours g) fuel = HOk c) /\
  forall S ivs n, (forall x, x ∈ n :: S -> contains_node g x = true) -> contiguous g c S -> intervals_of c S ivs ->
  forall fuel, N < fuel ->
    exists b ivs', try_extend_intervals rnd c fuel ivs n = HOk (b, ivs') /\ (b = true <-> contiguous g c (n :: S)) /\
      (b = true -> intervals_of c (n :: S) ivs') /\ (b = false -> ivs' = ivs).
Proof. exact C84_try_extend_pf. Qed.
Print Assumptions C84_try_extend.

Example C84_case : reach 16 dag_g /\ pacyclic dag_g /\ lcc_new (gv_of dag_g) (neighbours dag_g) 9 = HOk dag_c
  /\ lcc_get_intervals interpolate dag_c 30 [0] = HOk (Some [(0, (0, 0)); (1, (0, 0))])
  /\ try_extend_intervals interpolate dag_c 30 [(0, (0, 0)); (1, (0, 0))] 1 = HOk (true, [(0, (0, 1)); (1, (0, 0))])
  /\ try_extend_intervals interpolate dag_c 30 [(0, (0, 0)); (1, (0, 0))] 2 = HOk (false, [(0, (0, 0)); (1, (0, 0))])
  /\ try_extend_intervals interpolate dag_c 30 [(1, (3, 3))] 2 = HOk (true, [(1, (2, 3)); (0, (2, 2))]).
Proof.
  split; [apply dag_reach|]. split; [apply dag_acyclic|]. split; [vm_compute; reflexivity|]. split; [vm_compute; reflexivity|].
  split; [vm_compute; reflexivity|]. split; vm_compute; reflexivity.
Qed.

(** C85. Every link is on exactly one line: [lines_at_port] gives the same single line at
both ends, this line is among those of both nodes, and no node on it lies
between them. An unlinked port has no line, and two ports on one side of a
node are on different lines. Port offsets are assumed to be representable. *)
Theorem C85_lines_at_port :
forall w g, (1 < w <= 63)%N -> reach w g -> pacyclic g ->
  exists c N, (forall fuel, N < fuel -> lcc_new (gv_of g) (neighbours g) fuel = HOk c) /\
  (forall n d k p, port_at g n d k p -> (N.of_nat k <= po_max_offset w)%N -> port_link g p = Ok None -> lines_at_port c w g p = Ok []) /\
  (forall a b j k p q, port_at g a Outgoing j p -> port_at g b Incoming k q -> linked g p q ->
     (N.of_nat j <= po_max_offset w)%N -> (N.of_nat k <= po_max_offset w)%N ->
     exists l, lines_at_port c w g p = Ok [l] /\ lines_at_port c w g q = Ok [l] /\ l ∈ get_lines c a /\ l ∈ get_lines c b /\
       get_position c a < get_position c b /\
       forall x, contains_node g x = true -> l ∈ get_lines c x -> ~ (get_position c a < get_position c x < get_position c b)) /\
  (forall n d j k p q l, port_at g n d j p -> port_at g n d k q -> (N.of_nat j <= po_max_offset w)%N -> (N.of_nat k <= po_max_offset w)%N ->
     lines_at_port c w g p = Ok [l] -> lines_at_port c w g q = Ok [l] -> p = q).
Proof. exact C85_lines_at_port_pf. Qed.
Print Assumptions C85_lines_at_port.

Example C85_case : reach 16 dag_g /\ pacyclic dag_g /\ lcc_new (gv_of dag_g) (neighbours dag_g) 9 = HOk dag_c
  /\ linked dag_g 0 2 /\ lines_at_port dag_c 16 dag_g 0 = Ok [0] /\ lines_at_port dag_c 16 dag_g 2 = Ok [0]
  /\ linked dag_g 1 4 /\ lines_at_port dag_c 16 dag_g 1 = Ok [1] /\ lines_at_port dag_c 16 dag_g 4 = Ok [1].
Proof.
  split; [apply dag_reach|]. split; [apply dag_acyclic|]. split; [vm_compute; reflexivity|]. split; [vm_compute; reflexivity|].
  split; [vm_compute; reflexivity|]. split; [vm_compute; reflexivity|]. split; [vm_compute; reflexivity|]. split; vm_compute; reflexivity.
Qed.
