(** Properties C50 and C51 of properties.jsonl. *)
From Verif Require Export ConvexThms TopoProps.

(** C50. On an acyclic graph [TopoConvexChecker::new] succeeds, and every query ends
with the exact answer: [is_node_convex(S)] is true iff no path between two
nodes of [S] leaves [S], and [is_convex(S, inputs, outputs)] iff moreover no
listed output is linked to a listed input. *)
Theorem C50_topo_convex :
forall w g, reach w g -> pacyclic g ->
  exists c N, (forall fuel, N < fuel -> tcc_new (gv_of g) (neighbours g) fuel = HOk c) /\
  forall S fuel, (forall n, n ∈ S -> contains_node g n = true) -> N < fuel ->
    (exists r, tcc_is_node_convex (neighbours g) c fuel S = HOk r /\ (r = true <-> convex g S)) /\
    (forall inputs outputs, (forall p, p ∈ outputs -> is_Some (port_node g p)) ->
       exists r, tcc_is_convex (gv_of g) (neighbours g) c fuel S inputs outputs = HOk r /\
         (r = true <-> convex g S /\ ~ exists o i, o ∈ outputs /\ i ∈ inputs /\ linked g o i)).
Proof. exact C50_topo_convex_pf. Qed.
Print Assumptions C50_topo_convex.

Example C50_case : reach 16 dag_g /\ pacyclic dag_g /\ (forall n, n ∈ [0; 2; 1] -> contains_node dag_g n = true)
  /\ (c ← tcc_new (gv_of dag_g) (neighbours dag_g) 9; tcc_is_node_convex (neighbours dag_g) c 9 [2; 0]) = HOk false
  /\ (c ← tcc_new (gv_of dag_g) (neighbours dag_g) 9; tcc_is_node_convex (neighbours dag_g) c 9 [0; 2; 1]) = HOk true
  /\ (c ← tcc_new (gv_of dag_g) (neighbours dag_g) 9; tcc_is_convex (gv_of dag_g) (neighbours dag_g) c 9 [0; 2; 1] [4] [1]) = HOk false
  /\ ~ convex dag_g [0; 2] /\ linked dag_g 1 4.
Proof.
  split; [apply dag_reach|]. split; [apply dag_acyclic|]. split.
  { intros n Hn. repeat (apply elem_of_cons in Hn as [->|Hn]; [vm_compute; reflexivity|]). apply elem_of_nil in Hn. destruct Hn. }
  split; [vm_compute; reflexivity|]. split; [vm_compute; reflexivity|]. split; [vm_compute; reflexivity|]. split; [|vm_compute; reflexivity].
  intros H. assert (1 ∈ [0; 2]) as Hn; [|vm_compute in Hn; repeat (apply elem_of_cons in Hn as [Hn|Hn]; [discriminate Hn|]); apply elem_of_nil in Hn; destruct Hn].
  apply (H 0 1 2); [by left|by right; left| |]; apply tc_once.
  - exists 0, 2. split; [vmdec|split; [vm_compute; reflexivity|vmdec]].
  - exists 3, 5. split; [vmdec|split; [vm_compute; reflexivity|vmdec]].
Qed.

(** C51. On an acyclic graph [LineConvexChecker::new] succeeds, and for a non-empty
list of distinct nodes [is_node_convex] ends without a panic with the exact
answer, whatever the interpolation search guesses inside the interval; the
same for [is_convex]. *)
Theorem C51_line_convex :
forall w g rnd, reach w g -> pacyclic g ->
  (forall low high low_pos high_pos pos, low < high -> low_pos < pos < high_pos ->
     low <= rnd low high low_pos high_pos pos <= high) ->
  exists c N, (forall fuel, N < fuel -> lcc_new (gv_of g) (neighbours g) fuel = HOk c) /\
  forall S, S <> [] -> NoDup S -> (forall n, n ∈ S -> contains_node g n = true) ->
    exists M, forall fuel, M < fuel ->
      (exists r, lcc_is_node_convex (neighbours g) rnd c fuel S = HOk r /\ (r = true <-> convex g S)) /\
      (forall inputs outputs, (forall p, p ∈ outputs -> is_Some (port_node g p)) ->
         exists r, lcc_is_convex (gv_of g) (neighbours g) rnd c fuel S inputs outputs = HOk r /\
           (r = true <-> convex g S /\ ~ exists o i, o ∈ outputs /\ i ∈ inputs /\ linked g o i)).
Proof. exact C51_line_convex_pf. Qed.
Print Assumptions C51_line_convex.

(** The interpolation of the code, with exact arithmetic. *)
Definition interpolate (low high low_pos high_pos pos : nat) : nat :=
  low + (2 * (pos - low_pos) * (high - low) + (high_pos - low_pos)) / (2 * (high_pos - low_pos)).
Example C51_case : reach 16 dag_g /\ pacyclic dag_g
  /\ (forall low high low_pos high_pos pos, low < high -> low_pos < pos < high_pos ->
       low <= interpolate low high low_pos high_pos pos <= high)
  /\ (c ← lcc_new (gv_of dag_g) (neighbours dag_g) 9; HOk (lc_lines c)) = HOk [[0; 1; 2]; [0; 2; 3]]
  /\ (c ← lcc_new (gv_of dag_g) (neighbours dag_g) 9; lcc_is_node_convex (neighbours dag_g) interpolate c 30 [2; 0]) = HOk false
  /\ (c ← lcc_new (gv_of dag_g) (neighbours dag_g) 9; lcc_is_node_convex (neighbours dag_g) interpolate c 30 [0; 2; 1]) = HOk true.
Proof.
  split; [apply dag_reach|]. split; [apply dag_acyclic|]. split; [|split; [vm_compute; reflexivity|split; vm_compute; reflexivity]].
  intros low high lp hp pos H1 H2. unfold interpolate. split; [apply Nat.le_add_r|].
  assert (H : (2 * (pos - lp) * (high - low) + (hp - lp)) / (2 * (hp - lp)) < high - low + 1).
  { apply Nat.div_lt_upper_bound; [lia|]. nia. }
  revert H. generalize ((2 * (pos - lp) * (high - low) + (hp - lp)) / (2 * (hp - lp))). intros m. lia.
Qed.

(** The empty set is outside C51: [is_convex_by_intervals] takes the maximum of no
intervals and panics. *)
Theorem C51_empty_set_panics :
forall nb rnd c fuel, lcc_is_node_convex nb rnd c fuel [] = HPanic.
Proof. exact C51_empty_set_panics_pf. Qed.
Print Assumptions C51_empty_set_panics.

(** So are repeated nodes: the single node 1 of the path 0 -> 1 -> 2, listed twice,
is reported as not convex. *)
Theorem C51_repeated_nodes :
exists g c, reach 16 g /\ pacyclic g /\ lcc_new (gv_of g) (neighbours g) 9 = HOk c /\
  lcc_is_node_convex (neighbours g) (fun low _ _ _ _ => low) c 30 [1; 1] = HOk false /\ convex g [1; 1].
Proof. exact C51_repeated_nodes_pf. Qed.
Print Assumptions C51_repeated_nodes.
