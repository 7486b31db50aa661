(** Properties C105 to C110: the implementations of petgraph's traits. *)
From Verif Require Export PetThms.
From Verif Require Import ViewProps.

(** C105. For every view that shows a graph: [node_identifiers] and [node_references]
list every visible node once and [node_count] is their number; [edge_count] is
the number of links wherever [link_count] is (C60); and [neighbors_directed]
lists, for each link at the ports of the node in that direction once, the node at
its other end, which for [neighbors] are the links out of the node. *)
Theorem C105_nodes_and_neighbours :
forall E (V : lview E) N R, shows V N R ->
  (exists L, pet_node_identifiers V = HOk L /\ pet_node_references V = HOk L /\ NoDup L /\ (forall n, n ∈ L <-> N n) /\
     pet_node_count V = HOk (length L))
  /\ (counts_links V R -> exists L, link_list V R L /\ pet_edge_count V = HOk (length L))
  /\ forall n d, N n -> exists L r, lists_links_at V R n d L /\ pet_neighbors_directed V n d = HOk r /\
       Forall2 (fun x m => lv_pnode V (lv_port V x.2) = Some m) L r /\ (d = Outgoing -> pet_neighbors V n = HOk r).
Proof. exact C105_nodes_and_neighbours_pf. Qed.
Print Assumptions C105_nodes_and_neighbours.

(** In the multigraph [vx_m] two links end at the input port of node 3. *)
Example C105_case : let V := lv_of_m 16 vx_m in
  shows V (fun n => m_contains_node vx_m n = true) (mlinked 16 vx_m) /\ counts_links V (mlinked 16 vx_m)
  /\ pet_node_identifiers V = HOk [0; 1; 2; 3; 4; 5; 6] /\ pet_neighbors V 0 = HOk [1; 3] /\ pet_neighbors_directed V 3 Incoming = HOk [1; 0].
Proof.
  cbn zeta. split; [exact (m_shows 16 ltac:(lia) vx_m vx_mreach)|]. split; [exact (m_counts 16 ltac:(lia) vx_m vx_mreach)|]. vm_compute. repeat split.
Qed.

(** C106 does not hold: petgraph asks for each edge once. On a graph with two nodes
and one link, [edge_references] yields two edges, the second one from the target
of the link to its source, although its [len] is 1. *)
Theorem C106_edge_references_refuted :
exists g s r, reach 16 g /\ pet_edge_references (lv_of_pg g) = HOk s /\ ers_collect (lv_of_pg g) 3 s = HOk r /\
  link_count g = 1 /\ ers_len s = 1 /\ length r = 2 /\
  r = [ER 0 1 (0, 1); ER 1 0 (1, 0)] /\ ~ has_edge (lv_of_pg g) (linked g) 1 0.
Proof. exact C106_edge_references_refuted_pf. Qed.
Print Assumptions C106_edge_references_refuted.

(** C106, what the code does: on every view that shows a graph, [edge_references]
yields every link exactly twice, once from its output to its input and once from
its input to its output, with the nodes at the ends in this order; and its
[count], [len] and [size_hint] are [link_count]. Missing: petgraph asks for each
edge once, and [len] for the number of items left. *)
Theorem C106_edge_references_partial :
forall E (V : lview E) N R c, shows V N R -> lv_link_count V = HOk c ->
  exists s r L, pet_edge_references V = HOk s /\ ers_len s = c /\ link_list V R L /\
    (forall fuel, length r < fuel -> ers_collect V fuel s = HOk r) /\
    er_id <$> r ≡ₚ L ++ ((fun x => (x.2, x.1)) <$> L) /\ Forall (fun e => refers_to V e (er_id e)) r.
Proof. exact C106_edge_references_partial_pf. Qed.
Print Assumptions C106_edge_references_partial.

(** The links of a [Subgraph] of [vx_g]. *)
Example C106_case : let V := subgraph (lv_of_pg vx_g) [1; 2; 3] in
  shows V (fun n => n ∈ [1; 2; 3]) (link_inside (lv_of_pg vx_g) (fun n => n ∈ [1; 2; 3]) (linked vx_g)) /\ lv_link_count V = HOk 2
  /\ (s ← pet_edge_references V; ers_collect V 9 s) = HOk [ER 1 3 (4, 9); ER 2 2 (6, 8); ER 2 2 (8, 6); ER 3 1 (9, 4)].
Proof.
  cbn zeta. split; [apply (C78_subgraph_view_pf _ (lv_of_pg vx_g) (fun n => contains_node vx_g n = true) (linked vx_g) [1; 2; 3] (pg_shows 16 vx_g vx_reach))|vm_compute; repeat split].
  - apply (bool_decide_unpack _). vm_compute. reflexivity.
  - intros n Hn. rewrite !elem_of_cons, elem_of_nil in Hn. destruct Hn as [-> |[-> |[-> |[]]]]; vm_compute; reflexivity.
Qed.

(** C107 does not hold: petgraph asks [edges] of a directed graph for the edges out
of the node, and gives every edge the node as its source; and [edges_directed]
with [Incoming] for the edges into the node, with the node as their target. On a
graph with two nodes and the link from 0 to 1, [edges] yields for node 1 an edge
from 1 to 0, and so does [edges_directed] with [Incoming]. *)
Theorem C107_node_edges_refuted :
exists g, reach 16 g /\ contains_node g 1 = true /\
  pet_edges (lv_of_pg g) 1 = HOk [ER 1 0 (1, 0)] /\ pet_edges_directed (lv_of_pg g) 1 Incoming = HOk [ER 1 0 (1, 0)] /\
  has_edge (lv_of_pg g) (linked g) 0 1 /\ ~ has_edge (lv_of_pg g) (linked g) 1 0.
Proof. exact C107_node_edges_refuted_pf. Qed.
Print Assumptions C107_node_edges_refuted.

(** C107, what the code does: on every view that shows a graph, [edges_directed]
yields for each link at the ports of the node in that direction one edge whose
source is the node and whose target is the node at the other end; for [Outgoing]
these are the links out of the node, as petgraph asks. [edges] yields so the
links at all ports of the node, those from the node to itself once; if the node
has no other incoming links, it yields exactly the links out of the node. Missing:
edges into the node should have it as their target, and should not be among
[edges]. *)
Theorem C107_node_edges_partial :
forall E (V : lview E) N R n, shows V N R -> N n ->
  (forall d, exists L r, lists_links_at V R n d L /\ pet_edges_directed V n d = HOk r /\ Forall2 (refers_to V) r L /\
     Forall (fun e => er_source e = n) r)
  /\ exists L r, pet_edges V n = HOk r /\ Forall2 (refers_to V) r L /\ NoDup L /\
     (forall x y, (x, y) ∈ L <-> R x y /\ lv_pnode V (lv_port V x) = Some n /\
        ~ (lv_pdir V (lv_port V x) = Some Incoming /\ lv_pnode V (lv_port V y) = Some n)) /\
     ((forall a, has_edge V R a n -> a = n) -> lists_links_at V R n Outgoing L).
Proof. exact C107_node_edges_partial_pf. Qed.
Print Assumptions C107_node_edges_partial.

(** In [vx_g] the only link into node 2 is from node 2 itself. *)
Example C107_case : let V := lv_of_pg vx_g in
  shows V (fun n => contains_node vx_g n = true) (linked vx_g) /\ contains_node vx_g 2 = true
  /\ pet_edges V 2 = HOk [ER 2 4 (7, 12); ER 2 2 (8, 6)] /\ pet_edges V 3 = HOk [ER 3 1 (9, 4); ER 3 6 (10, 18)] /\ pet_edges_directed V 3 Incoming = HOk [ER 3 1 (9, 4)].
Proof. cbn zeta. split; [exact (pg_shows 16 vx_g vx_reach)|]. vm_compute. repeat split. Qed.

(** C108 does not hold: petgraph asks [visit] to return true iff this is the first
visit of the node. On a new map, the first visit returns false and the second
true. *)
Theorem C108_visit_map_refuted :
exists n m1 m2, pet_visit pet_visit_map n = Ok (m1, false) /\ pet_visit m1 n = Ok (m2, true).
Proof. exact C108_visit_map_refuted_pf. Qed.
Print Assumptions C108_visit_map_refuted.

(** C108, what the code does: after any sequence of [visit], [unvisit] and
[reset_map] on a [visit_map], none of which panics, [is_visited] tells exactly
whether the node was visited and not unvisited or reset since; and [visit] and
[unvisit] return whether the node was visited before the call. For [unvisit] this
is what petgraph asks for. Missing: [visit] should return the negation. *)
Theorem C108_visit_map_partial :
forall cs, exists m, vrun pet_visit_map cs = Ok m /\ forall n,
  pet_is_visited m n = visited_after (rev cs) n /\
  (exists m', pet_visit m n = Ok (m', visited_after (rev cs) n)) /\ exists m', pet_unvisit m n = Ok (m', visited_after (rev cs) n).
Proof. exact C108_visit_map_partial_pf. Qed.
Print Assumptions C108_visit_map_partial.

Example C108_case : vrun pet_visit_map [VVisit 2; VVisit 5; VUnvisit 2] = Ok [false; false; false; false; false; true]
  /\ visited_after (rev [VVisit 2; VVisit 5; VUnvisit 2]) 5 = true /\ visited_after (rev [VVisit 2; VVisit 5; VUnvisit 2]) 2 = false.
Proof. vm_compute. repeat split. Qed.

(** C109 does not hold: petgraph asks for every [to_index] to be below [node_bound].
After two [add_node] and the removal of the first node, [node_bound] is 1, which
is the index of the node left. *)
Theorem C109_node_bound_refuted :
exists g n b, reach 16 g /\ contains_node g n = true /\ pet_node_bound (lv_of_pg g) = HOk b /\ ~ pet_to_index n < b.
Proof. exact C109_node_bound_refuted_pf. Qed.
Print Assumptions C109_node_bound_refuted.

(** C109, on every view that shows a graph whose node indices are all the numbers
below some number (as after [compact_nodes]), the indices of the nodes are exactly
the numbers below [node_bound]; and [from_index] inverts [to_index] for every node
index. Missing: graphs and views with gaps between the indices. *)
Theorem C109_node_bound_partial :
forall E (V : lview E) N R, shows V N R ->
  ((forall n m, N n -> m < n -> N m) -> exists b, pet_node_bound V = HOk b /\ forall n, N n <-> pet_to_index n < b)
  /\ forall n, (N.of_nat n < 2 ^ 31 - 1)%N -> pet_from_index (pet_to_index n) = HOk n.
Proof. exact C109_node_bound_partial_pf. Qed.
Print Assumptions C109_node_bound_partial.

Example C109_case : let V := lv_of_pg vx_g in
  shows V (fun n => contains_node vx_g n = true) (linked vx_g) /\ (forall n m, contains_node vx_g n = true -> m < n -> contains_node vx_g m = true)
  /\ pet_node_bound V = HOk 7.
Proof.
  cbn zeta. split; [exact (pg_shows 16 vx_g vx_reach)|]. split; [|vm_compute; reflexivity]. intros n m Hn Hm.
  assert (n < 7) by (destruct (decide (n < 7)); [done|]; do 7 (destruct n as [|n]; [lia|]); vm_compute in Hn; destruct n; discriminate Hn).
  do 7 (destruct m as [|m]; [vm_compute; reflexivity|]). lia.
Qed.

(** C110. On every view that shows a graph: the dense [adjacency_matrix] of graphs
(for a capacity above all node indices, as the capacity of a graph is) is built
without panic and [is_adjacent] tells of every two nodes whether a link leads from
the first to the second; and the sparse one of filtered graphs, regions and
subgraphs tells the same of any two indices. *)
Theorem C110_adjacency :
forall E (V : lview E) N R, shows V N R ->
  (forall cap, (forall n, N n -> n < cap) -> exists m, pet_adjacency_dense V cap = HOk m /\
     forall a b, N a -> N b -> exists r, pet_is_adjacent_dense m a b = HOk r /\ (r = true <-> has_edge V R a b))
  /\ exists m, pet_adjacency_sparse V = HOk m /\ forall a b, pet_is_adjacent_sparse m a b = true <-> has_edge V R a b.
Proof. exact C110_adjacency_pf. Qed.
Print Assumptions C110_adjacency.

Example C110_case : let V := lv_of_m 16 vx_m in
  shows V (fun n => m_contains_node vx_m n = true) (mlinked 16 vx_m) /\ (forall n, m_contains_node vx_m n = true -> n < 16)
  /\ (m ← pet_adjacency_dense V 16; pet_is_adjacent_dense m 0 3) = HOk true /\ (m ← pet_adjacency_dense V 16; pet_is_adjacent_dense m 3 0) = HOk false
  /\ (m ← pet_adjacency_sparse V; HOk (pet_is_adjacent_sparse m 0 1, pet_is_adjacent_sparse m 1 0)) = HOk (true, false).
Proof.
  cbn zeta. split; [exact (m_shows 16 ltac:(lia) vx_m vx_mreach)|]. split.
  - intros n Hn. destruct (decide (n < 16)) as [|Hge]; [done|]. exfalso. do 16 (destruct n as [|n]; [lia|]). vm_compute in Hn. destruct n; discriminate Hn.
  - vm_compute. repeat split.
Qed.
