(** Properties C10-C16, C20-C22 and C67 of properties.jsonl. *)
From Verif Require Export PG1Props PG2Thms.

(** Graphs with gaps, used to show that hypotheses are met. *)
Definition ex_g' : pg := default pg_new (run 16 [OAdd 1 2; OAdd 2 0; OAdd 1 1; OLink 6 3; ORemove 0] pg_new).
Lemma ex_reach' : reach 16 ex_g'.
Proof. apply (run_reach _ [OAdd 1 2; OAdd 2 0; OAdd 1 1; OLink 6 3; ORemove 0]). vm_compute. reflexivity. Qed.
Definition ex_g2 : pg := default pg_new (run 16 [OAdd 0 0; OAdd 1 0; OAdd 1 1; OAdd 1 1; ORemove 1; ORemove 2] pg_new).
Lemma ex_hist2 : hist 16 [OAdd 0 0; OAdd 1 0; OAdd 1 1; OAdd 1 1; ORemove 1; ORemove 2] ex_g2.
Proof. apply run_hist. vm_compute. reflexivity. Qed.


(** C10. [set_num_ports(n, i, j)] that returns gives [n] exactly [i] inputs and
    [j] outputs. Surviving ports (same direction and offset of [n], or ports of
    other nodes) are linked to each other exactly as before, and no other
    links exist; in particular dropped ports take their links with them and
    new ports are unlinked. Other nodes and their ports are unchanged. *)
Theorem C10_set_num_ports :
  forall w g n i j g' log, reach w g -> contains_node g n = true ->
    set_num_ports g n i j = Ok (g', log) ->
    num_ports g' n Incoming = i /\ num_ports g' n Outgoing = j /\ contains_node g' n = true /\
    (forall x, x <> n -> same_node g g' x) /\
    (forall p, port_node g p <> Some n -> port_node g' p <> Some n ->
       contains_port g' p = contains_port g p /\ port_node g' p = port_node g p /\
       port_direction g' p = port_direction g p) /\
    (forall p p' q q', survives g g' n p p' -> survives g g' n q q' -> (linked g p q <-> linked g' p' q')) /\
    (forall p' q', linked g' p' q' ->
       exists p q, survives g g' n p p' /\ survives g g' n q q' /\ linked g p q) /\
    node_count g' = node_count g /\
    port_count g' + (num_ports g n Incoming + num_ports g n Outgoing) = port_count g + (i + j) /\
    link_count g' <= link_count g /\
    card (fun p => port_direction g p = Some Outgoing /\ exists q, linked g p q /\
            ((forall p', ~ survives g g' n p p') \/ (forall q', ~ survives g g' n q q')))
         (link_count g - link_count g').
Proof. exact C10_set_num_ports_pf. Qed.
Print Assumptions C10_set_num_ports.

Example C10_nonvacuous : reach 16 ex_g /\ contains_node ex_g 0 = true /\
  exists g' log, set_num_ports ex_g 0 0 3 = Ok (g', log) /\ survives ex_g g' 0 9 8 /\ linked ex_g 9 3 /\ linked g' 8 3.
Proof.
  split; [apply ex_reach|]. split; [done|]. eexists _, _. split; [vm_compute; reflexivity|].
  split; [|done]. left. exists Outgoing, 0. done.
Qed.

(** C11. The callback calls are: first [Removed], exactly once for each dropped
    port (inputs from offset [i], then outputs from offset [j], in order), with
    the link it had at that moment (none if its partner was dropped earlier);
    then [Moved] calls, at most one per port, each naming the port's real new
    index, and including every survivor whose index changed. Replaying the
    calls on any side table with swap or with rekey leaves every surviving
    port's value at its new index. *)
Theorem C11_set_num_ports_callbacks :
  forall w g n i j g' log, reach w g -> contains_node g n = true ->
    set_num_ports g n i j = Ok (g', log) ->
    let dropped := drop i (ports g n Incoming) ++ drop j (ports g n Outgoing) in
    (exists rl ml, log = rl ++ ml /\
       rl.*1 = dropped /\
       (forall k p o, rl !! k = Some (p, o) -> exists l, o = Removed l /\
          forall q, l = Some q <-> linked g p q /\ q ∉ take k dropped) /\
       NoDup ml.*1 /\
       (forall p o, (p, o) ∈ ml -> exists new d k, o = Moved new /\ port_at g n d k p /\ port_at g' n d k new) /\
       (forall d k p p', port_at g n d k p -> port_at g' n d k p' -> p <> p' -> (p, Moved p') ∈ ml)) /\
    (forall (V : Type) (f : nat -> V) p p', survives g g' n p p' -> replay_swap log f p' = f p) /\
    (forall (V : Type) (dflt : V) (f : nat -> V) p p', survives g g' n p p' -> replay_rekey dflt log f p' = f p).
Proof. exact C11_set_num_ports_callbacks_pf. Qed.
Print Assumptions C11_set_num_ports_callbacks.

Example C11_nonvacuous : reach 16 ex_g /\ contains_node ex_g 0 = true /\
  exists g' log, set_num_ports ex_g 0 0 3 = Ok (g', log) /\
  log = [(8, Removed (Some 10)); (9, Moved 8); (10, Moved 9); (11, Moved 10)].
Proof. split; [apply ex_reach|]. split; [done|]. eexists _, _. vm_compute. done. Qed.

(** C12. [compact_nodes] returns; it reports each node once, in ascending order,
    with new indices 0, 1, 2, ...; afterwards the nodes are exactly
    0 .. node_count, each with its old port list; every port keeps its index,
    direction and link, and reports the new index of its node. *)
Theorem C12_compact_nodes :
  forall w g, reach w g ->
    exists g' log, compact_nodes g = Ok (g', log) /\ reach w g' /\
    log.*1 = nodes_iter g /\ log.*2 = seq 0 (node_count g) /\
    StronglySorted lt log.*1 /\ (forall n, n ∈ log.*1 <-> contains_node g n = true) /\
    (forall n, contains_node g' n = true <-> n < node_count g) /\
    (forall o n d, (o, n) ∈ log -> ports g' n d = ports g o d) /\
    (forall p, contains_port g' p = contains_port g p /\ port_direction g' p = port_direction g p /\
       port_link g' p = port_link g p) /\
    (forall o n p, (o, n) ∈ log -> (port_node g' p = Some n <-> port_node g p = Some o)) /\
    node_count g' = node_count g /\ port_count g' = port_count g /\ link_count g' = link_count g.
Proof. exact C12_compact_nodes_pf. Qed.
Print Assumptions C12_compact_nodes.

Example C12_nonvacuous : reach 16 ex_g' /\
  exists g' log, compact_nodes ex_g' = Ok (g', log) /\ log = [(1, 0); (2, 1)] /\ port_node g' 3 = Some 0.
Proof. split; [apply ex_reach'|]. eexists _, _. vm_compute. done. Qed.

(** C13. [compact_ports] on a graph without hollow nodes (see C14) returns; it
    reports each port once, in ascending order, with new indices 0, 1, 2, ...;
    afterwards the ports are exactly 0 .. port_count; the port at each (node,
    direction, offset) is the reported one, and its link goes to the reported
    new index of its old partner. The result is again a graph to which every
    theorem about reachable graphs applies. *)
Theorem C13_compact_ports :
  forall w g, reach w g -> (forall n, ~ hollow g n) ->
    exists g' log, compact_ports g = Ok (g', log) /\ reach w g' /\
    log.*1 = ports_iter g /\ log.*2 = seq 0 (port_count g) /\
    StronglySorted lt log.*1 /\ (forall p, p ∈ log.*1 <-> contains_port g p = true) /\
    (forall p, contains_port g' p = true <-> p < port_count g) /\
    (forall n, contains_node g' n = contains_node g n) /\
    (forall n d, num_ports g' n d = num_ports g n d) /\
    (forall p p' n d k, (p, p') ∈ log -> (port_at g' n d k p' <-> port_at g n d k p)) /\
    (forall p p' q q', (p, p') ∈ log -> (q, q') ∈ log -> (linked g' p' q' <-> linked g p q)) /\
    (forall p p', (p, p') ∈ log -> (unlinked g' p' <-> unlinked g p)) /\
    node_count g' = node_count g /\ port_count g' = port_count g /\ link_count g' = link_count g.
Proof. exact C13_compact_ports_pf. Qed.
Print Assumptions C13_compact_ports.

Example C13_nonvacuous : reach 16 ex_g' /\ (forall n, ~ hollow ex_g' n) /\
  exists g' log, compact_ports ex_g' = Ok (g', log) /\ log = [(3, 0); (4, 1); (5, 2); (6, 3)].
Proof.
  split; [apply ex_reach'|]. split; [apply (allowedb_sound ex_g' OCompactPorts); vm_compute; done|].
  eexists _, _. vm_compute. done.
Qed.

(** C14 is refuted: on a reachable graph with a hollow node 0, [compact_ports]
    leaves node 0 with a stale slab. Node 2 is then created, and removing node
    0 destroys the port of node 2, which still claims to have it. *)
Theorem C14_hollow_refuted :
  exists g g1 log g2 g3, reach 16 g /\ compact_ports g = Ok (g1, log) /\
    add_node (po_max_offset 16) g1 0 1 = Ok (g2, 2) /\ ports g2 2 Outgoing = [1] /\ contains_port g2 1 = true /\
    contains_node g2 0 = true /\ remove_node g2 0 = Ok g3 /\
    contains_node g3 2 = true /\ ports g3 2 Outgoing = [1] /\ contains_port g3 1 = false.
Proof. exact C14_hollow_refuted_pf. Qed.
Print Assumptions C14_hollow_refuted.

(** C14, what holds on every reachable graph, with hollow nodes or without: right
after [compact_ports] everything is as C13 says. Missing: that later operations
work on the result, which is false (C14_hollow_refuted above). *)
Theorem C14_compact_ports_partial :
  forall w g, reach w g ->
    exists g' log, compact_ports g = Ok (g', log) /\
    log.*1 = ports_iter g /\ log.*2 = seq 0 (port_count g) /\
    StronglySorted lt log.*1 /\ (forall p, p ∈ log.*1 <-> contains_port g p = true) /\
    (forall p, contains_port g' p = true <-> p < port_count g) /\
    (forall n, contains_node g' n = contains_node g n) /\
    (forall n d, num_ports g' n d = num_ports g n d) /\
    (forall p p' n d k, (p, p') ∈ log -> (port_at g' n d k p' <-> port_at g n d k p)) /\
    (forall p p' q q', (p, p') ∈ log -> (q, q') ∈ log -> (linked g' p' q' <-> linked g p q)) /\
    (forall p p', (p, p') ∈ log -> (unlinked g' p' <-> unlinked g p)) /\
    node_count g' = node_count g /\ port_count g' = port_count g /\ link_count g' = link_count g.
Proof. exact C14_compact_ports_partial_pf. Qed.
Print Assumptions C14_compact_ports_partial.

(** Node 0 is hollow: it lost its ports, and node 1 is compacted. *)
Example C14_compact_ports_case : exists g g' log, reach 16 g /\ hollow g 0 /\ ports g 1 Incoming = [2; 3] /\
  compact_ports g = Ok (g', log) /\ log = [(2, 0); (3, 1)] /\ ports g' 1 Incoming = [0; 1].
Proof.
  exists (default pg_new (run 16 [OAdd 1 0; OSetPorts 0 0 0; OAdd 2 0] pg_new)). eexists _, _.
  split; [apply (run_reach _ [OAdd 1 0; OSetPorts 0 0 0; OAdd 2 0]); vm_compute; reflexivity|].
  split; [split; [vm_compute; reflexivity|split; [vm_compute; lia|vm_compute; split; reflexivity]]|].
  split; [vm_compute; reflexivity|]. split; [vm_compute; reflexivity|]. split; vm_compute; reflexivity.
Qed.

(** C15. [swap_nodes] on two nodes returns; each gets the other's port lists, the
    ports report their new owner, and nothing else changes. Swapping again
    restores a graph that no observation tells apart from the first. *)
Theorem C15_swap_nodes :
  forall w g a b, reach w g -> contains_node g a = true -> contains_node g b = true ->
    exists g', swap_nodes g a b = Ok g' /\ reach w g' /\
    (forall d, ports g' a d = ports g b d /\ ports g' b d = ports g a d) /\
    contains_node g' a = true /\ contains_node g' b = true /\
    (forall n, n <> a -> n <> b -> same_node g g' n) /\
    (forall p, contains_port g' p = contains_port g p /\ port_direction g' p = port_direction g p /\
       port_link g' p = port_link g p) /\
    (forall p, port_node g p = Some a -> port_node g' p = Some b) /\
    (forall p, port_node g p = Some b -> port_node g' p = Some a) /\
    (forall p, port_node g p <> Some a -> port_node g p <> Some b -> port_node g' p = port_node g p) /\
    node_count g' = node_count g /\ port_count g' = port_count g /\ link_count g' = link_count g /\
    exists g'', swap_nodes g' a b = Ok g'' /\ same_graph g g''.
Proof. exact C15_swap_nodes_pf. Qed.
Print Assumptions C15_swap_nodes.

Example C15_nonvacuous : reach 16 ex_g /\ contains_node ex_g 0 = true /\ contains_node ex_g 1 = true /\
  exists g', swap_nodes ex_g 0 1 = Ok g' /\ port_node ex_g 3 = Some 1 /\ port_node g' 3 = Some 0 /\ linked g' 9 3.
Proof. split; [apply ex_reach|]. split; [done|]. split; [done|]. eexists. vm_compute. done. Qed.

(** C16 is refuted: nodes 0, 1, 2 are created and 1 is removed; moving node 2
    into slot 1 succeeds, and the next [add_node] panics. *)
Theorem C16_swap_free_refuted :
  exists g g', reach 16 g /\ contains_node g 2 = true /\ contains_node g 1 = false /\
    swap_nodes g 2 1 = Ok g' /\ forall i j, add_node (po_max_offset 16) g' i j = Panic.
Proof. exact C16_swap_free_refuted_pf. Qed.
Print Assumptions C16_swap_free_refuted.

(** C16, positive part: if the free slot [b] is not the one the next [add_node]
    would take, [swap_nodes(a, b)] returns, moves the node to [b] with its
    ports and links, changes nothing else, and the result is a graph to which
    every theorem about reachable graphs applies (C04 and C06: later calls,
    including [add_node], behave as specified and do not panic). Missing: the
    free slot that is next in line, where the property fails. *)
Theorem C16_swap_free_partial :
  forall w ops g a b, hist w ops g -> contains_node g a = true -> spare_slot g b ->
    exists g', swap_nodes g a b = Ok g' /\ hist w (ops ++ [OSwap a b]) g' /\
    contains_node g' b = true /\ contains_node g' a = false /\
    (forall d, ports g' b d = ports g a d) /\
    (forall n, n <> a -> n <> b -> same_node g g' n) /\
    (forall p, contains_port g' p = contains_port g p /\ port_direction g' p = port_direction g p /\
       port_link g' p = port_link g p) /\
    (forall p, port_node g p = Some a -> port_node g' p = Some b) /\
    (forall p, port_node g p <> Some a -> port_node g' p = port_node g p) /\
    node_count g' = node_count g /\ port_count g' = port_count g /\ link_count g' = link_count g /\
    (forall i j, (N.of_nat i <= po_max_offset w /\ N.of_nat j <= po_max_offset w)%N ->
       (N.of_nat i <= 65534 /\ N.of_nat (i + j) <= 65535)%N ->
       (N.of_nat (sum_list (node_cost <$> ops ++ [OAdd i j])) <= 2 ^ 31 - 1)%N ->
       (N.of_nat (sum_list (port_cost <$> ops ++ [OAdd i j])) <= 2 ^ 31 - 1)%N ->
       exists g'' n, add_node (po_max_offset w) g' i j = Ok (g'', n)).
Proof. exact C16_swap_free_partial_pf. Qed.
Print Assumptions C16_swap_free_partial.

Example C16_nonvacuous : hist 16 [OAdd 0 0; OAdd 1 0; OAdd 1 1; OAdd 1 1; ORemove 1; ORemove 2] ex_g2 /\
  contains_node ex_g2 3 = true /\ spare_slot ex_g2 1 /\ exists g', swap_nodes ex_g2 3 1 = Ok g'.
Proof.
  split; [apply ex_hist2|]. split; [done|]. split; [|eexists; vm_compute; reflexivity].
  split_and!; [done|vm_compute; lia|vm_compute; congruence].
Qed.

(** C20 is refuted for 32-bit offsets: [add_node(65537, 0)] on the empty graph
    returns, makes a node with one input, and counts 65537 ports. *)
Theorem C20_port_counts_refuted :
  exists (i : nat) g n, N.of_nat i = 65537%N /\ add_node (po_max_offset 32) pg_new i 0 = Ok (g, n) /\
    num_ports g n Incoming = 1 /\ num_ports g n Outgoing = 0 /\ N.of_nat (port_count g) = 65537%N.
Proof. exact C20_port_counts_refuted_pf. Qed.
Print Assumptions C20_port_counts_refuted.

(** C20 holds for offset types of at most 16 bits (u8 and the default u16):
    [add_node] that does not panic makes exactly the ports asked for, and
    [port_count] grows by their number. Missing: wider offset types, where it
    fails above 65534 inputs or 65535 ports. *)
Theorem C20_port_counts_partial :
  forall w g i j g' n, (1 < w <= 16)%N -> reach w g -> add_node (po_max_offset w) g i j = Ok (g', n) ->
    num_ports g' n Incoming = i /\ num_ports g' n Outgoing = j /\ port_count g' = port_count g + (i + j) /\
    card (fun p => contains_port g' p = true) (port_count g').
Proof. exact C20_port_counts_partial_pf. Qed.
Print Assumptions C20_port_counts_partial.

Example C20_nonvacuous : (1 < 16 <= 16)%N /\ reach 16 ex_g /\
  exists g' n, add_node (po_max_offset 16) ex_g 3 2 = Ok (g', n) /\ port_count g' = 13.
Proof. split; [done|]. split; [apply ex_reach|]. eexists _, _. vm_compute. done. Qed.

(** C21 is refuted: with 8-bit offsets, [set_num_ports(0, 200, 0)] returns, and
    input 128 of the node then reports the offset of output 0. *)
Theorem C21_offset_type_refuted :
  exists g g' log p o, reach 8 g /\ set_num_ports g 0 200 0 = Ok (g', log) /\
    port_at g' 0 Incoming 128 p /\ port_offset 8 g' p = Ok (Some o) /\
    po_direction 8 o = Ok Outgoing /\ po_index 8 o = Ok 0%N.
Proof. exact C21_offset_type_refuted_pf. Qed.
Print Assumptions C21_offset_type_refuted.

(** C21 holds as long as both counts are at most the maximum offset plus one:
    every port of the node then reports its own direction and offset. Missing:
    larger counts, which [set_num_ports] accepts although the offset type
    cannot express them. *)
Theorem C21_offset_type_partial :
  forall w g n i j g' log, (1 < w <= 63)%N -> reach w g -> contains_node g n = true ->
    set_num_ports g n i j = Ok (g', log) ->
    (N.of_nat i <= po_max_offset w + 1 /\ N.of_nat j <= po_max_offset w + 1)%N ->
    forall d k p, port_at g' n d k p -> exists o, port_offset w g' p = Ok (Some o) /\
      po_direction w o = Ok d /\ po_index w o = Ok (N.of_nat k).
Proof. exact C21_offset_type_partial_pf. Qed.
Print Assumptions C21_offset_type_partial.

Example C21_nonvacuous : (1 < 16 <= 63)%N /\ reach 16 ex_g /\ contains_node ex_g 0 = true /\
  (N.of_nat 40 <= po_max_offset 16 + 1)%N /\
  exists g' log, set_num_ports ex_g 0 40 40 = Ok (g', log) /\ num_ports g' 0 Outgoing = 40.
Proof. split; [done|]. split; [apply ex_reach|]. split; [done|]. split; [done|]. eexists _, _. vm_compute. done. Qed.

(** C22. After [clear] there are no nodes, ports or links and every call behaves
    exactly as on a new graph; [reserve] and [shrink_to_fit] change no
    observation and no later behaviour. *)
Theorem C22_clear_reserve_shrink :
  forall w g, reach w g ->
    (forall n, contains_node (clear g) n = false) /\ (forall p, contains_port (clear g) p = false) /\
    node_count (clear g) = 0 /\ port_count (clear g) = 0 /\ link_count (clear g) = 0 /\ is_empty (clear g) = true /\
    (forall o, step w (clear g) o = step w pg_new o) /\
    (forall a b, same_graph g (reserve g a b) /\ forall o, step w (reserve g a b) o = step w g o) /\
    same_graph g (shrink_to_fit g) /\ (forall o, step w (shrink_to_fit g) o = step w g o).
Proof. exact C22_clear_reserve_shrink_pf. Qed.
Print Assumptions C22_clear_reserve_shrink.

Example C22_nonvacuous : reach 16 ex_g /\ is_empty ex_g = false.
Proof. split; [apply ex_reach|done]. Qed.

(** C67. Replaying the callbacks of [compact_nodes] and [compact_ports] on a side
    table, with rekey or with swap, leaves the value of each node or port at
    its new index. *)
Theorem C67_side_tables :
  forall w g (V : Type) (dflt : V) (f : nat -> V), reach w g ->
    (forall g' log, compact_nodes g = Ok (g', log) -> forall o n, (o, n) ∈ log ->
       replay_rekeys dflt log f n = f o /\ replay_swaps log f n = f o) /\
    ((forall n, ~ hollow g n) -> forall g' log, compact_ports g = Ok (g', log) -> forall p p', (p, p') ∈ log ->
       replay_rekeys dflt log f p' = f p /\ replay_swaps log f p' = f p).
Proof. exact C67_side_tables_pf. Qed.
Print Assumptions C67_side_tables.

Example C67_nonvacuous : reach 16 ex_g' /\ (forall n, ~ hollow ex_g' n) /\
  (exists g' log, compact_nodes ex_g' = Ok (g', log) /\ (2, 1) ∈ log) /\
  (exists g' log, compact_ports ex_g' = Ok (g', log) /\ (5, 2) ∈ log).
Proof.
  split; [apply ex_reach'|]. split; [apply (allowedb_sound ex_g' OCompactPorts); vm_compute; done|].
  split; eexists _, _; (split; [vm_compute; reflexivity|]); apply elem_of_list_In; vm_compute; tauto.
Qed.
