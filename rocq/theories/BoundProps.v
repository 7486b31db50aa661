(** Properties C65, C80, C81 and C82: boundaries and the subgraphs they induce. *)
From Verif Require Import BoundThms PGRun MultiRun.

(** A chain 0 -> 1 -> 2 -> 3 and a node 4 by itself; node [n] has the input port [2n] and the output port [2n+1]. *)
Definition bd_ops : list op := [OAdd 1 1; OAdd 1 1; OAdd 1 1; OAdd 1 1; OAdd 1 1; OLink 1 2; OLink 3 4; OLink 5 6].
Definition bd_g : pg := default pg_new (run 16 bd_ops pg_new).
Lemma bd_hist : hist 16 bd_ops bd_g.
Proof. apply run_hist. vm_compute. reflexivity. Qed.
Lemma bd_reach : reach 16 bd_g.
Proof. exists bd_ops. exact bd_hist. Qed.


(** C65, for any graph or view with at most one link per port: [new_subgraph] with
ports of the graph as boundary terminates without a panic and the subgraph has
exactly the nodes that can be reached from the nodes of the boundary ports
without crossing a link that has an end in the boundary (all nodes if the
boundary is empty). The subgraph then shows the graph induced on these nodes. *)
Theorem C65_new_subgraph :
forall E (V : lview E) N R (B : boundary), shows V N R -> one_link V R -> (forall p, p ∈ bd_ports B -> port_in V N p) ->
  exists L K, (forall fuel, K < fuel -> new_subgraph V fuel B = HOk L) /\
    NoDup L /\ Sorted le L /\ (forall n, n ∈ L <-> induced V N R (bd_ports B) n) /\
    let S n := induced V N R (bd_ports B) n in shows (subgraph V L) S (link_inside V S R).
Proof. exact C65_new_subgraph_pf. Qed.
Print Assumptions C65_new_subgraph.

Example C65_new_subgraph_case : let V := lv_of_pg bd_g in
  shows V (fun n => contains_node bd_g n = true) (linked bd_g) /\ one_link V (linked bd_g)
  /\ (forall p, p ∈ bd_ports (Bd [2] [5]) -> port_in V (fun n => contains_node bd_g n = true) p)
  /\ new_subgraph V 9 (Bd [2] [5]) = HOk [1; 2] /\ new_subgraph V 9 (Bd [] [5]) = HOk [0; 1; 2] /\ new_subgraph V 9 (Bd [] []) = HOk [0; 1; 2; 3; 4].
Proof.
  cbn zeta. split; [exact (pg_shows 16 bd_g bd_reach)|]. split; [apply pg_one_link|]. split; [|vm_compute; repeat split].
  intros p Hp. unfold bd_ports in Hp. cbn [bd_inputs bd_outputs app] in Hp. apply elem_of_cons in Hp as [->|Hp]; [exists 1; vm_compute; split; reflexivity|].
  apply elem_of_cons in Hp as [->|Hp]; [exists 2; vm_compute; split; reflexivity|]. apply elem_of_nil in Hp. destruct Hp.
Qed.

(** C65 does not hold for a [MultiPortGraph]: only the first link of each port is
followed. Here the output of node 0 is linked to node 1 and to node 2 and
neither link has an end in the boundary, but node 2 is left out. *)
Theorem C65_new_subgraph_multigraph_refuted :
exists m B, mreach 16 m /\ new_subgraph (lv_of_m 16 m) 9 B = HOk [0; 1] /\
  (forall p, p ∈ bd_ports B -> port_in (lv_of_m 16 m) (fun n => m_contains_node m n = true) p) /\
  induced (lv_of_m 16 m) (fun n => m_contains_node m n = true) (mlinked 16 m) (bd_ports B) 2.
Proof. exact C65_new_subgraph_multigraph_refuted_pf. Qed.
Print Assumptions C65_new_subgraph_multigraph_refuted.

(** C65, what holds with any number of links per port: the construction terminates
without a panic and yields nodes of the graph. *)
Theorem C65_internal_nodes_any :
forall E (V : lview E) N R (B : boundary), shows V N R -> (forall p, p ∈ bd_ports B -> port_in V N p) ->
  exists L K, (forall fuel, K < fuel -> new_subgraph V fuel B = HOk L) /\ NoDup L /\ Sorted le L /\ forall n, n ∈ L -> N n.
Proof. exact C65_internal_nodes_any_pf. Qed.
Print Assumptions C65_internal_nodes_any.

Example C65_internal_nodes_any_case : let V := lv_of_pg bd_g in
  shows V (fun n => contains_node bd_g n = true) (linked bd_g) /\ new_subgraph V 9 (Bd [2] []) = HOk [1; 2; 3].
Proof. split; [exact (pg_shows 16 bd_g bd_reach)|vm_compute; reflexivity]. Qed.

(** C65: [copy_in_parent] of a subgraph of a [PortGraph], whatever the order of its
hash map, as long as port counts fit the offset type and the nodes and ports ever
created stay below 2^31. If no link leaves the node set, it returns a bijection
[R] from the nodes to new nodes; the old nodes, ports and links are as before,
each copy has the port counts of its original, two copied ports are linked exactly
when the originals are, and copies are linked to copies only. If a link leaves
the set, it returns an error with the two ends of such a link, and no observation
distinguishes the graph from what it was before. *)
Theorem C65_copy_in_parent :
forall w ops g nodes order, (1 < w <= 63)%N -> hist w ops g -> NoDup nodes -> (forall n, n ∈ nodes -> contains_node g n = true) ->
  (forall l, order l ≡ₚ l) -> (forall n d, (N.of_nat (num_ports g n d) <= po_max_offset w)%N) ->
  (N.of_nat (sum_list (node_cost <$> ops) + length nodes) <= 2 ^ 31 - 1)%N ->
  (N.of_nat (sum_list (port_cost <$> ops) + sum_list ((fun n => num_ports g n Incoming + num_ports g n Outgoing)%nat <$> nodes)) <= 2 ^ 31 - 1)%N ->
  let inside p := exists n, n ∈ nodes /\ port_node g p = Some n in
  ((forall p q, inside p -> linked g p q -> inside q) ->
   exists g' R, copy_in_parent w order nodes g = Ok (g', inr R) /\ reach w g' /\
      R.*1 ≡ₚ nodes /\ NoDup R.*2 /\
      (forall n, contains_node g' n = true <-> contains_node g n = true \/ n ∈ R.*2) /\
      (forall n, contains_node g n = true -> n ∉ R.*2 /\ same_node g g' n) /\
      (forall p, contains_port g p = true -> same_port g g' p) /\
      (forall o n d, (o, n) ∈ R -> num_ports g' n d = num_ports g o d) /\
      (forall o n o2 n2 d k d2 k2 p q p' q', (o, n) ∈ R -> (o2, n2) ∈ R ->
         port_at g o d k p -> port_at g o2 d2 k2 q -> port_at g' n d k p' -> port_at g' n2 d2 k2 q' ->
         (linked g' p' q' <-> linked g p q)) /\
      (forall n p' q', n ∈ R.*2 -> port_node g' p' = Some n -> linked g' p' q' -> exists n2, n2 ∈ R.*2 /\ port_node g' q' = Some n2)) /\
  (~ (forall p q, inside p -> linked g p q -> inside q) ->
   exists g' p q, copy_in_parent w order nodes g = Ok (g', inl (q, p)) /\ reach w g' /\ same_graph g g' /\
     inside p /\ linked g p q /\ ~ inside q).
Proof. exact C65_copy_in_parent_pf. Qed.
Print Assumptions C65_copy_in_parent.

(** Nodes 0 to 3 can be copied (in any order of the hash map, here reversed); nodes 1 and 2 cannot. *)
Example C65_copy_in_parent_case : hist 16 bd_ops bd_g /\ (forall l : list (nat * nat), rev l ≡ₚ l)
  /\ match copy_in_parent 16 (@rev _) [0; 1; 2; 3] bd_g with
     | Ok (g', inr R) => R = [(3, 8); (2, 7); (1, 6); (0, 5)] /\ link_count g' = 6 /\ node_count g' = 9 | _ => False end
  /\ match copy_in_parent 16 (@rev _) [1; 2] bd_g with
     | Ok (g', inl e) => e = (6, 5) /\ link_count g' = 3 /\ node_count g' = 5 | _ => False end.
Proof. split; [exact bd_hist|]. split; [intros l; symmetry; apply Permutation_rev|vm_compute; repeat split]. Qed.

(** C80: [Subgraph::with_nodes] terminates normally; its nodes are those given and its
boundary lists, node after node in the order given and port after port, the ports
with a link to a node that is not among them. *)
Theorem C80_with_nodes :
forall E (V : lview E) N R ns, shows V N R -> (forall n, n ∈ ns -> N n) ->
  exists L B, sg_with_nodes V ns = HOk (L, B) /\ NoDup L /\ Sorted le L /\ (forall n, n ∈ L <-> n ∈ ns) /\
    forall d, exists ls, bd_list B d = concat ls /\
      Forall2 (fun n l => sublist l (lv_ports V n d) /\ forall p, p ∈ l <-> p ∈ lv_ports V n d /\
        exists x y m, R x y /\ lv_port V x = p /\ lv_pnode V (lv_port V y) = Some m /\ m ∉ ns) ns ls.
Proof. exact C80_with_nodes_pf. Qed.
Print Assumptions C80_with_nodes.

Example C80_with_nodes_case : let V := lv_of_pg bd_g in shows V (fun n => contains_node bd_g n = true) (linked bd_g)
  /\ sg_with_nodes V [3; 1; 4] = HOk ([1; 3; 4], Bd [6; 2] [3]) /\ sg_with_nodes V [0; 1; 2; 3] = HOk ([0; 1; 2; 3], Bd [] []).
Proof. split; [exact (pg_shows 16 bd_g bd_reach)|vm_compute; split; reflexivity]. Qed.

(** C81: on an acyclic [PortGraph], [is_convex] of a subgraph whose boundary consists
of input and output ports of its nodes answers exactly whether its node set is
convex and no boundary output is linked to a boundary input. *)
Theorem C81_subgraph_convex :
forall w g nodes B, reach w g -> pacyclic g -> (forall n, n ∈ nodes -> contains_node g n = true) ->
  (forall d p, p ∈ bd_list B d -> exists n, n ∈ nodes /\ p ∈ ports g n d) ->
  exists r K, (forall fuel, K < fuel -> sg_is_convex g fuel nodes B = HOk r) /\
    (r = true <-> convex g nodes /\ ~ exists o i, o ∈ bd_outputs B /\ i ∈ bd_inputs B /\ linked g o i).
Proof. exact C81_subgraph_convex_pf. Qed.
Print Assumptions C81_subgraph_convex.

Example C81_subgraph_convex_case : reach 16 bd_g /\ sg_is_convex bd_g 9 [1; 3] (Bd [2; 6] [3]) = HOk false
  /\ sg_is_convex bd_g 9 [1; 2] (Bd [2] [5]) = HOk true /\ sg_is_convex bd_g 9 [0; 1] (Bd [2] [1; 3]) = HOk false.
Proof. split; [exact bd_reach|vm_compute; repeat split]. Qed.

(** C81: with the boundary that [with_nodes] computes, [is_convex] answers exactly
whether the node set is convex. *)
Theorem C81_with_nodes_convex :
forall w g ns, reach w g -> pacyclic g -> (forall n, n ∈ ns -> contains_node g n = true) ->
  exists L B r K, sg_with_nodes (lv_of_pg g) ns = HOk (L, B) /\ (forall fuel, K < fuel -> sg_is_convex g fuel L B = HOk r) /\
    (r = true <-> convex g ns).
Proof. exact C81_with_nodes_convex_pf. Qed.
Print Assumptions C81_with_nodes_convex.

Example C81_with_nodes_convex_case : reach 16 bd_g
  /\ ('(L, B) ← sg_with_nodes (lv_of_pg bd_g) [2; 0]; sg_is_convex bd_g 9 L B) = HOk false
  /\ ('(L, B) ← sg_with_nodes (lv_of_pg bd_g) [2; 1]; sg_is_convex bd_g 9 L B) = HOk true.
Proof. split; [exact bd_reach|vm_compute; split; reflexivity]. Qed.

(** C82: [from_ports] splits ports by direction and keeps their order; on a boundary
with distinct ports, [find_port] and [port_index] are inverse to each other, and
[ports] lists the valid [BoundaryPort]s. *)
Theorem C82_boundary_ports :
(forall E (V : lview E) ps, (forall p, p ∈ ps -> lv_pdir V p <> None) ->
   exists B, bd_from_ports V ps = HOk B /\ forall d, bd_list B d = filter (fun p => lv_pdir V p = Some d) ps) /\
(forall B d, NoDup (bd_list B d) ->
   (forall p, p ∈ bd_list B d -> exists x, bd_find_port B p d = HOk x /\ bp_dir x = d /\ bd_port_index B x = HOk p) /\
   (forall x p, bp_dir x = d -> bd_port_index B x = HOk p -> bd_find_port B p d = HOk x) /\
   NoDup (bd_bports B d) /\ (forall x, x ∈ bd_bports B d <-> bp_dir x = d /\ exists p, bd_port_index B x = HOk p)) /\
(forall B C, bd_is_compatible B C = true <-> forall d, (fun x => bp_index x) <$> bd_bports B d = (fun x => bp_index x) <$> bd_bports C d).
Proof. exact C82_boundary_ports_pf. Qed.
Print Assumptions C82_boundary_ports.

Example C82_boundary_ports_case : bd_from_ports (lv_of_pg bd_g) [5; 2; 1; 6] = HOk (Bd [2; 6] [5; 1])
  /\ bd_find_port (Bd [2; 6] [5; 1]) 6 Incoming = HOk (BP 1 Incoming) /\ bd_port_index (Bd [2; 6] [5; 1]) (BP 1 Outgoing) = HOk 1
  /\ bd_find_port (Bd [2; 6] [5; 1]) 5 Incoming = HPanic /\ bd_is_compatible (Bd [2; 6] [5; 1]) (Bd [0; 0] [1; 3]) = true.
Proof. vm_compute. repeat split. Qed.
