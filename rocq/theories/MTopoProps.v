(** Property C46: topological sorting of multigraphs. *)
From Verif Require Export MTopoThms.

(** C46 does not hold: node 0 has links to nodes 2 and 1, node 1 has a link to the
same input port of node 2; [toposort] yields node 2 before its predecessor 1. *)
Theorem C46_toposort_multi_refuted :
exists m, mreach 16 m /\ macyclic 16 m /\ medge 16 m Outgoing 1 2 /\
  topo_collect (gv_of_m 16 m) Outgoing (fun _ => true) (fun _ _ => true) 9
    (topo_new (gv_of_m 16 m) Outgoing (fun _ => true) [0]) = HOk [0; 2; 1].
Proof. exact C46_toposort_multi_refuted_pf. Qed.
Print Assumptions C46_toposort_multi_refuted.

(** C46, what holds after allowed calls: for distinct visible sources, [toposort]
ends without a panic and yields distinct nodes; every linked port (against the
direction) of a yielded node that is not a source has a link from a node
yielded before, so all predecessors come before if no such port has links to
different nodes; a node with predecessors, all yielded, is yielded; on an
acyclic multigraph, with all nodes without predecessors among the sources,
every node is yielded. *)
Theorem C46_toposort_multi_partial :
forall w m d src, (2 < w <= 63)%N -> mreach w m -> NoDup src -> (forall n, n ∈ src -> m_contains_node m n = true) ->
  exists l,
    (forall fuel, length l < fuel ->
       topo_collect (gv_of_m w m) d (fun _ => true) (fun _ _ => true) fuel
         (topo_new (gv_of_m w m) d (fun _ => true) src) = HOk l)
    /\ NoDup l
    /\ (exists rest, l = src ++ rest)
    /\ (forall n, n ∈ l -> m_contains_node m n = true)
    /\ (forall n, n ∈ l -> n ∉ src -> (exists a, medge w m d a n) /\
          forall x y, mlinked w m x y -> port_node (m_graph m) y.1 = Some n -> port_direction (m_graph m) y.1 = Some (rev_dir d) ->
            exists x' y' a, mlinked w m x' y' /\ y'.1 = y.1 /\ port_node (m_graph m) x'.1 = Some a /\ before l a n)
    /\ ((forall q i p j i' p' j', port_direction (m_graph m) q = Some (rev_dir d) ->
            mlinked w m (q, i) (p, j) -> mlinked w m (q, i') (p', j') -> port_node (m_graph m) p = port_node (m_graph m) p') ->
        forall n a, n ∈ l -> n ∉ src -> medge w m d a n -> before l a n)
    /\ (forall n, (exists a, medge w m d a n) -> (forall a, medge w m d a n -> a ∈ l) -> n ∈ l)
    /\ (macyclic w m ->
        (forall n, m_contains_node m n = true -> (~ exists a, medge w m d a n) -> n ∈ src) ->
        l ≡ₚ m_nodes_iter m).
Proof. exact C46_toposort_multi_partial_pf. Qed.
Print Assumptions C46_toposort_multi_partial.

Example C46_toposort_multi_nonvacuous : mreach 16 late_m /\ NoDup [0] /\ (forall n, n ∈ [0] -> m_contains_node late_m n = true) /\ macyclic 16 late_m /\
  medge 16 late_m Outgoing 1 2 /\
  topo_collect (gv_of_m 16 late_m) Incoming (fun _ => true) (fun _ _ => true) 9 (topo_new (gv_of_m 16 late_m) Incoming (fun _ => true) [2]) = HOk [2; 1; 0].
Proof.
  split; [apply late_reach|]. split; [apply NoDup_singleton|]. split; [intros n ->%elem_of_list_singleton; vm_compute; reflexivity|].
  split; [apply late_acyclic|]. split; [apply late_edge|]. vm_compute. reflexivity.
Qed.
