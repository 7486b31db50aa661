(** Property C100: copying a part of a multigraph next to it. *)
From Verif Require Import MCopyThms ViewProps.


(** C100: [copy_in_parent] of a subgraph of a [MultiPortGraph] with a history of
allowed calls succeeds, in whatever order the hash map is iterated, if the port
counts and indices stay in range. It returns a map from the nodes of the subgraph
to distinct new nodes with as many ports. Each link with an end at one of the nodes,
the boundary links too, is copied once: the ends at the nodes go to the copied
ports, and the other ends stay at their port. All nodes, ports and links that were
there are as before, and there are no other new ones. *)
Theorem C100_multi_copy_in_parent :
forall w m nodes order Ks, (2 < w <= 63)%N -> mreach w m -> NoDup nodes -> (forall n, n ∈ nodes -> m_contains_node m n = true) ->
  (forall l, order l ≡ₚ l) -> link_list (lv_of_m w m) (mlinked w m) Ks ->
  (forall n d, n ∈ nodes -> (N.of_nat (num_ports (m_graph m) n d) <= po_max_offset w)%N) ->
  (forall p l, m_contains_port m p = true -> m_port_links w m p = Ok l -> (2 * N.of_nat (length l) <= N.min (po_max_offset w + 1) 32767)%N) ->
  (N.of_nat (length (pg_nodes (m_graph m)) + length nodes + 2 * length Ks) <= 2 ^ 31 - 1)%N ->
  (N.of_nat (length (pg_pmeta (m_graph m)) + sum_list (n_ports (m_graph m) <$> nodes)) + 65536 * N.of_nat (length Ks) <= 2 ^ 31 - 1)%N ->
  exists m' R, m_copy_in_parent w order nodes m = Ok (m', inr R) /\ mreach w m' /\ R.*1 ≡ₚ nodes /\
    nodes_copied R.*1 (m_graph m) (m_graph m) (m_graph m') (fun n => m_contains_node m n = true) (fun n => m_contains_node m' n = true) R /\
    exists f, part_copied w nodes m m' R f.
Proof. exact C100_multi_copy_in_parent_pf. Qed.
Print Assumptions C100_multi_copy_in_parent.

Example C100_multi_copy_in_parent_case : mreach 16 vx_m /\ (forall l : list (nat * nat), rev l ≡ₚ l)
  /\ map (fun n => lv_all_links (lv_of_m 16 vx_m) n) [1; 3; 4]
     = [HOk [((3, 0), (1, 0)); ((4, 0), (9, 0))]; HOk [((9, 0), (4, 0)); ((9, 1), (2, 0)); ((10, 0), (18, 0))]; HOk [((12, 0), (7, 0))]]
  /\ match m_copy_in_parent 16 (@rev _) [1; 3; 4] vx_m with
     | Ok (m', inr R) => R = [(4, 10); (3, 9); (1, 8)] /\ map (fun n => lv_all_links (lv_of_m 16 m') n) [8; 9; 10]
         = [HOk [((24, 0), (1, 1)); ((25, 0), (27, 1))]; HOk [((27, 0), (2, 1)); ((27, 1), (25, 0)); ((28, 0), (18, 1))]; HOk [((30, 0), (7, 1))]]
     | _ => False
     end.
Proof. split; [exact vx_mreach|]. split; [intros l; symmetry; apply Permutation_rev|]. vm_compute. repeat split. Qed.
