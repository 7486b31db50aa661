(** Property C138: linking, unlinking and removing in a dynamic checker whose order may be out of date. *)
From Verif Require Export DynStaleThms.

(** C138 is false: two links lead from node 0 to node 2. Node 1 is removed and
[compact_nodes] renames node 2 to 1, which the order does not learn. Unlinking one of the
links panics, and so does removing node 1. *)
Theorem C138_stale_refuted :
  exists g c c1 c2 log, reach 16 g /\ pacyclic g /\ dc_new 9 g = HOk c /\ dc_remove_node c 1 = Ok c1 /\
    dc_compact_nodes c1 = Ok (c2, log) /\ port_link (dc_graph c2) 0 = Ok (Some 2) /\ contains_node (dc_graph c2) 1 = true /\
    dc_unlink_port c2 0 = Panic /\ dc_remove_node c2 1 = Panic.
Proof. exact C138_stale_refuted_pf. Qed.
Print Assumptions C138_stale_refuted.

(** What holds, whatever nodes the order lists: [unlink_port] does to the graph what the graph's
own call does, keeps the order and gives the same answer, or it panics. It panics exactly if the port
was linked, its node still has a successor, and the order lacks the node or such a successor.
Missing: those calls. *)
Theorem C138_unlink_partial :
  forall w c p, reach w (dc_graph c) -> dt_sync (dc_topo c) ->
    exists g' r, unlink_port (dc_graph c) p = Ok (g', r) /\
      (dc_unlink_port c p = Ok (DC (dc_topo c) g', r) \/ dc_unlink_port c p = Panic) /\
      (dc_unlink_port c p = Panic <->
        exists q a b, r = Some q /\ port_node (dc_graph c) p = Some a /\ pedge g' Outgoing a b /\
          (a ∉ dt_order (dc_topo c) \/ b ∉ dt_order (dc_topo c))).
Proof. exact C138_unlink_partial_pf. Qed.
Print Assumptions C138_unlink_partial.

Example C138_unlink_partial_nonvacuous :
  let c := DC (DTS [2; 0] {[0 := 1; 2 := 0]}) par_g in
  let c1 := DC (DTS [0] {[0 := 0]}) par_g in
  reach 16 par_g /\ dt_sync (dc_topo c) /\ dt_sync (dc_topo c1) /\
  (exists c', dc_unlink_port c 0 = Ok (c', Some 2)) /\ dc_unlink_port c1 0 = Panic.
Proof.
  cbn zeta. split; [apply par_reach|]. split; [|split].
  - intros n i. cbn [dt_pos dt_order dc_topo]. rewrite lookup_insert_Some, lookup_singleton_Some. destruct i as [|[|i]]; cbn; split; naive_solver.
  - intros n i. cbn [dt_pos dt_order dc_topo]. rewrite lookup_singleton_Some. destruct i; cbn; split; naive_solver.
  - split; [|vm_compute; reflexivity]. eexists. vm_compute. reflexivity.
Qed.

(** [remove_node] panics exactly for the nodes that the order lacks, whether they are nodes of the graph or
not. Otherwise it does to the graph what the graph's own call does, and takes
the node out of the order.
Missing: those nodes. *)
Theorem C138_remove_partial :
  forall w c n, reach w (dc_graph c) -> dt_sync (dc_topo c) -> NoDup (dt_order (dc_topo c)) ->
    exists g', remove_node (dc_graph c) n = Ok g' /\
      (n ∉ dt_order (dc_topo c) -> dc_remove_node c n = Panic) /\
      (n ∈ dt_order (dc_topo c) -> exists t, dc_remove_node c n = Ok (DC t g') /\
        dt_sync t /\ exists l1 l2, dt_order (dc_topo c) = l1 ++ n :: l2 /\ dt_order t = l1 ++ l2).
Proof. exact C138_remove_partial_pf. Qed.
Print Assumptions C138_remove_partial.

Example C138_remove_partial_nonvacuous :
  exists c, reach 16 (dc_graph c) /\ dt_sync (dc_topo c) /\ NoDup (dt_order (dc_topo c)) /\
    dc_remove_node c 1 = Panic /\ exists c', dc_remove_node c 0 = Ok c' /\ dt_order (dc_topo c') = [].
Proof.
  exists (DC (DTS [0] {[0 := 0]}) par_g). cbn [dc_graph dc_topo dt_order]. split; [apply par_reach|]. split.
  { intros n i. cbn [dt_pos dt_order]. rewrite lookup_singleton_Some. destruct i; cbn; split; try naive_solver. }
  split; [apply NoDup_singleton|]. split; [vm_compute; reflexivity|]. eexists. split; vm_compute; reflexivity.
Qed.

(** What a [link_ports] call that returns did: success means that the graph made the link
and that the order has both nodes. An error means that a port is unknown and nothing changed, or that
the graph refused the link, or that the order lacks one of the nodes: then the link was made although the error
says that the first port is unknown. *)
Theorem C138_link_result :
  forall fuel c p q c' r, dt_sync (dc_topo c) -> dc_link_ports fuel c p q = HOk (c', r) ->
    (forall x, r = inr x -> link_ports (dc_graph c) p q = Ok (dc_graph c', inr x) /\
       exists a b, port_node (dc_graph c) p = Some a /\ port_node (dc_graph c) q = Some b /\
         a ∈ dt_order (dc_topo c) /\ b ∈ dt_order (dc_topo c)) /\
    (forall e, r = inl e -> dc_topo c' = dc_topo c /\
       ((c' = c /\ exists x, (x = p \/ x = q) /\ port_node (dc_graph c) x = None /\ e = UnknownPort x) \/
        link_ports (dc_graph c) p q = Ok (dc_graph c', inl e) \/
        (e = UnknownPort p /\ exists x a b, link_ports (dc_graph c) p q = Ok (dc_graph c', inr x) /\
           port_node (dc_graph c) p = Some a /\ port_node (dc_graph c) q = Some b /\
           (a ∉ dt_order (dc_topo c) \/ b ∉ dt_order (dc_topo c))))).
Proof. exact C138_link_result_pf. Qed.
Print Assumptions C138_link_result.

Example C138_link_result_nonvacuous :
  let c := DC (DTS [0; 1] {[0 := 0; 1 := 1]}) reo_g in
  dt_sync (dc_topo c) /\ contains_port reo_g 3 = true /\ port_link reo_g 3 = Ok None /\
  exists c', dc_link_ports 20 c 3 0 = HOk (c', inl (UnknownPort 3)) /\ port_link (dc_graph c') 3 = Ok (Some 0).
Proof.
  cbn zeta. split.
  { intros n i. cbn [dt_pos dt_order dc_topo]. rewrite lookup_insert_Some, lookup_singleton_Some. destruct i as [|[|i]]; cbn; split; naive_solver. }
  split; [vm_compute; reflexivity|]. split; [vm_compute; reflexivity|]. eexists. split; vm_compute; reflexivity.
Qed.
