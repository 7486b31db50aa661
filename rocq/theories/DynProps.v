(** Properties C52, C53, C71, C79 and C101 of properties.jsonl. *)
From Verif Require Export DynThms.

(** C52 does not hold: with 0 -> 1 -> 2 in place, the link 0 -> 2 is possible and
keeps the graph acyclic, but [link_ports] of a fresh checker panics, because
the cycle check is called with its arguments swapped. *)
Theorem C52_dynamic_link_refuted :
exists g g' c p q x, reach 16 g /\ pacyclic g /\ (exists N, forall fuel, N < fuel -> dc_new fuel g = HOk c) /\
  link_ports g p q = Ok (g', inr x) /\ pacyclic g' /\
  exists N, forall fuel, N < fuel -> dc_link_ports fuel c p q = HPanic.
Proof. exact C52_dynamic_link_refuted_pf. Qed.
Print Assumptions C52_dynamic_link_refuted.

(** C52, what holds: as long as the order is a topological order of the graph, which
[dreach] histories guarantee (C71), a link from an output port of [a] to an
input port of [b] that is possible and keeps the graph acyclic is made exactly
as by the graph alone, provided [b] cannot be reached from [a] yet. *)
Theorem C52_dynamic_link_partial :
forall w c p q a b g' x, dreach w c -> p ∈ ports (dc_graph c) a Outgoing -> q ∈ ports (dc_graph c) b Incoming ->
  link_ports (dc_graph c) p q = Ok (g', inr x) -> pacyclic g' -> ~ rtc (pedge (dc_graph c) Outgoing) a b ->
  exists N, forall fuel, N < fuel -> exists t, dc_link_ports fuel c p q = HOk (DC t g', inr x).
Proof. exact C52_dynamic_link_partial_pf. Qed.
Print Assumptions C52_dynamic_link_partial.

(** A checker on two unlinked nodes, where the link runs against the order. *)
Example C52_case : exists c, dreach 16 c /\ 3 ∈ ports (dc_graph c) 2 Outgoing /\ 0 ∈ ports (dc_graph c) 0 Incoming
  /\ (exists g', link_ports (dc_graph c) 3 0 = Ok (g', inr (3, 0)) /\ pacyclic g')
  /\ ~ rtc (pedge (dc_graph c) Outgoing) 2 0
  /\ exists c', dc_link_ports 20 c 3 0 = HOk (c', inr (3, 0)).
Proof.
  destruct (dc_new 20 reo_g) as [c| |] eqn:E; [|vm_compute in E; discriminate E|vm_compute in E; discriminate E].
  exists c. split; [apply (dr_new 16 20 reo_g c reo_reach reo_acyclic E)|].
  destruct (dgood_new' 16 20 reo_g c reo_reach reo_acyclic E) as [-> Hg].
  split; [vmdec|]. split; [vmdec|]. 
  assert (Hedges : forall a b, pedge reo_g Outgoing a b -> a = 1 /\ b = 2).
  { intros a b H%(edges_list_spec 16); [|apply reo_reach]. vm_compute in H. apply elem_of_list_singleton in H. injection H as -> ->. split; reflexivity. }
  assert (H20 : ~ rtc (pedge reo_g Outgoing) 2 0).
  { intros H. inversion H as [|? ? ? H1]; subst. apply Hedges in H1 as [? _]. discriminate. }
  split.
  { eexists. split; [vm_compute; reflexivity|]. 
    apply (linked_acyclic 16 reo_g reo_reach (dc_topo c) Hg 3 0 2 0 ltac:(vmdec) ltac:(vmdec) _ (3, 0)); [vm_compute; reflexivity|].
    intros H. inversion H as [|? ? ? H1]; subst. apply Hedges in H1 as [? _]. discriminate. }
  split; [exact H20|]. vm_compute in E. injection E as <-. eexists. vm_compute. reflexivity.
Qed.

(** The links that C52 loses: every link to a node that can be reached already. *)
Theorem C52_reaching_link_panics :
forall w c p q a b, dreach w c -> p ∈ ports (dc_graph c) a Outgoing -> q ∈ ports (dc_graph c) b Incoming ->
  rtc (pedge (dc_graph c) Outgoing) a b ->
  exists N, forall fuel, N < fuel -> dc_link_ports fuel c p q = HPanic.
Proof. exact C52_reaching_link_panics_pf. Qed.
Print Assumptions C52_reaching_link_panics.

(** And every link whose input port is given first, although the graph accepts it. *)
Theorem C52_input_first_panics :
forall w c p q a b g' x, dreach w c -> p ∈ ports (dc_graph c) a Outgoing -> q ∈ ports (dc_graph c) b Incoming ->
  link_ports (dc_graph c) q p = Ok (g', inr x) ->
  exists N, forall fuel, N < fuel -> dc_link_ports fuel c q p = HPanic.
Proof. exact C52_input_first_panics_pf. Qed.
Print Assumptions C52_input_first_panics.

(** C53 does not hold: for 0 -> 1 and 0 -> 2 a fresh checker answers that {0, 2} is not
convex, although no path leads from 1 anywhere. The search stops at any
node outside, without asking whether the other end can be reached. *)
Theorem C53_dynamic_convex_refuted :
exists g c S, reach 16 g /\ pacyclic g /\ dc_new 9 g = HOk c /\
  dc_is_convex 30 c S [] [] = HOk false /\ convex g S.
Proof. exact C53_dynamic_convex_refuted_pf. Qed.
Print Assumptions C53_dynamic_convex_refuted.

(** C53, what holds while the order is topological ([dreach], C71): queries end without
a panic. An answer "convex" is right. The answer "not convex" means that some
link leaves the set to a node that precedes a node of the set in the order. So the
answers are exact when every such node also reaches the set.
[S] lists the set in the order in which the hash set is iterated. *)
Theorem C53_dynamic_convex_partial :
forall w c S, dreach w c -> NoDup S -> (forall n, n ∈ S -> contains_node (dc_graph c) n = true) ->
  exists N, forall fuel, N < fuel -> exists r, dc_is_convex fuel c S [] [] = HOk r /\
    (r = true -> convex (dc_graph c) S) /\
    (r = false <-> exists s x h, s ∈ S /\ h ∈ S /\ x ∉ S /\ pedge (dc_graph c) Outgoing s x /\
                                 before (dt_order (dc_topo c)) x h) /\
    ((forall x, x ∉ S -> (exists s, s ∈ S /\ pedge (dc_graph c) Outgoing s x) ->
        (exists h, h ∈ S /\ before (dt_order (dc_topo c)) x h) ->
        exists h, h ∈ S /\ tc (pedge (dc_graph c) Outgoing) x h) ->
     (r = true <-> convex (dc_graph c) S)).
Proof. exact C53_dynamic_convex_partial_pf. Qed.
Print Assumptions C53_dynamic_convex_partial.

(** A set where the answer is exact: {0, 2} on the path 0 -> 1 -> 2. *)
Example C53_case : exists c, dreach 16 c /\ NoDup [2; 0] /\ (forall n, n ∈ [2; 0] -> contains_node (dc_graph c) n = true)
  /\ dc_is_convex 30 c [2; 0] [] [] = HOk false /\ dc_is_convex 30 c [1; 0; 2] [] [] = HOk true
  /\ forall x, x ∉ [2; 0] -> (exists s, s ∈ [2; 0] /\ pedge (dc_graph c) Outgoing s x) ->
        (exists h, h ∈ [2; 0] /\ before (dt_order (dc_topo c)) x h) ->
        exists h, h ∈ [2; 0] /\ tc (pedge (dc_graph c) Outgoing) x h.
Proof.
  destruct (dc_new 20 tri_g) as [c| |] eqn:E; [|vm_compute in E; discriminate E|vm_compute in E; discriminate E].
  exists c. split; [apply (dr_new 16 20 tri_g c tri_reach tri_acyclic E)|].
  destruct (dgood_new' 16 20 tri_g c tri_reach tri_acyclic E) as [-> Hg].
  split; [vmdec|]. split.
  { intros n Hn. repeat (apply elem_of_cons in Hn as [->|Hn]; [vm_compute; reflexivity|]). apply elem_of_nil in Hn. destruct Hn. }
  split; [vm_compute in E; injection E as <-; vm_compute; reflexivity|].
  split; [vm_compute in E; injection E as <-; vm_compute; reflexivity|].
  intros x Hx (s & Hs & Hsx) _. clear E Hg. exists 2. split; [constructor|]. apply (edges_list_spec 16) in Hsx; [|apply tri_reach]. vm_compute in Hsx.
  apply tc_once. apply elem_of_cons in Hsx as [[= -> ->]|[= -> ->]%elem_of_list_singleton].
  - exists 3, 4. split; [vmdec|split; [vm_compute; reflexivity|vmdec]].
  - exfalso. apply elem_of_cons in Hs as [Hs|Hs%elem_of_list_singleton]; discriminate Hs.
Qed.

(** After a link that made the checker reorder, even the answer "convex" can be wrong:
with 1 -> 2 -> 0 it is given for {0, 1}. *)
Theorem C53_reordered_refuted :
exists g c c' p q x, reach 16 g /\ pacyclic g /\ dc_new 9 g = HOk c /\ dc_link_ports 20 c p q = HOk (c', inr x) /\
  dc_is_convex 30 c' [0; 1] [] [] = HOk true /\ ~ convex (dc_graph c') [0; 1].
Proof. exact C53_reordered_refuted_pf. Qed.
Print Assumptions C53_reordered_refuted.

(** C71 (the order kept by the checker is a topological order after every history) does
not hold: linking 2 -> 0 with the order 0, 1, 2 and 1 -> 2 in place makes the
checker reorder, and the new order 2, 1, 0 has 2 before 1. *)
Theorem C71_dynamic_order_refuted :
exists g c c' p q x, reach 16 g /\ pacyclic g /\ dc_new 9 g = HOk c /\ dc_link_ports 20 c p q = HOk (c', inr x) /\
  ~ topo_order (dc_graph c') (dt_order (dc_topo c')).
Proof. exact C71_dynamic_order_refuted_pf. Qed.
Print Assumptions C71_dynamic_order_refuted.

(** C71, what holds: along histories of the checker whose links all point forward in
its order or have a [movable] target, it keeps a topological order of the graph,
with the matching positions, and the graph stays acyclic. Removing a node of the
graph and unlinking never panic, and leave the graph as without the checker.
The histories also contain the calls that keep node indices (see C101). *)
Theorem C71_dynamic_order_partial :
forall w c, dreach w c ->
  reach w (dc_graph c) /\ pacyclic (dc_graph c) /\ topo_order (dc_graph c) (dt_order (dc_topo c)) /\ dt_sync (dc_topo c) /\
  (forall n, contains_node (dc_graph c) n = true ->
     exists c', dc_remove_node c n = Ok c' /\ remove_node (dc_graph c) n = Ok (dc_graph c')) /\
  (forall p, exists c' r, dc_unlink_port c p = Ok (c', r) /\ unlink_port (dc_graph c) p = Ok (dc_graph c', r)).
Proof. exact C71_dynamic_order_partial_pf. Qed.
Print Assumptions C71_dynamic_order_partial.

Example C71_case : exists c c1, dc_new 20 tri_g = HOk c /\ dc_unlink_port c 3 = Ok (c1, Some 4) /\ dreach 16 c1 /\
  contains_node (dc_graph c1) 1 = true /\ dt_order (dc_topo c1) = [0; 1; 2].
Proof.
  destruct (dc_new 20 tri_g) as [c| |] eqn:E; [|vm_compute in E; discriminate E|vm_compute in E; discriminate E].
  pose proof (dr_new 16 20 tri_g c tri_reach tri_acyclic E) as Hd. exists c.
  destruct (dc_unlink_port c 3) as [[c1 r]|] eqn:E1; [|vm_compute in E; injection E as <-; vm_compute in E1; discriminate E1].
  exists c1. pose proof (dr_unlink 16 c 3 c1 r Hd E1) as Hd1. split; [reflexivity|].
  vm_compute in E. injection E as <-. vm_compute in E1. injection E1 as <- <-. split; [reflexivity|]. split; [exact Hd1|]. split; reflexivity.
Qed.

(** Most of [movable] is needed: if a link back from [a] to [b] leaves a topological
order, then no node between [b] and [a] is a predecessor of [a], and each
of them can be reached from [b]. *)
Theorem C71_reorder_needed :
forall w c p q a b c' x, dreach w c -> p ∈ ports (dc_graph c) a Outgoing -> q ∈ ports (dc_graph c) b Incoming ->
  before (dt_order (dc_topo c)) b a -> (exists N, forall fuel, N < fuel -> dc_link_ports fuel c p q = HOk (c', inr x)) ->
  topo_order (dc_graph c') (dt_order (dc_topo c')) ->
  forall n, before (dt_order (dc_topo c)) b n -> before (dt_order (dc_topo c)) n a ->
    ~ pedge (dc_graph c) Outgoing n a /\ tc (pedge (dc_graph c) Outgoing) b n.
Proof. exact C71_reorder_needed_pf. Qed.
Print Assumptions C71_reorder_needed.

(** 0 -> 1 with the node 2 added after them: the link 2 -> 0 makes the checker move 2
    to the front. *)
Example C71_reorder_case : exists c c1 c2, dc_new 9 mov_g = HOk c /\ dc_add_node 16 c 0 1 = Ok (c1, 2) /\ dreach 16 c1 /\
  3 ∈ ports (dc_graph c1) 2 Outgoing /\ 0 ∈ ports (dc_graph c1) 0 Incoming /\
  dt_order (dc_topo c1) = [0; 1; 2] /\ movable (dc_graph c1) (dt_order (dc_topo c1)) 2 0 /\
  dc_link_ports 20 c1 3 0 = HOk (c2, inr (3, 0)) /\ dt_order (dc_topo c2) = [2; 0; 1].
Proof.
  destruct (dc_new 9 mov_g) as [c| |] eqn:E; [|vm_compute in E; discriminate E|vm_compute in E; discriminate E].
  pose proof (dr_new 16 9 mov_g c mov_reach mov_acyclic E) as Hd. exists c.
  destruct (dc_add_node 16 c 0 1) as [[c1 n]|] eqn:E1; [|vm_compute in E; injection E as <-; vm_compute in E1; discriminate E1].
  assert (Hd1 : dreach 16 c1) by (apply (dr_add 16 c 0 1 c1 n Hd); [split; vm_compute; discriminate|exact E1]).
  vm_compute in E. injection E as <-. vm_compute in E1. injection E1 as <- <-. eexists _, _. split; [reflexivity|]. split; [reflexivity|].
  split; [exact Hd1|]. split; [vmdec|]. split; [vmdec|]. split; [reflexivity|]. split.
  - assert (Hr : reach 16 (dc_graph (DC (DTS [0; 1; 2] ∅) mov_g1))) by apply mov_reach1.
    assert (He : forall x y, pedge mov_g1 Outgoing x y -> x = 0 /\ y = 1).
    { intros x y H%(edges_list_spec 16); [|apply mov_reach1]. vm_compute in H. apply elem_of_list_singleton in H. injection H as -> ->. split; reflexivity. }
    exists [], [1], []. split; [reflexivity|]. split; [|split].
    + intros x _ [_ H]%He. discriminate H.
    + intros x ->%elem_of_list_singleton. apply tc_once. exists 1, 2. split; [vmdec|split; [vm_compute; reflexivity|vmdec]].
    + intros x y z _ _ _ [-> _]%He [-> _]%He. reflexivity.
  - split; [vm_compute; reflexivity|]. vm_compute. reflexivity.
Qed.

(** C101 (every mutating call keeps the order a topological order of the graph) does not
hold. After [compact_nodes] the order still lists the old indices. Linking then
reports an unknown port although both ports exist, and has made the link. *)
Theorem C101_compact_refuted :
exists g c c1 c2 c3 p q log, reach 16 g /\ pacyclic g /\ dc_new 9 g = HOk c /\ dc_remove_node c 0 = Ok c1 /\
  dc_compact_nodes c1 = Ok (c2, log) /\ ~ topo_order (dc_graph c2) (dt_order (dc_topo c2)) /\
  contains_port (dc_graph c2) p = true /\ contains_port (dc_graph c2) q = true /\
  dc_link_ports 20 c2 p q = HOk (c3, inl (UnknownPort p)) /\ linked (dc_graph c3) p q.
Proof. exact C101_compact_refuted_pf. Qed.
Print Assumptions C101_compact_refuted.

(** After [swap_nodes] of 0 and 2 on 0 -> 1 -> 2 the order lists the nodes backwards, and the
checker calls {0, 2} convex. *)
Theorem C101_swap_refuted :
exists g c c1, reach 16 g /\ pacyclic g /\ dc_new 9 g = HOk c /\ dc_swap_nodes c 0 2 = Ok c1 /\
  ~ topo_order (dc_graph c1) (dt_order (dc_topo c1)) /\ dc_is_convex 30 c1 [0; 2] [] [] = HOk true /\ ~ convex (dc_graph c1) [0; 2].
Proof. exact C101_swap_refuted_pf. Qed.
Print Assumptions C101_swap_refuted.

(** C101, what holds: [set_num_ports] and [compact_ports] keep the order a topological order.
[compact_nodes] does so exactly if it moves no node, and [clear] exactly if there was no
node. Each of them changes the graph as without the checker. *)
Theorem C101_renumber_partial :
forall w c, dreach w c ->
  (forall n i j c' log, dc_set_num_ports c n i j = Ok (c', log) ->
     set_num_ports (dc_graph c) n i j = Ok (dc_graph c', log) /\ topo_order (dc_graph c') (dt_order (dc_topo c')) /\ dt_sync (dc_topo c')) /\
  ((forall n, ~ hollow (dc_graph c) n) -> exists c' log, dc_compact_ports c = Ok (c', log) /\
     compact_ports (dc_graph c) = Ok (dc_graph c', log) /\ topo_order (dc_graph c') (dt_order (dc_topo c')) /\ dt_sync (dc_topo c')) /\
  (exists c' log, dc_compact_nodes c = Ok (c', log) /\ compact_nodes (dc_graph c) = Ok (dc_graph c', log) /\
     (topo_order (dc_graph c') (dt_order (dc_topo c')) <-> forall o n, (o, n) ∈ log -> o = n)) /\
  (dc_graph (dc_clear c) = clear (dc_graph c) /\
     (topo_order (dc_graph (dc_clear c)) (dt_order (dc_topo (dc_clear c))) <-> node_count (dc_graph c) = 0)).
Proof. exact C101_renumber_partial_pf. Qed.
Print Assumptions C101_renumber_partial.

Example C101_case : exists c c1 log, dc_new 20 tri_g = HOk c /\ dreach 16 c /\ (forall n, ~ hollow (dc_graph c) n) /\
  dc_set_num_ports c 1 0 2 = Ok (c1, log) /\ linked (dc_graph c1) 6 4 /\ dt_order (dc_topo c1) = [0; 1; 2] /\ node_count (dc_graph c1) = 3.
Proof.
  destruct (dc_new 20 tri_g) as [c| |] eqn:E; [|vm_compute in E; discriminate E|vm_compute in E; discriminate E].
  pose proof (dr_new 16 20 tri_g c tri_reach tri_acyclic E) as Hd. exists c.
  vm_compute in E. injection E as <-. eexists _, _. split; [reflexivity|]. split; [exact Hd|]. split.
  { intros [|[|[|n]]] (H1 & H2 & H3 & H4); vm_compute in H1, H3, H4; discriminate. }
  split; [vm_compute; reflexivity|]. split; [vm_compute; reflexivity|]. split; vm_compute; reflexivity.
Qed.

(** C79 (given the boundary of a set, the checker says whether the set is convex) does
not hold: with 0 -> 1 -> 2 it calls {0, 2} convex, since it walks backwards from
the output of 0 and so never meets the input of 2. *)
Theorem C79_dynamic_boundary_refuted :
exists g c S ins outs, reach 16 g /\ pacyclic g /\ dc_new 20 g = HOk c /\ boundary_ports g S ins outs /\
  dc_is_convex 20 c S ins outs = HOk true /\ ~ convex g S.
Proof. exact C79_dynamic_boundary_refuted_pf. Qed.
Print Assumptions C79_dynamic_boundary_refuted.

(** C79, what holds: with any lists of input and output ports that are not both empty,
the query terminates without panic, as long as the order is topological and the
set consists of nodes of the graph. The answer "not convex" means that there is a
path from the node of an input to the node of an output, the latter in the set,
through a node outside the set. So it is right if the inputs belong to the set. The
answer "convex" means that whenever there is such a path between two nodes of the
set, there is also a path inside the set. *)
Theorem C79_dynamic_boundary_partial :
forall w c S ins outs, dreach w c -> NoDup S -> (forall n, n ∈ S -> contains_node (dc_graph c) n = true) -> ~ (ins = [] /\ outs = []) ->
  let g := dc_graph c in
  let E := pedge g Outgoing in
  exists N, forall fuel, N < fuel -> exists r, dc_is_convex fuel c S ins outs = HOk r /\
    (r = false -> exists o i a b x, o ∈ outs /\ i ∈ ins /\ port_node g i = Some a /\ port_node g o = Some b /\
       b ∈ S /\ x ∉ S /\ rtc E a x /\ tc E x b) /\
    (r = false -> (forall i a, i ∈ ins -> port_node g i = Some a -> a ∈ S) -> ~ convex g S) /\
    (r = true -> forall o i a b x, o ∈ outs -> i ∈ ins -> port_node g i = Some a -> port_node g o = Some b -> a ∈ S -> b ∈ S -> x ∉ S ->
       tc E a x -> tc E x b -> rtc (fun u v => u ∈ S /\ v ∈ S /\ E u v) a b).
Proof. exact C79_dynamic_boundary_partial_pf. Qed.
Print Assumptions C79_dynamic_boundary_partial.

(** Both answers occur. *)
Example C79_case : exists c, dc_new 20 tri_g = HOk c /\ dreach 16 c /\ NoDup [0; 2] /\ (forall n, n ∈ [0; 2] -> contains_node (dc_graph c) n = true) /\
  dc_is_convex 20 c [0; 2] [0] [4] = HOk false /\ dc_is_convex 20 c [0; 1] [0] [3] = HOk true.
Proof.
  destruct (dc_new 20 tri_g) as [c| |] eqn:E; [|vm_compute in E; discriminate E|vm_compute in E; discriminate E].
  exists c. split; [reflexivity|]. split; [exact (dr_new 16 20 tri_g c tri_reach tri_acyclic E)|]. vm_compute in E. injection E as <-.
  split; [vmdec|]. split; [|split; vm_compute; reflexivity].
  intros n [->| ->%elem_of_list_singleton]%elem_of_cons; vm_compute; reflexivity.
Qed.
