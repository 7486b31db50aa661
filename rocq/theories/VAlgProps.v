(** Properties C86 and C87: topological sorting and convexity checking on graph views. *)
From Verif Require Export VAlgThms ConvexProps ViewProps.

(** Nodes 0 to 3 with links 0 -> 1 (twice, from one port to one port), 0 -> 2 (from
    the same port), 1 -> 3 and 2 -> 3. *)
Definition fan_ops : list MultiSpec.mop := [MAdd 0 1; MAdd 1 1; MAdd 1 1; MAdd 2 0; MLink 0 1; MLink 0 1; MLink 0 3; MLink 2 5; MLink 4 6].
Definition fan_m : mpg := default m_new (mrun 16 fan_ops m_new).
Lemma fan_reach : mreach 16 fan_m.
Proof. exists fan_ops. apply mrun_hist. vm_compute. reflexivity. Qed.

(** C86. On every graph view, for distinct visible sources, [toposort] ends without
a panic; it yields the sources and then other visible nodes, each once; every
linked port (against the direction) of a yielded node that is not a source has
a link from a node yielded before, so all predecessors come before if the links
of each such port lead to one node; a node with predecessors, all yielded, is
yielded; and on an acyclic view, with all nodes without predecessors among the
sources, exactly the visible nodes are yielded. *)
Theorem C86_toposort_view :
forall E (V : lview E) N R d src, shows V N R -> NoDup src -> (forall n, n ∈ src -> N n) ->
  exists l,
    (forall fuel, length l < fuel ->
       topo_collect (gv_of_lv V) d (fun _ => true) (fun _ _ => true) fuel
         (topo_new (gv_of_lv V) d (fun _ => true) src) = HOk l)
    /\ NoDup l
    /\ (exists rest, l = src ++ rest)
    /\ (forall n, n ∈ l -> N n)
    /\ (forall n, n ∈ l -> n ∉ src -> (exists a, vdedge V R d a n) /\
          forall x y, R x y -> lv_pnode V (lv_port V y) = Some n -> lv_pdir V (lv_port V y) = Some (rev_dir d) ->
            exists x' y' a, R x' y' /\ lv_port V y' = lv_port V y /\ lv_pnode V (lv_port V x') = Some a /\ before l a n)
    /\ (one_node V R (rev_dir d) -> forall n a, n ∈ l -> n ∉ src -> vdedge V R d a n -> before l a n)
    /\ (forall n, (exists a, vdedge V R d a n) -> (forall a, vdedge V R d a n -> a ∈ l) -> n ∈ l)
    /\ (vacyclic V R -> (forall n, N n -> (~ exists a, vdedge V R d a n) -> n ∈ src) -> forall n, n ∈ l <-> N n).
Proof. exact C86_toposort_view_pf. Qed.
Print Assumptions C86_toposort_view.

(** The graph of C45 without node 1. *)
Example C86_toposort_view_case : let V := filtered (lv_of_pg dag_g) (fun n => negb (n =? 1)) (fun _ => true) in
  let N n := contains_node dag_g n = true /\ negb (n =? 1) = true in
  let R := link_passes (lv_of_pg dag_g) (fun n => negb (n =? 1)) (fun _ => true) (linked dag_g) in
  shows V N R /\ NoDup [0] /\ (forall n, n ∈ [0] -> N n) /\ vdedge V R Outgoing 0 2 /\ one_node V R Incoming /\
  topo_collect (gv_of_lv V) Outgoing (fun _ => true) (fun _ _ => true) 9 (topo_new (gv_of_lv V) Outgoing (fun _ => true) [0]) = HOk [0; 2; 3].
Proof.
  cbn zeta. split; [apply C59_filtered_pf; exact (pg_shows 16 dag_g dag_reach)|]. split; [apply NoDup_singleton|].
  split; [intros n ->%elem_of_list_singleton; vm_compute; split; reflexivity|].
  split. { exists 1, 4. split; [|vm_compute; repeat split]. split; [vm_compute; reflexivity|]. split_and!; try (vm_compute; reflexivity); eexists; (split; [vm_compute; reflexivity|reflexivity]). }
  split; [|vm_compute; reflexivity].
  intros x y x' y' (H1 & _) (H2 & _) Eq _. destruct (pg_one_link dag_g x y x' y' H1 H2 Eq) as [-> ->]. reflexivity.
Qed.

(** C87 does not hold on multigraphs: in the acyclic multigraph of C46, where
[toposort] yields node 2 before its predecessor 1, [TopoConvexChecker] takes
the nodes 0 and 2 for convex although 0 -> 1 -> 2 is a path, and
[LineConvexChecker::new] panics. *)
Theorem C87_view_convex_refuted :
exists m c, mreach 16 m /\ vacyclic (lv_of_m 16 m) (mlinked 16 m) /\ (forall n, n ∈ [0; 2] -> m_contains_node m n = true) /\
  tcc_new (gv_of_lv (lv_of_m 16 m)) (lv_nb (lv_of_m 16 m)) 9 = HOk c /\
  tcc_is_node_convex (lv_nb (lv_of_m 16 m)) c 9 [0; 2] = HOk true /\
  ~ vconvex (lv_of_m 16 m) (mlinked 16 m) [0; 2] /\
  lcc_new (gv_of_lv (lv_of_m 16 m)) (lv_nb (lv_of_m 16 m)) 9 = HPanic.
Proof. exact C87_view_convex_refuted_pf. Qed.
Print Assumptions C87_view_convex_refuted.

(** Nor does the boundary part: port 0 has links to the ports 1 and 2, and
[is_convex] looks at the first link of an output only; with port 0 as an
output and port 2 as an input it does not see that they are linked. *)
Theorem C87_boundary_refuted :
exists m c c', mreach 16 m /\ vacyclic (lv_of_m 16 m) (mlinked 16 m) /\ one_node (lv_of_m 16 m) (mlinked 16 m) Incoming /\
  (forall n, n ∈ [0; 1; 2] -> m_contains_node m n = true) /\ vlinked (lv_of_m 16 m) (mlinked 16 m) 0 2 /\
  tcc_new (gv_of_lv (lv_of_m 16 m)) (lv_nb (lv_of_m 16 m)) 9 = HOk c /\
  lcc_new (gv_of_lv (lv_of_m 16 m)) (lv_nb (lv_of_m 16 m)) 9 = HOk c' /\
  tcc_is_convex (gv_of_lv (lv_of_m 16 m)) (lv_nb (lv_of_m 16 m)) c 9 [0; 1; 2] [2] [0] = HOk true /\
  lcc_is_convex (gv_of_lv (lv_of_m 16 m)) (lv_nb (lv_of_m 16 m)) (fun low _ _ _ _ => low) c' 30 [0; 1; 2] [2] [0] = HOk true.
Proof. exact C87_boundary_refuted_pf. Qed.
Print Assumptions C87_boundary_refuted.

(** C87, what holds for [TopoConvexChecker]: on an acyclic view in which the links
of each input port come from one node, [new] succeeds and every query ends with
the exact answer; [is_convex] if no listed output is linked to two ports. *)
Theorem C87_topo_convex_partial :
forall E (V : lview E) N R, shows V N R -> vacyclic V R -> one_node V R Incoming ->
  exists c K, (forall fuel, K < fuel -> tcc_new (gv_of_lv V) (lv_nb V) fuel = HOk c) /\
  forall S fuel, (forall n, n ∈ S -> N n) -> K < fuel ->
    (exists r, tcc_is_node_convex (lv_nb V) c fuel S = HOk r /\ (r = true <-> vconvex V R S)) /\
    (forall inputs outputs, (forall p, p ∈ outputs -> port_in V N p) ->
       (forall p q q', p ∈ outputs -> vlinked V R p q -> vlinked V R p q' -> q = q') ->
       exists r, tcc_is_convex (gv_of_lv V) (lv_nb V) c fuel S inputs outputs = HOk r /\
         (r = true <-> vconvex V R S /\ ~ exists o i, o ∈ outputs /\ i ∈ inputs /\ vlinked V R o i)).
Proof. exact C87_topo_convex_partial_pf. Qed.
Print Assumptions C87_topo_convex_partial.

Lemma fan_shows : shows (lv_of_m 16 fan_m) (fun n => m_contains_node fan_m n = true) (mlinked 16 fan_m).
Proof. exact (m_shows 16 ltac:(lia) fan_m fan_reach). Qed.
Lemma fan_acyclic : vacyclic (lv_of_m 16 fan_m) (mlinked 16 fan_m).
Proof. apply (macyclic_check 16); [lia|apply fan_reach|]. vm_compute. reflexivity. Qed.
Lemma fan_one : one_node (lv_of_m 16 fan_m) (mlinked 16 fan_m) Incoming.
Proof. apply one_src_ok; [lia|exact fan_reach|vm_compute; reflexivity]. Qed.
Example C87_topo_convex_case : let V := lv_of_m 16 fan_m in
  shows V (fun n => m_contains_node fan_m n = true) (mlinked 16 fan_m) /\ vacyclic V (mlinked 16 fan_m) /\ one_node V (mlinked 16 fan_m) Incoming
  /\ (c ← tcc_new (gv_of_lv V) (lv_nb V) 9; tcc_is_node_convex (lv_nb V) c 9 [0; 1; 3]) = HOk false
  /\ (c ← tcc_new (gv_of_lv V) (lv_nb V) 9; tcc_is_node_convex (lv_nb V) c 9 [0; 1; 2; 3]) = HOk true.
Proof. cbn zeta. split; [exact fan_shows|]. split; [exact fan_acyclic|]. split; [exact fan_one|]. vm_compute. split; reflexivity. Qed.

(** The same for [LineConvexChecker], for a non-empty list of distinct nodes,
whatever the interpolation search guesses inside the interval. *)
Theorem C87_line_convex_partial :
forall E (V : lview E) N R rnd, shows V N R -> vacyclic V R -> one_node V R Incoming ->
  (forall low high low_pos high_pos pos, low < high -> low_pos < pos < high_pos ->
     low <= rnd low high low_pos high_pos pos <= high) ->
  exists c K, (forall fuel, K < fuel -> lcc_new (gv_of_lv V) (lv_nb V) fuel = HOk c) /\
  forall S, S <> [] -> NoDup S -> (forall n, n ∈ S -> N n) ->
    exists M, forall fuel, M < fuel ->
      (exists r, lcc_is_node_convex (lv_nb V) rnd c fuel S = HOk r /\ (r = true <-> vconvex V R S)) /\
      (forall inputs outputs, (forall p, p ∈ outputs -> port_in V N p) ->
         (forall p q q', p ∈ outputs -> vlinked V R p q -> vlinked V R p q' -> q = q') ->
         exists r, lcc_is_convex (gv_of_lv V) (lv_nb V) rnd c fuel S inputs outputs = HOk r /\
           (r = true <-> vconvex V R S /\ ~ exists o i, o ∈ outputs /\ i ∈ inputs /\ vlinked V R o i)).
Proof. exact C87_line_convex_partial_pf. Qed.
Print Assumptions C87_line_convex_partial.

Example C87_line_convex_case : let V := lv_of_m 16 fan_m in
  shows V (fun n => m_contains_node fan_m n = true) (mlinked 16 fan_m) /\ vacyclic V (mlinked 16 fan_m) /\ one_node V (mlinked 16 fan_m) Incoming
  /\ (c ← lcc_new (gv_of_lv V) (lv_nb V) 9; HOk (lc_lines c)) = HOk [[0; 2; 3]; [0; 1]; [0; 1; 3]]
  /\ (c ← lcc_new (gv_of_lv V) (lv_nb V) 9; lcc_is_node_convex (lv_nb V) interpolate c 30 [0; 1; 3]) = HOk false
  /\ (c ← lcc_new (gv_of_lv V) (lv_nb V) 9; lcc_is_node_convex (lv_nb V) interpolate c 30 [3; 1; 2]) = HOk true.
Proof. cbn zeta. split; [exact fan_shows|]. split; [exact fan_acyclic|]. split; [exact fan_one|]. split; [vm_compute; reflexivity|]. split; vm_compute; reflexivity. Qed.
