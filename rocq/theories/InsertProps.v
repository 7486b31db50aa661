(** Properties C98 and C99: inserting a graph or a view into a graph. *)
From Verif Require Import InsertThms ViewProps BoundProps RegionProps PGRun MultiRun.


(** C98: [insert_graph] of a [PortGraph] with a history of allowed calls, applied to
any graph or view whose nodes fit, returns. If every port of the view has at most
one link, it succeeds: the returned map takes the nodes of the view to distinct new
nodes with as many ports, and the links of the view to links between the copied
ports; if not, it fails with [AlreadyLinked]. Either way the nodes, ports and
links that the graph had stay as they were. *)
Theorem C98_insert_view :
forall E {HE : EqDecision E} (V : lview E) N Rl og w ops g L, (1 < w <= 63)%N -> hist w ops g ->
  shows V N Rl -> view_over V og -> reach w og -> lv_nodes V = HOk L ->
  (forall n d, N n -> (N.of_nat (num_ports og n d) <= po_max_offset w)%N) ->
  (N.of_nat (sum_list (node_cost <$> ops) + length L) <= 2 ^ 31 - 1)%N ->
  (N.of_nat (sum_list (port_cost <$> ops) + sum_list (n_ports og <$> L)) <= 2 ^ 31 - 1)%N ->
  exists g' r, t_insert w (t_pg w) V og g = HOk (g', r) /\ reach w g' /\
    (forall n, contains_node g n = true -> contains_node g' n = true /\ forall d, ports g' n d = ports g n d) /\
    (forall p q, contains_port g p = true -> linked g' p q <-> linked g p q) /\
    match r with
    | inr R => one_link V Rl /\ nodes_copied L og g g' (fun n => contains_node g n = true) (fun n => contains_node g' n = true) R /\
        exists f, links_copied V Rl og g' id (linked g) (linked g') R f
    | inl e => ~ one_link V Rl /\ exists p, e = AlreadyLinked p
    end.
Proof. exact C98_insert_view_pf. Qed.
Print Assumptions C98_insert_view.

Example C98_insert_view_case : let V := subgraph (lv_of_pg vx_g) [1; 2; 3] in hist 16 bd_ops bd_g /\ view_over V vx_g /\ reach 16 vx_g
  /\ shows V (fun n => n ∈ [1; 2; 3]) (link_inside (lv_of_pg vx_g) (fun n => n ∈ [1; 2; 3]) (linked vx_g))
  /\ match t_insert 16 (t_pg 16) V vx_g bd_g with
     | HOk (g', inr R) => R = [(1, 5); (2, 6); (3, 7)] /\ map (fun n => lv_all_links (lv_of_pg g') n) [0; 5; 6; 7]
         = [HOk [(1, 2)]; HOk [(11, 16)]; HOk [(15, 13)]; HOk [(16, 11)]]
     | _ => False
     end
  /\ match t_insert 16 (t_pg 16) (lv_of_m 16 vx_m) (m_graph vx_m) bd_g with
     | HOk (g', inl e) => exists p, e = AlreadyLinked p
     | _ => False
     end.
Proof.
  split; [exact bd_hist|]. split; [apply over_subgraph, over_pg|]. split; [exact vx_reach|]. split.
  - apply (C78_subgraph_view_pf _ (lv_of_pg vx_g) (fun n => contains_node vx_g n = true) (linked vx_g) [1; 2; 3] (pg_shows 16 vx_g vx_reach)).
    + repeat constructor; set_solver.
    + intros n Hn. rewrite !elem_of_cons, elem_of_nil in Hn. destruct Hn as [->|[->|[->|[]]]]; vm_compute; reflexivity.
  - split; vm_compute; [repeat split|eexists; reflexivity].
Qed.

(** C99: [insert_graph] of a [MultiPortGraph] with a history of allowed calls, applied
to any graph or view that fits, succeeds, also if ports of the view have several
links: the returned map takes the nodes of the view to distinct new nodes with as
many ports, and the links of the view, one by one, to links between subports of
the copied ports. The nodes and ports that the graph had stay as they were, and
it has no other links than the ones before and the copied ones. *)
Theorem C99_multi_insert :
forall E {HE : EqDecision E} (V : lview E) N Rl og w m L Ks, (2 < w <= 63)%N -> mreach w m ->
  shows V N Rl -> view_over V og -> reach w og -> lv_nodes V = HOk L -> link_list V Rl Ks ->
  (forall n d, N n -> (N.of_nat (num_ports og n d) <= po_max_offset w)%N) ->
  (forall p l, port_in V N p -> lv_plinks V p = HOk l -> (N.of_nat (length l) <= N.min (po_max_offset w + 1) 32767)%N) ->
  (N.of_nat (length (pg_nodes (m_graph m)) + length L + 2 * length Ks) <= 2 ^ 31 - 1)%N ->
  (N.of_nat (length (pg_pmeta (m_graph m)) + sum_list (n_ports og <$> L)) + 65536 * N.of_nat (length Ks) <= 2 ^ 31 - 1)%N ->
  exists m' R, t_insert w (t_m w) V og m = HOk (m', inr R) /\ mreach w m' /\
    nodes_copied L og (m_graph m) (m_graph m') (fun n => m_contains_node m n = true) (fun n => m_contains_node m' n = true) R /\
    exists f, links_copied V Rl og (m_graph m') fst (mlinked w m) (mlinked w m') R f.
Proof. exact C99_multi_insert_pf. Qed.
Print Assumptions C99_multi_insert.

Example C99_multi_insert_case : let V := filtered (lv_of_m 16 vx_m) (fun n => negb (n =? 2)) (fun _ => true) in
  mreach 16 one_m /\ reach 16 (m_graph vx_m) /\ view_over V (m_graph vx_m)
  /\ shows V (fun n => m_contains_node vx_m n = true /\ negb (n =? 2) = true) (link_passes (lv_of_m 16 vx_m) (fun n => negb (n =? 2)) (fun _ => true) (mlinked 16 vx_m))
  /\ lv_nodes V = HOk [0; 1; 3; 4; 5; 6] /\ lv_plinks V 9 = HOk [((9, 0), (4, 0)); ((9, 1), (2, 0))]
  /\ match t_insert 16 (t_m 16) V (m_graph vx_m) one_m with
     | HOk (m', inr R) => R = [(0, 2); (1, 3); (3, 4); (4, 6); (5, 7); (6, 8)]
         /\ lv_all_links (lv_of_m 16 m') 4 = HOk [((9, 0), (7, 0)); ((9, 1), (5, 0)); ((10, 0), (21, 0))]
     | _ => False
     end.
Proof. split; [exact one_reach|]. split; [exact (mi_reach _ _ _ (mreach_minv 16 ltac:(lia) _ vx_mreach))|]. split; [apply over_filtered, over_m|].
  split; [apply C59_filtered_pf; exact (m_shows 16 ltac:(lia) vx_m vx_mreach)|]. vm_compute. repeat split.
Qed.
