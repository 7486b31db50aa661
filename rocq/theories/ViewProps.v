(** Properties C59, C60, C63, C64, C77, C78: filtered graphs, flat regions and
    subgraphs. *)
From Verif Require Export ViewThms.

(** A graph on nodes 0 to 6, each with ports 3n (input), 3n+1 and 3n+2 (outputs);
    links 0-1, 1-3, 3-6, 2-4 and a link from node 2 to itself. The hierarchy [exh]
    has 0 over 3, 1, 6, 2 and 2 over 4, 5. *)
Definition vx_ops : list op := [OAdd 1 2; OAdd 1 2; OAdd 1 2; OAdd 1 2; OAdd 1 2; OAdd 1 2; OAdd 1 2;
  OLink 1 3; OLink 4 9; OLink 10 18; OLink 7 12; OLink 8 6].
Definition vx_g : pg := default pg_new (run 16 vx_ops pg_new).
Lemma vx_reach : reach 16 vx_g.
Proof. exists vx_ops. apply run_hist. vm_compute. reflexivity. Qed.
(** The same as a multigraph, with two links into the input of node 3. *)
Definition vx_mops : list mop := [MAdd 1 2; MAdd 1 2; MAdd 1 2; MAdd 1 2; MAdd 1 2; MAdd 1 2; MAdd 1 2;
  MLink 1 3; MLink 4 9; MLink 10 18; MLink 7 12; MLink 8 6; MLink 2 9].
Definition vx_m : mpg := default m_new (mrun 16 vx_mops m_new).
Lemma vx_mreach : mreach 16 vx_m.
Proof. exists vx_mops. apply mrun_hist. vm_compute. reflexivity. Qed.

(** C59: a [FilteredGraph] over any view that shows a graph shows exactly the part
of the graph that passes the filters. Filters can be stacked. *)
Theorem C59_filtered :
forall E (V : lview E) N R (nf lf : nat -> bool), shows V N R ->
  shows (filtered V nf lf) (fun n => N n /\ nf n = true) (link_passes V nf lf R)
  /\ tells_empty (filtered V nf lf) (fun n => N n /\ nf n = true).
Proof. exact C59_filtered_pf. Qed.
Print Assumptions C59_filtered.

(** C59: filtering a [PortGraph]. *)
Theorem C59_filtered_portgraph :
forall w g (nf lf : nat -> bool), reach w g ->
  let F := filtered (lv_of_pg g) nf lf in
  let N n := contains_node g n = true /\ nf n = true in
  shows F N (fun p q => linked g p q /\ port_in F N p /\ port_in F N q /\ lf p = true /\ lf q = true) /\ tells_empty F N.
Proof. exact C59_filtered_portgraph_pf. Qed.
Print Assumptions C59_filtered_portgraph.

Example C59_filtered_portgraph_case : let F := filtered (lv_of_pg vx_g) (fun n => negb (n =? 1)) (fun p => negb (p =? 7)) in
  reach 16 vx_g /\ lv_nodes F = HOk [0; 2; 3; 4; 5; 6] /\ lv_links F 0 Outgoing = HOk [] /\ lv_links F 2 Outgoing = HOk [(8, 6)]
  /\ lv_all_links F 3 = HOk [(10, 18)] /\ lv_neigh F 6 Incoming = HOk [3].
Proof. split; [exact vx_reach|vm_compute; repeat split]. Qed.

(** C59: filtering a [MultiPortGraph]. *)
Theorem C59_filtered_multigraph :
forall w m (nf lf : nat -> bool), (2 < w <= 63)%N -> mreach w m ->
  let F := filtered (lv_of_m w m) nf lf in
  let N n := m_contains_node m n = true /\ nf n = true in
  shows F N (fun x y => mlinked w m x y /\ port_in F N x.1 /\ port_in F N y.1 /\ lf x.1 = true /\ lf y.1 = true) /\ tells_empty F N.
Proof. exact C59_filtered_multigraph_pf. Qed.
Print Assumptions C59_filtered_multigraph.

Example C59_filtered_multigraph_case : let F := filtered (lv_of_m 16 vx_m) (fun n => negb (n =? 1)) (fun _ => true) in
  mreach 16 vx_m /\ lv_nodes F = HOk [0; 2; 3; 4; 5; 6] /\ lv_links F 0 Outgoing = HOk [((2, 0), (9, 1))] /\ lv_all_neigh F 3 = HOk [0; 6].
Proof. split; [exact vx_mreach|vm_compute; repeat split]. Qed.

(** C59: asked about a node that does not pass the filter, a [FilteredGraph] lists
no links, no neighbours and no connections. *)
Theorem C59_filtered_hidden :
forall E (V : lview E) N R (nf lf : nat -> bool) n, shows V N R -> N n -> nf n = false ->
  let F := filtered V nf lf in
  lv_has_node F n = false
  /\ (forall d, lv_links F n d = HOk [] /\ lv_neigh F n d = HOk [])
  /\ lv_all_links F n = HOk [] /\ lv_all_neigh F n = HOk []
  /\ (forall b, lv_conn F n b = HOk []) /\ (forall p, lv_pnode V p = Some n -> lv_has_port F p = HOk false /\ lv_plinks F p = HOk []).
Proof. exact C59_filtered_hidden_pf. Qed.
Print Assumptions C59_filtered_hidden.

Example C59_filtered_hidden_case : shows (lv_of_pg vx_g) (fun n => contains_node vx_g n = true) (linked vx_g)
  /\ contains_node vx_g 1 = true /\ lv_links (lv_of_pg vx_g) 1 Outgoing = HOk [(4, 9)].
Proof. split; [exact (pg_shows 16 vx_g vx_reach)|vm_compute; split; reflexivity]. Qed.

(** C60 does not hold: with two nodes and one link and filters that hide nothing,
[link_count] is 2 (it adds up [all_links] over the nodes). *)
Theorem C60_filtered_link_count_refuted :
exists g, reach 16 g /\ link_count g = 1 /\
  lv_link_count (filtered (lv_of_pg g) (fun _ => true) (fun _ => true)) = HOk 2.
Proof. exact C60_filtered_link_count_refuted_pf. Qed.
Print Assumptions C60_filtered_link_count_refuted.

(** What holds for C60: [link_count] counts every visible link once and every
visible link between different nodes once more; so it is right exactly if all
visible links are self-loops. *)
Theorem C60_filtered_link_count_partial :
forall E (V : lview E) N R (nf lf : nat -> bool), shows V N R ->
  let F := filtered V nf lf in
  exists L L', link_list F (link_passes V nf lf R) L /\ sublist L' L
  /\ (forall x y, (x, y) ∈ L' <-> (x, y) ∈ L /\ lv_pnode V (lv_port V x) <> lv_pnode V (lv_port V y))
  /\ lv_link_count F = HOk (length L + length L').
Proof. exact C60_filtered_link_count_partial_pf. Qed.
Print Assumptions C60_filtered_link_count_partial.

Example C60_filtered_link_count_case : shows (lv_of_pg vx_g) (fun n => contains_node vx_g n = true) (linked vx_g)
  /\ lv_link_count (filtered (lv_of_pg vx_g) (fun n => negb (n =? 1)) (fun _ => true)) = HOk (3 + 2).
Proof. split; [exact (pg_shows 16 vx_g vx_reach)|vm_compute; reflexivity]. Qed.

(** C77 does not hold: [subport_link] of a [FilteredGraph] does not look at the node
filter, so it reports a link to a node that is hidden. *)
Theorem C77_filtered_subports_refuted :
exists m (nf : nat -> bool), mreach 16 m /\ let F := filtered_m (mv_of_m 16 m) nf (fun _ => true) in
  mv_subports F 0 Outgoing = HOk [(0, 0)] /\ lv_links (mv_view F) 0 Outgoing = HOk []
  /\ mv_sublink F (0, 0) = HOk (Some (1, 0)) /\ lv_has_node (mv_view F) 1 = false.
Proof. exact C77_filtered_subports_refuted_pf. Qed.
Print Assumptions C77_filtered_subports_refuted.

(** What holds for C77: [subports] and [all_subports] list the subports of a visible
node; [subport_link] yields the other end of the link exactly if both ends pass
the link filter, whether or not the node of the other end is visible. *)
Theorem C77_filtered_subports_partial :
forall E (V : mview E) N R (nf lf : nat -> bool), shows (mv_view V) N R -> shows_sub V N R ->
  let F := filtered_m V nf lf in
  shows_sub (MV E (mv_view F) (mv_subports F) (mv_all_subports F) (mv_sublink V)) (fun n => N n /\ nf n = true) R
  /\ forall n d l x, N n -> nf n = true -> mv_subports F n d = HOk l -> x ∈ l -> exists o, mv_sublink F x = HOk o
     /\ forall y, o = Some y <-> R x y /\ lf (lv_port (mv_view V) x) = true /\ lf (lv_port (mv_view V) y) = true.
Proof. exact C77_filtered_subports_partial_pf. Qed.
Print Assumptions C77_filtered_subports_partial.

Example C77_filtered_subports_case : shows (mv_view (mv_of_m 16 vx_m)) (fun n => m_contains_node vx_m n = true) (mlinked 16 vx_m)
  /\ shows_sub (mv_of_m 16 vx_m) (fun n => m_contains_node vx_m n = true) (mlinked 16 vx_m)
  /\ mv_subports (filtered_m (mv_of_m 16 vx_m) (fun n => negb (n =? 1)) (fun _ => true)) 3 Incoming = HOk [(9, 0); (9, 1)].
Proof.
  split; [exact (m_shows 16 ltac:(lia) vx_m vx_mreach)|]. split; [exact (m_shows_sub 16 ltac:(lia) vx_m vx_mreach)|vm_compute; reflexivity].
Qed.

(** C63: a [FlatRegion] contains the root, if it is included, and the children of the
root; [nodes_iter] lists these without repetition and [node_count] counts them. *)
Theorem C63_flat_region :
forall E (V : lview E) h root (ir : bool), hreach h ->
  let F := flat_region V h root ir in
  (forall n, lv_has_node F n = true <-> (ir = true /\ n = root) \/ h_parent h n = Some root)
  /\ exists L, lv_nodes F = HOk L /\ NoDup L /\ (forall n, n ∈ L <-> lv_has_node F n = true) /\ lv_node_count F = HOk (length L).
Proof. exact C63_flat_region_pf. Qed.
Print Assumptions C63_flat_region.

Example C63_flat_region_case : hreach exh /\ lv_nodes (flat_region (lv_of_pg vx_g) exh 0 true) = HOk [0; 3; 1; 6; 2]
  /\ lv_nodes (flat_region (lv_of_pg vx_g) exh 0 false) = HOk [3; 1; 6; 2] /\ lv_nodes (flat_region (lv_of_pg vx_g) exh 5 false) = HOk [].
Proof. split; [exact exh_hreach|vm_compute; repeat split]. Qed.

(** C64 does not hold: [is_empty] is always false; a region without its root whose
root has no children has [node_count] 0. *)
Theorem C64_flat_region_empty_refuted :
exists g h root, reach 16 g /\ hreach h /\ contains_node g root = true /\
  let F := flat_region (lv_of_pg g) h root false in lv_node_count F = HOk 0 /\ lv_empty F = HOk false.
Proof. exact C64_flat_region_empty_refuted_pf. Qed.
Print Assumptions C64_flat_region_empty_refuted.

(** What holds for C64: [is_empty] is right exactly if the region has a node, in
particular whenever the root is included. *)
Theorem C64_flat_region_empty_partial :
forall E (V : lview E) h root (ir : bool), hreach h ->
  let F := flat_region V h root ir in
  exists c b, lv_node_count F = HOk c /\ lv_empty F = HOk b /\ b = false
  /\ (ir = true \/ (exists n, h_parent h n = Some root) <-> c <> 0).
Proof. exact C64_flat_region_empty_partial_pf. Qed.
Print Assumptions C64_flat_region_empty_partial.

Example C64_flat_region_empty_case : hreach exh /\ lv_node_count (flat_region (lv_of_pg vx_g) exh 2 false) = HOk 2.
Proof. split; [exact exh_hreach|vm_compute; reflexivity]. Qed.

(** C78: if the children of the root are nodes of the graph, and the root is one if
it is included, then a [FlatRegion] shows the induced graph and counts its links. *)
Theorem C78_flat_region_view :
forall E (V : lview E) N R h root (ir : bool), shows V N R -> hreach h ->
  (ir = true -> N root) -> (forall n, h_parent h n = Some root -> N n) ->
  let F := flat_region V h root ir in
  let S n := (ir = true /\ n = root) \/ h_parent h n = Some root in
  shows F S (link_inside V S R) /\ counts_links F (link_inside V S R).
Proof. exact C78_flat_region_view_pf. Qed.
Print Assumptions C78_flat_region_view.

Example C78_flat_region_view_case : let F := flat_region (lv_of_pg vx_g) exh 0 false in
  shows (lv_of_pg vx_g) (fun n => contains_node vx_g n = true) (linked vx_g) /\ hreach exh /\
  (forall n, h_parent exh n = Some 0 -> contains_node vx_g n = true) /\ lv_link_count F = HOk 3 /\ lv_links F 2 Outgoing = HOk [(8, 6)].
Proof.
  intros F. split; [exact (pg_shows 16 vx_g vx_reach)|]. split; [exact exh_hreach|]. split; [|vm_compute; split; reflexivity].
  intros n Hn. destruct exh_forest as (_ & Hp & _). apply (proj2 (Hp 0 n)) in Hn. change (n ∈ [3; 1; 6; 2]) in Hn. apply elem_of_list_In in Hn. cbn in Hn. destruct Hn as [<-|[<-|[<-|[<-|[]]]]]; vm_compute; reflexivity.
Qed.

(** C78: a [Subgraph] of a list of nodes shows the induced graph, counts its links
and tells whether it is empty. *)
Theorem C78_subgraph_view :
forall E (V : lview E) N R nodes, shows V N R -> NoDup nodes -> (forall n, n ∈ nodes -> N n) ->
  let F := subgraph V nodes in
  let S n := n ∈ nodes in
  shows F S (link_inside V S R) /\ counts_links F (link_inside V S R) /\ tells_empty F S.
Proof. exact C78_subgraph_view_pf. Qed.
Print Assumptions C78_subgraph_view.

Example C78_subgraph_view_case : let F := subgraph (lv_of_pg vx_g) [1; 3; 6] in
  shows (lv_of_pg vx_g) (fun n => contains_node vx_g n = true) (linked vx_g) /\ lv_link_count F = HOk 2
  /\ lv_links F 1 Incoming = HOk [] /\ lv_links F 1 Outgoing = HOk [(4, 9)] /\ lv_conn F 3 6 = HOk [(10, 18)].
Proof. intros F. split; [exact (pg_shows 16 vx_g vx_reach)|vm_compute; repeat split]. Qed.

(** C78: [subports], [all_subports] and [subport_link] of flat regions and subgraphs. *)
Theorem C78_subports :
forall E (V : mview E) N R, shows (mv_view V) N R -> shows_sub V N R ->
  (forall h root (ir : bool), hreach h -> (ir = true -> N root) -> (forall n, h_parent h n = Some root -> N n) ->
     let S n := (ir = true /\ n = root) \/ h_parent h n = Some root in
     shows_sub (flat_region_m V h root ir) S (link_inside (mv_view V) S R))
  /\ (forall nodes, NoDup nodes -> (forall n, n ∈ nodes -> N n) ->
      let S n := n ∈ nodes in shows_sub (subgraph_m V nodes) S (link_inside (mv_view V) S R)).
Proof. exact C78_subports_pf. Qed.
Print Assumptions C78_subports.

Example C78_subports_case : shows (mv_view (mv_of_m 16 vx_m)) (fun n => m_contains_node vx_m n = true) (mlinked 16 vx_m)
  /\ mv_sublink (subgraph_m (mv_of_m 16 vx_m) [1; 3]) (9, 0) = HOk (Some (4, 0)) /\ mv_sublink (subgraph_m (mv_of_m 16 vx_m) [1; 3]) (9, 1) = HOk None.
Proof. split; [exact (m_shows 16 ltac:(lia) vx_m vx_mreach)|vm_compute; repeat split]. Qed.
