(** Properties C92 and C93 of properties.jsonl. *)
From Verif Require Export FlatThms ViewProps.


(** C92. In the plain graph of a multigraph a visible node is its own main node; a
copy node has one port on one side, linked to a port of its main node, and
two or more on the other. The remaining links of the plain graph are, one to
one, the links of the multigraph, between the nodes with these main nodes. *)
Theorem C92_flat_graph :
forall w m, (2 < w <= 63)%N -> mreach w m ->
  (forall n, m_contains_node m n = true -> m_main_node m n = Ok n)
  /\ (forall c, copy_node m c -> exists n d q p, m_main_node m c = Ok n /\ m_contains_node m n = true
        /\ ports (m_graph m) c d = [q] /\ linked (m_graph m) q p /\ port_node (m_graph m) p = Some n
        /\ 2 <= num_ports (m_graph m) c (rev_dir d))
  /\ exists f : nat -> subport,
       (forall s t, linked (m_graph m) s t -> ~ spine m s -> ~ spine m t ->
          mlinked w m (f s) (f t) /\ exists n, at_main m s n /\ port_node (m_graph m) (f s).1 = Some n)
       /\ (forall x y, mlinked w m x y -> exists s t, linked (m_graph m) s t /\ ~ spine m s /\ ~ spine m t /\ f s = x /\ f t = y)
       /\ (forall s t s' t', linked (m_graph m) s t -> ~ spine m s -> ~ spine m t -> linked (m_graph m) s' t' -> ~ spine m s' -> ~ spine m t' ->
             f s = f s' -> s = s').
Proof. exact C92_flat_graph_pf. Qed.
Print Assumptions C92_flat_graph.

Example C92_case : mreach 16 mx /\ copy_node mx 2 /\ m_main_node mx 2 = Ok 0 /\ copy_node mx 3 /\ m_main_node mx 3 = Ok 1.
Proof. split; [exact mx_reach|]. vm_compute. repeat split. Qed.

(** C93. On every view that shows a graph: [get_connection] is the first of
[get_connections], and [connected] tells whether there is a link from an
output port of the one node to the other node; [port_link] is the other end
of the first of [port_links], and [None] exactly if the port has no link. *)
Theorem C93_view_shorthands :
forall E (V : lview E) N R, shows V N R ->
  (forall a b, N a -> exists l o c, lv_conn V a b = HOk l /\ lv_conn1 V a b = HOk o /\ o = head l /\ lv_connected V a b = HOk c
     /\ (c = true <-> exists x y, R x y /\ lv_pnode V (lv_port V x) = Some a /\ lv_pdir V (lv_port V x) = Some Outgoing
           /\ lv_pnode V (lv_port V y) = Some b)
     /\ forall x y, o = Some (x, y) -> R x y /\ lv_pnode V (lv_port V x) = Some a /\ lv_pdir V (lv_port V x) = Some Outgoing
           /\ lv_pnode V (lv_port V y) = Some b)
  /\ (forall p, port_in V N p -> exists l o, lv_plinks V p = HOk l /\ lv_plink V p = HOk o /\ o = snd <$> head l
     /\ (o = None <-> forall x y, R x y -> lv_port V x <> p)
     /\ forall y, o = Some y -> exists x, R x y /\ lv_port V x = p).
Proof. exact C93_view_shorthands_pf. Qed.
Print Assumptions C93_view_shorthands.

Example C93_case : shows (lv_of_pg vx_g) (fun n => contains_node vx_g n = true) (linked vx_g)
  /\ lv_conn1 (lv_of_pg vx_g) 2 4 = HOk (Some (7, 12)) /\ lv_connected (lv_of_pg vx_g) 4 2 = HOk false
  /\ lv_plink (lv_of_pg vx_g) 7 = HOk (Some 12) /\ lv_plink (lv_of_pg vx_g) 11 = HOk None.
Proof. split; [exact (pg_shows 16 vx_g vx_reach)|vm_compute; repeat split]. Qed.
