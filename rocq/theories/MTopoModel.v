(** The view of a [MultiPortGraph] that the traversals work on
    (multiportgraph.rs:135-188, 276-301). *)
From Verif Require Export AlgModel MultiModel.

(** [ports] and [port_node] are those of the underlying graph
    (multiportgraph.rs:166-187); a link end is converted to its port
    (multiportgraph.rs, [From<SubportIndex> for PortIndex]). *)
Definition gv_of_m (w : N) (m : mpg) : gview :=
  GV (m_nodes_iter m) (ports (m_graph m))
     (fun p => mbind (M := res) (fun l : list (subport * subport) => Ok (map (fun x => x.2.1) l)) (m_port_links w m p))
     (port_node (m_graph m)).
