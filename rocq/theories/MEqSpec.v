(** What the queries of a multigraph can tell. *)
From Verif Require Export MEqModel MultiSpec EqSpec.

(** The multigraphs have the same nodes and ports, each port has the same subports and the same
    links in the same order, and the counts agree. *)
Definition m_same (w : N) (m m' : mpg) : Prop :=
  m_same_shape m m' /\
  (forall p, m_contains_port m p = true -> m_port_links w m' p = m_port_links w m p /\ m_port_subports m' p = m_port_subports m p) /\
  m_node_count m' = m_node_count m /\ m_port_count m' = m_port_count m /\ m_link_count m' = m_link_count m.
(** Nothing is removed. *)
Definition m_adds (o : mop) : bool :=
  match o with MAdd _ _ | MLink _ _ | MLinkSub _ _ | MCompactNodes | MCompactPorts => true | _ => false end.
