(** [LinkMut::link_nodes] and [link_offsets] on a [MultiPortGraph]: the default methods
    of the trait, over [port_index] of the inner graph and [link_ports] of the
    multigraph (multiportgraph.rs:177, 304-313). *)
From Verif Require Export InsertModel.

(** view.rs:554-574 [link_offsets]; offsets are encoded *)
Definition m_link_offsets (w : N) (m : mpg) (a : nat) (oa : N) (b : nat) (ob : N) : res (mpg * (link_error + subport * subport)) :=
  t_link_offsets w (t_m w) m a oa b ob.
(** view.rs:532-545 [link_nodes] *)
Definition m_link_nodes (w : N) (m : mpg) (from : nat) (i : N) (to : nat) (j : N) : res (mpg * (link_error + subport * subport)) :=
  oi ← po_new w Outgoing i; oj ← po_new w Incoming j; m_link_offsets w m from oi to oj.
