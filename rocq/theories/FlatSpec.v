(** The plain graph inside a [MultiPortGraph] ([as_portgraph]). *)
From Verif Require Export MultiSpec.

(** Node [c] is a copy node: a node of the plain graph that the multigraph hides. *)
Definition copy_node (m : mpg) (c : nat) : Prop := contains_node (m_graph m) c = true /\ m_contains_node m c = false.
(** [s] is the only port of a copy node in its direction. *)
Definition spine (m : mpg) (s : nat) : Prop := exists c d, copy_node m c /\ ports (m_graph m) c d = [s].
(** Port [s] of the plain graph belongs to a node with main node [n]. *)
Definition at_main (m : mpg) (s n : nat) : Prop := exists c, port_node (m_graph m) s = Some c /\ m_main_node m c = Ok n.
