(** Vocabulary for traversals of multigraphs. *)
From Verif Require Export MultiSpec.

(** Some link leads from a port of [a] in direction [d] to a port of [b]. *)
Definition medge (w : N) (m : mpg) (d : dir) (a b : nat) : Prop :=
  exists x y, mlinked w m x y /\ port_node (m_graph m) x.1 = Some a /\
    port_direction (m_graph m) x.1 = Some d /\ port_node (m_graph m) y.1 = Some b.
Definition macyclic (w : N) (m : mpg) : Prop := forall a, ~ tc (medge w m Outgoing) a a.
