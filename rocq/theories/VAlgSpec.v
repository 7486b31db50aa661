(** Vocabulary for algorithms on graph views. *)
From Verif Require Export VAlgModel PordSpec AlgSpec.

(** A link from a port of [u] of direction [d] to a port of [v]. *)
Definition vdedge {E} (V : lview E) (R : E -> E -> Prop) (d : dir) (u v : nat) : Prop :=
  exists x y, R x y /\ lv_pnode V (lv_port V x) = Some u /\ lv_pdir V (lv_port V x) = Some d /\ lv_pnode V (lv_port V y) = Some v.
(** No path leads from a node to itself. *)
Definition vacyclic {E} (V : lview E) (R : E -> E -> Prop) : Prop := forall a, ~ tc (vdedge V R Outgoing) a a.
(** The links of a port of direction [d] all lead to the same node. *)
Definition one_node {E} (V : lview E) (R : E -> E -> Prop) (d : dir) : Prop :=
  forall x y x' y', R x y -> R x' y' -> lv_port V x = lv_port V x' -> lv_pdir V (lv_port V x) = Some d ->
    lv_pnode V (lv_port V y) = lv_pnode V (lv_port V y').
(** No path between two nodes of [S] passes through a node outside [S]. *)
Definition vconvex {E} (V : lview E) (R : E -> E -> Prop) (S : list nat) : Prop :=
  forall a x b, a ∈ S -> b ∈ S -> tc (vdedge V R Outgoing) a x -> tc (vdedge V R Outgoing) x b -> x ∈ S.
(** Ports [p] and [q] are linked. *)
Definition vlinked {E} (V : lview E) (R : E -> E -> Prop) (p q : nat) : Prop :=
  exists x y, R x y /\ lv_port V x = p /\ lv_port V y = q.
