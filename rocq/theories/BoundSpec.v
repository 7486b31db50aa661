(** Vocabulary for boundaries and the subgraphs they induce. *)
From Verif Require Export BoundModel ViewSpec.

(** Every port carries at most one link. *)
Definition one_link {E} (V : lview E) (R : E -> E -> Prop) : Prop :=
  forall x y x' y', R x y -> R x' y' -> lv_port V x = lv_port V x' -> x = x' /\ y = y'.

(** A link between nodes [u] and [v] with neither end among the ports [ps]. *)
Definition inner_link {E} (V : lview E) (R : E -> E -> Prop) (ps : list nat) (u v : nat) : Prop :=
  exists x y, R x y /\ lv_pnode V (lv_port V x) = Some u /\ lv_pnode V (lv_port V y) = Some v /\
    lv_port V x ∉ ps /\ lv_port V y ∉ ps.
(** The nodes that can be reached from the nodes of the boundary ports [ps] by
    links that have no end among them; all nodes if there are no boundary ports. *)
Definition induced {E} (V : lview E) (N : nat -> Prop) (R : E -> E -> Prop) (ps : list nat) (n : nat) : Prop :=
  ps = [] /\ N n \/ exists p m, p ∈ ps /\ lv_pnode V p = Some m /\ rtc (inner_link V R ps) m n.
