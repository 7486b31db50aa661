(** Vocabulary for copying a part of a multigraph next to it. *)
From Verif Require Export MCopyModel InsertSpec MultiSpec.

(** The link between [x] and [y] has an end at one of the nodes. *)
Definition touches (g : pg) (nodes : list nat) (x y : subport) : Prop :=
  exists n, n ∈ nodes /\ (port_node g x.1 = Some n \/ port_node g y.1 = Some n).
(** The port that a copied link has in place of [p]: the copy of [p] if [p] is at a
    copied node, [p] itself otherwise. *)
Definition copy_end (g g' : pg) (nodes : list nat) (R : list (nat * nat)) (p p' : nat) : Prop :=
  port_copy g g' R p p' \/ ((forall n, port_node g p = Some n -> n ∉ nodes) /\ p' = p).
(** The part [nodes] of the multigraph [m] has been copied, which gave [m']: [f] maps
    the link ends of links with an end at one of the nodes to link ends that
    were not in use. *)
Record part_copied (w : N) (nodes : list nat) (m m' : mpg) (R : list (nat * nat)) (f : subport -> subport) : Prop := {
  pc_end x y : mlinked w m x y -> touches (m_graph m) nodes x y -> copy_end (m_graph m) (m_graph m') nodes R x.1 (f x).1;
  pc_inj x y x' y' : mlinked w m x y -> touches (m_graph m) nodes x y -> mlinked w m x' y' -> touches (m_graph m) nodes x' y' ->
    f x = f x' -> x = x';
  pc_fresh x y z : mlinked w m x y -> touches (m_graph m) nodes x y -> ~ mlinked w m (f x) z;
  pc_links a b : mlinked w m' a b <->
    mlinked w m a b \/ exists x y, mlinked w m x y /\ touches (m_graph m) nodes x y /\ a = f x /\ b = f y;
}.
