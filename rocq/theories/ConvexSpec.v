(** Vocabulary for the convexity properties. *)
From Verif Require Export ConvexModel AlgSpec.

(** No path between two nodes of [S] passes through a node outside [S]. *)
Definition convex (g : pg) (S : list nat) : Prop :=
  forall a x b, a ∈ S -> b ∈ S -> tc (pedge g Outgoing) a x -> tc (pedge g Outgoing) x b -> x ∈ S.
