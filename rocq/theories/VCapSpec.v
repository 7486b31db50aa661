(** Parts of a view, for their capacities. *)
From Verif Require Export CapModel ViewSpec RegionSpec.

(** [part_of V N F]: [F] is a region, flat region or subgraph of the view [V] with the
    nodes [N], made of nodes of [V]. *)
Inductive part_of {E} (V : lview E) (N : nat -> Prop) : lview E -> Prop :=
| part_region h root memb : hreach h -> (forall n, anc h root n -> N n) ->
    (forall n, exists c c', rg_reach h root c /\ rg_is_descendant h root c n = HOk (memb n, c')) ->
    part_of V N (region V h root memb)
| part_flat h root (ir : bool) : hreach h -> (ir = true -> N root) -> (forall n, h_parent h n = Some root -> N n) ->
    part_of V N (flat_region V h root ir)
| part_sub nodes : NoDup nodes -> (forall n, n ∈ nodes -> N n) -> part_of V N (subgraph V nodes).
