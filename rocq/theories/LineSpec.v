(** Vocabulary for line intervals, in terms of the lines and positions that the
    checker reports for each node. *)
From Verif Require Export LineModel ConvexSpec.

(** On every line, the nodes of [S] are consecutive among the nodes [N]. *)
Definition contiguous_in (N : nat -> Prop) (c : lcc) (S : list nat) : Prop :=
  forall k a x b, a ∈ S -> b ∈ S -> N x -> k ∈ get_lines c a -> k ∈ get_lines c b -> k ∈ get_lines c x ->
    get_position c a <= get_position c x <= get_position c b -> x ∈ S.
(** The same for the nodes of a graph. *)
Definition contiguous (g : pg) (c : lcc) (S : list nat) : Prop := contiguous_in (fun n => contains_node g n = true) c S.

(** The intervals are those of [S]: one for each line of a node of [S], from the
    first to the last position of a node of [S] on that line. *)
Definition intervals_of (c : lcc) (S : list nat) (ivs : intervals) : Prop :=
  NoDup ivs.*1 /\
  (forall k, k ∈ ivs.*1 <-> exists x, x ∈ S /\ k ∈ get_lines c x) /\
  forall k mn mx, (k, (mn, mx)) ∈ ivs ->
    (exists a b, a ∈ S /\ b ∈ S /\ k ∈ get_lines c a /\ k ∈ get_lines c b /\ get_position c a = mn /\ get_position c b = mx) /\
    forall x, x ∈ S -> k ∈ get_lines c x -> mn <= get_position c x <= mx.

(** [a] comes before [b]: by position, then by index. *)
Definition node_before (c : lcc) (a b : nat) : Prop :=
  get_position c a < get_position c b \/ get_position c a = get_position c b /\ a < b.
