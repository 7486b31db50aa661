(** Line intervals of the subgraph with a given boundary
    (algorithms/convex/line_convex_checker.rs), for a checker of the graph or view [V]. *)
From Verif Require Export LineModel BoundModel VAlgModel.

(** line_convex_checker.rs:370-373 [get_intervals_from_boundary] *)
Definition lcc_intervals_from_boundary {E} (V : lview E) (rnd : nat -> nat -> nat -> nat -> nat -> nat) (c : lcc) (fuel : nat) (B : boundary)
    : hres (option intervals) :=
  nodes ← internal_nodes V fuel B; lcc_get_intervals rnd c fuel nodes.
(** line_convex_checker.rs:357-363 [get_intervals_from_boundary_ports] *)
Definition lcc_intervals_from_boundary_ports {E} (V : lview E) (rnd : nat -> nat -> nat -> nat -> nat -> nat) (c : lcc) (fuel : nat) (ps : list nat)
    : hres (option intervals) :=
  B ← bd_from_ports V ps; lcc_intervals_from_boundary V rnd c fuel B.
