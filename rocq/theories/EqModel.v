(** Equality of graphs (src/portgraph.rs, derived [PartialEq]).

    Simplified: as in PGModel.v, packed values are compared decoded; vector
    capacities are not part of the comparison in the source either. *)
From Verif Require Export PGModel.

Global Instance node_meta_eq_dec : EqDecision node_meta.
Proof. solve_decision. Defined.
Global Instance node_entry_eq_dec : EqDecision node_entry.
Proof. solve_decision. Defined.
Global Instance port_entry_eq_dec : EqDecision port_entry.
Proof. solve_decision. Defined.

(** portgraph.rs:45-46, with 805, 929, 979, 1085, 1118: the fields are compared in order *)
Definition pg_eqb (g g' : pg) : bool :=
  bool_decide (pg_nodes g = pg_nodes g') && bool_decide (pg_link g = pg_link g') &&
  bool_decide (pg_pmeta g = pg_pmeta g') && bool_decide (pg_nfree g = pg_nfree g') &&
  bool_decide (pg_pfree g = pg_pfree g') && bool_decide (pg_ncount g = pg_ncount g') &&
  bool_decide (pg_pcount g = pg_pcount g') && bool_decide (pg_lcount g = pg_lcount g').
