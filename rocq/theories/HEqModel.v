(** Equality of hierarchies (src/hierarchy.rs) and of regions
    (src/view/region.rs).

    Simplified: packed optional indices are compared decoded, as in HierModel.v.
    The equality of the graphs below two regions is a parameter. *)
From Verif Require Export RegionModel.

(** hierarchy.rs:551 [PartialEq] of [NodeData], derived: the fields in order *)
Definition nd_eqb (d d' : nd) : bool :=
  bool_decide (nd_first d = nd_first d') && bool_decide (nd_last d = nd_last d') &&
  bool_decide (nd_count d = nd_count d') && bool_decide (nd_parent d = nd_parent d') &&
  bool_decide (nd_prev d = nd_prev d') && bool_decide (nd_next d = nd_next d').
(** hierarchy.rs:70 [PartialEq] of [Hierarchy], derived; unmanaged.rs:71-81 *)
Definition h_eqb (h h' : hier) : bool := um_eqb nd_eqb h h'.

(** region.rs:17-27 *)
Record rgn (G : Type) := mkRgn { rgn_graph : G; rgn_root : nat; rgn_hier : hier; rgn_cache : rcache }.
Arguments mkRgn {G} _ _ _ _. Arguments rgn_graph {G} _. Arguments rgn_root {G} _. Arguments rgn_hier {G} _. Arguments rgn_cache {G} _.
(** region.rs:120-126 [PartialEq] of [Region] *)
Definition rgn_eqb {G} (geq : G -> G -> bool) (r r' : rgn G) : bool :=
  bool_decide (rgn_root r = rgn_root r') && geq (rgn_graph r) (rgn_graph r') && h_eqb (rgn_hier r) (rgn_hier r').
