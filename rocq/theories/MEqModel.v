(** Equality of multigraphs (src/multiportgraph.rs, derived [PartialEq]). *)
From Verif Require Export EqModel MultiModel.

(** multiportgraph.rs:32-44: the fields are compared in order; [BitVec]s are equal
    if they have the same length and bits *)
Definition mpg_eqb (m m' : mpg) : bool :=
  pg_eqb (m_graph m) (m_graph m') && bool_decide (m_multi m = m_multi m') && bool_decide (m_copy m = m_copy m') &&
  bool_decide (m_ccount m = m_ccount m') && bool_decide (m_scount m = m_scount m').
