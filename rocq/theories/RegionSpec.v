(** Vocabulary of the region properties. *)
From Verif Require Export RegionModel HierSpec.

(** The caches of a region that is queried by one thread. *)
Inductive rg_reach (h : hier) (root : nat) : rcache -> Prop :=
| rg_reach_new : rg_reach h root (rg_new root)
| rg_reach_query c n b c' : rg_reach h root c -> rg_is_descendant h root c n = HOk (b, c') -> rg_reach h root c'.

(** The caches of a new region, of clones of it that managed to read its cache
    while any number of threads used it, of such clones of these, and so on. A cache that
    was read is not empty. *)
Inductive rg_family (h : hier) (root : nat) : rcache -> Prop :=
| rg_fam_new : rg_family h root (rg_new root)
| rg_fam_clone c tr s t c' : rg_family h root c -> rexec h root (rs_start c) tr s -> EClone t c' ∈ tr -> c' <> ∅ -> rg_family h root c'.
