(** The traversals and the convexity checkers on any graph view: a multigraph, a
    filtered graph, a region, a subgraph. They are generic in the view
    (toposort.rs:71-93, topo_convex_checker.rs:18, line_convex_checker.rs:144);
    [gv_of_lv] of PordModel.v gives what [TopoSort] asks of it. *)
From Verif Require Export PordModel ConvexModel.

(** [neighbours(node, direction)] (view.rs:436-490); a call that does not return
    is taken for a panic here. *)
Definition lv_nb {E} (V : lview E) (n : nat) (d : dir) : res (list nat) :=
  match lv_neigh V n d with HOk l => Ok l | _ => Panic end.
