(** Programs that use a [TopoSort] iterator: calls of [next] and [add_sources] in
    any order. *)
From Verif Require Export AlgSpec.

Inductive tcmd := TNext | TAdd (ns : list nat).

(** The answers of the calls of [next], and the iterator after the last call. *)
Fixpoint topo_cmds (v : gview) (d : dir) (nf : nat -> bool) (pf : nat -> nat -> bool) (cs : list tcmd) (s : topo_st)
  : res (list (option nat) * topo_st) :=
  match cs with
  | [] => Ok ([], s)
  | TNext :: cs => '(o, s) ← topo_next v d nf pf s; '(os, s) ← topo_cmds v d nf pf cs s; Ok (o :: os, s)
  | TAdd ns :: cs => topo_cmds v d nf pf cs (topo_add_sources v d nf s ns)
  end.
(** The nodes yielded. *)
Definition yielded (os : list (option nat)) : list nat := omap id os.
(** The nodes passed to [add_sources]. *)
Definition added (cs : list tcmd) : list nat := cs ≫= (fun c => match c with TNext => [] | TAdd ns => ns end).
(** The node has a port. *)
Definition has_port (g : pg) (n : nat) : Prop := exists p d, p ∈ ports g n d.
