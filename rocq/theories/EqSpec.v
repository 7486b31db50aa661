(** Histories that end without unused slots. *)
From Verif Require Export EqModel PGSpec.

(** Whether a call can leave unused node slots, or unused port slots, behind;
    compaction and [clear] remove them. *)
Definition leaves (s : bool * bool) (o : op) : bool * bool :=
  match o with
  | ORemove _ => (true, true)
  | OSetPorts _ _ _ => (s.1, true)
  | OCompactNodes => (false, s.2)
  | OCompactPorts => (s.1, false)
  | OClear => (false, false)
  | _ => s
  end.
(** Nodes were compacted after the last removal of a node, and ports after the
    last removal of a node or change of a number of ports. *)
Definition tidy (ops : list op) : Prop := foldl leaves (false, false) ops = (false, false).
