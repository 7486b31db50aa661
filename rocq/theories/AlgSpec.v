(** Vocabulary for the traversal properties. *)
From Verif Require Export AlgModel PGSpec.

(** Ports [p] and [q] are linked. *)
Definition glk (v : gview) (p q : nat) : Prop := exists l, gv_links v p = Ok l /\ q ∈ l.

(** What every port graph gives: each port belongs to one node and direction,
    and links join ports of opposite directions, both ways. *)
Record wfv (v : gview) : Prop := {
  wf_nd : forall n d, NoDup (gv_ports v n d);
  wf_own : forall p n d n' d', p ∈ gv_ports v n d -> p ∈ gv_ports v n' d' -> n = n' /\ d = d';
  wf_node : forall p n, gv_node v p = Some n <-> exists d, p ∈ gv_ports v n d;
  wf_links : forall p n d, p ∈ gv_ports v n d -> exists l, gv_links v p = Ok l;
  wf_sym : forall p q n d, p ∈ gv_ports v n d -> glk v p q ->
    glk v q p /\ exists m, q ∈ gv_ports v m (rev_dir d);
  wf_nodes : forall p n d, p ∈ gv_ports v n d -> n ∈ gv_nodes v;
}.
(** At most one link per port of direction [d]. *)
Definition single (v : gview) (d : dir) : Prop :=
  forall n q p p', q ∈ gv_ports v n d -> glk v q p -> glk v q p' -> p = p'.

(** A link from port [p] of [a] to port [q] of [b] in direction [d]. *)
Definition glink (v : gview) (d : dir) (a p q b : nat) : Prop :=
  p ∈ gv_ports v a d /\ glk v p q /\ q ∈ gv_ports v b (rev_dir d).
(** A link from [a] to [b] in direction [d]. *)
Definition gedge (v : gview) (d : dir) (a b : nat) : Prop := exists p q, glink v d a p q b.

(** [a] occurs before [b] in [l]. *)
Definition before (l : list nat) (a b : nat) : Prop := exists i j, i < j /\ l !! i = Some a /\ l !! j = Some b.

(** The same on a [PortGraph]: output ports of one node linked to input ports of
    another, or the other way round. *)
Definition plink_via (g : pg) (d : dir) (a p q b : nat) : Prop :=
  p ∈ ports g a d /\ linked g p q /\ q ∈ ports g b (rev_dir d).
Definition pedge (g : pg) (d : dir) (a b : nat) : Prop := exists p q, plink_via g d a p q b.
Definition pacyclic (g : pg) : Prop := forall a, ~ tc (pedge g Outgoing) a a.

(** The links that a filtered traversal in direction [d] may follow out of [u]. *)
Definition fedge (g : pg) (d : dir) (nf : nat -> bool) (pf : nat -> nat -> bool) (u v : nat) : Prop :=
  exists p q, plink_via g d u p q v /\ pf u p = true /\ nf v = true /\ pf v q = true.
(** The ends of those links, in the order of the ports of [u]. *)
Definition fnext (g : pg) (d : dir) (nf : nat -> bool) (pf : nat -> nat -> bool) (u : nat) : list nat :=
  omap (fun p => match port_link g p with
                 | Ok (Some q) => match port_node g q with
                                  | Some v => if pf u p && nf v && pf v q then Some v else None
                                  | None => None
                                  end
                 | _ => None
                 end) (ports g u d).
(** Recursive depth-first traversal: [dfs next V ns out V'] visits the nodes [ns]
    in turn, each with its unvisited descendants first; [V] is the set of nodes
    entered before, [V'] the set after, [out] lists the nodes left, in order. *)
Inductive dfs (next : nat -> list nat) : gset nat -> list nat -> list nat -> gset nat -> Prop :=
  | dfs_nil V : dfs next V [] [] V
  | dfs_skip V n ns o V' : n ∈ V -> dfs next V ns o V' -> dfs next V (n :: ns) o V'
  | dfs_visit V n ns o1 V1 o2 V2 : n ∉ V -> dfs next ({[n]} ∪ V) (next n) o1 V1 -> dfs next V1 ns o2 V2 ->
      dfs next V (n :: ns) (o1 ++ n :: o2) V2.

(** [walk R a b l]: [l] lists the nodes of a walk from [a] to [b], last node first. *)
Inductive walk (R : nat -> nat -> Prop) (a : nat) : nat -> list nat -> Prop :=
  | walk_nil : walk R a a [a]
  | walk_snoc b c l : walk R a b l -> R b c -> walk R a c (c :: l).
(** Every walk from [a] to [b] passes [x]. *)
Definition dominates (R : nat -> nat -> Prop) (a x b : nat) : Prop := forall l, walk R a b l -> x ∈ l.

(** [x] is the immediate dominator of [v]: the strict dominator that all strict
    dominators of [v] dominate. *)
Definition is_idom (R : nat -> nat -> Prop) (a x v : nat) : Prop :=
  x <> v /\ dominates R a x v /\ forall y, dominates R a y v -> y <> v -> dominates R a y x.
(** Accepted links seen from their target [v]: what dominators.rs takes for the
    predecessors of [v]. *)
Definition bedge (g : pg) (d : dir) (nf : nat -> bool) (pf : nat -> nat -> bool) (u v : nat) : Prop :=
  exists p q, plink_via g d u p q v /\ pf v q = true /\ nf u = true /\ pf u p = true.
(** The links out of reachable nodes, where accepted links from unreachable nodes
    are taken for links from [first]. *)
Definition dom_edge (g : pg) (d : dir) (nf : nat -> bool) (pf : nat -> nat -> bool) (entry first u v : nat) : Prop :=
  let reached := rtc (fedge g d nf pf) entry in
  reached v /\ (reached u /\ bedge g d nf pf u v \/ (exists z, ~ reached z /\ bedge g d nf pf z v) /\ u = first).
