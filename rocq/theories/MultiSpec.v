(** Vocabulary for stating properties of [MultiPortGraph]: calls, histories and
    observations, in terms of the public interface. *)
From Verif Require Export PGSpec MultiModel.

(** The public mutating calls (multiportgraph.rs:191-367). *)
Inductive mop :=
| MAdd (inc out : nat)
| MRemove (n : nat)
| MLink (a b : nat)
| MUnlink (p : nat)
| MLinkSub (a b : subport)
| MUnlinkSub (s : subport)
| MSetPorts (n inc out : nat)
| MSwap (a b : nat)
| MCompactNodes
| MCompactPorts
| MClear
| MReserve (nodes ports : nat)
| MShrink.

(** What a call returns or passes to its callback. *)
Inductive mout :=
| QUnit
| QNode (n : nat)
| QLink (r : link_error + subport * subport)
| QUnlink (r : option subport)
| QLinkSub (r : option link_error)
| QMoves (log : list (nat * port_op))
| QRekey (log : list (nat * nat)).

(** [w] is the bit width of the port offset type. [reserve] and [shrink_to_fit]
    only change the capacities of vectors and bit vectors
    (multiportgraph.rs:214-219, 269-273). *)
Definition mstep (w : N) (m : mpg) (o : mop) : res (mpg * mout) :=
  match o with
  | MAdd i j => '(m, n) ← m_add_node w m i j; Ok (m, QNode n)
  | MRemove n => m ← m_remove_node w m n; Ok (m, QUnit)
  | MLink a b => '(m, r) ← m_link_ports w m a b; Ok (m, QLink r)
  | MUnlink p => '(m, r) ← m_unlink_port w m p; Ok (m, QUnlink r)
  | MLinkSub a b => '(m, r) ← m_link_subports w m a b; Ok (m, QLinkSub r)
  | MUnlinkSub s => '(m, r) ← m_unlink_subport w m s; Ok (m, QUnlink r)
  | MSetPorts n i j => '(m, l) ← m_set_num_ports w m n i j; Ok (m, QMoves l)
  | MSwap a b => m ← m_swap_nodes m a b; Ok (m, QUnit)
  | MCompactNodes => '(m, l) ← m_compact_nodes m; Ok (m, QRekey l)
  | MCompactPorts => '(m, l) ← m_compact_ports m; Ok (m, QRekey l)
  | MClear => Ok (m_clear m, QUnit)
  | MReserve a b => Ok (m_with_graph m (reserve (m_graph m) a b), QUnit)
  | MShrink => Ok (m_with_graph m (shrink_to_fit (m_graph m)), QUnit)
  end.

(** [p] is a port of one of the copy nodes the multigraph uses internally. *)
Definition internal (m : mpg) (p : nat) : Prop :=
  contains_port (m_graph m) p = true /\ m_contains_port m p = false.

(** The offset type can number one more subport of port [p], or some subport
    of [p] has no link. *)
Definition room (w : N) (m : mpg) (p : nat) : Prop :=
  forall l, m_port_subports m p = Ok l ->
    (N.of_nat (length l) <= po_max_offset w)%N \/ exists s, s ∈ l /\ m_subport_link w m s = Ok None.

(** [set_num_ports(n, i, j)] does not report that some port was moved to the
    index of a dropped port that has several subports (see C58). *)
Definition no_reuse (m : mpg) (n i j : nat) : Prop :=
  forall g log p l x, set_num_ports (m_graph m) n i j = Ok (g, log) ->
    (p, Removed l) ∈ log -> is_multi m p = true -> (x, Moved p) ∉ log.

(** The calls a history may contain. The arguments are not indices internal to
    the representation (the code has debug assertions against this), ports
    have [room] for another link (see C56), [link_ports] is not called with a
    known and an unknown port (see C72), [set_num_ports] satisfies
    [no_reuse] (see C58), and the restrictions of [allowed] (PGSpec.v) on the underlying
    graph apply. *)
Definition mallowed (w : N) (m : mpg) (o : mop) : Prop :=
  match o with
  | MAdd i j => allowed (m_graph m) (OAdd i j)
  | MRemove n => is_copy m n = false
  | MLink a b => ~ internal m a /\ ~ internal m b /\ room w m a /\ room w m b /\
      (m_contains_port m a = true -> m_contains_port m b = true)
  | MUnlink p => ~ internal m p
  | MLinkSub a b => ~ internal m a.1 /\ ~ internal m b.1 /\
      (N.of_nat a.2 <= po_max_offset w)%N /\ (N.of_nat b.2 <= po_max_offset w)%N
  | MUnlinkSub s => ~ internal m s.1 /\ (N.of_nat s.2 <= po_max_offset w)%N
  | MSetPorts n i j => is_copy m n = false /\ no_reuse m n i j
  | MSwap a b => allowed (m_graph m) (OSwap a b)
  | MCompactPorts => allowed (m_graph m) OCompactPorts
  | _ => True
  end.

(** [mhist w ops m]: starting from a multigraph made of a graph with any
    history ([MultiPortGraph::new] when it is the empty graph), the calls
    [ops], all allowed when made, returned normally and led to [m]. *)
Inductive mhist (w : N) : list mop -> mpg -> Prop :=
| mhist_from g : reach w g -> mhist w [] (m_from g)
| mhist_step ops m o m' r : mhist w ops m -> mallowed w m o -> mstep w m o = Ok (m', r) ->
    mhist w (ops ++ [o]) m'.
Definition mreach (w : N) (m : mpg) : Prop := exists ops, mhist w ops m.

(** Subports [x] and [y] are linked: [port_links] of the port of [x] lists the pair. *)
Definition mlinked (w : N) (m : mpg) (x y : subport) : Prop :=
  m_contains_port m x.1 = true /\ exists l, m_port_links w m x.1 = Ok l /\ (x, y) ∈ l.

(** How often port [q] occurs in a list of links as the other end. *)
Definition times (q : nat) (l : list (subport * subport)) : nat :=
  length (filter (fun x : subport * subport => x.2.1 = q) l).

(** Node [n] looks the same in both. *)
Definition m_same_node (m m' : mpg) (n : nat) : Prop :=
  m_contains_node m' n = m_contains_node m n /\
  (m_contains_node m n = true -> forall d, ports (m_graph m') n d = ports (m_graph m) n d).
(** Port [p] is a port of both, with the same node and direction, or of neither. *)
Definition m_same_port (m m' : mpg) (p : nat) : Prop :=
  m_contains_port m' p = m_contains_port m p /\
  (m_contains_port m p = true ->
     port_node (m_graph m') p = port_node (m_graph m) p /\
     port_direction (m_graph m') p = port_direction (m_graph m) p).
(** The multigraphs look the same, apart from links. *)
Definition m_same_shape (m m' : mpg) : Prop :=
  (forall n, m_same_node m m' n) /\ (forall p, m_same_port m m' p).

(** The result of any calls on a new multigraph, allowed or not. *)
Definition mplay (w : N) (ops : list mop) : res mpg :=
  rfold (fun m o => '(m, _) ← mstep w m o; Ok m) ops m_new.

(** The index type leaves space for [k] more copy nodes, of at most [2^15] ports. *)
Definition space (k : nat) (m : mpg) : Prop :=
  (N.of_nat (length (pg_nodes (m_graph m)) + k) <= 2 ^ 31 - 1)%N /\
  (N.of_nat (length (pg_pmeta (m_graph m))) + N.of_nat k * 32768 <= 2 ^ 31 - 1)%N.
