(** Vocabulary for stating properties of [PortGraph]: calls, histories, and
    observations, all in terms of the public interface. *)
From Verif Require Export PGViewModel.

(** The public mutating calls (portgraph.rs:452-720, 755-795). *)
Inductive op :=
| OAdd (inc out : nat)
| ORemove (n : nat)
| OLink (a b : nat)
| OUnlink (p : nat)
| OSetPorts (n inc out : nat)
| OSwap (a b : nat)
| OCompactNodes
| OCompactPorts
| OClear
| OReserve (nodes ports : nat)
| OShrink.

(** What a call returns or passes to its callback. *)
Inductive out :=
| RUnit
| RNode (n : nat)
| RLink (r : link_error + nat * nat)
| RUnlink (r : option nat)
| RMoves (log : list (nat * port_op))
| RRekey (log : list (nat * nat)).

(** [w] is the bit width of the port offset type. *)
Definition step (w : N) (g : pg) (o : op) : res (pg * out) :=
  match o with
  | OAdd i j => '(g', n) ← add_node (po_max_offset w) g i j; Ok (g', RNode n)
  | ORemove n => g' ← remove_node g n; Ok (g', RUnit)
  | OLink a b => '(g', r) ← link_ports g a b; Ok (g', RLink r)
  | OUnlink p => '(g', r) ← unlink_port g p; Ok (g', RUnlink r)
  | OSetPorts n i j => '(g', l) ← set_num_ports g n i j; Ok (g', RMoves l)
  | OSwap a b => g' ← swap_nodes g a b; Ok (g', RUnit)
  | OCompactNodes => '(g', l) ← compact_nodes g; Ok (g', RRekey l)
  | OCompactPorts => '(g', l) ← compact_ports g; Ok (g', RRekey l)
  | OClear => Ok (clear g, RUnit)
  | OReserve a b => Ok (reserve g a b, RUnit)
  | OShrink => Ok (shrink_to_fit g, RUnit)
  end.

(** A node that lost all its ports through [set_num_ports(n, 0, 0)] but still
    owns a port slot (see C14). *)
Definition hollow (g : pg) (n : nat) : Prop :=
  contains_node g n = true /\ 0 < node_port_capacity g n /\
  num_ports g n Incoming = 0 /\ num_ports g n Outgoing = 0.

(** A free node slot other than the one the next [add_node] would take. *)
Definition spare_slot (g : pg) (n : nat) : Prop :=
  contains_node g n = false /\ n < length (pg_nodes g) /\ pg_nfree g <> Some n.

(** The calls a history may contain. Port totals of a new node fit the 16-bit
    counters of the node metadata (automatic for 8- and 16-bit offsets, see
    C20 for what happens otherwise); [swap_nodes] is called on two nodes, or on
    a node and a spare slot (C16); [compact_ports] is not called while there is a hollow node (C14). *)
Definition allowed (g : pg) (o : op) : Prop :=
  match o with
  | OAdd i j => (N.of_nat i <= 65534 /\ N.of_nat (i + j) <= 65535)%N
  | OSwap a b => (contains_node g a = true /\ (contains_node g b = true \/ spare_slot g b)) \/
                 (spare_slot g a /\ contains_node g b = true)
  | OCompactPorts => forall n, ~ hollow g n
  | _ => True
  end.

(** [hist w ops g]: starting from the empty graph, the calls [ops], all
    allowed when made, returned normally and led to [g]. *)
Inductive hist (w : N) : list op -> pg -> Prop :=
| hist_new : hist w [] pg_new
| hist_step ops g o g' r : hist w ops g -> allowed g o -> step w g o = Ok (g', r) ->
    hist w (ops ++ [o]) g'.
Definition reach (w : N) (g : pg) : Prop := exists ops, hist w ops g.

(** Slots a call may add to the node and port arrays. *)
Definition node_cost (o : op) : nat := match o with OAdd _ _ => 1 | _ => 0 end.
Definition port_cost (o : op) : nat :=
  match o with OAdd i j => i + j | OSetPorts _ i j => next_pow2 (i + j) | _ => 0 end.

(** Port [p] reports a link to [q]. *)
Definition linked (g : pg) (p q : nat) : Prop := port_link g p = Ok (Some q).
(** Port [p] reports no link. *)
Definition unlinked (g : pg) (p : nat) : Prop := port_link g p = Ok None.

(** [p] is the [k]-th port of node [n] in direction [d]. *)
Definition port_at (g : pg) (n : nat) (d : dir) (k p : nat) : Prop := ports g n d !! k = Some p.

(** Node [n] looks the same in both graphs. *)
Definition same_node (g g' : pg) (n : nat) : Prop :=
  contains_node g' n = contains_node g n /\ forall d, ports g' n d = ports g n d.
(** Port [p] looks the same in both graphs. *)
Definition same_port (g g' : pg) (p : nat) : Prop :=
  contains_port g' p = contains_port g p /\ port_node g' p = port_node g p /\
  port_direction g' p = port_direction g p /\ port_link g' p = port_link g p.
(** No observation distinguishes the graphs. *)
Definition same_graph (g g' : pg) : Prop :=
  (forall n, same_node g g' n) /\ (forall p, same_port g g' p) /\
  node_count g' = node_count g /\ port_count g' = port_count g /\ link_count g' = link_count g.

(** Double-ended iteration over a list: [true] takes from the front, [false]
    from the back; each answer comes with the number of items left. *)
Fixpoint deque {A} (sched : list bool) (l : list A) : list (option A * nat) :=
  match sched with
  | [] => []
  | true :: s => (head l, length (tail l)) :: deque s (tail l)
  | false :: s => (last l, length (removelast l)) :: deque s (removelast l)
  end.
(** The answers of an iterator with the given [next], [next_back] and [len]. *)
Fixpoint run_iter {S A} (next next_back : S -> res (option A * S)) (len : S -> nat)
    (sched : list bool) (s : S) : res (list (option A * nat)) :=
  match sched with
  | [] => Ok []
  | b :: sched' =>
      '(x, s') ← (if b : bool then next s else next_back s);
      r ← run_iter next next_back len sched' s';
      Ok ((x, len s') :: r)
  end.

(** Replaying callback calls on a side table. *)
Definition tswap {V} (f : nat -> V) (a b : nat) : nat -> V :=
  fun x => if decide (x = a) then f b else if decide (x = b) then f a else f x.
Definition trekey {V} (dflt : V) (f : nat -> V) (a b : nat) : nat -> V :=
  fun x => if decide (x = b) then f a else if decide (x = a) then dflt else f x.
(** weights.rs:31-33: [op.new_index().map(|new| weights.ports.swap(old, new))] *)
Definition replay_swap {V} (log : list (nat * port_op)) (f : nat -> V) : nat -> V :=
  foldl (fun f x => match x.2 with Moved new => tswap f x.1 new | Removed _ => f end) f log.
(** The same with [map.rekey(old, op.new_index())] (secondary.rs:56-69). *)
Definition replay_rekey {V} (dflt : V) (log : list (nat * port_op)) (f : nat -> V) : nat -> V :=
  foldl (fun f x => match x.2 with
                    | Moved new => trekey dflt f x.1 new
                    | Removed _ => fun y => if decide (y = x.1) then dflt else f y
                    end) f log.
(** [map.rekey(old, Some(new))] and [map.swap(old, new)] for each call of the
    callback of a compaction. *)
Definition replay_rekeys {V} (dflt : V) (log : list (nat * nat)) (f : nat -> V) : nat -> V :=
  foldl (fun f x => trekey dflt f x.1 x.2) f log.
Definition replay_swaps {V} (log : list (nat * nat)) (f : nat -> V) : nat -> V :=
  foldl (fun f x => tswap f x.1 x.2) f log.

(** Port [p] of [g] is still there as [p'] of [g'] after the ports of node [n]
    were resized: it is at the same direction and offset of [n], or belongs to
    another node and kept its index. *)
Definition survives (g g' : pg) (n p p' : nat) : Prop :=
  (exists d k, port_at g n d k p /\ port_at g' n d k p') \/
  (contains_port g p = true /\ port_node g p <> Some n /\ p' = p).

(** The answers of [k] calls of [next] on an iterator over [l]. *)
Definition fwd {A} (k : nat) (l : list A) : list (option A) := (fun i => l !! i) <$> seq 0 k.
Fixpoint run_fwd {S A} (next : S -> res (option A * S)) (k : nat) (s : S) : res (list (option A)) :=
  match k with
  | 0 => Ok []
  | S k' => '(x, s') ← next s; r ← run_fwd next k' s'; Ok (x :: r)
  end.
(** The link of port [p], as a pair. *)
Definition link_of (g : pg) (p : nat) : option (nat * nat) :=
  match port_link g p with Ok (Some q) => Some (p, q) | _ => None end.
