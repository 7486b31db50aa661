(** Vocabulary for the dynamic convexity checker. *)
From Verif Require Export DynModel ConvexSpec.

(** [l] is a topological order of the nodes of [g]. *)
Definition topo_order (g : pg) (l : list nat) : Prop :=
  NoDup l /\ (forall n, n ∈ l <-> contains_node g n = true) /\
  (forall a b, pedge g Outgoing a b -> before l a b).
(** The stored positions are those of the stored order. *)
Definition dt_sync (t : dts) : Prop := forall n i, dt_pos t !! n = Some i <-> dt_order t !! i = Some n.

(** [b] is before [a] in the order [l]; every node between them can be reached from
    [b] and has one predecessor among [b] and these nodes; none of them is a
    predecessor of [a]. *)
Definition movable (g : pg) (l : list nat) (a b : nat) : Prop :=
  exists l1 mid l2, l = l1 ++ b :: mid ++ a :: l2 /\
    (forall x, x ∈ mid -> ~ pedge g Outgoing x a) /\
    (forall x, x ∈ mid -> tc (pedge g Outgoing) b x) /\
    (forall x y z, x ∈ mid -> y ∈ b :: mid -> z ∈ b :: mid -> pedge g Outgoing y x -> pedge g Outgoing z x -> y = z).

(** Histories of a checker, starting from any acyclic graph, in which every link
    that is made points forward in the order kept by the checker, or makes a
    [movable] node move; and in which node indices do not change. *)
Inductive dreach (w : N) : dchk -> Prop :=
  | dr_new fuel g c : reach w g -> pacyclic g -> dc_new fuel g = HOk c -> dreach w c
  | dr_add c i j c' n : dreach w c -> (N.of_nat i <= 65534 /\ N.of_nat (i + j) <= 65535)%N ->
      dc_add_node w c i j = Ok (c', n) -> dreach w c'
  | dr_remove c n c' : dreach w c -> dc_remove_node c n = Ok c' -> dreach w c'
  | dr_unlink c p c' r : dreach w c -> dc_unlink_port c p = Ok (c', r) -> dreach w c'
  | dr_link c p q c' r a b : dreach w c -> port_node (dc_graph c) p = Some a -> port_node (dc_graph c) q = Some b ->
      before (dt_order (dc_topo c)) a b \/ movable (dc_graph c) (dt_order (dc_topo c)) a b ->
      (exists N, forall fuel, N < fuel -> dc_link_ports fuel c p q = HOk (c', r)) -> dreach w c'
  | dr_set_ports c n i j c' log : dreach w c -> dc_set_num_ports c n i j = Ok (c', log) -> dreach w c'
  | dr_compact_ports c c' log : dreach w c -> (forall n, ~ hollow (dc_graph c) n) -> dc_compact_ports c = Ok (c', log) -> dreach w c'
  | dr_compact_nodes c c' log : dreach w c -> (forall o n, (o, n) ∈ log -> o = n) -> dc_compact_nodes c = Ok (c', log) -> dreach w c'.

(** [ins] and [outs] are the incoming and outgoing ports of [S] that are linked to a
    node outside [S]. *)
Definition boundary_ports (g : pg) (S ins outs : list nat) : Prop :=
  (forall p, p ∈ ins <-> exists n m q, n ∈ S /\ p ∈ ports g n Incoming /\ linked g p q /\ port_node g q = Some m /\ m ∉ S) /\
  (forall p, p ∈ outs <-> exists n m q, n ∈ S /\ p ∈ ports g n Outgoing /\ linked g p q /\ port_node g q = Some m /\ m ∉ S).
