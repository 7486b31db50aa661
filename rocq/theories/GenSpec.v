(** Vocabulary for the generated graphs. *)
From Verif Require Export GenModel InsertSpec.

(** An edge is a pair of ports, each a node and an offset: the outgoing port
    where it starts and the incoming one where it ends. *)
Definition edge_end (d : dir) (e : (nat * nat) * (nat * nat)) : nat * nat := match d with Outgoing => e.1 | Incoming => e.2 end.

(** [vs] lists the nodes of the edges [es], each once, in some order. *)
Definition lists_nodes (vs : list nat) (es : list ((nat * nat) * (nat * nat))) : Prop :=
  NoDup vs /\ forall v, v ∈ vs <-> exists e d, e ∈ es /\ (edge_end d e).1 = v.

(** The graph [g] is the one that the edges [es] describe. [R] gives the node of
    [g] for each node of the edges, and [K] the ends of the link for each edge.
    [has] are the nodes of [g], [rel] the link ends that are linked, and [endp]
    is the port of a link end. *)
Record built {E} (vs : list nat) (es : list ((nat * nat) * (nat * nat))) (g : pg) (has : nat -> Prop) (rel : E -> E -> Prop) (endp : E -> nat)
    (R : list (nat * nat)) (K : list (E * E)) : Prop := {
  b_nodes : R.*1 = vs;
  b_new : NoDup R.*2;
  b_has n : n ∈ R.*2 -> has n;
  (* there is a port for each offset up to the largest one used *)
  b_ports v n d k : (v, n) ∈ R -> k < num_ports g n d <-> exists e, e ∈ es /\ (edge_end d e).1 = v /\ k <= (edge_end d e).2;
  (* an edge becomes a link at the ports it names *)
  b_edges i e x y : es !! i = Some e -> K !! i = Some (x, y) -> exists a b, (e.1.1, a) ∈ R /\ (e.2.1, b) ∈ R /\
    port_at g a Outgoing e.1.2 (endp x) /\ port_at g b Incoming e.2.2 (endp y);
  b_len : length K = length es;
  b_ends : NoDup (K.*1 ++ K.*2);
  b_links x y : rel x y <-> (x, y) ∈ K \/ (y, x) ∈ K;
  (* there is no other node, unless there is no edge: then there is one node, without ports *)
  b_only n : es <> [] -> has n -> n ∈ R.*2;
  b_one : es = [] -> exists n, (forall x, has x <-> x = n) /\ forall d, num_ports g n d = 0;
}.

(** The sizes asked for: the range of the nodes and of the offsets. *)
Definition in_sizes (maxn maxp : nat) (z : nat * nat) : Prop := 1 <= z.1 < maxn /\ z.2 < maxp.
