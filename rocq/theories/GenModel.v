(** The graph generators of proptest.rs. What the [proptest] library picks (the
    end points of the edges) and the order in which a [HashSet] is iterated are
    arguments. *)
From Verif Require Export InsertModel.

(** proptest.rs:12-18; a [NodeIndex] is a [nat], a [PortOffset] its value *)
Record tedge := TEdge { te_sv : nat; te_tv : nat; te_sp : N; te_tp : N }.

Section gen.
  Context {S X : Type} (w : N) (T : target S X).

  (** proptest.rs:27-34 and 47-54: the edge between two picked ports, each a
      node and an offset *)
  Definition mk_edge (z : (nat * nat) * (nat * nat)) : res tedge :=
    sv ← ix_new 32 (N.of_nat z.1.1);
    tv ← ix_new 32 (N.of_nat z.2.1);
    sp ← po_new w Outgoing (N.of_nat z.1.2);
    tp ← po_new w Incoming (N.of_nat z.2.2);
    Ok (TEdge (N.to_nat sv) (N.to_nat tv) sp tp).
  (** proptest.rs:19-36 [gen_edges], 38-56 [gen_unique_edges]: [outs] and [ins]
      are [out_ports] and [in_ports] in the order of their iteration *)
  Definition gen_edges (outs ins : list (nat * nat)) : res (list tedge) := mapM mk_edge (zip outs ins).

  (** proptest.rs:115-121: [in_port_counts] and [out_port_counts] *)
  Definition add_port (c : gmap nat nat * gmap nat nat) (v : nat) (p : N) : res (gmap nat nat * gmap nat nat) :=
    d ← po_direction w p;
    i ← po_index w p;
    Ok match d with
       | Incoming => (<[v := Nat.max (default 0 (c.1 !! v)) (N.to_nat i + 1)]> c.1, c.2)
       | Outgoing => (c.1, <[v := Nat.max (default 0 (c.2 !! v)) (N.to_nat i + 1)]> c.2)
       end.
  (** proptest.rs:122-131 *)
  Fixpoint count_ports (es : list tedge) (c : gmap nat nat * gmap nat nat) : res (gmap nat nat * gmap nat nat) :=
    match es with
    | [] => Ok c
    | e :: es =>
        c ← add_port c (te_sv e) (te_sp e);
        c ← add_port c (te_tv e) (te_tp e);
        count_ports es c
    end.
  (** proptest.rs:137-142; [vs] is the set [vertices] in the order of its
      iteration, [R] the entries of [map_vertices] *)
  Fixpoint gen_nodes (c : gmap nat nat * gmap nat nat) (vs : list nat) (R : list (nat * nat)) (s : S) : res (S * list (nat * nat)) :=
    match vs with
    | [] => Ok (s, R)
    | v :: vs =>
        '(s, n) ← t_add T s (default 0 (c.1 !! v)) (default 0 (c.2 !! v));
        gen_nodes c vs (R ++ [(v, n)]) s
    end.
  (** proptest.rs:143-153 *)
  Fixpoint gen_links (R : list (nat * nat)) (es : list tedge) (s : S) : res S :=
    match es with
    | [] => Ok s
    | e :: es =>
        a ← unwrap (al_get R (te_sv e));
        b ← unwrap (al_get R (te_tv e));
        '(s, r) ← t_link_offsets w T s a (te_sp e) b (te_tp e);
        match r with
        | inl _ => Panic
        | inr _ => gen_links R es s
        end
    end.
  (** proptest.rs:111-155 [graph_from_edges]; [s0] is [G::default()] *)
  Definition graph_from_edges (s0 : S) (vs : list nat) (es : list tedge) : res S :=
    c ← count_ports es (∅, ∅);
    '(s, R) ← gen_nodes c vs [] s0;
    gen_links R es s.
  (** proptest.rs:196-200 [ensure_non_empty] *)
  Definition ensure_non_empty (count : S -> res nat) (s : S) : res S :=
    c ← count s;
    if decide (c = 0) then '(s, _) ← t_add T s 0 0; Ok s else Ok s.
  Definition gen_graph (count : S -> res nat) (s0 : S) (vs : list nat) (outs ins : list (nat * nat)) : res S :=
    es ← gen_edges outs ins;
    s ← graph_from_edges s0 vs es;
    ensure_non_empty count s.
End gen.

(** proptest.rs:58-71 *)
Definition gen_portgraph (w : N) : list nat -> list (nat * nat) -> list (nat * nat) -> res pg :=
  gen_graph w (t_pg w) (fun g => Ok (node_count g)) pg_new.
(** proptest.rs:73-86 *)
Definition gen_multiportgraph (w : N) : list nat -> list (nat * nat) -> list (nat * nat) -> res mpg :=
  gen_graph w (t_m w) m_node_count m_new.
(** proptest.rs:103-110: the node that [gen_node_index] picks for [i] *)
Definition gen_node_index (g : pg) (i : nat) : res nat := vget (nodes_iter g) i.
