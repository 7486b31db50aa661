(** [LinkMut::insert_graph] (view.rs:583-614) for any graph to insert into and any
    graph or view to insert. *)
From Verif Require Export BoundModel.

(** The methods of the graph that is extended: [X] is a pair of its link ends. *)
Record target (S X : Type) := Target {
  t_graph : S -> pg;                                       (* port_index is the one of this graph *)
  t_add : S -> nat -> nat -> res (S * nat);                (* add_node *)
  t_link : S -> nat -> nat -> res (S * (link_error + X));  (* link_ports *)
}.
Arguments t_graph {S X}. Arguments t_add {S X}. Arguments t_link {S X}.
(** portgraph.rs:453-471, 756-787 *)
Definition t_pg (w : N) : target pg (nat * nat) := Target _ _ id (add_node (po_max_offset w)) link_ports.
(** multiportgraph.rs:192-194, 304-313, 177 *)
Definition t_m (w : N) : target mpg (subport * subport) := Target _ _ m_graph (m_add_node w) (m_link_ports w).

Section insert.
  Context {S X E : Type} (w : N) (T : target S X).

  (** view.rs:554-575 [link_offsets] *)
  Definition t_link_offsets (s : S) (a : nat) (oa : N) (b : nat) (ob : N) : res (S * (link_error + X)) :=
    pa ← port_index w (t_graph T s) a oa;
    match pa with
    | None => d ← po_direction w oa; i ← po_index w oa; Ok (s, inl (UnknownOffset a d (N.to_nat i)))
    | Some pa =>
        pb ← port_index w (t_graph T s) b ob;
        match pb with
        | None => d ← po_direction w ob; i ← po_index w ob; Ok (s, inl (UnknownOffset b d (N.to_nat i)))
        | Some pb => t_link T s pa pb
        end
    end.

  (** [V] is [other], [og] the graph that its methods [num_inputs],
      [num_outputs] and [port_offset] are delegated to (filter.rs:152-168,
      region.rs:199-212, flat_region.rs:168-181, subgraph.rs:223-236,
      multiportgraph.rs:172-188). *)
  Context (V : lview E) (og : pg).

  (** view.rs:601-611: the links of one node; stops at the first error.
      [rekeys], a [HashMap], is the list of its entries. *)
  Fixpoint t_insert_links (rekeys : list (nat * nat)) (new : nat) (ls : list (E * E)) (s : S) : res (S * option link_error) :=
    match ls with
    | [] => Ok (s, None)
    | (from, to) :: ls =>
        nt ← unwrap (lv_pnode V (lv_port V to));
        match al_get rekeys nt with
        | None => t_insert_links rekeys new ls s
        | Some other_node =>
            ofrom ← port_offset w og (lv_port V from); ofrom ← unwrap ofrom;
            oto ← port_offset w og (lv_port V to); oto ← unwrap oto;
            '(s, r) ← t_link_offsets s new ofrom other_node oto;
            match r with
            | inl e => Ok (s, Some e)
            | inr _ => t_insert_links rekeys new ls s
            end
        end
    end.
  (** view.rs:598-612 *)
  Fixpoint t_insert_nodes (ns : list nat) (rekeys : list (nat * nat)) (s : S) : hres (S * (link_error + list (nat * nat))) :=
    match ns with
    | [] => HOk (s, inr rekeys)
    | old :: ns =>
        '(s, new) ← lift (t_add T s (num_ports og old Incoming) (num_ports og old Outgoing));
        let rekeys := rekeys ++ [(old, new)] in
        ls ← lv_all_links V old;
        '(s, e) ← lift (t_insert_links rekeys new ls s);
        match e with
        | Some e => HOk (s, inl e)
        | None => t_insert_nodes ns rekeys s
        end
    end.
  (** view.rs:583-614. The calls of [reserve] and [with_capacity] are left out:
      they only change capacities. *)
  Definition t_insert (s : S) : hres (S * (link_error + list (nat * nat))) :=
    ns ← lv_nodes V; t_insert_nodes ns [] s.
End insert.
