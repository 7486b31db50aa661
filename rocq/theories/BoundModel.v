(** Port boundaries (boundary.rs) and the subgraphs they induce
    (view/subgraph.rs). A [HashSet] or [BTreeSet] is a finite set; a [BTreeSet]
    that is iterated over is its increasing list ([btree_list]). *)
From Verif Require Export ViewModel ConvexModel.
From stdpp Require Export sorting.

(** The items of a [BTreeSet], in order. *)
Definition btree_list (s : gset nat) : list nat := merge_sort le (elements s).

(** boundary.rs:15-20 *)
Record boundary := Bd { bd_inputs : list nat; bd_outputs : list nat }.
(** boundary.rs:29-34; the index of the port in its list, and the direction *)
Record bport := BP { bp_index : nat; bp_dir : dir }.
Definition bd_list (B : boundary) (d : dir) : list nat := match d with Incoming => bd_inputs B | Outgoing => bd_outputs B end.
(** boundary.rs:292-297 [port_indices] *)
Definition bd_ports (B : boundary) : list nat := bd_inputs B ++ bd_outputs B.
(** boundary.rs:76-78 *)
Definition bd_num_ports (B : boundary) : nat := length (bd_inputs B) + length (bd_outputs B).
(** boundary.rs:46-56 [from_ports]: [partition_map] keeps the order *)
Fixpoint bd_from_ports {E} (V : lview E) (ps : list nat) : hres boundary :=
  match ps with
  | [] => HOk (Bd [] [])
  | p :: ps =>
      d ← lift (unwrap (lv_pdir V p));
      B ← bd_from_ports V ps;
      HOk (match d with
           | Incoming => Bd (p :: bd_inputs B) (bd_outputs B)
           | Outgoing => Bd (bd_inputs B) (p :: bd_outputs B)
           end)
  end.
(** [Iterator::position] *)
Fixpoint lposition (l : list nat) (p : nat) : option nat :=
  match l with [] => None | q :: l => if decide (q = p) then Some 0 else S <$> lposition l p end.
(** boundary.rs:81-91 [find_port] *)
Definition bd_find_port (B : boundary) (p : nat) (d : dir) : hres bport :=
  i ← lift (unwrap (lposition (bd_list B d) p)); HOk (BP i d).
(** boundary.rs:94-103 [ports] *)
Definition bd_bports (B : boundary) (d : dir) : list bport := (fun i => BP i d) <$> seq 0 (length (bd_list B d)).
(** boundary.rs:118-123 [port_index] *)
Definition bd_port_index (B : boundary) (x : bport) : hres nat := lift (vget (bd_list B (bp_dir x)) (bp_index x)).
(** boundary.rs:130-132 *)
Definition bd_is_compatible (B C : boundary) : bool :=
  bool_decide (length (bd_inputs B) = length (bd_inputs C)) && bool_decide (length (bd_outputs B) = length (bd_outputs C)).

(** ** [internal_nodes] (boundary.rs:303-344) *)
Section internal.
  Context {E} (V : lview E).

  (** [BTreeSet::pop_first] *)
  Definition set_pop (s : gset nat) : option (nat * gset nat) :=
    match btree_list s with [] => None | n :: _ => Some (n, s ∖ {[n]}) end.

  (** boundary.rs:311-321: [visited] and [nodes_to_process] after the boundary ports [ps] *)
  Definition in_start_step (s : gset nat * gset nat) (p : nat) : hres (gset nat * gset nat) :=
    let '(vis, todo) := s in
    this_node ← lift (unwrap (lv_pnode V p));
    o ← lv_plink V p;
    let vis := match o with Some other => {[lv_port V other]} ∪ vis | None => vis end in
    HOk ({[p]} ∪ vis, {[this_node]} ∪ todo).
  (** boundary.rs:330-340: one port [p] of the current node *)
  Definition in_port_step (s : gset nat * gset nat) (p : nat) : hres (gset nat * gset nat) :=
    let '(vis, todo) := s in
    if decide (p ∈ vis) then HOk (vis, todo)
    else
      o ← lv_plink V p;
      match o with
      | Some other =>
          other_node ← lift (unwrap (lv_pnode V (lv_port V other)));
          HOk ({[lv_port V other]} ∪ ({[p]} ∪ vis), {[other_node]} ∪ todo)
      | None => HOk ({[p]} ∪ vis, todo)
      end.
  (** boundary.rs:328-342: the [successors] iterator, run to its end *)
  Fixpoint in_loop (fuel : nat) (vis todo : gset nat) : hres (list nat) :=
    match fuel with
    | 0 => HLoop
    | S fuel =>
        match set_pop todo with
        | None => HOk []
        | Some (node, todo) =>
            '(vis, todo) ← hfold in_port_step (lv_all_ports V node) (vis, todo);
            l ← in_loop fuel vis todo;
            HOk (node :: l)
        end
    end.
  Definition internal_nodes (fuel : nat) (B : boundary) : hres (list nat) :=
    '(vis, todo) ← hfold in_start_step (bd_ports B) (∅, ∅);
    todo ← (if decide (todo = ∅) then l ← lv_nodes V; HOk (list_to_set l) else HOk todo);
    in_loop fuel vis todo.

  (** subgraph.rs:80-87 [new_subgraph]: the node set of the subgraph; the
      subgraph is [subgraph V] of this list *)
  Definition new_subgraph (fuel : nat) (B : boundary) : hres (list nat) :=
    l ← internal_nodes fuel B; HOk (btree_list (list_to_set l)).

  (** subgraph.rs:153-158 [has_external_link] *)
  Definition sg_external_link (S : gset nat) (x : E * E) : hres bool :=
    n ← lift (unwrap (lv_pnode V (lv_port V x.2))); HOk (bool_decide (n ∉ S)).
  (** [Iterator::any] *)
  Fixpoint hany {A} (f : A -> hres bool) (l : list A) : hres bool :=
    match l with [] => HOk false | a :: l => b ← f a; if (b : bool) then HOk true else hany f l end.
  Definition sg_external (S : gset nat) (p : nat) : hres bool :=
    l ← lv_plinks V p; hany (sg_external_link S) l.
  (** subgraph.rs:145-171 [collect_boundary_ports] *)
  Fixpoint sg_boundary (ns : list nat) (S : gset nat) : hres boundary :=
    match ns with
    | [] => HOk (Bd [] [])
    | n :: ns =>
        i ← hfilter (sg_external S) (lv_ports V n Incoming);
        o ← hfilter (sg_external S) (lv_ports V n Outgoing);
        B ← sg_boundary ns S;
        HOk (Bd (i ++ bd_inputs B) (o ++ bd_outputs B))
    end.
  (** subgraph.rs:95-104 [with_nodes]: the node set and the boundary *)
  Definition sg_with_nodes (ns : list nat) : hres (list nat * boundary) :=
    B ← sg_boundary ns (list_to_set ns); HOk (btree_list (list_to_set ns), B).
End internal.

(** ** [copy_in_parent] (subgraph.rs:355-402) for a [Subgraph] of a [PortGraph] *)

(** subgraph.rs:358-362: one copy per node of the subgraph; the [HashMap]
    [node_map] as the list of its entries in the order of insertion *)
Fixpoint cp_add (w : N) (ns : list nat) (g : pg) : res (pg * list (nat * nat)) :=
  match ns with
  | [] => Ok (g, [])
  | n :: ns =>
      '(g, new) ← add_node (po_max_offset w) g (num_ports g n Incoming) (num_ports g n Outgoing);
      '(g, l) ← cp_add w ns g;
      Ok (g, (n, new) :: l)
  end.
(** [HashMap::get] *)
Definition al_get (l : list (nat * nat)) (n : nat) : option nat := snd <$> (snd <$> list_find (fun x => x.1 = n) l).
(** subgraph.rs:364-399: the links of one node; [Some (external, internal)] is the
    error [CantCopyBoundary] *)
Fixpoint cp_links (w : N) (node_map : list (nat * nat)) (new_node : nat) (ls : list (nat * nat)) (g : pg)
    : res (pg * option (nat * nat)) :=
  match ls with
  | [] => Ok (g, None)
  | (node_p, other_p) :: ls =>
      off ← port_offset w g node_p; off ← unwrap off;
      new_node_p ← port_index w g new_node off; new_node_p ← unwrap new_node_p;
      n ← unwrap (port_node g other_p);
      match al_get node_map n with
      | Some new_other =>
          if decide (new_other < new_node) then cp_links w node_map new_node ls g
          else
            off ← port_offset w g other_p; off ← unwrap off;
            new_other_p ← port_index w g new_other off; new_other_p ← unwrap new_other_p;
            '(g, r) ← link_ports g new_node_p new_other_p;
            match r with inl _ => Panic | inr _ => cp_links w node_map new_node ls g end
      | None =>
          '(g, r) ← link_ports g new_node_p other_p;
          match r with
          | inl (AlreadyLinked port) =>
              g ← rfold remove_node (map snd node_map) g;
              Ok (g, Some (port, node_p))
          | inl _ => Panic
          | inr _ => cp_links w node_map new_node ls g
          end
      end
  end.
(** subgraph.rs:363-400: the loop over [node_map] *)
Fixpoint cp_nodes (w : N) (node_map todo : list (nat * nat)) (g : pg) : res (pg * option (nat * nat)) :=
  match todo with
  | [] => Ok (g, None)
  | (node, new_node) :: todo =>
      ls ← all_links g node;
      '(g, e) ← cp_links w node_map new_node ls g;
      match e with Some e => Ok (g, Some e) | None => cp_nodes w node_map todo g end
  end.
(** [nodes] is the node set of the subgraph, [order] the order in which the
    [HashMap] is iterated over *)
Definition copy_in_parent (w : N) (order : list (nat * nat) -> list (nat * nat)) (nodes : list nat) (g : pg)
    : res (pg * (nat * nat + list (nat * nat))) :=
  '(g, node_map) ← cp_add w nodes (reserve g (length nodes) (sum_list (map (fun n => length (all_ports g n)) nodes)));
  let node_map := order node_map in
  '(g, e) ← cp_nodes w node_map node_map g;
  Ok (g, match e with Some e => inl e | None => inr node_map end).

(** subgraph.rs:107-127 [is_convex] and [is_convex_with_checker], for a [Subgraph]
    of a [PortGraph] with the nodes [nodes] and the boundary [B] *)
Definition sg_is_convex (g : pg) (fuel : nat) (nodes : list nat) (B : boundary) : hres bool :=
  if decide (length nodes <= 1) then HOk true
  else
    c ← tcc_new (gv_of g) (neighbours g) fuel;
    tcc_is_convex (gv_of g) (neighbours g) c fuel nodes (bd_inputs B) (bd_outputs B).
