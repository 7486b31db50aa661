(** [copy_in_parent] (subgraph.rs:355-402) for a [Subgraph] of a
    [MultiPortGraph]. BoundModel.v has it for a [PortGraph]. *)
From Verif Require Export BoundModel.

(** subgraph.rs:358-362; [num_inputs] and [num_outputs] are those of the plain
    graph (multiportgraph.rs:172-188) *)
Fixpoint mcp_add (w : N) (ns : list nat) (m : mpg) : res (mpg * list (nat * nat)) :=
  match ns with
  | [] => Ok (m, [])
  | n :: ns =>
      '(m, new) ← m_add_node w m (num_ports (m_graph m) n Incoming) (num_ports (m_graph m) n Outgoing);
      '(m, l) ← mcp_add w ns m;
      Ok (m, (n, new) :: l)
  end.
(** subgraph.rs:364-399: the links of one node; [Some (external, internal)] is the
    error [CantCopyBoundary]. [port_offset], [port_index] and [port_node] of a
    subport are those of its port (multiportgraph.rs:172-188). *)
Fixpoint mcp_links (w : N) (node_map : list (nat * nat)) (new_node : nat) (ls : list (subport * subport)) (m : mpg)
    : res (mpg * option (nat * nat)) :=
  match ls with
  | [] => Ok (m, None)
  | (node_p, other_p) :: ls =>
      off ← port_offset w (m_graph m) node_p.1; off ← unwrap off;
      new_node_p ← port_index w (m_graph m) new_node off; new_node_p ← unwrap new_node_p;
      n ← unwrap (port_node (m_graph m) other_p.1);
      match al_get node_map n with
      | Some new_other =>
          if decide (new_other < new_node) then mcp_links w node_map new_node ls m
          else
            off ← port_offset w (m_graph m) other_p.1; off ← unwrap off;
            new_other_p ← port_index w (m_graph m) new_other off; new_other_p ← unwrap new_other_p;
            '(m, r) ← m_link_ports w m new_node_p new_other_p;
            match r with inl _ => Panic | inr _ => mcp_links w node_map new_node ls m end
      | None =>
          '(m, r) ← m_link_ports w m new_node_p other_p.1;
          match r with
          | inl (AlreadyLinked port) =>
              m ← rfold (m_remove_node w) (map snd node_map) m;
              Ok (m, Some (port, node_p.1))
          | inl _ => Panic
          | inr _ => mcp_links w node_map new_node ls m
          end
      end
  end.
(** subgraph.rs:363-400: the loop over [node_map] *)
Fixpoint mcp_nodes (w : N) (node_map todo : list (nat * nat)) (m : mpg) : res (mpg * option (nat * nat)) :=
  match todo with
  | [] => Ok (m, None)
  | (node, new_node) :: todo =>
      ls ← m_all_links w m node;
      '(m, e) ← mcp_links w node_map new_node ls m;
      match e with Some e => Ok (m, Some e) | None => mcp_nodes w node_map todo m end
  end.
(** [nodes] is the node set of the subgraph, [order] the order in which the
    [HashMap] is iterated over. [reserve] only changes capacities. *)
Definition m_copy_in_parent (w : N) (order : list (nat * nat) -> list (nat * nat)) (nodes : list nat) (m : mpg)
    : res (mpg * (nat * nat + list (nat * nat))) :=
  '(m, node_map) ← mcp_add w nodes m;
  let node_map := order node_map in
  '(m, e) ← mcp_nodes w node_map node_map m;
  Ok (m, match e with Some e => inl e | None => inr node_map end).
