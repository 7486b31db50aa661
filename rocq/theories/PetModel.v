(** Model of the implementations of petgraph's traits, src/view/petgraph.rs.
    The macros of that file give the same code to PortGraph, MultiPortGraph,
    FilteredGraph, Region, FlatRegion and Subgraph: it is written once over a
    view ([ViewModel.lview]).

    Simplified: an iterator that merely forwards to another is the list the
    latter yields; capacities are not part of the modelled graphs, so
    [node_capacity] is a parameter of the dense adjacency matrix; weights are
    [()] and not modelled. *)
From Verif Require Export ViewModel MapModel.

(** petgraph.rs:328-340: [source], [target] and [id] of an edge reference *)
Record edge_ref (E : Type) := ER { er_source : nat; er_target : nat; er_id : E * E }.
Arguments ER {E}. Arguments er_source {E}. Arguments er_target {E}. Arguments er_id {E}.

Section pet.
  Context {E : Type} (V : lview E).
  (** petgraph.rs:69-73 *)
  Definition pet_node_count : hres nat := lv_node_count V.
  (** petgraph.rs:76-78 *)
  Definition pet_node_bound : hres nat := lv_node_count V.
  (** petgraph.rs:80-82 *)
  Definition pet_to_index (n : nat) : nat := n.
  (** petgraph.rs:84-86, index.rs: [NodeIndex::new] panics on indices of [2^31 - 1] and more *)
  Definition pet_from_index (i : nat) : hres nat :=
    if decide (N.of_nat i < 2 ^ 31 - 1)%N then HOk i else HPanic.
  (** petgraph.rs:89-93 *)
  Definition pet_edge_count : hres nat := lv_link_count V.
  (** petgraph.rs:100-106 *)
  Definition pet_node_identifiers : hres (list nat) := lv_nodes V.
  (** petgraph.rs:108-115 *)
  Definition pet_node_references : hres (list nat) := lv_nodes V.
  (** petgraph.rs:117-123 *)
  Definition pet_neighbors (n : nat) : hres (list nat) := lv_neigh V n Outgoing.
  (** petgraph.rs:125-135; the conversion of directions (15-31) is the identity *)
  Definition pet_neighbors_directed (n : nat) (d : dir) : hres (list nat) := lv_neigh V n d.

  (** petgraph.rs:401-405, 476-480 *)
  Definition pet_edge (x : E * E) : hres (edge_ref E) :=
    match lv_pnode V (lv_port V x.1), lv_pnode V (lv_port V x.2) with
    | Some a, Some b => HOk (ER a b x)
    | _, _ => HPanic
    end.
  (** petgraph.rs:363-369: [EdgeRefs], ports and links still to come and the count *)
  Record edge_refs := ERS { ers_ports : list nat; ers_links : list (E * E); ers_count : nat }.
  (** petgraph.rs:375-383, 137-144 *)
  Definition pet_edge_references : hres edge_refs :=
    ps ← lv_port_list V; c ← lv_link_count V; HOk (ERS ps [] c).
  (** petgraph.rs:392-412: [next] *)
  Fixpoint ers_step (ps : list nat) (ls : list (E * E)) (c : nat) {struct ps} :
      hres (option (edge_ref E) * edge_refs) :=
    match ls with
    | x :: ls => e ← pet_edge x; HOk (Some e, ERS ps ls c)
    | [] =>
      match ps with
      | [] => HOk (None, ERS [] [] c)
      | p :: ps => ls ← lv_plinks V p; ers_step ps ls c
      end
    end.
  Definition ers_next (s : edge_refs) : hres (option (edge_ref E) * edge_refs) :=
    ers_step (ers_ports s) (ers_links s) (ers_count s).
  (** petgraph.rs:414-425 [count], [size_hint]; 428-433 [len] *)
  Definition ers_len (s : edge_refs) : nat := ers_count s.
  (** the items of [fuel] calls to [next], or up to the first [None] *)
  Fixpoint ers_collect (fuel : nat) (s : edge_refs) : hres (list (edge_ref E)) :=
    match fuel with
    | 0 => HLoop
    | S fuel => '(o, s) ← ers_next s;
      match o with None => HOk [] | Some e => r ← ers_collect fuel s; HOk (e :: r) end
    end.
  (** petgraph.rs:146-152, 451-456, 472-481 *)
  Definition pet_edges (n : nat) : hres (list (edge_ref E)) := l ← lv_all_links V n; hmap pet_edge l.
  (** petgraph.rs:154-164, 458-464, 472-481 *)
  Definition pet_edges_directed (n : nat) (d : dir) : hres (list (edge_ref E)) := l ← lv_links V n d; hmap pet_edge l.

  (** petgraph.rs:190-202: [node_capacity] is [cap]; [BitVec::set] panics out of range *)
  Fixpoint pet_row (cap n : nat) (l : list nat) (m : list bool) : hres (list bool) :=
    match l with
    | [] => HOk m
    | b :: l => m ← lift (vset m (n * cap + b) true); pet_row cap n l m
    end.
  Fixpoint pet_rows (cap : nat) (ns : list nat) (m : list bool) : hres (list bool) :=
    match ns with
    | [] => HOk m
    | n :: ns => l ← lv_neigh V n Outgoing; m ← pet_row cap n l m; pet_rows cap ns m
    end.
  Definition pet_adjacency_dense (cap : nat) : hres (list bool * nat) :=
    ns ← lv_nodes V; m ← pet_rows cap ns (replicate (cap * cap) false); HOk (m, cap).
  (** petgraph.rs:204-214 *)
  Definition pet_is_adjacent_dense (m : list bool * nat) (a b : nat) : hres bool := lift (vget m.1 (a * m.2 + b)).
  (** petgraph.rs:242-250 *)
  Fixpoint pet_pairs (ns : list nat) (m : gset (nat * nat)) : hres (gset (nat * nat)) :=
    match ns with
    | [] => HOk m
    | n :: ns => l ← lv_neigh V n Outgoing; pet_pairs ns (foldl (fun m b => {[(n, b)]} ∪ m) m l)
    end.
  Definition pet_adjacency_sparse : hres (gset (nat * nat)) := ns ← lv_nodes V; pet_pairs ns ∅.
  (** petgraph.rs:252-259 *)
  Definition pet_is_adjacent_sparse (m : gset (nat * nat)) (a b : nat) : bool := bool_decide ((a, b) ∈ m).
End pet.
Arguments edge_refs : clear implicits.
Arguments ERS {E}. Arguments ers_ports {E}. Arguments ers_links {E}. Arguments ers_count {E}. Arguments ers_len {E}.

(** petgraph.rs:177-179: [visit_map] *)
Definition pet_visit_map : list bool := [].
(** petgraph.rs:181-183: [reset_map] *)
Definition pet_reset_map (m : list bool) : list bool := [].
(** petgraph.rs:313-315 *)
Definition pet_is_visited (m : list bool) (n : nat) : bool := bv_get m n.
(** petgraph.rs:307-311 *)
Definition pet_visit (m : list bool) (n : nat) : res (list bool * bool) :=
  let was := pet_is_visited m n in m ← bv_set m n true; Ok (m, was).
(** petgraph.rs:317-321 *)
Definition pet_unvisit (m : list bool) (n : nat) : res (list bool * bool) :=
  let was := pet_is_visited m n in m ← bv_set m n false; Ok (m, was).
