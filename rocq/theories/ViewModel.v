(** The read interface shared by the graphs and the views (view.rs:22-330
    [PortView], [LinkView], [MultiView]) and the views built on top of any
    graph or view: [FilteredGraph] (view/filter.rs), [FlatRegion]
    (view/flat_region.rs), [Region] (view/region.rs) and [Subgraph]
    (view/subgraph.rs). Iterators are the lists of their items, in order.
    Filter functions are pure. Not modelled: the capacities of the views. The
    delegated methods [port_offset], [port_index], [num_ports], [input],
    [output] and [port_offsets] are those of the underlying graph. *)
From Verif Require Export AlgModel MultiModel HierModel.

(** Map a fallible function over a list. *)
Fixpoint hmap {A B} (f : A -> hres B) (l : list A) : hres (list B) :=
  match l with [] => HOk [] | a :: l => b ← f a; bs ← hmap f l; HOk (b :: bs) end.
(** [Iterator::filter] with a fallible predicate *)
Fixpoint hfilter {A} (f : A -> hres bool) (l : list A) : hres (list A) :=
  match l with
  | [] => HOk []
  | a :: l => b ← f a; l' ← hfilter f l; HOk (if (b : bool) then a :: l' else l')
  end.

(** [E] is the type of link ends: [PortIndex] or [SubportIndex]. *)
Record lview (E : Type) := LV {
  lv_port : E -> nat;                                   (* Into<PortIndex> *)
  lv_pnode : nat -> option nat;                         (* port_node *)
  lv_pdir : nat -> option dir;                          (* port_direction *)
  lv_ports : nat -> dir -> list nat;                    (* ports *)
  lv_all_ports : nat -> list nat;                       (* all_ports *)
  lv_has_node : nat -> bool;                            (* contains_node *)
  lv_has_port : nat -> hres bool;                       (* contains_port *)
  lv_nodes : hres (list nat);                           (* nodes_iter *)
  lv_port_list : hres (list nat);                       (* ports_iter *)
  lv_node_count : hres nat;                             (* node_count *)
  lv_port_count : hres nat;                             (* port_count *)
  lv_empty : hres bool;                                 (* is_empty *)
  lv_plinks : nat -> hres (list (E * E));               (* port_links *)
  lv_links : nat -> dir -> hres (list (E * E));         (* links *)
  lv_all_links : nat -> hres (list (E * E));            (* all_links *)
  lv_neigh : nat -> dir -> hres (list nat);             (* neighbours *)
  lv_all_neigh : nat -> hres (list nat);                (* all_neighbours *)
  lv_conn : nat -> nat -> hres (list (E * E));          (* get_connections *)
  lv_link_count : hres nat;                             (* link_count *)
}.
Arguments lv_port {E}. Arguments lv_pnode {E}. Arguments lv_pdir {E}. Arguments lv_ports {E}. Arguments lv_all_ports {E}.
Arguments lv_has_node {E}. Arguments lv_has_port {E}. Arguments lv_nodes {E}. Arguments lv_port_list {E}.
Arguments lv_node_count {E}. Arguments lv_port_count {E}. Arguments lv_empty {E}.
Arguments lv_plinks {E}. Arguments lv_links {E}. Arguments lv_all_links {E}. Arguments lv_neigh {E}.
Arguments lv_all_neigh {E}. Arguments lv_conn {E}. Arguments lv_link_count {E}.
(** [MultiView]: the view, [subports], [all_subports], [subport_link] *)
Record mview (E : Type) := MV {
  mv_view : lview E;
  mv_subports : nat -> dir -> hres (list E);
  mv_all_subports : nat -> hres (list E);
  mv_sublink : E -> hres (option E);
}.
Arguments mv_view {E}. Arguments mv_subports {E}. Arguments mv_all_subports {E}. Arguments mv_sublink {E}.

(** portgraph.rs:336-440, 722-753 *)
Definition lv_of_pg (g : pg) : lview nat :=
  LV nat id (port_node g) (port_direction g) (ports g) (all_ports g)
    (contains_node g) (fun p => HOk (contains_port g p))
    (HOk (nodes_iter g)) (HOk (ports_iter g)) (HOk (node_count g)) (HOk (port_count g)) (HOk (is_empty g))
    (fun p => lift (port_links g p)) (fun n d => lift (links g n d)) (fun n => lift (all_links g n))
    (fun n d => lift (neighbours g n d)) (fun n => lift (all_neighbours g n))
    (fun a b => lift (get_connections g a b)) (HOk (link_count g)).
(** multiportgraph.rs:114-188, 276-333 *)
Definition lv_of_m (w : N) (m : mpg) : lview subport :=
  LV subport fst (port_node (m_graph m)) (port_direction (m_graph m)) (ports (m_graph m)) (all_ports (m_graph m))
    (m_contains_node m) (fun p => HOk (m_contains_port m p))
    (HOk (m_nodes_iter m)) (lift (m_ports_iter m)) (lift (m_node_count m)) (lift (m_port_count m)) (lift (m_is_empty m))
    (fun p => lift (m_port_links w m p)) (fun n d => lift (m_links w m n d)) (fun n => lift (m_all_links w m n))
    (fun n d => lift (m_neighbours w m n d)) (fun n => lift (m_all_neighbours w m n))
    (fun a b => lift (m_get_connections w m a b)) (lift (m_link_count m)).
Definition mv_of_m (w : N) (m : mpg) : mview subport :=
  MV subport (lv_of_m w m) (fun n d => lift (m_subports m n d)) (fun n => lift (m_all_subports m n))
    (fun x => lift (m_subport_link w m x)).

(** ** [FilteredGraph]: [nf] and [lf] are the node and the link filter, applied
    to the context *)
Section filtered.
  Context {E : Type} (V : lview E) (nf lf : nat -> bool).

  (** filter.rs:80-89 [port_filter] *)
  Definition f_port_filter (p : nat) : hres bool := n ← lift (unwrap (lv_pnode V p)); HOk (nf n).
  (** filter.rs:91-103 [link_filter]; the conjunctions are evaluated lazily *)
  Definition f_link_filter (x : E * E) : hres bool :=
    b ← f_port_filter (lv_port V x.1);
    if negb b then HOk false
    else b ← f_port_filter (lv_port V x.2);
         if negb b then HOk false
         else if negb (lf (lv_port V x.1)) then HOk false
         else HOk (lf (lv_port V x.2)).
  (** filter.rs:112-125 *)
  Definition f_has_node (n : nat) : bool := lv_has_node V n && nf n.
  Definition f_has_port (p : nat) : hres bool :=
    b ← lv_has_port V p;
    if (b : bool) then n ← lift (unwrap (lv_pnode V p)); HOk (f_has_node n) else HOk false.
  (** filter.rs:142-150 *)
  Definition f_nodes : hres (list nat) := l ← lv_nodes V; HOk (filter (fun n => nf n = true) l).
  Definition f_port_list : hres (list nat) := l ← lv_port_list V; hfilter f_port_filter l.
  (** filter.rs:127-140 *)
  Definition f_node_count : hres nat := l ← f_nodes; HOk (length l).
  Definition f_port_count : hres nat := l ← f_port_list; HOk (length l).
  Definition f_empty : hres bool := c ← f_node_count; HOk (bool_decide (c = 0)).
  (** filter.rs:178-208 *)
  Definition f_conn (a b : nat) : hres (list (E * E)) := l ← lv_conn V a b; hfilter f_link_filter l.
  Definition f_plinks (p : nat) : hres (list (E * E)) := l ← lv_plinks V p; hfilter f_link_filter l.
  Definition f_links (n : nat) (d : dir) : hres (list (E * E)) := l ← lv_links V n d; hfilter f_link_filter l.
  Definition f_all_links (n : nat) : hres (list (E * E)) := l ← lv_all_links V n; hfilter f_link_filter l.
  (** filter.rs:212-224 *)
  Definition f_other (x : E * E) : hres nat := lift (unwrap (lv_pnode V (lv_port V x.2))).
  Definition f_neigh (n : nat) (d : dir) : hres (list nat) := l ← f_links n d; hmap f_other l.
  Definition f_all_neigh (n : nat) : hres (list nat) := l ← f_all_links n; hmap f_other l.
  (** filter.rs:226-230 [link_count] *)
  Definition f_link_count : hres nat := l ← f_nodes; ls ← hmap f_all_links l; HOk (length (concat ls)).

  (** filter.rs:152-168: the remaining methods are delegated *)
  Definition filtered : lview E :=
    LV E (lv_port V) (lv_pnode V) (lv_pdir V) (lv_ports V) (lv_all_ports V)
      f_has_node f_has_port f_nodes f_port_list f_node_count f_port_count f_empty
      f_plinks f_links f_all_links f_neigh f_all_neigh f_conn f_link_count.
End filtered.
(** filter.rs:233-263 [MultiView] *)
Definition filtered_m {E} (V : mview E) (nf lf : nat -> bool) : mview E :=
  let G := mv_view V in
  MV E (filtered G nf lf)
    (fun n d => l ← mv_subports V n d; hfilter (fun x => f_port_filter G nf (lv_port G x)) l)
    (fun n => l ← mv_all_subports V n; hfilter (fun x => f_port_filter G nf (lv_port G x)) l)
    (fun x =>
       if negb (lf (lv_port G x)) then HOk None
       else o ← mv_sublink V x;
            match o with
            | None => HOk None
            | Some y => if negb (lf (lv_port G y)) then HOk None else HOk (Some y)
            end).
(** filter.rs:61-65 [new_node_filtered] *)
Definition node_filtered {E} (V : lview E) (nf : nat -> bool) : lview E := filtered V nf (fun _ => true).

(** ** The views that keep a set of nodes. [memb] is [contains_node], [nodes] the
    result of [nodes_iter], [count] of [node_count], [empty] of [is_empty]. The
    three view types have the same code for the rest: region.rs:107-117,
    156-162, 175-188, 199-283; flat_region.rs:97-107, 122-128, 141-156, 168-252;
    subgraph.rs:129-139, 180-186, 198-211, 223-304. *)
Section sub.
  Context {E : Type} (V : lview E) (memb : nat -> bool) (nodes : hres (list nat)) (count : hres nat) (empty : hres bool).

  (** [contains_port] *)
  Definition s_has_port (p : nat) : bool := match lv_pnode V p with Some n => memb n | None => false end.
  (** [contains_endpoint], [contains_link] *)
  Definition s_link (x : E * E) : bool := s_has_port (lv_port V x.1) && s_has_port (lv_port V x.2).
  (** [ports_iter], [port_count] *)
  Definition s_port_list : hres (list nat) := l ← nodes; HOk (concat (map (lv_all_ports V) l)).
  Definition s_port_count : hres nat := l ← s_port_list; HOk (length l).
  (** [get_connections], [port_links], [links], [all_links] *)
  Definition s_conn (a b : nat) : hres (list (E * E)) := if memb a && memb b then lv_conn V a b else HOk [].
  Definition s_plinks (p : nat) : hres (list (E * E)) := l ← lv_plinks V p; HOk (filter (fun x => s_link x = true) l).
  Definition s_links (n : nat) (d : dir) : hres (list (E * E)) := l ← lv_links V n d; HOk (filter (fun x => s_link x = true) l).
  Definition s_all_links (n : nat) : hres (list (E * E)) := l ← lv_all_links V n; HOk (filter (fun x => s_link x = true) l).
  (** [neighbours], [all_neighbours] *)
  Definition s_neigh (n : nat) (d : dir) : hres (list nat) := l ← lv_neigh V n d; HOk (filter (fun x => memb x = true) l).
  Definition s_all_neigh (n : nat) : hres (list nat) := l ← lv_all_neigh V n; HOk (filter (fun x => memb x = true) l).
  (** [link_count] *)
  Definition s_link_count : hres nat := l ← nodes; ls ← hmap (fun n => s_links n Outgoing) l; HOk (length (concat ls)).

  Definition sub_view : lview E :=
    LV E (lv_port V) (lv_pnode V) (lv_pdir V) (lv_ports V) (lv_all_ports V)
      memb (fun p => HOk (s_has_port p)) nodes s_port_list count s_port_count empty
      s_plinks s_links s_all_links s_neigh s_all_neigh s_conn s_link_count.
End sub.
(** region.rs:286-311, flat_region.rs:255-280 [MultiView] *)
Definition sub_mview {E} (V : mview E) (memb : nat -> bool) (W : lview E) : mview E :=
  let G := mv_view V in
  let keep (x : E) := s_has_port G memb (lv_port G x) in
  MV E W
    (fun n d => l ← mv_subports V n d; HOk (filter (fun x => keep x = true) l))
    (fun n => l ← mv_all_subports V n; HOk (filter (fun x => keep x = true) l))
    (fun x => o ← mv_sublink V x; HOk (match o with Some y => if keep y then Some y else None | None => None end)).

(** ** [FlatRegion]; [ir]: include_root *)
(** flat_region.rs:116-120, 136-139 *)
Definition fr_has_node (h : hier) (root : nat) (ir : bool) (n : nat) : bool :=
  (ir && bool_decide (n = root)) || bool_decide (h_parent h n = Some root).
Definition fr_node_count (h : hier) (root : nat) (ir : bool) : nat := h_child_count h root + (if ir then 1 else 0).
(** hierarchy.rs:389-397, 604-622: all items of [children], which yields [len] items *)
Fixpoint children_list (k : nat) (h : hier) (s : children_st) : res (list nat) :=
  match k with
  | 0 => Ok []
  | S k => '(o, s) ← children_next h s;
           match o with Some c => l ← children_list k h s; Ok (c :: l) | None => Ok [] end
  end.
(** flat_region.rs:146-151 *)
Definition fr_nodes (h : hier) (root : nat) (ir : bool) : hres (list nat) :=
  l ← lift (children_list (S (children_len (h_children h root))) h (h_children h root));
  HOk ((if ir then [root] else []) ++ l).
(** flat_region.rs:130-134: [is_empty] is [false] *)
Definition flat_region {E} (V : lview E) (h : hier) (root : nat) (ir : bool) : lview E :=
  sub_view V (fr_has_node h root ir) (fr_nodes h root ir) (HOk (fr_node_count h root ir)) (HOk false).
Definition flat_region_m {E} (V : mview E) (h : hier) (root : nat) (ir : bool) : mview E :=
  sub_mview V (fr_has_node h root ir) (flat_region (mv_view V) h root ir).

(** ** [Region]: the membership cache, see RegionModel.v, decides [memb] *)
(** hierarchy.rs:405-407, 690-712: all items of [descendants]; a tree has at most as many
    nodes as there are stored entries, plus an unstored root *)
Fixpoint desc_list (fuel : nat) (h : hier) (s : desc_st) : hres (list nat) :=
  match desc_next h s with
  | (None, _) => HOk []
  | (Some n, s) => match fuel with 0 => HLoop | S fuel => l ← desc_list fuel h s; HOk (n :: l) end
  end.
(** region.rs:180-183 *)
Definition rg_nodes (h : hier) (root : nat) : hres (list nat) := desc_list (S (h_fuel h)) h (h_descendants root).
(** region.rs:164-173: [is_empty] is [false], [node_count] counts [nodes_iter] *)
Definition region {E} (V : lview E) (h : hier) (root : nat) (memb : nat -> bool) : lview E :=
  sub_view V memb (rg_nodes h root) (l ← rg_nodes h root; HOk (length l)) (HOk false).
Definition region_m {E} (V : mview E) (h : hier) (root : nat) (memb : nat -> bool) : mview E :=
  sub_mview V memb (region (mv_view V) h root memb).

(** ** [Subgraph]; [nodes] is the [BTreeSet], as its increasing list *)
(** subgraph.rs:175-178, 188-206 *)
Definition subgraph {E} (V : lview E) (nodes : list nat) : lview E :=
  sub_view V (fun n => bool_decide (n ∈ nodes)) (HOk nodes) (HOk (length nodes)) (HOk (bool_decide (nodes = []))).
(** subgraph.rs:307-320: here [subports] and [all_subports] are delegated *)
Definition subgraph_m {E} (V : mview E) (nodes : list nat) : mview E :=
  let W := sub_mview V (fun n => bool_decide (n ∈ nodes)) (subgraph (mv_view V) nodes) in
  MV E (mv_view W) (mv_subports V) (mv_all_subports V) (mv_sublink W).

(** ** Default methods (view.rs:345-387) *)
Definition lv_conn1 {E} (V : lview E) (a b : nat) : hres (option (E * E)) := l ← lv_conn V a b; HOk (head l).
Definition lv_connected {E} (V : lview E) (a b : nat) : hres bool := o ← lv_conn1 V a b; HOk (match o with Some _ => true | None => false end).
Definition lv_plink {E} (V : lview E) (p : nat) : hres (option E) := l ← lv_plinks V p; HOk (snd <$> head l).
