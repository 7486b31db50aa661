(** Vocabulary for stating properties of graph views. *)
From Verif Require Export ViewModel MultiSpec HierSpec.

(** Port [p] of the underlying graph belongs to a node in [N]. *)
Definition port_in {E} (V : lview E) (N : nat -> Prop) (p : nat) : Prop := exists n, lv_pnode V p = Some n /\ N n.

(** [shows V N R]: as far as the methods of the view [V] tell, it is a graph
    whose nodes are [N], whose ports are the ports of these nodes, and whose
    links are [R]. *)
Record shows {E} (V : lview E) (N : nat -> Prop) (R : E -> E -> Prop) : Prop := Shows {
  (* contains_node, nodes_iter, node_count *)
  lvs_node n : lv_has_node V n = true <-> N n;
  lvs_nodes : exists L, lv_nodes V = HOk L /\ NoDup L /\ (forall n, n ∈ L <-> N n) /\ lv_node_count V = HOk (length L);
  (* contains_port, ports_iter, port_count *)
  lvs_port p : exists b, lv_has_port V p = HOk b /\ (b = true <-> port_in V N p);
  lvs_port_list : exists L, lv_port_list V = HOk L /\ NoDup L /\ (forall p, p ∈ L <-> port_in V N p) /\
    lv_port_count V = HOk (length L);
  (* ports, all_ports, port_node, port_direction *)
  lvs_ports n d : N n -> NoDup (lv_ports V n d) /\
    forall p, p ∈ lv_ports V n d <-> lv_pnode V p = Some n /\ lv_pdir V p = Some d;
  lvs_all_ports n : lv_all_ports V n = lv_ports V n Incoming ++ lv_ports V n Outgoing;
  lvs_dir p : lv_pnode V p <> None -> lv_pdir V p <> None;
  (* links are symmetric, join ports of visible nodes of opposite directions,
     and each link end has at most one link *)
  lvs_sym x y : R x y -> R y x;
  lvs_fun x y z : R x y -> R x z -> y = z;
  lvs_end x y : R x y -> port_in V N (lv_port V x);
  lvs_opp x y d : R x y -> lv_pdir V (lv_port V x) = Some d -> lv_pdir V (lv_port V y) = Some (rev_dir d);
  (* port_links *)
  lvs_plinks p : port_in V N p -> exists l, lv_plinks V p = HOk l /\ NoDup l /\
    forall x y, (x, y) ∈ l <-> lv_port V x = p /\ R x y;
  (* links, neighbours: port after port *)
  lvs_links n d : N n -> exists ls l r, Forall2 (fun p l => lv_plinks V p = HOk l) (lv_ports V n d) ls /\
    l = concat ls /\ lv_links V n d = HOk l /\ lv_neigh V n d = HOk r /\
    Forall2 (fun x m => lv_pnode V (lv_port V x.2) = Some m) l r;
  (* all_links, all_neighbours: a link from the node to itself is listed from
     its output only *)
  lvs_all_links n : N n -> exists li lo l r, lv_links V n Incoming = HOk li /\ lv_links V n Outgoing = HOk lo /\
    sublist l (li ++ lo) /\
    (forall x, x ∈ l <-> x ∈ li ++ lo /\ ~ (lv_pdir V (lv_port V x.1) = Some Incoming /\ lv_pnode V (lv_port V x.2) = Some n)) /\
    lv_all_links V n = HOk l /\ lv_all_neigh V n = HOk r /\
    Forall2 (fun x m => lv_pnode V (lv_port V x.2) = Some m) l r;
  (* get_connections *)
  lvs_conn a b : N a -> exists lo l, lv_links V a Outgoing = HOk lo /\ lv_conn V a b = HOk l /\ sublist l lo /\
    forall x, x ∈ l <-> x ∈ lo /\ lv_pnode V (lv_port V x.2) = Some b;
}.

(** The links [R] of the view, each listed once as the pair of its output and its
    input end. *)
Definition link_list {E} (V : lview E) (R : E -> E -> Prop) (L : list (E * E)) : Prop :=
  NoDup L /\ forall x y, (x, y) ∈ L <-> R x y /\ lv_pdir V (lv_port V x) = Some Outgoing.
(** [link_count] is the number of links *)
Definition counts_links {E} (V : lview E) (R : E -> E -> Prop) : Prop :=
  exists L, link_list V R L /\ lv_link_count V = HOk (length L).
(** [is_empty] tells whether there are no nodes *)
Definition tells_empty {E} (V : lview E) (N : nat -> Prop) : Prop :=
  exists b, lv_empty V = HOk b /\ (b = true <-> forall n, ~ N n).
(** [subports], [all_subports], [subport_link] of a visible node *)
Record shows_sub {E} (V : mview E) (N : nat -> Prop) (R : E -> E -> Prop) : Prop := ShowsSub {
  ss_subports n d : N n -> exists l, mv_subports V n d = HOk l /\ NoDup l /\
    (forall x, x ∈ l -> lv_port (mv_view V) x ∈ lv_ports (mv_view V) n d) /\
    (forall x y, R x y -> lv_port (mv_view V) x ∈ lv_ports (mv_view V) n d -> x ∈ l);
  ss_all_subports n : N n -> exists li lo, mv_subports V n Incoming = HOk li /\ mv_subports V n Outgoing = HOk lo /\
    mv_all_subports V n = HOk (li ++ lo);
  ss_sublink n d l x : N n -> mv_subports V n d = HOk l -> x ∈ l -> exists o, mv_sublink V x = HOk o /\
    forall y, o = Some y <-> R x y;
}.

(** The links left by a node filter and a link filter. *)
Definition link_passes {E} (V : lview E) (nf lf : nat -> bool) (R : E -> E -> Prop) (x y : E) : Prop :=
  R x y /\ port_in V (fun n => nf n = true) (lv_port V x) /\ port_in V (fun n => nf n = true) (lv_port V y) /\
  lf (lv_port V x) = true /\ lf (lv_port V y) = true.
(** The links between nodes in [S]. *)
Definition link_inside {E} (V : lview E) (S : nat -> Prop) (R : E -> E -> Prop) (x y : E) : Prop :=
  R x y /\ port_in V S (lv_port V x) /\ port_in V S (lv_port V y).
