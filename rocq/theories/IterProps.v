(** Properties C88 and C89: iterators, step by step. *)
From Verif Require Export IterThms PG1Props.

(** C88 as stated is false: on a node with a link to itself [all_links] lists that
link once, but taken from the back it yields it twice ([next_back] does not
look at the ignored targets). *)
Theorem C88_links_both_ends_refuted :
exists w g n s L, reach w g /\ all_links_init g n = Ok s /\ all_links g n = Ok L /\ length L = 1 /\
  exists x y h1 h2, x <> y /\
    run_hint (fun s => Ok (links_next s)) (fun s => Ok (links_next_back s)) links_hint [false; false] s =
      Ok [(Some x, h1); (Some y, h2)].
Proof. exact C88_links_both_ends_refuted_pf. Qed.
Print Assumptions C88_links_both_ends_refuted.

(** C88, guarded. [links], [neighbours] and [get_connections] yield the items of
their lists from both ends in any interleaving, then [None] for ever, and their
size hints bracket what is left; so do [all_links] and [all_neighbours] with
[next] alone, and from both ends if no link joins the node to itself. Missing:
[next_back] on a node with such a link. *)
Theorem C88_links_both_ends_partial :
forall w g n, reach w g ->
  (forall d, exists s L N, links_init g n d = Ok s /\ links g n d = Ok L /\ neighbours g n d = Ok N /\
     iter_ok (fun s => Ok (links_next s)) (fun s => Ok (links_next_back s)) links_hint s L /\
     iter_ok (neigh_next g) (neigh_next_back g) links_hint s N) /\
  (forall b, exists s C, links_init g n Outgoing = Ok s /\ get_connections g n b = Ok C /\
     iter_ok (fun s => Ok (conn_next g b s)) (fun s => Ok (conn_next_back g b s)) links_hint s C) /\
  (exists s L N, all_links_init g n = Ok s /\ all_links g n = Ok L /\ all_neighbours g n = Ok N /\
     fwd_ok (fun s => Ok (links_next s)) links_hint s L /\
     fwd_ok (neigh_next g) links_hint s N /\
     ((forall p q, linked g p q -> port_node g p = Some n -> port_node g q <> Some n) ->
        iter_ok (fun s => Ok (links_next s)) (fun s => Ok (links_next_back s)) links_hint s L /\
        iter_ok (neigh_next g) (neigh_next_back g) links_hint s N)).
Proof. exact C88_links_both_ends_partial_pf. Qed.
Print Assumptions C88_links_both_ends_partial.

(** Node 0 of the graph of C01 has the links 9 - 3 and 10 - 8. *)
Example C88_links_both_ends_nonvacuous : reach 16 ex_g /\
  links_init ex_g 0 Outgoing = Ok ([(9, Some 3); (10, Some 8); (11, None)], (0, 0)) /\
  run_hint (fun s => Ok (links_next s)) (fun s => Ok (links_next_back s)) links_hint [false; true; true]
    ([(9, Some 3); (10, Some 8); (11, None)], (0, 0)) =
    Ok [(Some (10, 8), (0, Some 1)); (Some (9, 3), (0, Some 0)); (None, (0, Some 0))].
Proof. split; [apply ex_reach|]. split; vm_compute; reflexivity. Qed.

(** C89 as stated is false: the iterator of [port_links] on a port without a link
says that one item is left, and yields none. *)
Theorem C89_multi_iterators_refuted :
exists w m p s, mreach w m /\ m_contains_port m p = true /\ pl_new m p = Ok s /\
  pl_hint s = (1, Some 1) /\ exists s', pl_next w m s = Ok (None, s').
Proof. exact C89_multi_iterators_refuted_pf. Qed.
Print Assumptions C89_multi_iterators_refuted.

(** C89, guarded. After allowed calls the iterators of a multigraph yield exactly
the items of their lists, [nodes_iter], [ports_iter] and [port_links] from both
ends in any interleaving, then [None] for ever, and their size hints bracket
what is left; the loops of [next] end (any fuel above a bound will do). Missing:
the lower bound of [port_links] on a port without links. *)
Theorem C89_multi_iterators_partial :
forall w m n, (2 < w <= 63)%N -> mreach w m -> m_contains_node m n = true ->
  (exists s, mn_init m = Ok s /\ iter_ok (mn_next m) (mn_next_back m) mn_hint s (m_nodes_iter m)) /\
  (exists l, m_ports_iter m = Ok l /\ iter_ok (mp_next m) (mp_next_back m) mp_hint (ports_iter_init (m_graph m)) l) /\
  (forall p, m_contains_port m p = true -> exists s l, pl_new m p = Ok s /\ m_port_links w m p = Ok l /\
     iter_ok (pl_next w m) (pl_next_back w m) (fun s => (0, (pl_hint s).2)) s l /\
     (l <> [] -> iter_ok (pl_next w m) (pl_next_back w m) pl_hint s l)) /\
  (forall d, exists l, m_subports m n d = Ok l /\ fwd_ok (ns_next m) ns_hint (ns_init (ports (m_graph m) n d)) l) /\
  (exists l, m_all_subports m n = Ok l /\ fwd_ok (ns_next m) ns_hint (ns_init (all_ports (m_graph m) n)) l) /\
  exists K, forall k, K <= k ->
    (forall d, exists l, m_neighbours w m n d = Ok l /\
       fwd_ok (nb_next w m n false k) no_hint (ns_init (ports (m_graph m) n d), None) l) /\
    (exists l, m_all_neighbours w m n = Ok l /\
       fwd_ok (nb_next w m n true k) no_hint (ns_init (all_ports (m_graph m) n), None) l) /\
    (forall d, exists l, m_links w m n d = Ok l /\ fwd_ok (nl_next w m k) no_hint (nl_links m n d) l) /\
    (exists l, m_all_links w m n = Ok l /\ fwd_ok (nl_next w m k) no_hint (nl_all_links m n) l) /\
    (forall b, exists l, m_get_connections w m n b = Ok l /\
       fwd_ok (nc_next w m b k k) no_hint (nl_links m n Outgoing) l).
Proof. exact C89_multi_iterators_partial_pf. Qed.
Print Assumptions C89_multi_iterators_partial.

(** In the multigraph of C73: the links of the multiport 1 from both ends. *)
Example C89_multi_iterators_nonvacuous : mreach 16 mx /\ m_contains_node mx 0 = true /\
  (exists s, pl_new mx 1 = Ok s /\ run_hint (pl_next 16 mx) (pl_next_back 16 mx) pl_hint [false; true; false; true] s =
    Ok [(Some ((1, 2), (4, 0)), (0, Some 2)); (Some ((1, 0), (3, 0)), (0, Some 1)); (Some ((1, 1), (3, 1)), (0, Some 0)); (None, (0, Some 0))]) /\
  run_hint (ns_next mx) (ns_next mx) ns_hint [true; true; true; true; true] (ns_init (ports (m_graph mx) 0 Outgoing)) =
    Ok [(Some (1, 0), (3, None)); (Some (1, 1), (2, None)); (Some (1, 2), (1, None)); (Some (2, 0), (0, None)); (None, (0, None))].
Proof.
  split; [apply mx_reach|]. split; [vm_compute; reflexivity|]. split; [|vm_compute; reflexivity].
  eexists. split; [vm_compute; reflexivity|]. vm_compute. reflexivity.
Qed.
