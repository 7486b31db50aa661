(** Properties C17 and C18 of properties.jsonl. *)
From Verif Require Export PG2Props PG3Thms.


(** C17, graph iterators. [nodes_iter] and [ports_iter] list exactly the nodes
    and ports, in ascending order, as many as [node_count] and [port_count];
    every interleaving of [next] and [next_back] takes from that list's ends,
    never panics, and the reported length is the number of items left. *)
Theorem C17_nodes_and_ports :
  forall w g, reach w g ->
    (forall n, n ∈ nodes_iter g <-> contains_node g n = true) /\
    StronglySorted lt (nodes_iter g) /\ length (nodes_iter g) = node_count g /\
    (forall sched, run_iter nodes_next nodes_next_back snd sched (nodes_init g) = Ok (deque sched (nodes_iter g))) /\
    (forall p, p ∈ ports_iter g <-> contains_port g p = true) /\
    StronglySorted lt (ports_iter g) /\ length (ports_iter g) = port_count g /\
    (forall sched, run_iter ports_next ports_next_back snd sched (ports_iter_init g) = Ok (deque sched (ports_iter g))).
Proof. exact C17_nodes_and_ports_pf. Qed.
Print Assumptions C17_nodes_and_ports.

Example C17_nodes_nonvacuous : reach 16 ex_g' /\ nodes_iter ex_g' = [1; 2] /\
  run_iter nodes_next nodes_next_back snd [false; true; true] (nodes_init ex_g') = Ok [(Some 2, 1); (Some 1, 0); (None, 0)].
Proof. split; [apply ex_reach'|]. vm_compute. done. Qed.

(** C17, node iterators. [ports(n, dir)], [all_ports(n)] and the offset iterators
    list the ports of [n] (offsets 0, 1, ...; inputs first) from both ends, and
    [port_index] at the listed offset is the listed port. *)
Theorem C17_node_ports :
  forall w g n, (1 < w <= 63)%N -> reach w g ->
    (forall d, (N.of_nat (num_ports g n d) <= po_max_offset w + 1)%N) ->
    (forall d sched, run_iter (fun r => Ok (rng_next r)) (fun r => Ok (rng_next_back r)) rng_len sched (ports_init g n d)
       = Ok (deque sched (ports g n d))) /\
    (forall sched, run_iter (fun r => Ok (rng_next r)) (fun r => Ok (rng_next_back r)) rng_len sched (all_ports_init g n)
       = Ok (deque sched (ports g n Incoming ++ ports g n Outgoing))) /\
    exists oi oo,
      length oi = num_ports g n Incoming /\ length oo = num_ports g n Outgoing /\
      (forall k o, oi !! k = Some o -> po_new w Incoming (N.of_nat k) = Ok o /\
         port_index w g n o = Ok (ports g n Incoming !! k)) /\
      (forall k o, oo !! k = Some o -> po_new w Outgoing (N.of_nat k) = Ok o /\
         port_index w g n o = Ok (ports g n Outgoing !! k)) /\
      (forall sched, run_iter (offs_next w) (offs_next_back w) offs_len sched (port_offsets_init g n Incoming) = Ok (deque sched oi)) /\
      (forall sched, run_iter (offs_next w) (offs_next_back w) offs_len sched (port_offsets_init g n Outgoing) = Ok (deque sched oo)) /\
      (forall sched, run_iter (offs_next w) (offs_next_back w) offs_len sched (all_port_offsets_init g n) = Ok (deque sched (oi ++ oo))).
Proof. exact C17_node_ports_pf. Qed.
Print Assumptions C17_node_ports.

Example C17_ports_nonvacuous : (1 < 16 <= 63)%N /\ reach 16 ex_g /\
  (forall d, (N.of_nat (num_ports ex_g 0 d) <= po_max_offset 16 + 1)%N) /\
  run_iter (fun r => Ok (rng_next r)) (fun r => Ok (rng_next_back r)) rng_len [true; false; true] (ports_init ex_g 0 Outgoing)
    = Ok [(Some 9, 2); (Some 11, 1); (Some 10, 0)].
Proof.
  split; [done|]. split; [apply ex_reach|]. split; [|done]. intros []; vm_compute; congruence.
Qed.

(** C18, links of a node. [links(n, dir)] is the list of (port, partner) for the
    linked ports of [n] in that direction, in offset order; [all_links(n)] the
    same over all ports of [n], leaving out the entry at the incoming end of a
    self-link, so every link at [n] occurs exactly once; [neighbours] and
    [all_neighbours] list the owners of the partners. Calling [next] any
    number of times yields these lists and then nothing. If [n] is not a node
    all are empty. *)
Theorem C18_links :
  forall w g n, reach w g ->
    (forall d, exists L N s,
       links g n d = Ok L /\ L = omap (link_of g) (ports g n d) /\
       neighbours g n d = Ok N /\ Forall2 (fun x m => port_node g x.2 = Some m) L N /\
       links_init g n d = Ok s /\
       (forall k, run_fwd (fun s => Ok (links_next s)) k s = Ok (fwd k L)) /\
       (forall k, run_fwd (neigh_next g) k s = Ok (fwd k N))) /\
    (exists L N s,
       all_links g n = Ok L /\
       L = filter (fun x => ~ (port_direction g x.1 = Some Incoming /\ port_node g x.2 = Some n))
             (omap (link_of g) (ports g n Incoming ++ ports g n Outgoing)) /\
       all_neighbours g n = Ok N /\ Forall2 (fun x m => port_node g x.2 = Some m) L N /\
       NoDup L /\
       (forall p q, (p, q) ∈ L -> linked g p q /\ port_node g p = Some n) /\
       (forall p q, linked g p q -> port_node g p = Some n -> port_node g q <> Some n -> (p, q) ∈ L) /\
       (forall p q, linked g p q -> port_node g p = Some n -> port_node g q = Some n ->
          ((p, q) ∈ L <-> port_direction g p = Some Outgoing) /\ ((q, p) ∈ L <-> (p, q) ∉ L)) /\
       all_links_init g n = Ok s /\
       (forall k, run_fwd (fun s => Ok (links_next s)) k s = Ok (fwd k L)) /\
       (forall k, run_fwd (neigh_next g) k s = Ok (fwd k N))).
Proof. exact C18_links_pf. Qed.
Print Assumptions C18_links.

Example C18_links_nonvacuous : reach 16 ex_g /\ links ex_g 0 Outgoing = Ok [(9, 3); (10, 8)] /\
  links ex_g 0 Incoming = Ok [(8, 10)] /\ all_links ex_g 0 = Ok [(9, 3); (10, 8)] /\ all_neighbours ex_g 0 = Ok [1; 0].
Proof. split; [apply ex_reach|]. vm_compute. done. Qed.

(** C18, links between two nodes. [get_connections(a, b)] lists, each once and in
    offset order, exactly the links from an output of [a] to an input of [b];
    [get_connection] is its first element, [connected] says whether there is
    one. *)
Theorem C18_connections :
  forall w g a b, reach w g ->
    exists C s, get_connections g a b = Ok C /\
      C = filter (fun x => port_node g x.2 = Some b) (omap (link_of g) (ports g a Outgoing)) /\
      (forall p q, (p, q) ∈ C <-> linked g p q /\ port_node g p = Some a /\ port_direction g p = Some Outgoing /\
         port_node g q = Some b /\ port_direction g q = Some Incoming) /\
      NoDup C /\
      get_connection g a b = Ok (head C) /\
      (exists c, connected g a b = Ok c /\ (c = true <-> exists p q, linked g p q /\ port_node g p = Some a /\
         port_direction g p = Some Outgoing /\ port_node g q = Some b)) /\
      links_init g a Outgoing = Ok s /\
      (forall k, run_fwd (fun s => Ok (conn_next g b s)) k s = Ok (fwd k C)).
Proof. exact C18_connections_pf. Qed.
Print Assumptions C18_connections.

Example C18_connections_nonvacuous : reach 16 ex_g /\ get_connections ex_g 0 1 = Ok [(9, 3)] /\ connected ex_g 0 1 = Ok true /\
  connected ex_g 1 0 = Ok false.
Proof. split; [apply ex_reach|]. vm_compute. done. Qed.
