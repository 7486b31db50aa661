(** Properties C01-C09 of properties.jsonl. [w] is the bit width of the port
    offset type; the vocabulary is in PGSpec.v. *)
From Verif Require Export PG1Thms.

(** A non-trivial history used to show that hypotheses are met: three nodes,
    two links (one of them a self-link), a resize that moves ports, a removal. *)
Definition ex_ops : list op :=
  [OAdd 1 2; OAdd 2 1; OAdd 1 1; OLink 1 3; OLink 2 0; OSetPorts 0 1 3; ORemove 2; OAdd 0 1].
Definition ex_g : pg := default pg_new (run 16 ex_ops pg_new).
Lemma ex_hist : hist 16 ex_ops ex_g.
Proof. apply run_hist. vm_compute. reflexivity. Qed.
Lemma ex_reach : reach 16 ex_g.
Proof. exists ex_ops. apply ex_hist. Qed.


(** C01. Links are symmetric, join two different ports of opposite directions,
    and both ends are ports of the graph; a port has at most one partner. *)
Theorem C01_links_symmetric :
  forall w g p q, reach w g -> linked g p q ->
    linked g q p /\ p <> q /\
    contains_port g p = true /\ contains_port g q = true /\
    (exists d, port_direction g p = Some d /\ port_direction g q = Some (rev_dir d)) /\
    (forall r, linked g p r -> r = q) /\ (forall r, linked g r q -> r = p).
Proof. exact C01_links_symmetric_pf. Qed.
Print Assumptions C01_links_symmetric.

Example C01_nonvacuous : reach 16 ex_g /\ linked ex_g 9 3 /\ linked ex_g 10 8.
Proof. split; [apply ex_reach|done]. Qed.

(** C02. For offsets the offset type can express, [port_index] finds a port
    exactly below [num_ports], and that port knows its node, direction and
    offset; every port is some node's port at some offset; no port is at two
    places; the ports of a node are consecutive indices, inputs first. *)
Theorem C02_ports_and_nodes :
  forall w g, (1 < w <= 63)%N -> reach w g ->
    (forall n d i, (i <= po_max_offset w)%N -> exists o, po_new w d i = Ok o /\
       (port_index w g n o = Ok None <-> num_ports g n d <= N.to_nat i) /\
       (forall p, port_index w g n o = Ok (Some p) ->
          N.to_nat i < num_ports g n d /\ port_at g n d (N.to_nat i) p /\
          contains_node g n = true /\ contains_port g p = true /\
          port_node g p = Some n /\ port_direction g p = Some d /\ port_offset w g p = Ok (Some o))) /\
    (forall n d k, is_Some (ports g n d !! k) <-> k < num_ports g n d) /\
    (forall n d, num_ports g n d <> 0 -> contains_node g n = true) /\
    (forall n d k p, port_at g n d k p ->
       contains_port g p = true /\ port_node g p = Some n /\ port_direction g p = Some d) /\
    (forall p, contains_port g p = true -> exists n d k, port_at g n d k p) /\
    (forall n d k n' d' k' p, port_at g n d k p -> port_at g n' d' k' p -> n = n' /\ d = d' /\ k = k') /\
    (forall n, ports g n Incoming ++ ports g n Outgoing = all_ports g n /\
       exists s, all_ports g n = seq s (num_ports g n Incoming + num_ports g n Outgoing)).
Proof. exact C02_ports_and_nodes_pf. Qed.
Print Assumptions C02_ports_and_nodes.

Example C02_nonvacuous :
  (1 < 16 <= 63)%N /\ reach 16 ex_g /\ po_new 16 Outgoing 2 = Ok 32770%N /\
  port_index 16 ex_g 0 32770 = Ok (Some 11) /\ port_offset 16 ex_g 11 = Ok (Some 32770%N).
Proof. split; [done|]. split; [apply ex_reach|done]. Qed.

(** C03. The counters equal the number of nodes, ports, and linked outgoing
    ports; [is_empty] holds exactly when there is no node and no port, and a
    graph without nodes has no ports. *)
Theorem C03_counts :
  forall w g, reach w g ->
    card (fun n => contains_node g n = true) (node_count g) /\
    card (fun p => contains_port g p = true) (port_count g) /\
    card (fun p => port_direction g p = Some Outgoing /\ exists q, linked g p q) (link_count g) /\
    card (fun p => port_direction g p = Some Incoming /\ exists q, linked g p q) (link_count g) /\
    (is_empty g = true <-> forall n, contains_node g n = false).
Proof. exact C03_counts_pf. Qed.
Print Assumptions C03_counts.

Example C03_nonvacuous :
  reach 16 ex_g /\ node_count ex_g = 3 /\ port_count ex_g = 8 /\ link_count ex_g = 2.
Proof. split; [apply ex_reach|done]. Qed.

(** C04. Within the limits, [add_node] returns an index that was not a node; it
    now has exactly the requested ports, which were not ports before and are
    unlinked; every other node and every other port looks the same. *)
Theorem C04_add_node :
  forall w g i j g' n, reach w g -> (N.of_nat i <= 65534 /\ N.of_nat (i + j) <= 65535)%N ->
    add_node (po_max_offset w) g i j = Ok (g', n) ->
    contains_node g n = false /\ contains_node g' n = true /\
    num_ports g' n Incoming = i /\ num_ports g' n Outgoing = j /\
    (forall d p, p ∈ ports g' n d -> contains_port g p = false /\ unlinked g' p /\
                                     port_node g' p = Some n /\ port_direction g' p = Some d) /\
    (forall x, x <> n -> same_node g g' x) /\
    (forall p, port_node g' p <> Some n -> same_port g g' p) /\
    node_count g' = node_count g + 1 /\ port_count g' = port_count g + (i + j) /\ link_count g' = link_count g.
Proof. exact C04_add_node_pf. Qed.
Print Assumptions C04_add_node.

(** [add_node] reusing a freed slab of two ports *)
Example C04_nonvacuous :
  reach 16 ex_g /\ exists g', add_node (po_max_offset 16) ex_g 1 1 = Ok (g', 3) /\ ports g' 3 Incoming = [6].
Proof. split; [apply ex_reach|]. eexists. vm_compute. done. Qed.

(** C05. [remove_node] on a node returns normally, removes that node and its ports,
    unlinks exactly the partners of its ports, and leaves all other nodes,
    ports and links as they were. On another index it changes nothing. *)
Theorem C05_remove_node :
  forall w g n, reach w g ->
    exists g', remove_node g n = Ok g' /\
    (contains_node g n = false -> g' = g) /\
    (contains_node g n = true ->
       contains_node g' n = false /\
       (forall x, x <> n -> same_node g g' x) /\
       (forall p, contains_port g' p = true <-> contains_port g p = true /\ port_node g p <> Some n) /\
       (forall p, contains_port g' p = true ->
          port_node g' p = port_node g p /\ port_direction g' p = port_direction g p) /\
       (forall p q, linked g' p q <->
          linked g p q /\ port_node g p <> Some n /\ port_node g q <> Some n) /\
       node_count g = node_count g' + 1 /\
       port_count g = port_count g' + (num_ports g n Incoming + num_ports g n Outgoing)).
Proof. exact C05_remove_node_pf. Qed.
Print Assumptions C05_remove_node.

(** Removing the node with a self-link and a link to another node *)
Example C05_nonvacuous :
  reach 16 ex_g /\ contains_node ex_g 0 = true /\
  exists g', remove_node ex_g 0 = Ok g' /\ node_count g' = 2 /\ link_count g' = 0 /\ unlinked g' 3.
Proof. split; [apply ex_reach|]. split; [done|]. eexists. vm_compute. done. Qed.

(** C06. After any history of allowed calls, every allowed call returns normally,
    provided the port counts do not exceed what the offset type, the 16-bit
    counters and the slab allocator support, and the slots requested over the
    whole history stay below the 2^31 - 1 indices available. *)
Theorem C06_no_panic :
  forall w ops g o, hist w ops g -> allowed g o ->
    match o with
    | OAdd i j => (N.of_nat i <= po_max_offset w /\ N.of_nat j <= po_max_offset w)%N
    | OSetPorts n i j => (N.of_nat i <= 32768 /\ N.of_nat j <= 32768 /\ N.of_nat (i + j) <= 32768)%N
    | _ => True
    end ->
    (N.of_nat (sum_list (node_cost <$> ops ++ [o])) <= 2 ^ 31 - 1)%N ->
    (N.of_nat (sum_list (port_cost <$> ops ++ [o])) <= 2 ^ 31 - 1)%N ->
    exists g' r, step w g o = Ok (g', r).
Proof. exact C06_no_panic_pf. Qed.
Print Assumptions C06_no_panic.

Example C06_nonvacuous :
  hist 16 ex_ops ex_g /\ allowed ex_g (OSetPorts 1 0 9) /\
  (N.of_nat (sum_list (node_cost <$> ex_ops ++ [OSetPorts 1 0 9])) <= 2 ^ 31 - 1)%N /\
  (N.of_nat (sum_list (port_cost <$> ex_ops ++ [OSetPorts 1 0 9])) <= 2 ^ 31 - 1)%N.
Proof. split; [apply ex_hist|]. split; [done|]. vm_compute. split; congruence. Qed.

(** C07. [link_ports(a, b)] returns normally; it succeeds exactly when both are
    ports of opposite directions and both are unlinked. It then links exactly
    [a] and [b]. Otherwise the graph is unchanged, and the error tells the
    cause. *)
Theorem C07_link_ports :
  forall w g a b, reach w g ->
    exists g' r, link_ports g a b = Ok (g', r) /\
    ((exists x, r = inr x) <->
       (exists d, port_direction g a = Some d /\ port_direction g b = Some (rev_dir d)) /\
       unlinked g a /\ unlinked g b) /\
    (forall x, r = inr x ->
       x = (a, b) /\ linked g' a b /\ linked g' b a /\ (forall p, p <> a -> p <> b -> same_port g g' p) /\
       (forall n, same_node g g' n) /\
       (forall p, contains_port g' p = contains_port g p /\ port_node g' p = port_node g p /\
                  port_direction g' p = port_direction g p) /\
       node_count g' = node_count g /\ port_count g' = port_count g /\ link_count g' = link_count g + 1) /\
    (forall e, r = inl e ->
       g' = g /\
       match e with
       | UnknownPort _ => contains_port g a = false \/ contains_port g b = false
       | IncompatibleDirections p q d => p = a /\ q = b /\
           port_direction g a = Some d /\ port_direction g b = Some d
       | AlreadyLinked p => (p = a \/ p = b) /\ exists q, linked g p q
       | UnknownOffset _ _ _ => False
       end).
Proof. exact C07_link_ports_pf. Qed.
Print Assumptions C07_link_ports.

Example C07_nonvacuous :
  reach 16 ex_g /\
  (exists g', link_ports ex_g 12 4 = Ok (g', inr (12, 4))) /\
  link_ports ex_g 12 11 = Ok (ex_g, inl (IncompatibleDirections 12 11 Outgoing)) /\
  link_ports ex_g 12 3 = Ok (ex_g, inl (AlreadyLinked 3)) /\
  link_ports ex_g 0 3 = Ok (ex_g, inl (UnknownPort 0)).
Proof. split; [apply ex_reach|]. split; [eexists; vm_compute; done|done]. Qed.

(** C08 is false: with a valid first port and an invalid second one, the error
    names the valid port (portgraph.rs:765). *)
Theorem C08_unknown_port_refuted :
  exists w g a b g' p, reach w g /\ link_ports g a b = Ok (g', inl (UnknownPort p)) /\
    contains_port g p = true.
Proof. exact C08_unknown_port_refuted_pf. Qed.
Print Assumptions C08_unknown_port_refuted.

(** C08, what holds: one of the two arguments is not a port, and the error always
    names the first argument; so it is right whenever the first is invalid. *)
Theorem C08_unknown_port_partial :
  forall w g a b g' p, reach w g -> link_ports g a b = Ok (g', inl (UnknownPort p)) ->
    p = a /\ (contains_port g a = false \/ contains_port g b = false).
Proof. exact C08_unknown_port_partial_pf. Qed.
Print Assumptions C08_unknown_port_partial.

Example C08_nonvacuous : reach 16 ex_g /\ link_ports ex_g 0 3 = Ok (ex_g, inl (UnknownPort 0)).
Proof. split; [apply ex_reach|done]. Qed.

(** C09. [unlink_port(p)] returns normally. If [p] is linked to [q] it returns
    [q]; afterwards exactly these two are unlinked. Otherwise it returns None
    and nothing changes. *)
Theorem C09_unlink_port :
  forall w g p, reach w g ->
    exists g' r, unlink_port g p = Ok (g', r) /\
    (forall q, r = Some q <-> linked g p q) /\
    (r = None -> g' = g) /\
    (forall q, r = Some q ->
       unlinked g' p /\ unlinked g' q /\
       (forall x, x <> p -> x <> q -> same_port g g' x) /\
       (forall x, contains_port g' x = contains_port g x /\ port_node g' x = port_node g x /\
                  port_direction g' x = port_direction g x) /\
       (forall n, same_node g g' n) /\
       node_count g' = node_count g /\ port_count g' = port_count g /\ link_count g = link_count g' + 1).
Proof. exact C09_unlink_port_pf. Qed.
Print Assumptions C09_unlink_port.

Example C09_nonvacuous :
  reach 16 ex_g /\ linked ex_g 10 8 /\ exists g', unlink_port ex_g 8 = Ok (g', Some 10) /\ link_count g' = 1.
Proof. split; [apply ex_reach|]. split; [done|]. eexists. vm_compute. done. Qed.

(** C09, second part: linking two ports and unlinking either of them gives back
    literally the same graph. *)
Theorem C09_link_unlink :
  forall w g a b g1 x p g2 r, reach w g -> link_ports g a b = Ok (g1, inr x) -> (p = a \/ p = b) ->
    unlink_port g1 p = Ok (g2, r) -> g2 = g /\ r = Some (if decide (p = a) then b else a).
Proof. exact C09_link_unlink_pf. Qed.
Print Assumptions C09_link_unlink.

Example C09_link_unlink_nonvacuous :
  reach 16 ex_g /\ exists g1, link_ports ex_g 12 4 = Ok (g1, inr (12, 4)) /\ unlink_port g1 4 = Ok (ex_g, Some 12).
Proof. split; [apply ex_reach|]. eexists. vm_compute. done. Qed.
