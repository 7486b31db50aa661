(** Properties C54 to C58 and C72 to C76 of properties.jsonl. *)
From Verif Require Export MultiThms.

(** C54 does not hold: [set_num_ports] that drops a port with two links while
another such port moves to its index (C58) leaves a multigraph where port 3
lists port 0 twice, but port 0 lists only itself; after one more link, a node
that is not in the graph is a neighbour of node 0. *)
Theorem C54_multi_links_refuted :
exists ops m p q lp lq, mplay 16 ops = Ok m /\ m_contains_port m p = true /\ m_contains_port m q = true /\
  m_port_links 16 m p = Ok lp /\ m_port_links 16 m q = Ok lq /\ times q lp = 0 /\ times p lq = 2 /\ times p lp = 1 /\
  exists m' r n x l, m_link_ports 16 m p q = Ok (m', inr r) /\ m_contains_node m' n = true /\
    m_neighbours 16 m' n Outgoing = Ok l /\ x ∈ l /\ m_contains_node m' x = false.
Proof. exact C54_multi_links_refuted_pf. Qed.
Print Assumptions C54_multi_links_refuted.

(** C54, what holds: in every multigraph with a history of allowed calls (those of
[mallowed], MultiSpec.v), links are reported equally often from both ends, with
opposite directions, each subport has at most one link, and everything that
[nodes_iter], [ports_iter], [links], [neighbours] report is contained in the
multigraph. *)
Theorem C54_multi_links_partial :
forall w m, (2 < w <= 63)%N -> mreach w m ->
  (forall p, m_contains_port m p = true -> exists l, m_port_links w m p = Ok l /\ NoDup l /\
     forall x y, (x, y) ∈ l -> x.1 = p /\ mlinked w m y x /\ m_contains_port m y.1 = true /\
       exists d, port_direction (m_graph m) p = Some d /\ port_direction (m_graph m) y.1 = Some (rev_dir d)) /\
  (forall p q lp lq, m_contains_port m p = true -> m_contains_port m q = true ->
     m_port_links w m p = Ok lp -> m_port_links w m q = Ok lq -> times q lp = times p lq) /\
  (forall x y z, mlinked w m x y -> mlinked w m x z -> y = z) /\
  (forall n, n ∈ m_nodes_iter m <-> m_contains_node m n = true) /\
  (exists l, m_ports_iter m = Ok l /\ forall p, p ∈ l <-> m_contains_port m p = true) /\
  (forall p, m_contains_port m p = true -> exists n, port_node (m_graph m) p = Some n /\ m_contains_node m n = true) /\
  (forall n d, m_contains_node m n = true -> exists l, m_neighbours w m n d = Ok l /\
     forall x, x ∈ l <-> m_contains_node m x = true /\
       exists p q, mlinked w m p q /\ port_node (m_graph m) p.1 = Some n /\ port_direction (m_graph m) p.1 = Some d /\
         port_node (m_graph m) q.1 = Some x).
Proof. exact C54_multi_links_partial_pf. Qed.
Print Assumptions C54_multi_links_partial.

Example C54_multi_links_nonvacuous : mreach 16 mx /\ m_nodes_iter mx = [0; 1] /\ m_neighbours 16 mx 0 Outgoing = Ok [1; 1; 1; 1] /\
  m_port_links 16 mx 1 = Ok [((1, 0), (3, 0)); ((1, 1), (3, 1)); ((1, 2), (4, 0))] /\
  m_port_links 16 mx 3 = Ok [((3, 0), (1, 0)); ((3, 1), (1, 1)); ((3, 2), (2, 0))].
Proof. split; [apply mx_reach|]. vm_compute. repeat split. Qed.

(** C55 does not hold: [link_ports(0, 2)], where port 2 does not exist yet, links to
a port of the copy node it creates (C72); three ports are left but
[port_count] is 2. *)
Theorem C55_multi_counts_refuted :
exists ops m l, mplay 16 ops = Ok m /\ m_ports_iter m = Ok l /\ length l = 3 /\ m_port_count m = Ok 2.
Proof. exact C55_multi_counts_refuted_pf. Qed.
Print Assumptions C55_multi_counts_refuted.

(** C55, what holds: after allowed calls the counts are the numbers of visible
nodes, ports, and links, a link being counted at its outgoing end, and
[nodes_iter] and [ports_iter] have as many items; [is_empty] tells whether there
are no visible nodes. *)
Theorem C55_multi_counts_partial :
forall w m, (2 < w <= 63)%N -> mreach w m ->
  exists kn kp kl lp, m_node_count m = Ok kn /\ m_port_count m = Ok kp /\ m_link_count m = Ok kl /\
    card (fun n => m_contains_node m n = true) kn /\ card (fun p => m_contains_port m p = true) kp /\
    card (fun x => mlinked w m x.1 x.2 /\ port_direction (m_graph m) x.1.1 = Some Outgoing) kl /\
    length (m_nodes_iter m) = kn /\ m_ports_iter m = Ok lp /\ length lp = kp /\
    exists e, m_is_empty m = Ok e /\ (e = true <-> forall n, m_contains_node m n = false).
Proof. exact C55_multi_counts_partial_pf. Qed.
Print Assumptions C55_multi_counts_partial.

Example C55_multi_counts_nonvacuous : mreach 16 mx /\ m_node_count mx = Ok 2 /\ m_port_count mx = Ok 6 /\ m_link_count mx = Ok 4 /\
  node_count (m_graph mx) = 4 /\ port_count (m_graph mx) = 14.
Proof. split; [apply mx_reach|]. vm_compute. repeat split. Qed.

(** C56, what holds: in a multigraph with a history of allowed calls, [link_ports]
on two ports of opposite directions with [room] for another link adds exactly
one link between fresh subports of the two ports, keeps all other links, nodes
and ports, and [subport_link] of the returned subports gives the partner; it
does not panic while the port and node indices stay within bounds. *)
Theorem C56_multi_link_partial :
forall w m a b d, (2 < w <= 63)%N -> mreach w m ->
  m_contains_port m a = true -> m_contains_port m b = true ->
  port_direction (m_graph m) a = Some d -> port_direction (m_graph m) b = Some (rev_dir d) ->
  room w m a -> room w m b ->
  (forall m' r, m_link_ports w m a b = Ok (m', r) ->
    mreach w m' /\ m_same_shape m m' /\
    exists x y, r = inr (x, y) /\ x.1 = a /\ y.1 = b /\
      (forall z, ~ mlinked w m x z) /\ (forall z, ~ mlinked w m y z) /\
      (forall s t, mlinked w m' s t <-> mlinked w m s t \/ (s = x /\ t = y) \/ (s = y /\ t = x)) /\
      m_subport_link w m' x = Ok (Some y) /\ m_subport_link w m' y = Ok (Some x)) /\
  ((forall l, m_port_subports m a = Ok l -> (N.of_nat (length l) <= 32766)%N) ->
   (forall l, m_port_subports m b = Ok l -> (N.of_nat (length l) <= 32766)%N) ->
   space 2 m -> exists m' r, m_link_ports w m a b = Ok (m', r)).
Proof. exact C56_multi_link_partial_pf. Qed.
Print Assumptions C56_multi_link_partial.

Example C56_multi_link_nonvacuous : mreach 16 mx /\ m_contains_port mx 1 = true /\ m_contains_port mx 3 = true /\
  port_direction (m_graph mx) 1 = Some Outgoing /\ port_direction (m_graph mx) 3 = Some Incoming /\ room 16 mx 1 /\ room 16 mx 3 /\ space 2 mx /\
  match m_link_ports 16 mx 1 3 with Ok (m', inr r) => r = ((1, 3), (3, 3)) /\ m_link_count m' = Ok 5 | _ => False end.
Proof.
  split; [apply mx_reach|]. do 4 (split; [vm_compute; reflexivity|]).
  split; [apply roomb_sound; vm_compute; reflexivity|]. split; [apply roomb_sound; vm_compute; reflexivity|].
  split; [split; vm_compute; discriminate|]. vm_compute. repeat split.
Qed.

(** C56 does not hold: subports are numbered by 16-bit integers below 65535, so a
multigraph with 32-bit port offsets is reached by allowed calls where one more
link between two ports of opposite directions panics, although the offset type
leaves [room] for it. *)
Theorem C56_multi_link_refuted :
exists m a b, mreach 32 m /\ m_contains_port m a = true /\ m_contains_port m b = true /\
  port_direction (m_graph m) a = Some Outgoing /\ port_direction (m_graph m) b = Some Incoming /\
  room 32 m a /\ room 32 m b /\ m_link_ports 32 m a b = Panic.
Proof. exact C56_multi_link_refuted_pf. Qed.
Print Assumptions C56_multi_link_refuted.

(** C57 does not hold: [unlink_port] of a port with two links removes both, and
returns a subport of the port itself. *)
Theorem C57_multi_unlink_refuted :
exists m p m' r l, mreach 16 m /\ m_contains_port m p = true /\ m_port_links 16 m p = Ok l /\ length l = 2 /\
  m_unlink_port 16 m p = Ok (m', Some r) /\ r.1 = p /\ m_port_links 16 m' p = Ok [].
Proof. exact C57_multi_unlink_refuted_pf. Qed.
Print Assumptions C57_multi_unlink_refuted.

(** C57, what holds: after allowed calls, [unlink_port] removes all links of the
port and no others and keeps all nodes and ports; if the port and its partner
have a single subport each it returns the partner. *)
Theorem C57_multi_unlink_partial :
forall w m p, (2 < w <= 63)%N -> mreach w m -> m_contains_port m p = true ->
  exists m' r, m_unlink_port w m p = Ok (m', r) /\ mreach w m' /\ m_same_shape m m' /\
    (forall x y, mlinked w m' x y <-> mlinked w m x y /\ x.1 <> p /\ y.1 <> p) /\
    (m_port_subports m p = Ok [(p, 0)] ->
       (r = None <-> forall y, ~ mlinked w m (p, 0) y) /\
       (forall q, m_port_subports m q = Ok [(q, 0)] -> mlinked w m (p, 0) (q, 0) -> r = Some (q, 0))).
Proof. exact C57_multi_unlink_partial_pf. Qed.
Print Assumptions C57_multi_unlink_partial.

Example C57_multi_unlink_nonvacuous : mreach 16 mx /\ m_contains_port mx 1 = true /\ m_contains_port mx 2 = true /\ m_port_subports mx 2 = Ok [(2, 0)] /\
  match m_unlink_port 16 mx 1 with Ok (m', _) => m_link_count m' = Ok 1 /\ m_node_count m' = Ok 2 | Panic => False end.
Proof. split; [apply mx_reach|]. vm_compute. repeat split. Qed.

(** C58 does not hold: node 0 has an input with two links and an output with two
links. Dropping the input moves the output to its index, and then the output's
mark is removed in place of the input's: port 3 still lists two links to the
output, which survives as port 0, but port 0 does not list port 3. *)
Theorem C58_multi_set_num_ports_refuted :
exists m n i j m' log p q, mreach 16 m /\ m_contains_node m n = true /\ m_set_num_ports 16 m n i j = Ok (m', log) /\
  survives (m_graph m) (m_graph m') n p q /\ port_node (m_graph m) 3 <> Some n /\
  (exists l, m_port_links 16 m p = Ok l /\ times 3 l = 2) /\ (exists l, m_port_links 16 m' q = Ok l /\ times 3 l = 0).
Proof. exact C58_multi_set_num_ports_refuted_pf. Qed.
Print Assumptions C58_multi_set_num_ports_refuted.

(** C58, what holds: if no port moves to the index of a dropped port with several
subports ([no_reuse]), then after [set_num_ports] exactly the links between
surviving ports are left, with their subport offsets, the node has the
requested number of ports, all else is unchanged, and the multigraph can be
used further. It does not panic unless the underlying graph does. *)
Theorem C58_multi_set_num_ports_partial :
forall w m n i j, (2 < w <= 63)%N -> mreach w m -> m_contains_node m n = true -> no_reuse m n i j ->
  (forall m' log, m_set_num_ports w m n i j = Ok (m', log) ->
    mreach w m' /\ num_ports (m_graph m') n Incoming = i /\ num_ports (m_graph m') n Outgoing = j /\
    (forall x, m_contains_node m' x = m_contains_node m x) /\ (forall x, x <> n -> m_same_node m m' x) /\
    (forall x y, mlinked w m' x y <-> exists p q, survives (m_graph m) (m_graph m') n p x.1 /\
       survives (m_graph m) (m_graph m') n q y.1 /\ mlinked w m (p, x.2) (q, y.2)) /\
    exists g', set_num_ports (m_graph m) n i j = Ok (g', log) /\ forall d, ports (m_graph m') n d = ports g' n d) /\
  (set_num_ports (m_graph m) n i j <> Panic -> m_set_num_ports w m n i j <> Panic).
Proof. exact C58_multi_set_num_ports_partial_pf. Qed.
Print Assumptions C58_multi_set_num_ports_partial.

Example C58_multi_set_num_ports_nonvacuous : mreach 16 mx /\ m_contains_node mx 0 = true /\ no_reuse mx 0 0 1 /\
  match m_set_num_ports 16 mx 0 0 1 with
  | Ok (m', log) => log = [(0, Removed None); (2, Removed (Some 18)); (1, Moved 0)] /\ m_port_links 16 m' 0 = Ok [((0, 0), (3, 0)); ((0, 1), (3, 1)); ((0, 2), (4, 0))]
  | Panic => False end.
Proof. split; [apply mx_reach|]. split; [vm_compute; reflexivity|]. split; [apply no_reuseb_sound; vm_compute; reflexivity|]. vm_compute. repeat split. Qed.

(** C72 does not hold. With port 2 not in the multigraph, [link_ports(0, 2)]
succeeds, and adds a port to node 0: the copy node made for port 0 has a port
with index 2. And [link_ports] that fails because of the directions may leave
the first port with another subport. *)
Theorem C72_multi_link_errors_refuted :
(exists m a b m' r, mreach 16 m /\ m_contains_port m a = true /\ m_contains_port m b = false /\ ~ internal m b /\
   m_link_ports 16 m a b = Ok (m', inr r) /\ num_ports (m_graph m') 0 Incoming <> num_ports (m_graph m) 0 Incoming) /\
(exists m a b m' e, mreach 16 m /\ m_contains_port m a = true /\ m_contains_port m b = true /\
   port_direction (m_graph m) a = port_direction (m_graph m) b /\ m_link_ports 16 m a b = Ok (m', inl e) /\
   m_port_subports m a = Ok [(a, 0)] /\ m_port_subports m' a = Ok [(a, 0); (a, 1)]).
Proof. exact C72_multi_link_errors_refuted_pf. Qed.
Print Assumptions C72_multi_link_errors_refuted.

(** C72, what holds: with an unknown first port, or a first port with a free
subport and an unknown second port, [link_ports] returns the error and changes
nothing; with two ports of the same direction it returns an error and keeps all
nodes, ports and links. *)
Theorem C72_multi_link_errors_partial :
forall w m a b, (2 < w <= 63)%N -> mreach w m -> ~ internal m a -> ~ internal m b ->
  (m_contains_port m a = false -> m_link_ports w m a b = Ok (m, inl (UnknownPort a))) /\
  (m_contains_port m a = true -> m_contains_port m b = false ->
     (exists l s, m_port_subports m a = Ok l /\ s ∈ l /\ m_subport_link w m s = Ok None) ->
     m_link_ports w m a b = Ok (m, inl (UnknownPort b))) /\
  (forall m' r, m_contains_port m a = true -> m_contains_port m b = true ->
     port_direction (m_graph m) a = port_direction (m_graph m) b -> room w m a -> room w m b ->
     m_link_ports w m a b = Ok (m', r) ->
     mreach w m' /\ m_same_shape m m' /\ (exists e, r = inl e) /\ forall x y, mlinked w m' x y <-> mlinked w m x y).
Proof. exact C72_multi_link_errors_partial_pf. Qed.
Print Assumptions C72_multi_link_errors_partial.

Example C72_multi_link_errors_nonvacuous : mreach 16 one_m /\ ~ internal one_m 0 /\ ~ internal one_m 2 /\
  m_contains_port one_m 0 = true /\ m_contains_port one_m 2 = true /\ port_direction (m_graph one_m) 0 = port_direction (m_graph one_m) 2 /\
  room 16 one_m 0 /\ room 16 one_m 2 /\ m_link_ports 16 one_m 7 0 = Ok (one_m, inl (UnknownPort 7)) /\
  m_link_ports 16 one_m 2 7 = Ok (one_m, inl (UnknownPort 7)).
Proof.
  split; [apply one_reach|]. split; [apply internalb_sound; vm_compute; reflexivity|]. split; [apply internalb_sound; vm_compute; reflexivity|].
  split; [vm_compute; reflexivity|]. split; [vm_compute; reflexivity|]. split; [apply one_dir|].
  split; [apply roomb_sound; vm_compute; reflexivity|]. split; [apply roomb_sound; vm_compute; reflexivity|]. vm_compute. split; reflexivity.
Qed.

(** C73. After allowed calls: [links(n, d)] is the concatenation of [port_links] over
the ports of [n], [all_links(n)] leaves out the links ending in an output of
[n]; [neighbours] and [all_neighbours] list the nodes at the other ends of these,
in the same order; [get_connections(a, b)] lists each link from [a] to [b] once;
the subports of a port are numbered from 0, and [subport_link] of a subport is
its partner. *)
Theorem C73_multi_iterators :
forall w m n, (2 < w <= 63)%N -> mreach w m -> m_contains_node m n = true ->
  (forall d, exists ll, Forall2 (fun p l => m_port_links w m p = Ok l) (ports (m_graph m) n d) ll /\
     m_links w m n d = Ok (concat ll) /\
     exists ns, m_neighbours w m n d = Ok ns /\ Forall2 (fun x k => port_node (m_graph m) x.2.1 = Some k) (concat ll) ns) /\
  (exists ll, Forall2 (fun p l => m_port_links w m p = Ok l) (ports (m_graph m) n Incoming ++ ports (m_graph m) n Outgoing) ll /\
     let l := filter (fun x : subport * subport => x.2.1 ∉ ports (m_graph m) n Outgoing) (concat ll) in
     m_all_links w m n = Ok l /\
     exists ns, m_all_neighbours w m n = Ok ns /\ Forall2 (fun x k => port_node (m_graph m) x.2.1 = Some k) l ns) /\
  (forall b, exists l, m_get_connections w m n b = Ok l /\ NoDup l /\
     forall x y, (x, y) ∈ l <-> mlinked w m x y /\ port_node (m_graph m) x.1 = Some n /\
       port_direction (m_graph m) x.1 = Some Outgoing /\ port_node (m_graph m) y.1 = Some b) /\
  (forall p, m_contains_port m p = true -> exists k, 1 <= k /\ m_port_subports m p = Ok (map (fun i => (p, i)) (seq 0 k)) /\
     (forall x y, x.1 = p -> mlinked w m x y -> x.2 < k) /\
     forall i, i < k -> exists r, m_subport_link w m (p, i) = Ok r /\ forall y, r = Some y <-> mlinked w m (p, i) y) /\
  (forall d, exists ll, Forall2 (fun p l => m_port_subports m p = Ok l) (ports (m_graph m) n d) ll /\ m_subports m n d = Ok (concat ll)) /\
  (exists ll, Forall2 (fun p l => m_port_subports m p = Ok l) (ports (m_graph m) n Incoming ++ ports (m_graph m) n Outgoing) ll /\
     m_all_subports m n = Ok (concat ll)).
Proof. exact C73_multi_iterators_pf. Qed.
Print Assumptions C73_multi_iterators.

Example C73_multi_iterators_nonvacuous : mreach 16 mx /\ m_contains_node mx 0 = true /\
  m_all_neighbours 16 mx 0 = Ok [1; 1; 1; 1] /\ m_subports mx 0 Outgoing = Ok [(1, 0); (1, 1); (1, 2); (2, 0)] /\
  m_get_connections 16 mx 0 1 = Ok [((1, 0), (3, 0)); ((1, 1), (3, 1)); ((1, 2), (4, 0)); ((2, 0), (3, 2))].
Proof. split; [apply mx_reach|]. vm_compute. repeat split. Qed.

(** C74. After allowed calls, [add_node] adds one visible node with the given ports
and no links, [remove_node] removes one with its ports and exactly their links;
both keep all else, and the multigraph can be used further. *)
Theorem C74_multi_add_remove :
forall w m, (2 < w <= 63)%N -> mreach w m ->
  (forall i j m' n, (N.of_nat i <= 65534)%N -> (N.of_nat (i + j) <= 65535)%N -> m_add_node w m i j = Ok (m', n) ->
     mreach w m' /\ m_contains_node m n = false /\ m_contains_node m' n = true /\
     num_ports (m_graph m') n Incoming = i /\ num_ports (m_graph m') n Outgoing = j /\
     (forall x, x <> n -> m_same_node m m' x) /\
     (forall p, m_contains_port m' p = true <-> m_contains_port m p = true \/ port_node (m_graph m') p = Some n) /\
     (forall p, m_contains_port m p = true -> m_same_port m m' p) /\
     (forall x y, mlinked w m' x y <-> mlinked w m x y)) /\
  (forall n, m_contains_node m n = true -> exists m', m_remove_node w m n = Ok m' /\ mreach w m' /\
     (forall x, m_contains_node m' x = true <-> m_contains_node m x = true /\ x <> n) /\
     (forall x, x <> n -> m_same_node m m' x) /\
     (forall p, m_contains_port m' p = true <-> m_contains_port m p = true /\ port_node (m_graph m) p <> Some n) /\
     (forall p, port_node (m_graph m) p <> Some n -> m_same_port m m' p) /\
     (forall x y, mlinked w m' x y <-> mlinked w m x y /\ port_node (m_graph m) x.1 <> Some n /\ port_node (m_graph m) y.1 <> Some n)) /\
  (forall n, is_copy m n = false -> m_contains_node m n = false -> m_remove_node w m n = Ok m).
Proof. exact C74_multi_add_remove_pf. Qed.
Print Assumptions C74_multi_add_remove.

Example C74_multi_add_remove_nonvacuous : mreach 16 mx /\ m_contains_node mx 0 = true /\
  match m_remove_node 16 mx 0 with Ok m' => m_nodes_iter m' = [1] /\ m_ports_iter m' = Ok [3; 4; 5] /\ node_count (m_graph m') = 2 | Panic => False end /\
  match m_add_node 16 mx 1 1 with Ok (m', n) => n = 4 /\ m_nodes_iter m' = [0; 1; 4] | Panic => False end.
Proof. split; [apply mx_reach|]. vm_compute. repeat split. Qed.

(** C75. After allowed calls: [swap_nodes] exchanges the two nodes and keeps ports
and links; [compact_nodes] renumbers the nodes as its callback is told, and keeps
ports and links; [compact_ports] renumbers the ports as its callback is told, in
all ports and links, and keeps the nodes. *)
Theorem C75_multi_renumber :
forall w m, (2 < w <= 63)%N -> mreach w m ->
  (forall a b, allowed (m_graph m) (OSwap a b) -> exists m', m_swap_nodes m a b = Ok m' /\ mreach w m' /\
     let f := fun n => if decide (n = a) then b else if decide (n = b) then a else n in
     (forall n, m_contains_node m' n = m_contains_node m (f n)) /\
     (forall n d, ports (m_graph m') n d = ports (m_graph m) (f n) d) /\
     (forall p, m_contains_port m' p = m_contains_port m p) /\
     (forall p, port_direction (m_graph m') p = port_direction (m_graph m) p) /\
     (forall x y, mlinked w m' x y <-> mlinked w m x y)) /\
  (exists m' log, m_compact_nodes m = Ok (m', log) /\ mreach w m' /\
     (forall n, m_contains_node m n = true -> exists n', (n, n') ∈ log) /\
     (forall n', m_contains_node m' n' = true -> exists n, (n, n') ∈ log) /\
     NoDup log.*1 /\ NoDup log.*2 /\ (forall n', n' ∈ log.*2 <-> n' < length log) /\
     (forall n n', (n, n') ∈ log -> m_contains_node m' n' = m_contains_node m n /\ forall d, ports (m_graph m') n' d = ports (m_graph m) n d) /\
     (forall p, m_contains_port m' p = m_contains_port m p) /\
     (forall p, port_direction (m_graph m') p = port_direction (m_graph m) p) /\
     (forall x y, mlinked w m' x y <-> mlinked w m x y)) /\
  ((forall n, ~ hollow (m_graph m) n) -> exists m' log, m_compact_ports m = Ok (m', log) /\ mreach w m' /\
     (forall p, m_contains_port m p = true -> exists p', (p, p') ∈ log) /\
     (forall p', m_contains_port m' p' = true -> exists p, (p, p') ∈ log) /\
     NoDup log.*1 /\ NoDup log.*2 /\ (forall p', p' ∈ log.*2 <-> p' < length log) /\
     (forall p p', (p, p') ∈ log -> m_contains_port m' p' = m_contains_port m p) /\
     (forall n, m_contains_node m' n = m_contains_node m n) /\
     (forall n d, Forall2 (fun p p' => (p, p') ∈ log) (ports (m_graph m) n d) (ports (m_graph m') n d)) /\
     (forall x y, mlinked w m' x y <-> exists p q, (p, x.1) ∈ log /\ (q, y.1) ∈ log /\ mlinked w m (p, x.2) (q, y.2))).
Proof. exact C75_multi_renumber_pf. Qed.
Print Assumptions C75_multi_renumber.

Example C75_multi_renumber_nonvacuous : mreach 16 mx /\ allowed (m_graph mx) (OSwap 0 1) /\ (forall n, ~ hollow (m_graph mx) n) /\
  match m_remove_node 16 mx 0 with
  | Ok m => match m_compact_nodes m with Ok (m', log) => log = [(1, 0); (3, 1)] /\ m_nodes_iter m' = [0] | Panic => False end
  | Panic => False end.
Proof.
  split; [apply mx_reach|]. split; [apply (allowedb_sound _ (OSwap 0 1)); vm_compute; reflexivity|].
  split; [apply (allowedb_sound _ OCompactPorts); vm_compute; reflexivity|]. vm_compute. repeat split.
Qed.

(** C76. After allowed calls: [link_subports] on subports of opposite direction
without links adds exactly that link, and otherwise returns an error and changes
nothing; [unlink_subport] removes exactly the link of the subport and returns its
partner. *)
Theorem C76_multi_subport_ops :
forall w m, (2 < w <= 63)%N -> mreach w m ->
  (forall a b la lb, m_contains_port m a.1 = true -> m_contains_port m b.1 = true ->
     m_port_subports m a.1 = Ok la -> a ∈ la -> m_port_subports m b.1 = Ok lb -> b ∈ lb ->
     exists m' r, m_link_subports w m a b = Ok (m', r) /\ mreach w m' /\ m_same_shape m m' /\
       (r = None <-> (exists d, port_direction (m_graph m) a.1 = Some d /\ port_direction (m_graph m) b.1 = Some (rev_dir d)) /\
          (forall y, ~ mlinked w m a y) /\ (forall y, ~ mlinked w m b y)) /\
       (r <> None -> m' = m) /\
       (r = None -> forall x y, mlinked w m' x y <-> mlinked w m x y \/ (x = a /\ y = b) \/ (x = b /\ y = a))) /\
  (forall s l, m_contains_port m s.1 = true -> m_port_subports m s.1 = Ok l -> s ∈ l ->
     exists m' r, m_unlink_subport w m s = Ok (m', r) /\ mreach w m' /\ m_same_shape m m' /\
       (forall y, r = Some y <-> mlinked w m s y) /\
       (forall p, m_contains_port m p = true -> m_port_subports m' p = m_port_subports m p) /\
       forall x y, mlinked w m' x y <-> mlinked w m x y /\ x <> s /\ y <> s).
Proof. exact C76_multi_subport_ops_pf. Qed.
Print Assumptions C76_multi_subport_ops.

Example C76_multi_subport_ops_nonvacuous : mreach 16 mx /\ m_contains_port mx 1 = true /\ m_port_subports mx 1 = Ok [(1, 0); (1, 1); (1, 2)] /\
  match m_unlink_subport 16 mx (1, 1) with
  | Ok (m', r) => r = Some (3, 1) /\ m_port_links 16 m' 1 = Ok [((1, 0), (3, 0)); ((1, 2), (4, 0))] /\
      match m_link_subports 16 m' (1, 1) (3, 1) with Ok (m2, None) => m_link_count m2 = Ok 4 | _ => False end
  | Panic => False end.
Proof. split; [apply mx_reach|]. vm_compute. repeat split. Qed.
