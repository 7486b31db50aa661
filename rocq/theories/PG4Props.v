(** Properties C23 and C24 of properties.jsonl. *)
From Verif Require Export PG3Props PG4Thms.


(** (** C24. [link_nodes(a,i,b,j)] with representable offsets: when output [i] of
    [a] or input [j] of [b] does not exist it names the first missing one and
    leaves the graph alone; otherwise it is [link_ports] of the two ports (so
    C07 describes it), and when both are free it links them. *) *)
Theorem C24_link_nodes :
  forall w g a i b j, (1 < w <= 63)%N -> reach w g ->
    (N.of_nat i <= po_max_offset w)%N -> (N.of_nat j <= po_max_offset w)%N ->
    ((forall p, ~ port_at g a Outgoing i p) ->
       link_nodes w g a (N.of_nat i) b (N.of_nat j) = Ok (g, inl (UnknownOffset a Outgoing i))) /\
    (forall p, port_at g a Outgoing i p -> (forall q, ~ port_at g b Incoming j q) ->
       link_nodes w g a (N.of_nat i) b (N.of_nat j) = Ok (g, inl (UnknownOffset b Incoming j))) /\
    (forall p q, port_at g a Outgoing i p -> port_at g b Incoming j q ->
       link_nodes w g a (N.of_nat i) b (N.of_nat j) = link_ports g p q /\
       (unlinked g p -> unlinked g q -> exists g', link_ports g p q = Ok (g', inr (p, q)) /\ linked g' p q /\ linked g' q p /\
          forall x, x <> p -> x <> q -> same_port g g' x) /\
       (forall x, linked g p x -> link_ports g p q = Ok (g, inl (AlreadyLinked p))) /\
       (forall x, unlinked g p -> linked g q x -> link_ports g p q = Ok (g, inl (AlreadyLinked q)))).
Proof. exact C24_link_nodes_pf. Qed.
Print Assumptions C24_link_nodes.

Example C24_link_nodes_nonvacuous : reach 16 ex_g /\ port_at ex_g 0 Outgoing 2 11 /\ port_at ex_g 1 Incoming 1 4 /\
  unlinked ex_g 11 /\ unlinked ex_g 4 /\ ports ex_g 1 Incoming !! 2 = None.
Proof. split; [apply ex_reach|]. vm_compute. done. Qed.

(** (** C24, [link_offsets] with representable offsets [d i] and [e j]: the missing
    offset is named, else it is [link_ports] of the two ports. *) *)
Theorem C24_link_offsets :
  forall w g a d i oa b e j ob, (1 < w <= 63)%N -> reach w g ->
    (N.of_nat i <= po_max_offset w)%N -> (N.of_nat j <= po_max_offset w)%N ->
    po_new w d (N.of_nat i) = Ok oa -> po_new w e (N.of_nat j) = Ok ob ->
    ((forall p, ~ port_at g a d i p) -> link_offsets w g a oa b ob = Ok (g, inl (UnknownOffset a d i))) /\
    (forall p, port_at g a d i p -> (forall q, ~ port_at g b e j q) ->
       link_offsets w g a oa b ob = Ok (g, inl (UnknownOffset b e j))) /\
    (forall p q, port_at g a d i p -> port_at g b e j q ->
       link_offsets w g a oa b ob = link_ports g p q /\
       (forall g' err, link_ports g p q = Ok (g', inl err) -> g' = g)).
Proof. exact C24_link_offsets_pf. Qed.
Print Assumptions C24_link_offsets.

Example C24_link_offsets_nonvacuous : reach 16 ex_g' /\ port_at ex_g' 2 Incoming 0 5 /\ port_at ex_g' 2 Outgoing 0 6 /\
  link_offsets 16 ex_g' 2 0 2 32768 = Ok (ex_g', inl (AlreadyLinked 6)) /\
  po_new 16 Incoming 0 = Ok 0%N /\ po_new 16 Outgoing 0 = Ok 32768%N.
Proof. split; [apply ex_reach'|]. vm_compute. done. Qed.

(** (** C23. [insert_graph] of a graph whose port counts fit the offset type, as long
    as the nodes and ports ever created stay below 2^31: it returns a bijection
    [R] from the nodes of [other] (in order) to fresh nodes; the graph's old
    nodes, ports and links are unchanged; each copy has the same port counts; two
    copied ports are linked exactly when the originals are; copies are only
    linked to copies; the counts add up; the result is again reachable. *) *)
Theorem C23_insert_graph :
  forall w ops g other, (1 < w <= 63)%N -> hist w ops g -> reach w other ->
    (forall n d, (N.of_nat (num_ports other n d) <= po_max_offset w)%N) ->
    (N.of_nat (sum_list (node_cost <$> ops) + node_count other) <= 2 ^ 31 - 1)%N ->
    (N.of_nat (sum_list (port_cost <$> ops) + port_count other) <= 2 ^ 31 - 1)%N ->
    exists g' R, insert_graph w g other = Ok (g', inr R) /\ reach w g' /\
      R.*1 = nodes_iter other /\ NoDup R.*2 /\
      (forall n, contains_node g' n = true <-> contains_node g n = true \/ n ∈ R.*2) /\
      (forall n, contains_node g n = true -> n ∉ R.*2 /\ same_node g g' n) /\
      (forall p, contains_port g p = true -> same_port g g' p) /\
      (forall o n d, (o, n) ∈ R -> num_ports g' n d = num_ports other o d) /\
      (forall o n o2 n2 d k d2 k2 p q p' q', (o, n) ∈ R -> (o2, n2) ∈ R ->
         port_at other o d k p -> port_at other o2 d2 k2 q ->
         port_at g' n d k p' -> port_at g' n2 d2 k2 q' ->
         (linked g' p' q' <-> linked other p q)) /\
      (forall n p' q', n ∈ R.*2 -> port_node g' p' = Some n -> linked g' p' q' -> exists n2, n2 ∈ R.*2 /\ port_node g' q' = Some n2) /\
      node_count g' = node_count g + node_count other /\
      port_count g' = port_count g + port_count other /\
      link_count g' = link_count g + link_count other.
Proof. exact C23_insert_graph_pf. Qed.
Print Assumptions C23_insert_graph.

(** [ex_g] (with a self link) inserted into [ex_g']. *)
Example C23_insert_graph_nonvacuous : reach 16 ex_g' /\ reach 16 ex_g /\ link_count ex_g = 2 /\
  match insert_graph 16 ex_g' ex_g with
  | Ok (g', inr R) => R.*1 = nodes_iter ex_g /\ link_count g' = link_count ex_g' + 2
  | _ => False
  end.
Proof. split; [apply ex_reach'|]. split; [apply ex_reach|]. vm_compute. done. Qed.
