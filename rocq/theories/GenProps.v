(** Property C121 of properties.jsonl: the graph generators. *)
From Verif Require Export GenThms.

(** C121, gen_portgraph: for every choice of distinct outgoing ports and of distinct
incoming ports within the sizes asked for, and whatever the order in which the
sets are iterated, it does not panic and returns the graph of the edges: the
nodes, ports and links are those of the edges and no others, or a single node
without ports if there is no edge. The sizes are within the ones asked for. *)
Theorem C121_portgraph :
forall w maxn maxp maxe vs outs ins, (1 < w <= 63)%N ->
  NoDup outs -> NoDup ins -> Forall (in_sizes maxn maxp) outs -> Forall (in_sizes maxn maxp) ins ->
  length outs <= maxe -> lists_nodes vs (zip outs ins) ->
  1 <= maxn -> (N.of_nat maxn <= 2 ^ 31 - 1)%N -> (N.of_nat maxp <= N.min (po_max_offset w) 32767)%N ->
  (N.of_nat (2 * maxp * maxn) <= 2 ^ 31 - 1)%N ->
  exists g R K, gen_portgraph w vs outs ins = Ok g /\ reach w g /\
    built vs (zip outs ins) g (fun n => contains_node g n = true) (linked g) id R K /\
    1 <= node_count g <= maxn /\ (forall n d, num_ports g n d <= maxp) /\
    port_count g <= 2 * maxp * node_count g /\ link_count g = Nat.min (length outs) (length ins) /\ link_count g <= maxe.
Proof. exact C121_portgraph_pf. Qed.
Print Assumptions C121_portgraph.

Example C121_portgraph_case :
  let outs := [(1, 0); (2, 1); (1, 2)] in let ins := [(2, 0); (3, 1); (1, 1); (1, 0)] in
  NoDup outs /\ NoDup ins /\ Forall (in_sizes 5 3) outs /\ Forall (in_sizes 5 3) ins /\ lists_nodes [3; 1; 2] (zip outs ins) /\
  match gen_portgraph 16 [3; 1; 2] outs ins with
  | Ok g => nodes_iter g = [0; 1; 2] /\ node_count g = 3 /\ link_count g = 3 /\
      map (fun n => (num_ports g n Incoming, num_ports g n Outgoing)) [0; 1; 2] = [(2, 0); (2, 3); (1, 2)] /\
      map (fun p => port_link g p) [4; 6] = [Ok (Some 7); Ok (Some 3)]
  | Panic => False
  end.
Proof.
  cbn zeta. split; [by apply (bool_decide_unpack _); vm_compute|]. split; [by apply (bool_decide_unpack _); vm_compute|].
  split; [repeat constructor|]. split; [repeat constructor|]. split; [|by vm_compute]. split; [by apply (bool_decide_unpack _); vm_compute|].
  intros v. cbn [zip zip_with]. split.
  - intros [->|[->|[->|[]%elem_of_nil]%elem_of_cons]%elem_of_cons]%elem_of_cons.
    + exists ((2, 1), (3, 1)), Incoming. split; [right; by left|done].
    + exists ((1, 0), (2, 0)), Outgoing. split; [by left|done].
    + exists ((1, 0), (2, 0)), Incoming. split; [by left|done].
  - intros (e & d & He & <-). repeat (apply elem_of_cons in He as [->|He]); [..|by apply elem_of_nil in He];
      destruct d; cbn; rewrite !elem_of_cons; tauto.
Qed.

(** C121, gen_multiportgraph: the same for any choice of ports: a port that is chosen
several times gets as many links. *)
Theorem C121_multiportgraph :
forall w maxn maxp maxe vs outs ins, (2 < w <= 63)%N ->
  Forall (in_sizes maxn maxp) outs -> Forall (in_sizes maxn maxp) ins ->
  length outs <= maxe -> lists_nodes vs (zip outs ins) ->
  1 <= maxn -> (N.of_nat (maxn + 2 * maxe) <= 2 ^ 31 - 1)%N -> (N.of_nat maxp <= N.min (po_max_offset w) 32767)%N ->
  (N.of_nat maxe <= po_max_offset w + 1)%N -> (N.of_nat (2 * maxp * maxn) + 65536 * N.of_nat maxe <= 2 ^ 31 - 1)%N ->
  exists m R K kn kp kl, gen_multiportgraph w vs outs ins = Ok m /\ mreach w m /\
    built vs (zip outs ins) (m_graph m) (fun n => m_contains_node m n = true) (mlinked w m) fst R K /\
    m_node_count m = Ok kn /\ 1 <= kn <= maxn /\ (forall n d, m_contains_node m n = true -> num_ports (m_graph m) n d <= maxp) /\
    m_port_count m = Ok kp /\ kp <= 2 * maxp * kn /\ m_link_count m = Ok kl /\ kl = Nat.min (length outs) (length ins) /\ kl <= maxe.
Proof. exact C121_multiportgraph_pf. Qed.
Print Assumptions C121_multiportgraph.

Example C121_multiportgraph_case :
  match gen_multiportgraph 16 [2; 1] [(1, 0); (1, 0); (2, 0); (1, 0)] [(2, 1); (2, 1); (1, 0); (1, 0)] with
  | Ok m => m_nodes_iter m = [0; 1] /\ m_node_count m = Ok 2 /\ m_link_count m = Ok 4 /\ m_port_count m = Ok 5 /\
      (l ← m_port_links 16 m 4; Ok (length l)) = Ok 3
  | Panic => False
  end.
Proof. vm_compute. repeat split. Qed.

(** C121, gen_node_index: each number below the node count gives a node of the graph,
and each node comes from exactly one number. *)
Theorem C121_node_index :
forall w g, reach w g ->
  (forall i, i < node_count g -> exists n, gen_node_index g i = Ok n /\ contains_node g n = true) /\
  (forall n, contains_node g n = true -> exists i, i < node_count g /\ gen_node_index g i = Ok n) /\
  (forall i j n, gen_node_index g i = Ok n -> gen_node_index g j = Ok n -> i = j).
Proof. exact C121_node_index_pf. Qed.
Print Assumptions C121_node_index.

Example C121_node_index_case :
  match gen_portgraph 16 [3; 1] [(1, 0)] [(3, 0)] with
  | Ok g => node_count g = 2 /\ gen_node_index g 1 = Ok 1 /\ gen_node_index g 2 = Panic
  | Panic => False
  end.
Proof. vm_compute. repeat split. Qed.
