(** Properties C131-C134: capacities. *)
From Verif Require Export CapThms.

(** C131 does not hold: a node with room for two ports has two inputs; asked for one input
and one output, it moves to another slab, and its input changes its index. Asked for no
ports, it gives up its room for three ports and keeps room for one. *)
Theorem C131_port_capacity_refuted :
exists g g1 l1 g2 l2, reach 16 g /\
  node_port_capacity g 0 = 2 /\ ports g 0 Incoming = [0; 1] /\
  set_num_ports g 0 1 1 = Ok (g1, l1) /\ ports g1 0 Incoming = [5] /\ (0, Moved 5) ∈ l1 /\
  node_port_capacity g 1 = 3 /\ set_num_ports g 1 0 0 = Ok (g2, l2) /\ node_port_capacity g2 1 = 1.
Proof. exact C131_port_capacity_refuted_pf. Qed.
Print Assumptions C131_port_capacity_refuted.

(** A node never has more ports than room. While it is asked for at least one port and fewer
than it has room for, it stays in its slab: it keeps its room and its first index, its
ports are numbered from there, and no port moves out of it. *)
Theorem C131_port_capacity_partial :
forall w g n i j, reach w g -> contains_node g n = true ->
  num_ports g n Incoming + num_ports g n Outgoing <= node_port_capacity g n /\
  forall g' log, set_num_ports g n i j = Ok (g', log) -> 1 <= i + j < node_port_capacity g n ->
    node_port_capacity g' n = node_port_capacity g n /\
    exists b, all_ports g n = seq b (num_ports g n Incoming + num_ports g n Outgoing) /\ all_ports g' n = seq b (i + j) /\
      forall p, b <= p < b + node_port_capacity g n ->
        (port_node g p = Some n \/ port_node g p = None) /\ (port_node g' p = Some n \/ port_node g' p = None).
Proof. exact C131_port_capacity_partial_pf. Qed.
Print Assumptions C131_port_capacity_partial.

(** A node that grew from two to three ports has room for a fourth, but not for all four. *)
Definition cap_g : pg := default pg_new (run 16 [OAdd 2 0; OSetPorts 0 2 1] pg_new).
Example C131_ex : reach 16 cap_g /\ node_port_capacity cap_g 0 = 4 /\ ports cap_g 0 Incoming = [2; 3] /\
  exists g l, set_num_ports cap_g 0 1 1 = Ok (g, l) /\ ports g 0 Outgoing = [3].
Proof.
  split; [exists [OAdd 2 0; OSetPorts 0 2 1]; apply run_hist; vm_compute; reflexivity|]. split; [vm_compute; reflexivity|]. split; [vm_compute; reflexivity|].
  exists (resized cap_g 0 1 1).1, (resized cap_g 0 1 1).2. split; vm_compute; reflexivity.
Qed.

(** The capacities of a graph are above all its indices and at least its counts. After
[reserve(a, b)], or in a new graph made with [with_capacity(a, b)], calls that add at most
[a] nodes and [b] ports in total leave both capacities as they are. [reserve] does not
reduce capacities. *)
Theorem C132_graph_capacity :
forall grow fit w a b ops c, alloc_ok grow fit -> cg_hist grow fit w (cg_with_capacity grow a b) ops c ->
  (node_count (cg_g c) <= cg_node_capacity c /\ port_count (cg_g c) <= cg_port_capacity c /\
   (forall n, contains_node (cg_g c) n = true -> n < cg_node_capacity c) /\
   (forall p, contains_port (cg_g c) p = true -> p < cg_port_capacity c)) /\
  (Forall no_cap_call ops -> sum_list (node_cost <$> ops) <= a -> sum_list (port_cost <$> ops) <= b ->
     cg_node_capacity c = cg_node_capacity (cg_with_capacity grow a b) /\ cg_port_capacity c = cg_port_capacity (cg_with_capacity grow a b)) /\
  (forall a' b', exists c1, cg_step grow fit w c (OReserve a' b') = Ok (c1, RUnit) /\ cg_g c1 = cg_g c /\
     cg_node_capacity c <= cg_node_capacity c1 /\ cg_port_capacity c <= cg_port_capacity c1 /\
     forall ops' c2, cg_hist grow fit w c1 ops' c2 -> Forall no_cap_call ops' ->
       sum_list (node_cost <$> ops') <= a' -> sum_list (port_cost <$> ops') <= b' ->
       cg_node_capacity c2 = cg_node_capacity c1 /\ cg_port_capacity c2 = cg_port_capacity c1).
Proof. exact C132_graph_capacity_pf. Qed.
Print Assumptions C132_graph_capacity.

(** An allocator that doubles capacities. A graph made for one node outgrows its capacity. *)
Definition dbl (cap need : nat) : nat := Nat.max (2 * cap) need.
Lemma dbl_ok : alloc_ok dbl (fun cap len => len).
Proof. unfold alloc_ok, dbl. split; intros; lia. Qed.
Definition after (c : cgraph) (o : op) : cgraph := match cg_step dbl (fun cap len => len) 16 c o with Ok x => x.1 | Panic => c end.
Definition grown (a b : nat) : cgraph := after (after (cg_with_capacity dbl a b) (OAdd 1 1)) (OAdd 1 2).
Example C132_ex : cg_hist dbl (fun cap len => len) 16 (cg_with_capacity dbl 1 4) [OAdd 1 1; OAdd 1 2] (grown 1 4) /\
  cg_node_capacity (grown 1 4) = 2 /\ cg_port_capacity (grown 1 4) = 8 /\
  cg_hist dbl (fun cap len => len) 16 (cg_with_capacity dbl 2 5) [OAdd 1 1; OAdd 1 2] (grown 2 5) /\
  cg_node_capacity (grown 2 5) = 2 /\ cg_port_capacity (grown 2 5) = 5.
Proof.
  assert (H : forall c0 c1 c2 r r', cg_step dbl (fun cap len => len) 16 c0 (OAdd 1 1) = Ok (c1, r) -> cg_step dbl (fun cap len => len) 16 c1 (OAdd 1 2) = Ok (c2, r') ->
    cg_hist dbl (fun cap len => len) 16 c0 [OAdd 1 1; OAdd 1 2] c2).
  { intros c0 c1 c2 r r' E1 E2. apply (cg_call _ _ _ _ [OAdd 1 1] c1 (OAdd 1 2) c2 r'); [|cbn; lia|done].
    apply (cg_call _ _ _ _ [] c0 (OAdd 1 1) c1 r); [constructor|cbn; lia|done]. }
  split; [apply (H _ (after (cg_with_capacity dbl 1 4) (OAdd 1 1)) _ (RNode 0) (RNode 1)); vm_compute; reflexivity|].
  split; [vm_compute; reflexivity|]. split; [vm_compute; reflexivity|].
  split; [apply (H _ (after (cg_with_capacity dbl 2 5) (OAdd 1 1)) _ (RNode 0) (RNode 1)); vm_compute; reflexivity|].
  split; vm_compute; reflexivity.
Qed.

(** The capacities that multigraphs and views compute from those of the graph below them do
not underflow, and are at least their counts. *)
Theorem C132_view_capacity :
(forall w m cn cp, (2 < w <= 63)%N -> mreach w m -> node_count (m_graph m) <= cn -> port_count (m_graph m) <= cp ->
   exists kn kp xn xp, m_node_count m = Ok kn /\ m_port_count m = Ok kp /\
     m_node_capacity cn m = Ok xn /\ m_port_capacity cp m = Ok xp /\ kn <= xn /\ kp <= xp) /\
  (forall cap count own, count <= cap -> own <= count -> exists x, view_capacity cap count own = Ok x /\ own <= x <= cap).
Proof. exact C132_view_capacity_pf. Qed.
Print Assumptions C132_view_capacity.

(** Dense maps: only keys below the capacity have values other than the default, and calls
with keys below the capacity do not change it. [ensure_capacity(k)] makes the capacity at
least [k], changes no value, and does nothing if the capacity is [k] or more. *)
Theorem C133_dense_capacity :
forall V grow fit (vdef d : V) a ops c, alloc_ok grow fit -> cm_hist grow fit vdef (cm_with_capacity grow a d) ops c ->
  a <= cm_cap (cm_with_capacity grow a d) /\
  (forall k, um_get (cm_m c) k <> um_default (cm_m c) -> k < cm_cap c) /\
  (forall ops' c', cm_hist grow fit vdef c ops' c' -> Forall (below (cm_cap c)) ops' -> cm_cap c' = cm_cap c) /\
  (forall k, k <= cm_cap (cm_ensure grow c k) /\ cm_cap c <= cm_cap (cm_ensure grow c k) /\
     (forall x, um_get (cm_m (cm_ensure grow c k)) x = um_get (cm_m c) x) /\ (k <= cm_cap c -> cm_ensure grow c k = c)).
Proof. exact C133_dense_capacity_pf. Qed.
Print Assumptions C133_dense_capacity.

Example C133_dense_ex : exists c, cm_hist dbl (fun cap len => len) 0 (cm_with_capacity dbl 2 7) [CCall (MSet 2 1); CEnsure 9] c /\
  cm_cap c = 16 /\ um_get (cm_m c) 2 = 1 /\ um_get (cm_m c) 8 = 7.
Proof.
  eexists. split; [|split].
  - apply (cm_ens _ _ _ _ [CCall (MSet 2 1)]). eapply (cm_call _ _ _ _ []); [constructor|reflexivity|vm_compute; reflexivity].
  - reflexivity.
  - split; reflexivity.
Qed.

(** For the maps made of bit vectors and hash sets it does not hold, whatever the allocator
does: an empty map made with capacity 1 that is asked for one more than the capacity it
has keeps its capacity. *)
Theorem C133_set_capacity_refuted :
forall grow fit, alloc_ok grow fit ->
  let s := set_with_capacity grow 1 in
  1 <= s.2 /\ exists k, set_ensure grow s k = s /\ s.2 < k.
Proof. exact C133_set_capacity_refuted_pf. Qed.
Print Assumptions C133_set_capacity_refuted.

Example C133_set_ex : set_ensure dbl (set_with_capacity dbl 64) 100 = (0, 64) /\ set_ensure dbl (64, 64) 100 = (64, 128).
Proof. split; reflexivity. Qed.

(** It does hold for a map that is full, or empty and without capacity. In general the
capacity does not shrink, and there is room for as many more elements as the asked capacity
exceeds the one before. *)
Theorem C133_set_capacity_partial :
forall grow fit len cap k, alloc_ok grow fit -> len <= cap ->
  let s := set_ensure grow (len, cap) k in
  s.1 = len /\ cap <= s.2 /\ len + (k - cap) <= s.2 /\ (len = cap -> k <= s.2) /\ (k <= cap -> s = (len, cap)).
Proof. exact C133_set_capacity_partial_pf. Qed.
Print Assumptions C133_set_capacity_partial.

(** C134 does not hold, whatever the allocator, as long as [shrink_to_fit] gives up all spare
room: there is a map whose capacity is below [k], and [shrink_to(k)] takes its capacity away;
and there is one with a capacity above [k] that is left with less than [k]. *)
Theorem C134_shrink_refuted :
forall grow fit, alloc_ok grow fit -> (forall cap len, len <= cap -> fit cap len = len) ->
  (exists (c : cmap nat) k, cm_hist grow fit 0 (cm_with_capacity grow 1 0) [] c /\ 0 < cm_cap c < k /\ cm_cap (cm_shrink fit c k) = 0) /\
  (exists (c : cmap nat) k, cm_hist grow fit 0 (cm_with_capacity grow 2 0) [] c /\ k < cm_cap c /\ cm_cap (cm_shrink fit c k) < k).
Proof. exact C134_shrink_refuted_pf. Qed.
Print Assumptions C134_shrink_refuted.

Example C134_shrink_ex : alloc_ok dbl (fun _ len => len) /\ forall cap len : nat, len <= cap -> (fun _ len : nat => len) cap len = len.
Proof. split; [|done]. split; [|intros cap len H; lia]. intros cap need. unfold dbl. lia. Qed.

(** What holds of C134: [shrink_to(k)] does not raise the capacity, keeps the values below [k]
and drops the others. Right after an [ensure_capacity] that had to grow the map, if
[shrink_to_fit] gives up all spare room, the capacity becomes [k], or stays the ensured
one if that is lower. *)
Theorem C134_shrink_partial :
forall V grow fit (vdef d : V) a ops c k, alloc_ok grow fit -> cm_hist grow fit vdef (cm_with_capacity grow a d) ops c ->
  let c' := cm_shrink fit c k in
  cm_cap c' <= cm_cap c /\
  (forall x, um_get (cm_m c') x = if decide (x < k) then um_get (cm_m c) x else um_default (cm_m c)) /\
  (forall x, um_get (cm_m c') x <> um_default (cm_m c') -> x < cm_cap c') /\
  (forall e, (forall cap len, len <= cap -> fit cap len = len) -> cm_cap c < e ->
     cm_cap (cm_shrink fit (cm_ensure grow c e) k) = Nat.min k e).
Proof. exact C134_shrink_partial_pf. Qed.
Print Assumptions C134_shrink_partial.

Example C134_shrink_partial_ex : cm_cap (cm_shrink (fun _ len => len) (cm_ensure dbl (cm_with_capacity dbl 2 7) 9) 4) = 4.
Proof. reflexivity. Qed.
