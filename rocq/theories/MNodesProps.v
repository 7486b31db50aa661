(** Property C137: linking multigraph ports by node and offset. *)
From Verif Require Export MNodesThms MultiProps.

(** C137 is false: [mx] has the nodes 0 and 1 and four links. Node 3 is not one of its nodes
([contains_node] says so), but [link_nodes(0, 0, 3, 0)] returns no error. It links port 1 to a
port that [contains_port] does not know, and the link from port 1 to port 3 that was
there before now leads to that port too: index 3 is taken by an internal copy node. *)
Theorem C137_link_nodes_refuted :
  exists m' x y, mreach 16 mx /\ m_contains_node mx 0 = true /\ m_contains_node mx 3 = false /\
    m_link_nodes 16 mx 0 0 3 0 = Ok (m', inr (x, y)) /\ m_contains_port mx y.1 = false /\ m_contains_port m' y.1 = false /\
    m_port_links 16 mx 1 = Ok [((1, 0), (3, 0)); ((1, 1), (3, 1)); ((1, 2), (4, 0))] /\
    m_port_links 16 m' 1 = Ok [((1, 0), (16, 0)); ((1, 1), (3, 1)); ((1, 2), (4, 0)); ((1, 3), (16, 1))].
Proof. exact C137_link_nodes_refuted_pf. Qed.
Print Assumptions C137_link_nodes_refuted.

(** What holds, for nodes that are no internal copy nodes: [link_offsets] with representable offsets
names the first offset that does not exist and leaves the multigraph alone; this
includes all offsets of unknown nodes. If both exist, it is [link_ports] of the two ports, which
are ports of the multigraph; with [room] for one more link, it adds exactly one link between them if
their directions differ, and otherwise gives an error and keeps all links.
Missing: copy nodes, whose indices are no nodes of the multigraph. *)
Theorem C137_link_offsets_partial :
  forall w m a d i oa b e j ob, (2 < w <= 63)%N -> mreach w m -> ~ copy_node m a -> ~ copy_node m b ->
    (N.of_nat i <= po_max_offset w)%N -> (N.of_nat j <= po_max_offset w)%N ->
    po_new w d (N.of_nat i) = Ok oa -> po_new w e (N.of_nat j) = Ok ob ->
    ((forall p, ~ port_at (m_graph m) a d i p) -> m_link_offsets w m a oa b ob = Ok (m, inl (UnknownOffset a d i))) /\
    (forall p, port_at (m_graph m) a d i p -> (forall q, ~ port_at (m_graph m) b e j q) ->
       m_link_offsets w m a oa b ob = Ok (m, inl (UnknownOffset b e j))) /\
    (forall p q, port_at (m_graph m) a d i p -> port_at (m_graph m) b e j q ->
       m_contains_port m p = true /\ m_contains_port m q = true /\
       m_link_offsets w m a oa b ob = m_link_ports w m p q /\
       (room w m p -> room w m q -> forall m' r, m_link_offsets w m a oa b ob = Ok (m', r) ->
          mreach w m' /\ m_same_shape m m' /\
          (e = rev_dir d -> exists x y, r = inr (x, y) /\ x.1 = p /\ y.1 = q /\
             (forall z, ~ mlinked w m x z) /\ (forall z, ~ mlinked w m y z) /\
             forall s t, mlinked w m' s t <-> mlinked w m s t \/ (s = x /\ t = y) \/ (s = y /\ t = x)) /\
          (e = d -> (exists err, r = inl err) /\ forall x y, mlinked w m' x y <-> mlinked w m x y))).
Proof. exact C137_link_offsets_partial_pf. Qed.
Print Assumptions C137_link_offsets_partial.

Example C137_link_offsets_partial_nonvacuous :
  mreach 16 mx /\ ~ copy_node mx 0 /\ ~ copy_node mx 1 /\ ~ copy_node mx 9 /\ po_new 16 Outgoing 0 = Ok 32768%N /\ po_new 16 Incoming 0 = Ok 0%N /\
  port_at (m_graph mx) 0 Outgoing 0 1 /\ port_at (m_graph mx) 1 Incoming 0 3 /\ room 16 mx 1 /\ room 16 mx 3 /\
  match m_link_offsets 16 mx 0 32768 1 0 with Ok (m', inr r) => r = ((1, 3), (3, 3)) /\ m_link_count m' = Ok 5 | _ => False end /\
  m_link_offsets 16 mx 0 32768 9 0 = Ok (mx, inl (UnknownOffset 9 Incoming 0)).
Proof.
  split; [apply mx_reach|]. split; [intros [_ H]; vm_compute in H; discriminate H|]. split; [intros [_ H]; vm_compute in H; discriminate H|]. split; [intros [H _]; vm_compute in H; discriminate H|]. do 4 (split; [vm_compute; reflexivity|]).
  split; [apply roomb_sound; vm_compute; reflexivity|]. split; [apply roomb_sound; vm_compute; reflexivity|]. vm_compute. split; [split; reflexivity|reflexivity].
Qed.

(** [link_nodes(a, i, b, j)] is [link_offsets] for output [i] of [a] and input [j] of [b], so for
nodes that are no copy nodes: it fails with [UnknownOffset], changing nothing, if one
of them does not exist, and otherwise, with [room] for one more link, adds exactly one link
from output [i] of [a] to input [j] of [b]. *)
Theorem C137_link_nodes_partial :
  forall w m a i b j, (2 < w <= 63)%N -> mreach w m -> ~ copy_node m a -> ~ copy_node m b ->
    (N.of_nat i <= po_max_offset w)%N -> (N.of_nat j <= po_max_offset w)%N ->
    ((forall p, ~ port_at (m_graph m) a Outgoing i p) ->
       m_link_nodes w m a (N.of_nat i) b (N.of_nat j) = Ok (m, inl (UnknownOffset a Outgoing i))) /\
    (forall p, port_at (m_graph m) a Outgoing i p -> (forall q, ~ port_at (m_graph m) b Incoming j q) ->
       m_link_nodes w m a (N.of_nat i) b (N.of_nat j) = Ok (m, inl (UnknownOffset b Incoming j))) /\
    (forall p q m' r, port_at (m_graph m) a Outgoing i p -> port_at (m_graph m) b Incoming j q -> room w m p -> room w m q ->
       m_link_nodes w m a (N.of_nat i) b (N.of_nat j) = Ok (m', r) ->
       mreach w m' /\ m_same_shape m m' /\ exists x y, r = inr (x, y) /\ x.1 = p /\ y.1 = q /\
         (forall z, ~ mlinked w m x z) /\ (forall z, ~ mlinked w m y z) /\
         forall s t, mlinked w m' s t <-> mlinked w m s t \/ (s = x /\ t = y) \/ (s = y /\ t = x)).
Proof. exact C137_link_nodes_partial_pf. Qed.
Print Assumptions C137_link_nodes_partial.

Example C137_link_nodes_partial_nonvacuous :
  mreach 16 mx /\ ~ copy_node mx 0 /\ ~ copy_node mx 1 /\ port_at (m_graph mx) 0 Outgoing 0 1 /\ port_at (m_graph mx) 1 Incoming 0 3 /\
  room 16 mx 1 /\ room 16 mx 3 /\ ports (m_graph mx) 1 Incoming !! 2 = None /\
  match m_link_nodes 16 mx 0 0 1 0 with Ok (m', inr r) => r = ((1, 3), (3, 3)) /\ m_link_count m' = Ok 5 | _ => False end /\
  m_link_nodes 16 mx 0 0 1 2 = Ok (mx, inl (UnknownOffset 1 Incoming 2)).
Proof.
  split; [apply mx_reach|]. split; [intros [_ H]; vm_compute in H; discriminate H|]. split; [intros [_ H]; vm_compute in H; discriminate H|]. do 2 (split; [vm_compute; reflexivity|]).
  split; [apply roomb_sound; vm_compute; reflexivity|]. split; [apply roomb_sound; vm_compute; reflexivity|]. split; [vm_compute; reflexivity|]. vm_compute. split; [split; reflexivity|reflexivity].
Qed.
