(** Properties C111, C112 and C113: graphviz output, labels and edge styles. *)
From Coq Require Import Ascii String Sorted.
From Verif Require Export DotThms.
From Verif Require Import ViewProps HierProps.

(** C111 does not hold: the documentation of [NodeStyle::Hidden] says that the node is
ignored and that no edges are connected to it. In a graph with the link from node
0 to node 1 and node 1 hidden, the edge to node 1 is written. *)
Theorem C111_dot_refuted :
exists g (ns : nat -> node_style nat nat) out, reach 16 g /\ ns 1 = NHidden /\
  dot_finish (lv_of_pg g) (pg_off 16 g) ns (fun p => PBoxed p true) (fun _ _ => tt) 0 None = HOk out /\
  DEdge 0 0 1 0 tt ∈ out /\ dot_nodes out = [0].
Proof. exact C111_dot_refuted_pf. Qed.
Print Assumptions C111_dot_refuted.

(** C111, what the code does on every view that shows a graph, for all styles: one
node statement for each visible node that is not hidden, in order, with its label
and attributes; its table has in the rows of inputs and outputs one cell for each
port that is not hidden, with the port's offset and label, and each row fills the
width of the table; and exactly one edge statement for each link that starts at a
node that is not hidden, between the offsets of its ports and with its style. So
without hidden nodes every link is drawn once. Missing: links from shown nodes to
hidden nodes are drawn too. *)
Theorem C111_dot_partial :
forall E L A S (V : lview E) N R off (ns : nat -> node_style L A) (ps : nat -> port_style L) (es : E -> E -> S) fuel,
  shows V N R -> offsets_ok V N off ->
  exists nodes out K, lv_nodes V = HOk nodes /\ dot_finish V off ns ps es fuel None = HOk out /\
    dot_nodes out = filter (fun n => drawn_node ns n = true) nodes /\
    (forall n l a w ins outs, DNode n l a w ins outs ∈ out ->
       ns n = (match a with Some a => NBoxed l a | None => NBox l end) /\ row_of V ps n Incoming w ins /\ row_of V ps n Outgoing w outs) /\
    Forall2 (draws V es) K (dot_edges out) /\ NoDup K /\
    (forall x y, (x, y) ∈ K <-> R x y /\ lv_pdir V (lv_port V x) = Some Outgoing /\
       exists a, lv_pnode V (lv_port V x) = Some a /\ drawn_node ns a = true) /\
    ((forall n, N n -> drawn_node ns n = true) -> link_list V R K).
Proof. exact C111_dot_partial_pf. Qed.
Print Assumptions C111_dot_partial.

(** On a [PortGraph] the offsets are those of [port_offset], for up to the largest
    offset many ports per node. *)
Lemma pg_offsets w g : (1 < w <= 63)%N -> reach w g -> (forall n d, (N.of_nat (num_ports g n d) <= po_max_offset w)%N) ->
  offsets_ok (lv_of_pg g) (fun n => contains_node g n = true) (pg_off w g).
Proof.
  intros Hw Hr Hmax n d i p Hn Hp. assert (Hi : i < num_ports g n d) by (rewrite <- ports_length; by eapply lookup_lt_Some).
  specialize (Hmax n d). destruct (port_offset_eq w g n d i p Hw Hr Hp ltac:(lia)) as (o & Eo & Ho & _). unfold pg_off. rewrite Ho. 
  destruct (po_new_ok w d (N.of_nat i) ltac:(lia) ltac:(lia)) as (o' & Eo' & _ & Hi'). rewrite Eo in Eo'. injection Eo' as <-.
  cbn. rewrite Hi'. cbn. by rewrite Nat2N.id.
Qed.
Example C111_case : shows (lv_of_pg vx_g) (fun n => contains_node vx_g n = true) (linked vx_g)
  /\ offsets_ok (lv_of_pg vx_g) (fun n => contains_node vx_g n = true) (pg_off 16 vx_g)
  /\ dot_finish (lv_of_pg two_g) (pg_off 16 two_g) (fun n => NBoxed n n) (fun p => PPlain p true) (fun _ _ => tt) 0 None
     = HOk [DNode 0 0 (Some 0) 1 [] [(Cell 0 false (Some 0) 0, 1)]; DEdge 0 0 1 0 tt; DNode 1 1 (Some 1) 1 [(Cell 0 false (Some 0) 1, 1)] []].
Proof.
  split; [exact (pg_shows 16 vx_g vx_reach)|]. split; [|vm_compute; reflexivity]. apply pg_offsets; [lia|exact vx_reach|].
  intros n d. destruct (decide (n < 7)) as [Hn|Hn].
  - do 7 (destruct n as [|n]; [destruct d; vm_compute; discriminate|]). lia.
  - do 7 (destruct n as [|n]; [lia|]). destruct d, n; vm_compute; discriminate.
Qed.

(** C112. With a hierarchy, the output continues with one statement per visible node,
in order, and one for each parent and child that are both visible, the children in
their order. *)
Theorem C112_dot_hierarchy :
forall E L A S (V : lview E) N R off (ns : nat -> node_style L A) (ps : nat -> port_style L) (es : E -> E -> S) h,
  shows V N R -> offsets_ok V N off -> hreach h ->
  exists nodes out hout M, lv_nodes V = HOk nodes /\ forall fuel, M <= fuel ->
    dot_finish V off ns ps es fuel None = HOk out /\ dot_finish V off ns ps es fuel (Some h) = HOk (out ++ hout) /\
    (forall i, i ∈ hout -> is_Some (hier_node i) \/ is_Some (hier_edge i)) /\
    omap hier_node hout = nodes /\ NoDup (omap hier_edge hout) /\
    (forall p c, (p, c) ∈ omap hier_edge hout <-> N p /\ N c /\ h_parent h c = Some p) /\
    (forall p, exists ch, h_children_list fuel h (h_children h p) = HOk ch /\ (forall c, c ∈ ch <-> h_parent h c = Some p) /\
       sublist (snd <$> filter (fun x => x.1 = p) (omap hier_edge hout)) ch).
Proof. exact C112_dot_hierarchy_pf. Qed.
Print Assumptions C112_dot_hierarchy.

Example C112_case : exists h, h_run h_new [HPush 1 0; HPush 2 0; HPush 3 2] = HOk h /\ hreach h
  /\ dot_finish (filtered (lv_of_pg vx_g) (fun n => n <=? 2) (fun _ => true)) (pg_off 16 vx_g) (fun _ => NHidden (L:=nat) (A:=nat)) (fun _ => PHidden) (fun _ _ => tt) 20 (Some h)
     = HOk [DHier 0; DHierEdge 0 1; DHierEdge 0 2; DHier 1; DHier 2].
Proof.
  destruct (h_run h_new [HPush 1 0; HPush 2 0; HPush 3 2]) as [h| |] eqn:Eh; [|vm_compute in Eh; discriminate Eh|vm_compute in Eh; discriminate Eh].
  exists h. split; [done|]. vm_compute in Eh. injection Eh as <-. split; [|vm_compute; reflexivity].
  eapply hr_step with (o := HPush 3 2); [eapply hr_step with (o := HPush 2 0); [eapply hr_step with (o := HPush 1 0); [apply hr_new| |]| |]| |];
    try (vm_compute; reflexivity); intros (Hc & _); discriminate Hc.
Qed.

(** C113. Labels and edge styles of the mermaid output: an encoded label is the id if
the label is empty, and otherwise is in double quotes with neither double quotes
nor line feeds between them, and is the label itself if it has none;
[strip_label] removes every label and [with_label] only replaces the label; and
the text of an edge exists for every style (the [unreachable!] is not reached),
contains the encoded label unless the style below is custom, and does not depend
on the labels below the first. *)
Theorem C113_labels :
(forall id label, (label = ""%string -> encode_label id label = id) /\
   (label <> ""%string -> exists s, encode_label id label = (String quote s ++ String quote "")%string /\ free_of quote s /\ free_of newline s /\
      (free_of quote label -> free_of newline label -> s = label)))
/\ (forall e, (forall l e', strip_label e <> Labelled l e') /\ forall l, strip_label (with_label e l) = strip_label e)
/\ (forall e l, as_dot_str (with_label e l) = as_dot_str e)
/\ (forall e, exists s, as_mermaid_str e = Ok s)
/\ (forall e l s, as_mermaid_str (Labelled l e) = Ok s ->
      (exists t, strip_label e = Custom t /\ s = t) \/ (forall t, strip_label e <> Custom t) /\ occurs_in (encode_label "" l) s)
/\ forall e l, as_mermaid_str (with_label e l) = as_mermaid_str (Labelled l (strip_label e)).
Proof. exact C113_labels_pf. Qed.
Print Assumptions C113_labels.

Example C113_case : encode_label "7" (String quote (String newline "a")) = (String quote "#quot;<br>a" ++ String quote "")%string
  /\ as_mermaid_str (with_label (Labelled "x" Dotted) "y") = Ok ("-." ++ String quote ("y" ++ String quote ".->"))%string
  /\ as_mermaid_str (Labelled "y" (Labelled "x" (Custom "==>"))) = Ok "==>"%string.
Proof. vm_compute. repeat split. Qed.
