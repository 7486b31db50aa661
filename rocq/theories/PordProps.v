(** Property C66: the order of boundary ports. *)
From Verif Require Import PordThms BoundProps PGRun.

Lemma bd_acyclic : pacyclic bd_g.
Proof. apply (acyclic_check 16); [exact bd_reach|vm_compute; reflexivity]. Qed.


(** C66, for an acyclic graph or view with at most one link per port: if the ports of
the boundary are distinct and have no link in the view, [port_ordering] terminates
without a panic, whatever the order of its hash sets, and relates an input to an
output exactly when the node of the output can be reached from the node of the
input. Missing: boundaries with links in the view, where this fails (below). *)
Theorem C66_port_ordering_partial :
forall E (V : lview E) N R B order, shows V N R -> one_link V R -> (forall n, ~ tc (vedge V R) n n) -> cut_boundary V N R B ->
  (forall l, order l ≡ₚ l) ->
  exists o K, (forall fuel, K < fuel -> port_ordering V B order fuel = HOk o) /\
    holds_order o (length (bd_inputs B)) (length (bd_outputs B)) (port_path V R B).
Proof. exact C66_port_ordering_partial_pf. Qed.
Print Assumptions C66_port_ordering_partial.

(** In the subgraph of the chain between ports 2 and 5, the input is related to the output. *)
Example C66_port_ordering_case : let V := subgraph (lv_of_pg bd_g) [1; 2] in
  match port_ordering V (Bd [2] [5]) (@rev _) 9 with
  | HOk o => map elements (po_reachable o) = [[BP 0 Outgoing]] /\ map elements (po_reaching o) = [[BP 0 Incoming]]
  | _ => False
  end.
Proof. vm_compute. split; reflexivity. Qed.

(** The hypotheses hold of that subgraph and boundary. *)
Example C66_port_ordering_meets : let V := subgraph (lv_of_pg bd_g) [1; 2] in let S n := n ∈ [1; 2] in let R := link_inside (lv_of_pg bd_g) S (linked bd_g) in
  shows V S R /\ one_link V R /\ (forall n, ~ tc (vedge V R) n n) /\ cut_boundary V S R (Bd [2] [5]).
Proof.
  cbn zeta. split.
  { apply (C78_subgraph_view_pf _ (lv_of_pg bd_g) (fun n => contains_node bd_g n = true)); [exact (pg_shows 16 bd_g bd_reach)|vmdec|].
    intros n [->| ->%elem_of_list_singleton]%elem_of_cons; vm_compute; reflexivity. }
  split; [intros x y x' y' (H1 & _) (H2 & _) Eq; exact (pg_one_link bd_g x y x' y' H1 H2 Eq)|]. split.
  - intros n Ht. apply (bd_acyclic n).
    assert (Hg : forall a b, tc (vedge (subgraph (lv_of_pg bd_g) [1; 2]) (link_inside (lv_of_pg bd_g) (fun n => n ∈ [1; 2]) (linked bd_g))) a b -> tc (pedge bd_g Outgoing) a b); [|by apply Hg].
    intros a b. induction 1 as [u v (x & y & (Hr & _) & Hx & Hd & Hy)|u v z (x & y & (Hr & _) & Hx & Hd & Hy) _ IH].
    + apply tc_once. apply (vedge_pedge 16 bd_g bd_reach). exists x, y. repeat split; assumption.
    + eapply tc_l; [|exact IH]. apply (vedge_pedge 16 bd_g bd_reach). exists x, y. repeat split; assumption.
  - split; [vmdec|vmdec| |].
    + intros p [->| ->%elem_of_list_singleton]%elem_of_cons; [exists 1|exists 2]; (split; [vm_compute; reflexivity|]); [left|right; left].
    + intros x y (Hr & _ & (n & Hn & HS)) Hx. change (x ∈ [2; 5]) in Hx. revert Hx. intros [->| ->%elem_of_list_singleton]%elem_of_cons; vm_compute in Hr; injection Hr as <-; vm_compute in Hn; injection Hn as <-;
      apply elem_of_cons in HS as [?|?%elem_of_list_singleton]; done.
Qed.

(** C66 fails when the graph goes on outside the boundary: the chain 0 -> 1 -> 2 -> 3
with the input of node 1 and the output of node 2 as boundary. *)
Theorem C66_outside_refuted :
exists g B, reach 16 g /\ pacyclic g /\ NoDup (bd_ports B) /\ (forall d p, p ∈ bd_list B d -> port_direction g p = Some d) /\
  port_ordering (lv_of_pg g) B (@id _) 9 = HPanic.
Proof. exact C66_outside_refuted_pf. Qed.
Print Assumptions C66_outside_refuted.

(** It also fails in the subgraph that the boundary induces, if a link joins two
boundary ports: node 1 is linked to node 0, and both ends are in the boundary. *)
Theorem C66_inside_link_refuted :
exists g B nodes, reach 16 g /\ pacyclic g /\ NoDup (bd_ports B) /\ (forall d p, p ∈ bd_list B d -> port_direction g p = Some d) /\
  new_subgraph (lv_of_pg g) 9 B = HOk nodes /\ port_ordering (subgraph (lv_of_pg g) nodes) B (@id _) 9 = HPanic.
Proof. exact C66_inside_link_refuted_pf. Qed.
Print Assumptions C66_inside_link_refuted.

(** C66 in the recommended setting: an acyclic graph, the subgraph that the boundary
induces, and no link from a boundary port to a node of that subgraph. Then
[port_ordering] terminates without a panic and relates an input to an output
exactly when there is a path between their nodes inside the subgraph. *)
Theorem C66_subgraph_partial :
forall E (V : lview E) N R B order, shows V N R -> one_link V R -> (forall n, ~ tc (vedge V R) n n) ->
  NoDup (bd_inputs B) -> NoDup (bd_outputs B) -> (forall p, p ∈ bd_ports B -> port_in V N p) ->
  (forall x y n, R x y -> lv_port V x ∈ bd_ports B -> lv_pnode V (lv_port V y) = Some n -> ~ induced V N R (bd_ports B) n) ->
  (forall l, order l ≡ₚ l) ->
  exists L o K, (forall fuel, K < fuel -> new_subgraph V fuel B = HOk L /\ port_ordering (subgraph V L) B order fuel = HOk o) /\
    (forall n, n ∈ L <-> induced V N R (bd_ports B) n) /\
    holds_order o (length (bd_inputs B)) (length (bd_outputs B))
      (port_path (subgraph V L) (link_inside V (induced V N R (bd_ports B)) R) B).
Proof. exact C66_subgraph_partial_pf. Qed.
Print Assumptions C66_subgraph_partial.

Example C66_subgraph_case : let V := lv_of_pg bd_g in shows V (fun n => contains_node bd_g n = true) (linked bd_g) /\ one_link V (linked bd_g) /\ pacyclic bd_g
  /\ new_subgraph V 9 (Bd [2] [5]) = HOk [1; 2]
  /\ match port_ordering (subgraph V [1; 2]) (Bd [2] [5]) (@rev _) 9 with HOk o => map elements (po_reachable o) = [[BP 0 Outgoing]] | _ => False end.
Proof. split; [exact (pg_shows 16 bd_g bd_reach)|]. split; [apply pg_one_link|]. split; [exact bd_acyclic|]. vm_compute. repeat split. Qed.

(** C66: [is_stronger_than] and [missing_pairs] panic exactly on orderings of
different sizes; otherwise the first answers whether every pair of the other
ordering is in this one, and the second lists the missing pairs, each once. *)
Theorem C66_is_stronger :
forall order a b, (forall l, order l ≡ₚ l) ->
  (length (po_reachable a) = length (po_reachable b) /\ length (po_reaching a) = length (po_reaching b) ->
   exists r l, po_is_stronger_than a b = HOk r /\ po_missing_pairs order a b = HOk l /\
     (r = true <-> forall i s t z, po_reachable a !! i = Some s -> po_reachable b !! i = Some t -> z ∈ t -> z ∈ s) /\
     NoDup l /\ (forall x z, (x, z) ∈ l <-> exists i s t, x = BP i Incoming /\ po_reachable a !! i = Some s /\ po_reachable b !! i = Some t /\ z ∈ t /\ z ∉ s) /\
     (r = true <-> l = [])) /\
  (~ (length (po_reachable a) = length (po_reachable b) /\ length (po_reaching a) = length (po_reaching b)) ->
   po_is_stronger_than a b = HPanic /\ po_missing_pairs order a b = HPanic).
Proof. exact C66_is_stronger_pf. Qed.
Print Assumptions C66_is_stronger.

Example C66_is_stronger_case : let a := POrd [{[BP 0 Outgoing]}; ∅] [{[BP 0 Incoming]}] in let b := POrd [{[BP 0 Outgoing]}; {[BP 0 Outgoing]}] [{[BP 0 Incoming; BP 1 Incoming]}] in
  po_is_stronger_than a b = HOk false /\ po_is_stronger_than b a = HOk true /\ po_missing_pairs (@rev _) a b = HOk [(BP 1 Incoming, BP 0 Outgoing)]
  /\ po_missing_pairs (@rev _) b a = HOk [] /\ po_is_stronger_than a (POrd [] []) = HPanic.
Proof. vm_compute. repeat split. Qed.

(** C66: for two compatible boundaries as in C66_port_ordering_partial, [is_stronger_than]
answers whether every input-output path of the other one exists in this one. *)
Theorem C66_boundary_stronger_partial :
forall E E' (V : lview E) (V' : lview E') N N' R R' B B' order,
  shows V N R -> one_link V R -> (forall n, ~ tc (vedge V R) n n) -> cut_boundary V N R B ->
  shows V' N' R' -> one_link V' R' -> (forall n, ~ tc (vedge V' R') n n) -> cut_boundary V' N' R' B' ->
  (forall l, order l ≡ₚ l) -> bd_is_compatible B B' = true ->
  exists r K, (forall fuel, K < fuel -> bd_is_stronger_than order fuel V V' B B' = HOk r) /\
    (r = true <-> forall i j, port_path V' R' B' i j -> port_path V R B i j).
Proof. exact C66_boundary_stronger_partial_pf. Qed.
Print Assumptions C66_boundary_stronger_partial.

Example C66_boundary_stronger_case : let V := lv_of_pg bd_g in
  bd_is_stronger_than (@rev _) 9 (subgraph V [1; 2]) (subgraph V [1; 2]) (Bd [2] [5]) (Bd [2] [5]) = HOk true
  /\ bd_is_stronger_than (@rev _) 9 (subgraph V [4]) (subgraph V [0; 4]) (Bd [8] [9]) (Bd [0] [9]) = HOk true
  /\ bd_is_stronger_than (@rev _) 9 (subgraph V [0; 4]) (subgraph V [4]) (Bd [0] [9]) (Bd [8] [9]) = HOk false.
Proof. vm_compute. repeat split. Qed.
