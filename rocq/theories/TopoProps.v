(** Properties C45, C47 and C69 of properties.jsonl. *)
From Verif Require Export TopoThms PG1Props.

(** Nodes 0 to 3 with links 0 -> 1 -> 2, 0 -> 2 and 2 -> 3. *)
Definition dag_ops : list op :=
  [OAdd 0 2; OAdd 1 1; OAdd 2 1; OAdd 1 0; OLink 0 2; OLink 1 4; OLink 3 5; OLink 6 7].
Definition dag_g : pg := default pg_new (run 16 dag_ops pg_new).
Lemma dag_reach : reach 16 dag_g.
Proof. exists dag_ops. apply run_hist. vm_compute. reflexivity. Qed.
Lemma dag_acyclic : pacyclic dag_g.
Proof. apply (acyclic_check 16); [apply dag_reach|]. vm_compute. reflexivity. Qed.


(** C45. For distinct sources, [toposort] ends without a panic; the nodes it
yields are distinct; all predecessors of a yielded node that is not a source
are yielded before it (and there is one); a node with predecessors, all
yielded, is yielded; and on an acyclic graph with all nodes without
predecessors among the sources every node is yielded. *)
Theorem C45_toposort :
forall w g d src, reach w g -> NoDup src ->
  exists l,
    (forall fuel, length l < fuel ->
       topo_collect (gv_of g) d (fun _ => true) (fun _ _ => true) fuel
         (topo_new (gv_of g) d (fun _ => true) src) = HOk l)
    /\ NoDup l
    /\ (exists rest, l = src ++ rest)
    /\ (forall n, n ∈ l -> n ∉ src ->
          (exists a, pedge g d a n) /\ forall a, pedge g d a n -> before l a n)
    /\ (forall n, (exists a, pedge g d a n) -> (forall a, pedge g d a n -> a ∈ l) -> n ∈ l)
    /\ (pacyclic g -> (forall n, n ∈ src -> contains_node g n = true) ->
        (forall n, contains_node g n = true -> (~ exists a, pedge g d a n) -> n ∈ src) ->
        l ≡ₚ nodes_iter g).
Proof. exact C45_toposort_pf. Qed.
Print Assumptions C45_toposort.

Example C45_case : reach 16 dag_g /\ NoDup [0] /\ pacyclic dag_g
  /\ (forall n, contains_node dag_g n = true -> (~ exists a, pedge dag_g Outgoing a n) -> n ∈ [0])
  /\ topo_collect (gv_of dag_g) Outgoing (fun _ => true) (fun _ _ => true) 9
       (topo_new (gv_of dag_g) Outgoing (fun _ => true) [0]) = HOk [0; 1; 2; 3].
Proof.
  split; [apply dag_reach|]. split; [apply NoDup_singleton|]. split; [apply dag_acyclic|]. split; [|by vm_compute].
  intros n Hn Hno. destruct n as [|[|[|[|n]]]]; [by left| | | |].
  - exfalso. apply Hno. exists 0, 0, 2. split; [vmdec|split; [vm_compute; reflexivity|vmdec]].
  - exfalso. apply Hno. exists 0, 1, 4. split; [vmdec|split; [vm_compute; reflexivity|vmdec]].
  - exfalso. apply Hno. exists 2, 6, 7. split; [vmdec|split; [vm_compute; reflexivity|vmdec]].
  - vm_compute in Hn. by destruct n.
Qed.

(** C47 is false: node 1 is only reachable through its input port 1, which the
port filter rejects, and is yielded all the same ([next] consults the filter
for the port of the source node only). *)
Theorem C47_target_port_refuted :
exists g nf pf, reach 16 g /\ (forall n p q, plink_via g Outgoing n p q 1 -> pf 1 q = false)
  /\ topo_collect (gv_of g) Outgoing nf pf 9 (topo_new (gv_of g) Outgoing nf [0]) = HOk [0; 1].
Proof. exact C47_target_port_refuted_pf. Qed.
Print Assumptions C47_target_port_refuted.

(** C47 is false in its second part too: node 2 has the predecessors 0 and 1; with
node 1 rejected by the node filter the only remaining predecessor 0 is
yielded, and node 2 is not. *)
Theorem C47_filtered_pred_refuted :
exists g nf, reach 16 g /\ pacyclic g /\ nf 1 = false /\ nf 2 = true
  /\ (forall n p q, plink_via g Outgoing n p q 2 -> n = 0 \/ n = 1)
  /\ (exists p q, plink_via g Outgoing 0 p q 2)
  /\ topo_collect (gv_of g) Outgoing nf (fun _ _ => true) 9 (topo_new (gv_of g) Outgoing nf [0]) = HOk [0].
Proof. exact C47_filtered_pred_refuted_pf. Qed.
Print Assumptions C47_filtered_pred_refuted.

(** What holds instead: the nodes yielded are, besides the accepted sources,
exactly the accepted nodes with a link from a yielded node through a port
accepted on its side, all of whose links through ports accepted on their own
side come from yielded nodes through accepted ports; and these come first. *)
Theorem C47_toposort_filtered_partial :
forall w g d nf pf src, reach w g -> NoDup src ->
  exists l,
    (forall fuel, length l < fuel -> topo_collect (gv_of g) d nf pf fuel (topo_new (gv_of g) d nf src) = HOk l)
    /\ NoDup l
    /\ (exists rest, l = filter (fun n => nf n = true) src ++ rest)
    /\ (forall n, n ∈ l <-> nf n = true /\ (n ∈ src \/
          (exists u p q, u ∈ l /\ plink_via g d u p q n /\ pf u p = true)
          /\ forall u p q, plink_via g d u p q n -> pf n q = true -> u ∈ l /\ pf u p = true))
    /\ (forall n u p q, n ∈ l -> n ∉ src -> plink_via g d u p q n -> pf n q = true -> before l u n).
Proof. exact C47_toposort_filtered_partial_pf. Qed.
Print Assumptions C47_toposort_filtered_partial.

Example C47_case : reach 16 dag_g /\ NoDup [1; 0]
  /\ topo_collect (gv_of dag_g) Outgoing (fun n => bool_decide (n <> 1)) (fun _ p => bool_decide (p <> 5)) 9
       (topo_new (gv_of dag_g) Outgoing (fun n => bool_decide (n <> 1)) [1; 0]) = HOk [0; 2; 3].
Proof. split; [apply dag_reach|]. split; [|by vm_compute]. by apply (bool_decide_unpack _). Qed.

(** The property holds in full when the filters are consistent: a link is
accepted on the target's side exactly when it is on the source's side and its
source node is accepted. Then every yielded node that is not a source has an
accepted link from a node yielded before it, and a node with accepted links,
all from yielded nodes, is yielded. *)
Theorem C47_symmetric_filters_partial :
forall w g d nf pf src, reach w g -> NoDup src ->
  (forall u p q n, plink_via g d u p q n -> pf n q = true <-> pf u p = true /\ nf u = true) ->
  exists l,
    (forall fuel, length l < fuel -> topo_collect (gv_of g) d nf pf fuel (topo_new (gv_of g) d nf src) = HOk l)
    /\ NoDup l
    /\ (forall n, n ∈ l -> nf n = true)
    /\ (forall n, n ∈ l -> n ∉ src ->
          (exists u p q, flink g d nf pf u p q n) /\ forall u p q, flink g d nf pf u p q n -> before l u n)
    /\ (forall n, (exists u p q, flink g d nf pf u p q n) -> (forall u p q, flink g d nf pf u p q n -> u ∈ l) -> n ∈ l).
Proof. exact C47_symmetric_filters_partial_pf. Qed.
Print Assumptions C47_symmetric_filters_partial.

Example C47_symmetric_case : reach 16 dag_g /\ NoDup [1; 0]
  /\ (forall u p q n, plink_via dag_g Outgoing u p q n ->
        bool_decide (q <> 5 /\ q <> 2) = true <-> bool_decide (p <> 3 /\ p <> 0) = true /\ bool_decide (u <> 1) = true).
Proof.
  split; [apply dag_reach|]. split; [by apply (bool_decide_unpack _)|].
  intros u p q n (Hp & Hl & _). rewrite !bool_decide_eq_true. unfold linked in Hl.
  destruct u as [|[|[|[|u]]]]; vm_compute in Hp.
  - apply elem_of_cons in Hp as [->|[->|Hp%elem_of_nil]%elem_of_cons]; [| |destruct Hp]; vm_compute in Hl; injection Hl as <-; lia.
  - apply elem_of_cons in Hp as [->|Hp%elem_of_nil]; [|destruct Hp]; vm_compute in Hl; injection Hl as <-; lia.
  - apply elem_of_cons in Hp as [->|Hp%elem_of_nil]; [|destruct Hp]; vm_compute in Hl; injection Hl as <-; lia.
  - apply elem_of_nil in Hp. destruct Hp.
  - destruct u; apply elem_of_nil in Hp; destruct Hp.
Qed.

(** C69. After any number of calls of [next] (distinct sources, all nodes of the
graph) [size_hint] does not underflow, and brackets the number of nodes the
iterator still yields. *)
Theorem C69_toposort_size_hint :
forall w g d src k, reach w g -> NoDup src -> (forall n, n ∈ src -> contains_node g n = true) ->
  exists s lo hi rest,
    topo_after (gv_of g) d (fun _ => true) (fun _ _ => true) k (topo_new (gv_of g) d (fun _ => true) src) = Ok s
    /\ topo_size_hint (gv_of g) s = Ok (lo, hi)
    /\ (forall fuel, length rest < fuel ->
          topo_collect (gv_of g) d (fun _ => true) (fun _ _ => true) fuel s = HOk rest)
    /\ lo <= length rest <= hi.
Proof. exact C69_toposort_size_hint_pf. Qed.
Print Assumptions C69_toposort_size_hint.

Example C69_case : reach 16 dag_g /\ NoDup [0] /\ (forall n, n ∈ [0] -> contains_node dag_g n = true)
  /\ (s ← topo_after (gv_of dag_g) Outgoing (fun _ => true) (fun _ _ => true) 1 (topo_new (gv_of dag_g) Outgoing (fun _ => true) [0]);
      topo_size_hint (gv_of dag_g) s) = Ok (1, 3).
Proof.
  split; [apply dag_reach|]. split; [apply NoDup_singleton|]. split; [|by vm_compute].
  intros n ->%elem_of_list_singleton. vm_compute. reflexivity.
Qed.
