(** Properties C90 and C91 of properties.jsonl. *)
From Verif Require Export TAddThms TopoProps.


(** C90 is false for nodes without ports: node 1 has no port and was not yielded;
[add_sources] drops it silently, while [toposort] itself yields such a source. *)
Theorem C90_portless_refuted :
exists g, reach 16 g /\ contains_node g 1 = true
  /\ (forall k, exists os s, topo_cmds (gv_of g) Outgoing (fun _ => true) (fun _ _ => true) (TAdd [1] :: TNext :: replicate k TNext)
        (topo_new (gv_of g) Outgoing (fun _ => true) [0]) = Ok (Some 0 :: os, s) /\ yielded os = [])
  /\ topo_collect (gv_of g) Outgoing (fun _ => true) (fun _ _ => true) 9 (topo_new (gv_of g) Outgoing (fun _ => true) [0; 1]) = HOk [0; 1].
Proof. exact C90_portless_refuted_pf. Qed.
Print Assumptions C90_portless_refuted.

(** C90 is false for sources given twice to [toposort]: both are yielded, and
[size_hint] then panics on the negative number of nodes left. *)
Theorem C90_duplicates_refuted :
exists g s, reach 16 g
  /\ topo_cmds (gv_of g) Outgoing (fun _ => true) (fun _ _ => true) [TNext; TNext] (topo_new (gv_of g) Outgoing (fun _ => true) [0; 0])
       = Ok ([Some 0; Some 0], s)
  /\ topo_size_hint (gv_of g) s = Panic.
Proof. exact C90_duplicates_refuted_pf. Qed.
Print Assumptions C90_duplicates_refuted.

(** What holds for distinct sources and any program of [next] and [add_sources]
calls: no panic; no node is yielded twice; a node yielded that is not a source
comes after the ends of its accepted links; enough further calls exhaust the
iterator; once exhausted, the yielded nodes are the accepted sources (those
added later only if they have a port) and the nodes that they make ready. *)
Theorem C90_add_sources_partial :
forall w g d nf pf src cs, reach w g -> NoDup src ->
  exists os s, topo_cmds (gv_of g) d nf pf cs (topo_new (gv_of g) d nf src) = Ok (os, s)
  /\ NoDup (yielded os)
  /\ (forall n u p q, n ∈ yielded os -> n ∉ src -> n ∉ added cs -> plink_via g d u p q n -> pf n q = true ->
        before (yielded os) u n)
  /\ (exists k os' s', topo_cmds (gv_of g) d nf pf (cs ++ replicate k TNext) (topo_new (gv_of g) d nf src) = Ok (os ++ os', s')
        /\ topo_next (gv_of g) d nf pf s' = Ok (None, s'))
  /\ (topo_next (gv_of g) d nf pf s = Ok (None, s) -> forall n, n ∈ yielded os <-> nf n = true /\
        (n ∈ src \/ (n ∈ added cs /\ has_port g n) \/
          (exists u p q, u ∈ yielded os /\ plink_via g d u p q n /\ pf u p = true)
          /\ forall u p q, plink_via g d u p q n -> pf n q = true -> u ∈ yielded os /\ pf u p = true)).
Proof. exact C90_add_sources_partial_pf. Qed.
Print Assumptions C90_add_sources_partial.

Example C90_case : reach 16 dag_g /\ NoDup [1]
  /\ match topo_cmds (gv_of dag_g) Outgoing (fun _ => true) (fun _ _ => true) [TNext; TAdd [0; 1; 0]; TNext; TAdd [0; 3]; TNext; TNext; TNext]
             (topo_new (gv_of dag_g) Outgoing (fun _ => true) [1]) with
     | Ok (os, _) => os = [Some 1; Some 0; Some 2; Some 3; None]
     | Panic => False
     end.
Proof. split; [apply dag_reach|]. split; [apply NoDup_singleton|]. vm_compute. reflexivity. Qed.

(** C91. Once the iterator is exhausted, [ports_remaining] has a port of a node
exactly when the node has a port and was not yielded. If all nodes without
predecessors were given as sources and a port remains, the graph has a cycle;
if only such nodes were given and no port remains, it has none. *)
Theorem C91_ports_remaining :
forall w g d src cs os s, reach w g -> NoDup src ->
  topo_cmds (gv_of g) d (fun _ => true) (fun _ _ => true) cs (topo_new (gv_of g) d (fun _ => true) src) = Ok (os, s) ->
  topo_next (gv_of g) d (fun _ => true) (fun _ _ => true) s = Ok (None, s) ->
  (forall n, (exists p dd, p ∈ topo_ports_remaining (ports_iter g) s /\ p ∈ ports g n dd) <-> has_port g n /\ n ∉ yielded os)
  /\ (topo_ports_remaining (ports_iter g) s <> [] ->
      (forall n, contains_node g n = true -> (~ exists a, pedge g d a n) -> n ∈ src \/ n ∈ added cs) -> ~ pacyclic g)
  /\ (topo_ports_remaining (ports_iter g) s = [] ->
      (forall n, n ∈ src \/ n ∈ added cs -> ~ exists a, pedge g d a n) -> pacyclic g).
Proof. exact C91_ports_remaining_pf. Qed.
Print Assumptions C91_ports_remaining.

(** Node 0 leads into the cycle of nodes 1 and 2. *)
Definition cyc_ops : list op := [OAdd 0 1; OAdd 2 1; OAdd 1 1; OLink 0 1; OLink 3 4; OLink 5 2].
Definition cyc_g : pg := default pg_new (run 16 cyc_ops pg_new).
Lemma cyc_reach : reach 16 cyc_g.
Proof. exists cyc_ops. apply run_hist. vm_compute. reflexivity. Qed.
Definition rem_after (g : pg) (src : list nat) (k : nat) : option (list (option nat) * list nat) :=
  match topo_cmds (gv_of g) Outgoing (fun _ => true) (fun _ _ => true) (replicate k TNext) (topo_new (gv_of g) Outgoing (fun _ => true) src) with
  | Ok (os, s) => Some (os, topo_ports_remaining (ports_iter g) s)
  | Panic => None
  end.
Example C91_case : reach 16 dag_g /\ rem_after dag_g [0] 5 = Some ([Some 0; Some 1; Some 2; Some 3; None], [])
  /\ reach 16 cyc_g /\ rem_after cyc_g [0] 2 = Some ([Some 0; None], [2; 3; 4; 5]).
Proof. split; [apply dag_reach|]. split; [vm_compute; reflexivity|]. split; [apply cyc_reach|vm_compute; reflexivity]. Qed.
