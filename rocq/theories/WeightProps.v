(** Properties C94 to C97 of properties.jsonl. *)
From Verif Require Export WeightThms.


(** C94. [Weights] kept beside a graph with the documented callbacks ([swap]) or with
[rekey]: no call of a callback panics; and however many calls are made, the
weight of a node or port is the one written to it last, wherever the calls
have moved it. *)
Theorem C94_weights_follow :
forall (A B : Type) (adef : A) (bdef : B) w sty s, wreach adef bdef w sty s ->
  (forall o, step w s.1 o <> Panic -> wstep adef bdef w sty s (WCall o) <> Panic) /\
  (forall n v, exists ws, w_set_node s.2 n v = Ok ws) /\ (forall p v, exists ws, w_set_port s.2 p v = Ok ws) /\
  (forall n s' n' v', node_path adef bdef w sty s n (w_node s.2 n) s' n' v' -> w_node s'.2 n' = v') /\
  (forall p s' p' v', port_path adef bdef w sty s p (w_port s.2 p) s' p' v' -> w_port s'.2 p' = v').
Proof. exact C94_weights_follow_pf. Qed.
Print Assumptions C94_weights_follow.

(** Input 1 of node 1 has weight 5 and node 1 weight 9. Node 0 is removed, node 1
gets two more outputs, which moves its ports, and everything is compacted: port
6 and node 1 become port 1 and node 0. *)
Example C94_weights_case : let l := [WCall (OAdd 1 1); WCall (OAdd 2 0); WNode 1 9; WPort 3 5; WCall (ORemove 0); WCall (OSetPorts 1 2 2)] in
  match wrun 0 0 16 BySwap l (pg_new, w_new 0 0) with
  | Some s => ports s.1 1 Incoming = [4; 5] /\ w_port s.2 5 = 5 /\
      match wrun 0 0 16 BySwap [WCall OCompactNodes; WCall OCompactPorts] s with
      | Some s => ports s.1 0 Incoming = [0; 1] /\ w_port s.2 1 = 5 /\ w_node s.2 0 = 9
      | None => False end
  | None => False
  end.
Proof. vm_compute. repeat split. Qed.

(** C95 is false: with the documented callback, input 1 of a node with three inputs
gets weight 5 and is then dropped by [set_num_ports(0, 1, 0)]; [set_num_ports(0, 2, 0)] makes a
new input 1, which was never given a weight and has weight 5. *)
Theorem C95_unset_weights_refuted :
exists (s s' : pg * weights nat nat) n i j p, wreach 0 0 16 BySwap s /\ wstep 0 0 16 BySwap s (WCall (OSetPorts n i j)) = Ok s' /\
  contains_port s'.1 p = true /\ (forall q, ~ survives s.1 s'.1 n q p) /\ w_port s'.2 p = 5.
Proof. exact C95_unset_weights_refuted_pf. Qed.
Print Assumptions C95_unset_weights_refuted.

(** C95, what holds: with [rekey] in the callbacks, if indices that are not nodes or
ports read as the default, then after any allowed call other than
[remove_node] and [clear] they still do, and so do the nodes and ports that the
call made. Missing: the documented [swap] callback, where it fails, and the two
calls that have no callback. *)
Theorem C95_unset_weights_partial :
forall (A B : Type) (adef : A) (bdef : B) w s o s', (1 < w <= 63)%N -> wreach adef bdef w ByRekey s ->
  tidy adef bdef s.1 s.2 -> allowed s.1 o -> told o -> wstep adef bdef w ByRekey s (WCall o) = Ok s' ->
  tidy adef bdef s'.1 s'.2 /\
  (forall n', (forall n, ~ node_goes o s.1 s'.1 n n') -> w_node s'.2 n' = adef) /\
  (forall p', (forall p, ~ port_goes o s.1 s'.1 p p') -> w_port s'.2 p' = bdef).
Proof. exact C95_unset_weights_partial_pf. Qed.
Print Assumptions C95_unset_weights_partial.

(** Node 0 loses input 1, which had weight 5, and gets another: it reads as the
default. Output 0 keeps its weight 7. *)
Example C95_unset_weights_case : let l := [WCall (OAdd 2 2); WNode 0 9; WPort 1 5; WPort 2 7; WCall (OSetPorts 0 1 2)] in
  match wrun 0 0 16 ByRekey l (pg_new, w_new 0 0) with
  | Some s => (w_port s.2 <$> seq 0 6) = [0; 7; 0; 0; 0; 0] /\ w_node s.2 0 = 9 /\
      match wstep 0 0 16 ByRekey s (WCall (OSetPorts 0 2 1)) with Ok s' => (w_port s'.2 <$> seq 0 6) = [0; 0; 7; 0; 0; 0] | Panic => False end
  | None => False
  end /\ told (OSetPorts 0 2 1) /\ tidy 0 0 pg_new (w_new 0 0).
Proof. split; [vm_compute; repeat split|]. split; [done|]. split; intros; reflexivity. Qed.

(** C96 is false: nodes 0 and 1 have weights 1 and 2; node 0 is removed and the
weights are shrunk to the node and port counts, as documented; node 1 has lost
its weight. *)
Theorem C96_shrink_weights_refuted :
exists (s : pg * weights nat nat) n, wreach 0 0 16 BySwap s /\ contains_node s.1 n = true /\ w_node s.2 n = 2 /\
  w_node (w_shrink s.2 (node_count s.1) (port_count s.1)) n = 0.
Proof. exact C96_shrink_weights_refuted_pf. Qed.
Print Assumptions C96_shrink_weights_refuted.

(** C96, what holds: shrinking the weights to the node and port counts right after
[compact_nodes] and [compact_ports] keeps the weight of every node and port, and
the maps then hold nothing else. Missing: without compaction it fails. *)
Theorem C96_shrink_weights_partial :
forall (A B : Type) (adef : A) (bdef : B) w sty s s1 s2, wreach adef bdef w sty s -> (forall n, ~ hollow s.1 n) ->
  wstep adef bdef w sty s (WCall OCompactNodes) = Ok s1 -> wstep adef bdef w sty s1 (WCall OCompactPorts) = Ok s2 ->
  let ws := w_shrink s2.2 (node_count s2.1) (port_count s2.1) in
  (forall n, contains_node s2.1 n = true -> w_node ws n = w_node s2.2 n) /\
  (forall p, contains_port s2.1 p = true -> w_port ws p = w_port s2.2 p) /\
  tidy adef bdef s2.1 ws /\ length (um_data (w_nodes ws)) <= node_count s.1 /\ length (um_data (w_ports ws)) <= port_count s.1.
Proof. exact C96_shrink_weights_partial_pf. Qed.
Print Assumptions C96_shrink_weights_partial.

Example C96_shrink_weights_case : let l := [WCall (OAdd 0 0); WCall (OAdd 0 1); WNode 0 1; WNode 1 2; WPort 0 6; WCall (ORemove 0)] in
  match wrun 0 0 16 BySwap l (pg_new, w_new 0 0) with
  | Some s => allowedb s.1 OCompactPorts = true /\
      match wrun 0 0 16 BySwap [WCall OCompactNodes; WCall OCompactPorts] s with
      | Some s2 => w_node (w_shrink s2.2 (node_count s2.1) (port_count s2.1)) 0 = 2 /\ w_port (w_shrink s2.2 (node_count s2.1) (port_count s2.1)) 0 = 6
      | None => False
      end
  | None => False
  end.
Proof. vm_compute. repeat split. Qed.

(** C97. The same client on a multigraph: after any allowed calls, no callback panics,
and each allowed call that returns leaves the weight of every visible node and
port with it, although the callbacks also report the hidden nodes and ports. *)
Theorem C97_multi_weights :
forall (A B : Type) (adef : A) (bdef : B) w sty s o m' r, (2 < w <= 63)%N -> mwreach adef bdef w sty s ->
  mallowed w s.1 o -> mstep w s.1 o = Ok (m', r) ->
  exists ws', mwstep adef bdef w sty s (WCall o) = Ok (m', ws') /\
    (forall n n', mnode_goes o r s.1 m' n n' -> w_node ws' n' = w_node s.2 n) /\
    (forall p p', mport_goes o s.1 m' p p' -> w_port ws' p' = w_port s.2 p).
Proof. exact C97_multi_weights_pf. Qed.
Print Assumptions C97_multi_weights.

(** Output 0 of node 0 has links to both inputs of node 1, so there is a copy node,
2, with ports 3, 4 and 5. Compaction renumbers it too. *)
Example C97_multi_weights_case :
  match mrun 16 [MAdd 0 1; MAdd 2 0; MLink 0 1; MLink 0 2] m_new with
  | Some m =>
      let s := (m, w_new 0 0) in
      mallowedb 16 m (MultiSpec.MRemove 0) = true /\
      match mwstep 0 0 16 BySwap s (WNode 1 7) with
      | Ok s => match mwstep 0 0 16 BySwap s (WPort 2 8) with
        | Ok s => match mwstep 0 0 16 BySwap s (WCall (MSetPorts 1 2 1)) with
          | Ok s => match mwstep 0 0 16 BySwap s (WCall (MultiSpec.MRemove 0)) with
            | Ok s => match mwstep 0 0 16 BySwap s (WCall MCompactNodes) with
              | Ok s => m_nodes_iter s.1 = [0] /\ w_node s.2 0 = 7 /\ (w_port s.2 <$> ports (m_graph s.1) 0 Incoming) = [0; 8]
              | Panic => False end
            | Panic => False end
          | Panic => False end
        | Panic => False end
      | Panic => False end
  | None => False
  end.
Proof. vm_compute. repeat split. Qed.
