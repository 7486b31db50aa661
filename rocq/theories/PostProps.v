(** Properties C48 and C70 of properties.jsonl. *)
From Verif Require Export PostThms TopoProps.

(** Nodes 0 to 4 with links 0 -> 1 -> 2 -> 1, 0 -> 2, a second link 0 -> 1, 2 -> 3
    and 4 -> 3. *)
Definition cyc_ops : list op :=
  [OAdd 0 3; OAdd 3 1; OAdd 2 2; OAdd 2 0; OAdd 0 1;
   OLink 0 3; OLink 1 7; OLink 2 4; OLink 6 8; OLink 9 5; OLink 10 11; OLink 13 12].
Definition cyc_g : pg := default pg_new (run 16 cyc_ops pg_new).
Lemma cyc_reach : reach 16 cyc_g.
Proof. exists cyc_ops. apply run_hist. vm_compute. reflexivity. Qed.

(** C48. [postorder_filtered] ends without a panic (for any vector capacity
[cap] above all node indices, provided the accepted sources lie below it);
the nodes are yielded in the order of the recursive depth-first traversal
that follows the accepted links in port order, each once; they are the nodes
reachable over accepted links from the accepted sources; and when [u] has an
accepted link to [v], then [v] comes before [u] unless [v] reaches [u]. *)
Theorem C48_postorder :
forall w g d nf pf cap src, reach w g -> length (pg_nodes g) <= cap ->
  (forall n, n ∈ src -> nf n = true -> n < cap) ->
  exists l V,
    (exists N, forall fuel, N <= fuel -> postorder (gv_of g) d nf pf fuel cap src = HOk l)
    /\ dfs (fnext g d nf pf) ∅ (filter (fun n => nf n = true) src) l V
    /\ NoDup l
    /\ (forall n, n ∈ l <-> exists s, s ∈ src /\ nf s = true /\ rtc (fedge g d nf pf) s n)
    /\ (forall u v, u ∈ l -> fedge g d nf pf u v -> before l v u \/ rtc (fedge g d nf pf) v u).
Proof. exact C48_postorder_pf. Qed.
Print Assumptions C48_postorder.

Example C48_case : reach 16 cyc_g /\ length (pg_nodes cyc_g) <= 5
  /\ postorder (gv_of cyc_g) Outgoing (fun _ => true) (fun _ _ => true) 99 5 [0; 4] = HOk [3; 2; 1; 0; 4]
  /\ postorder (gv_of cyc_g) Outgoing (fun n => bool_decide (n <> 3)) (fun _ p => bool_decide (p <> 3)) 99 5 [3; 4; 0] = HOk [4; 1; 2; 0]
  /\ postorder (gv_of cyc_g) Incoming (fun _ => true) (fun _ _ => true) 99 5 [3] = HOk [0; 1; 2; 4; 3].
Proof. split; [apply cyc_reach|]. split; [vmdec|]. split_and!; vm_compute; reflexivity. Qed.

(** C70. After any number of calls of [next], for sources that are nodes of the
graph, [size_hint] does not underflow and its upper bound is at least the
number of nodes still to come. *)
Theorem C70_postorder_size_hint :
forall w g d nf pf cap src k, reach w g -> length (pg_nodes g) <= cap ->
  (forall n, n ∈ src -> contains_node g n = true) ->
  exists s hi rest,
    (exists N, forall fuel, N <= fuel ->
       po_after (gv_of g) d nf pf fuel k (post_new nf cap src) = HOk s
       /\ po_collect (gv_of g) d nf pf fuel fuel s = HOk rest)
    /\ po_size_hint (gv_of g) s = Ok (0, hi)
    /\ length rest <= hi.
Proof. exact C70_postorder_size_hint_pf. Qed.
Print Assumptions C70_postorder_size_hint.

Example C70_case : reach 16 cyc_g /\ length (pg_nodes cyc_g) <= 5
  /\ (s ← po_after (gv_of cyc_g) Outgoing (fun _ => true) (fun _ _ => true) 99 2 (post_new (fun _ => true) 5 [0]);
      lift (po_size_hint (gv_of cyc_g) s)) = HOk (0, 3).
Proof. split; [apply cyc_reach|]. split; [vmdec|]. vm_compute. reflexivity. Qed.
