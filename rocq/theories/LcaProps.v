(** Property C44 of properties.jsonl. *)
From Verif Require Export LcaThms HierProps.


(** C44. For a hierarchy over the nodes of a graph ([nodes] is what its
[nodes_iter] yields) the precomputation ends without a panic, and then for all
nodes: [is_ancestor] decides the ancestor relation; [root] is the ancestor
without a parent; [lca] is the common ancestor below which no other common
ancestor lies, or [None] if there is no common ancestor. [HOk] excludes panics
and (for every large enough fuel) endless loops. *)
Theorem C44_lca :
forall h nodes, hreach h -> NoDup nodes ->
  (forall c p, h_parent h c = Some p -> c ∈ nodes /\ p ∈ nodes) ->
  exists N l, forall fuel, N <= fuel ->
  lca_new fuel nodes h = HOk l /\
  forall a b, a ∈ nodes -> b ∈ nodes ->
    (lca_is_ancestor l a b = true <-> anc h a b)
    /\ (exists r, lca_root fuel l a = HOk r /\ anc h r a /\ h_parent h r = None)
    /\ ((exists c, lca_lca fuel l a b = HOk (Some c) /\ anc h c a /\ anc h c b
           /\ forall d, anc h d a -> anc h d b -> anc h d c)
        \/ lca_lca fuel l a b = HOk None /\ ~ exists d, anc h d a /\ anc h d b).
Proof. exact C44_lca_pf. Qed.
Print Assumptions C44_lca.

Definition lca_answer (h : hier) (nodes : list nat) (a b : nat) : hres (option nat) :=
  l ← lca_new 200 nodes h; lca_lca 200 l a b.
Example C44_case : hreach exh /\ NoDup (seq 0 8)
  /\ (forall c p, h_parent exh c = Some p -> c ∈ seq 0 8 /\ p ∈ seq 0 8)
  /\ lca_answer exh (seq 0 8) 4 5 = HOk (Some 2) /\ lca_answer exh (seq 0 8) 4 6 = HOk (Some 0)
  /\ lca_answer exh (seq 0 8) 4 2 = HOk (Some 2) /\ lca_answer exh (seq 0 8) 4 7 = HOk None.
Proof.
  split; [apply exh_hreach|]. split; [apply NoDup_ListNoDup, seq_NoDup|]. split; [|by vm_compute].
  intros c p Hc. assert (Hb : c < 7).
  { destruct (decide (c < 7)); [done|]. unfold h_parent in Hc. rewrite get_out in Hc; [by vm_compute in Hc|].
    change (length (um_data exh)) with 7. lia. }
  rewrite !elem_of_seq. do 7 (destruct c as [|c]; [vm_compute in Hc; try done; injection Hc as <-; lia|]). lia.
Qed.
