(** Property C114: lowest common ancestors on graph views. *)
From Verif Require Export LcaVThms HierProps.

(** C114 does not hold: [lca] takes any view of a graph, but only visits the trees
whose root is a visible node. With the hierarchy 0 > 1 > 2, 3 and the nodes of the
region of 1, [is_ancestor] says that the siblings 2 and 3 are ancestors of each
other, and the lowest common ancestor of 2 and 3 is given as 2. *)
Theorem C114_lca_view_refuted :
exists h l, hreach h /\ (forall n, n ∈ [1; 2; 3] <-> anc h 1 n) /\ lca_new 30 [1; 2; 3] h = HOk l /\
  lca_is_ancestor l 2 3 = true /\ lca_is_ancestor l 3 2 = true /\ ~ anc h 2 3 /\ lca_lca 30 l 2 3 = HOk (Some 2).
Proof. exact C114_lca_view_refuted_pf. Qed.
Print Assumptions C114_lca_view_refuted.

(** C114, for any visible nodes and any hierarchy: the precomputation and the queries
return, whatever nodes they are asked about; and for all nodes in trees whose root
is visible, the answers are exactly those of C44. Between nodes in other trees
[is_ancestor] always holds and [lca] is the first node. Missing: nodes in trees
whose root is not visible. *)
Theorem C114_lca_view_partial :
forall h nodes, hreach h -> NoDup nodes ->
  exists K l, forall fuel, K <= fuel ->
  lca_new fuel nodes h = HOk l /\
  (forall a b, (exists r, lca_root fuel l a = HOk r) /\ (exists o, lca_lca fuel l a b = HOk o)) /\
  let rooted a := exists r, r ∈ nodes /\ h_parent h r = None /\ anc h r a in
  (forall a b, rooted a -> rooted b ->
    (lca_is_ancestor l a b = true <-> anc h a b)
    /\ (exists r, lca_root fuel l a = HOk r /\ anc h r a /\ h_parent h r = None)
    /\ ((exists c, lca_lca fuel l a b = HOk (Some c) /\ anc h c a /\ anc h c b
           /\ forall d, anc h d a -> anc h d b -> anc h d c)
        \/ lca_lca fuel l a b = HOk None /\ ~ exists d, anc h d a /\ anc h d b))
  /\ forall a b, ~ rooted a -> ~ rooted b -> lca_is_ancestor l a b = true /\ lca_lca fuel l a b = HOk (Some a).
Proof. exact C114_lca_view_partial_pf. Qed.
Print Assumptions C114_lca_view_partial.

(** The hierarchy 0 > 1 > 2, 3 and 4 > 5, with the nodes of the trees of 4 and of 1. *)
Example C114_case : exists h l, hreach h /\ lca_new 50 [1; 2; 3; 4; 5] h = HOk l
  /\ lca_lca 50 l 4 5 = HOk (Some 4) /\ lca_lca 50 l 2 3 = HOk (Some 2) /\ lca_lca 50 l 5 2 = HOk None.
Proof.
  destruct (h_run h_new [HPush 1 0; HPush 2 1; HPush 3 1; HPush 5 4]) as [h| |] eqn:Eh; [|vm_compute in Eh; discriminate Eh|vm_compute in Eh; discriminate Eh].
  vm_compute in Eh. injection Eh as <-. eexists _, _. split.
  - eapply hr_step with (o := HPush 5 4); [eapply hr_step with (o := HPush 3 1); [eapply hr_step with (o := HPush 2 1); [eapply hr_step with (o := HPush 1 0); [apply hr_new| |]| |]| |]| |];
    try (vm_compute; reflexivity); intros (Hc & _); discriminate Hc.
  - split; [vm_compute; reflexivity|]. vm_compute. repeat split.
Qed.
