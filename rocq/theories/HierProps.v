(** Properties C36-C43 and C68 of properties.jsonl. *)
From Verif Require Export HierThms.

(** A hierarchy reached by a history: 0 over 1, 2, 3 and 2 over 4, 5, with 3
    moved to the front and node 6 inserted after 1. *)
Definition exh_ops : list hop :=
  [HPush 1 0; HPush 2 0; HPushFront 3 0; HPush 4 2; HBefore 5 4; HSwap 4 5; HDetach 3; HPushFront 3 0; HAfter 6 1].
Definition exh : hier := match h_run h_new exh_ops with HOk h => h | _ => h_new end.
Definition exh_ch (p : nat) : list nat := match p with 0 => [3; 1; 6; 2] | 2 => [4; 5] | _ => [] end.
Definition no_self (o : hop) : Prop := match o with HPush n p | HPushFront n p => n <> p | _ => True end.
Lemma hreach_run l : forall h h', hreach h -> Forall no_self l -> h_run h l = HOk h' -> hreach h'.
Proof.
  induction l as [|o l IH]; intros h h' Hr Hg Hrun; cbn in Hrun; [by injection Hrun as <-|].
  apply Forall_cons in Hg as [Ho Hg].
  destruct (h_step h o) as [h1| |] eqn:E; cbn in Hrun; try done.
  eapply IH; [|exact Hg|exact Hrun].
  eapply hr_step; [done| |exact E]. by destruct o; cbn in *; intros H; try done; destruct H as [? _].
Qed.
Lemma exh_hreach : hreach exh.
Proof.
  eapply (hreach_run exh_ops h_new); [constructor| |by vm_compute]. repeat constructor; cbn; lia.
Qed.


(** C36 is false as stated: after [push_child(0,0)] (which succeeds, C38) a
    [swap_nodes(0,1)] leaves node 1 with parent 0 although 0 has no children. *)
Theorem C36_hierarchy_refuted :
exists h, hhist h /\ ~ exists ch, forest h ch.
Proof. exact C36_hierarchy_refuted_pf. Qed.
Print Assumptions C36_hierarchy_refuted.

(** C36 for the histories that never push a childless root below itself: one
    ordered children list per node explains parent, first, last, next, prev and
    child_count of every node. *)
Theorem C36_hierarchy_partial :
forall h, hreach h -> exists ch : nat -> list nat,
  (forall p, NoDup (ch p)
     /\ h_first h p = head (ch p) /\ h_last h p = last (ch p)
     /\ h_child_count h p = length (ch p) /\ h_has_children h p = bool_decide (ch p <> []))
  /\ (forall p c, c ∈ ch p <-> h_parent h c = Some p)
  /\ (forall p i c, ch p !! i = Some c ->
        h_next h c = ch p !! S i /\ h_prev h c = match i with 0 => None | S j => ch p !! j end)
  /\ (forall c, h_is_root h c = true -> h_parent h c = None /\ h_prev h c = None /\ h_next h c = None).
Proof. exact C36_hierarchy_partial_pf. Qed.
Print Assumptions C36_hierarchy_partial.

Example C36_case : hreach exh /\ h_parent exh 6 = Some 0 /\ h_prev exh 6 = Some 1 /\ h_next exh 6 = Some 2
  /\ h_child_count exh 0 = 4.
Proof. split; [apply exh_hreach|by vm_compute]. Qed.

(** C37 is false as stated for a childless root pushed below itself. *)
Theorem C37_insertions_refuted :
exists h n p, hreach h /\ anc h n p /\ exists h', h_push_child h n p = HOk (h', None).
Proof. exact C37_insertions_refuted_pf. Qed.
Print Assumptions C37_insertions_refuted.

(** C37, [push_child] (apart from that case): it appends, or fails and changes
    nothing; it fails exactly when the node is attached or a cycle would arise. *)
Theorem C37_push_child_partial :
forall h ch n p, hreach h -> forest h ch -> ~ self_push h (HPush n p) ->
  (h_parent h n = None -> ~ anc h n p ->
     exists h', h_push_child h n p = HOk (h', None) /\ forest h' (setch p (ch p ++ [n]) ch))
  /\ (h_parent h n <> None \/ anc h n p ->
     exists e, h_push_child h n p = HOk (h, Some e)
       /\ (e = Cycle n p /\ anc h n p \/ e = AlreadyAttached n /\ h_parent h n <> None)).
Proof. exact C37_push_child_partial_pf. Qed.
Print Assumptions C37_push_child_partial.

Example C37_push_case : hreach exh /\ forest exh exh_ch /\ ~ self_push exh (HPush 7 2)
  /\ h_parent exh 7 = None /\ ~ anc exh 7 2.
Proof.
  split; [apply exh_hreach|]. destruct (hreach_inv _ exh_hreach) as [ch HI].
  assert (Hk : forall p, ch p = exh_ch p).
  { intros p. apply list_eq. intros i. revert p. induction i as [|i IH]; intros p.
    - rewrite <- (forest_head _ _ p (proj1 HI)). do 7 (destruct p as [|p]; [by vm_compute|]).
      change (nd_first (h_get exh (7 + p)) = None). rewrite get_out; [by vm_compute|]. change (length (um_data exh)) with 7. lia.
    - specialize (IH p). destruct (exh_ch p !! i) as [c|] eqn:E.
      + destruct HI as ((_ & _ & Hs & _) & _). destruct (Hs _ _ _ IH) as [<- _].
        do 3 (destruct p as [|p]; [do 4 (destruct i as [|i]; [cbn in E; try done; injection E as <-; by vm_compute|]); done|]). done.
      + apply lookup_ge_None in IH, E. rewrite !lookup_ge_None_2 by lia. done. }
  split; [eapply forestv_ext; [done|exact Hk|apply HI]|]. split; [by intros [? _]|]. split; [by vm_compute|].
  intros H. eapply (no_desc _ exh_ch) in H; [done| |done]. eapply forestv_ext; [done|exact Hk|apply HI].
Qed.
Lemma exh_forest : forest exh exh_ch.
Proof. apply C37_push_case. Qed.

(** C37, [push_front_child]. *)
Theorem C37_push_front_child_partial :
forall h ch n p, hreach h -> forest h ch -> ~ self_push h (HPushFront n p) ->
  (h_parent h n = None -> ~ anc h n p ->
     exists h', h_push_front_child h n p = HOk (h', None) /\ forest h' (setch p (n :: ch p) ch))
  /\ (h_parent h n <> None \/ anc h n p ->
     exists e, h_push_front_child h n p = HOk (h, Some e)
       /\ (e = Cycle n p /\ anc h n p \/ e = AlreadyAttached n /\ h_parent h n <> None)).
Proof. exact C37_push_front_child_partial_pf. Qed.
Print Assumptions C37_push_front_child_partial.

Example C37_front_case : hreach exh /\ forest exh exh_ch /\ ~ self_push exh (HPushFront 0 5)
  /\ h_push_front_child exh 0 5 = HOk (exh, Some (Cycle 0 5)).
Proof. split; [apply exh_hreach|]. split; [apply exh_forest|]. split; [by intros [? _]|by vm_compute]. Qed.

(** C37, [insert_before]: the node lands right before its new sibling, or
    nothing changes. The errors are reported in the order attached, root
    sibling, cycle. *)
Theorem C37_insert_before :
forall h ch n s, hreach h -> forest h ch ->
  (forall p l1 l2, h_parent h n = None -> ch p = l1 ++ s :: l2 -> ~ anc h n p ->
     exists h', h_insert_before h n s = HOk (h', None) /\ forest h' (setch p (l1 ++ n :: s :: l2) ch))
  /\ (h_parent h n <> None -> h_insert_before h n s = HOk (h, Some (AlreadyAttached n)))
  /\ (h_parent h n = None -> h_parent h s = None -> h_insert_before h n s = HOk (h, Some (RootSibling s)))
  /\ (forall p, h_parent h n = None -> h_parent h s = Some p -> anc h n p ->
        h_insert_before h n s = HOk (h, Some (Cycle n p))).
Proof. exact C37_insert_before_pf. Qed.
Print Assumptions C37_insert_before.

Example C37_before_case : hreach exh /\ forest exh exh_ch /\ h_parent exh 7 = None
  /\ exh_ch 2 = [4] ++ 5 :: [] /\ ~ anc exh 7 2.
Proof. split; [apply exh_hreach|]. split; [apply exh_forest|]. split; [by vm_compute|]. split; [done|]. apply C37_push_case. Qed.

(** C37, [insert_after]. *)
Theorem C37_insert_after :
forall h ch n s, hreach h -> forest h ch ->
  (forall p l1 l2, h_parent h n = None -> ch p = l1 ++ s :: l2 -> ~ anc h n p ->
     exists h', h_insert_after h n s = HOk (h', None) /\ forest h' (setch p (l1 ++ s :: n :: l2) ch))
  /\ (h_parent h n <> None -> h_insert_after h n s = HOk (h, Some (AlreadyAttached n)))
  /\ (h_parent h n = None -> h_parent h s = None -> h_insert_after h n s = HOk (h, Some (RootSibling s)))
  /\ (forall p, h_parent h n = None -> h_parent h s = Some p -> anc h n p ->
        h_insert_after h n s = HOk (h, Some (Cycle n p))).
Proof. exact C37_insert_after_pf. Qed.
Print Assumptions C37_insert_after.

Example C37_after_case : hreach exh /\ forest exh exh_ch /\ h_parent exh 0 = None /\ h_parent exh 5 = Some 2 /\ anc exh 0 2.
Proof.
  split; [apply exh_hreach|]. split; [apply exh_forest|]. split; [by vm_compute|]. split; [by vm_compute|].
  apply rtc_once. by vm_compute.
Qed.

(** C38 is false as stated: pushing a childless root below itself is accepted
    and makes it its own parent. *)
Theorem C38_acyclic_refuted :
exists h n, hhist h /\ tc (child_of (h_get h)) n n.
Proof. exact C38_acyclic_refuted_pf. Qed.
Print Assumptions C38_acyclic_refuted.

(** After that, a further [push_child] never returns: the climb of the cycle
    check follows the parent of node 0, which is node 0, for any number of steps. *)
Theorem C38_loop_refuted :
exists h n p, hhist h /\ h_push_child h n p = HLoop
  /\ h_first h n <> None /\ forall fuel, h_climb fuel h n p = HLoop.
Proof. exact C38_loop_refuted_pf. Qed.
Print Assumptions C38_loop_refuted.

(** C38 for the histories that never do that: no node is its own ancestor, and
    attaching a node below itself or a descendant is rejected. *)
Theorem C38_acyclic_partial :
forall h, hreach h -> (forall n, ~ tc (child_of (h_get h)) n n)
  /\ forall n p, anc h n p -> ~ self_push h (HPush n p) ->
       (exists e, h_push_child h n p = HOk (h, Some e)) /\ (exists e, h_push_front_child h n p = HOk (h, Some e)).
Proof. exact C38_acyclic_partial_pf. Qed.
Print Assumptions C38_acyclic_partial.

Example C38_case : hreach exh /\ anc exh 0 5 /\ ~ self_push exh (HPush 0 5).
Proof.
  split; [apply exh_hreach|]. split; [|by intros [? _]]. eapply rtc_l; [by vm_compute|]. eapply rtc_once. by vm_compute.
Qed.

(** C39: [detach] returns the old parent and only takes the node out of the
    children lists; [detach_children] only empties its own list; [remove] both. *)
Theorem C39_detach :
forall h ch n, hreach h -> forest h ch ->
  (exists h', h_detach h n = HOk (h', h_parent h n) /\ forest h' (fun p => filter (.≠ n) (ch p)))
  /\ (exists h', h_detach_children h n = HOk h' /\ forest h' (setch n [] ch))
  /\ (exists h', h_remove h n = HOk h' /\ forest h' (setch n [] (fun p => filter (.≠ n) (ch p)))).
Proof. exact C39_detach_pf. Qed.
Print Assumptions C39_detach.

Example C39_case : hreach exh /\ forest exh exh_ch /\ h_parent exh 2 = Some 0 /\ exh_ch 2 = [4; 5].
Proof. split; [apply exh_hreach|]. split; [apply exh_forest|by vm_compute]. Qed.

(** C39, for [shrink_to]: exactly the nodes at or above the capacity are removed,
    whatever the capacity of the vector was. *)
Theorem C39_shrink_to :
forall extra h ch c, hreach h -> forest h ch ->
  exists h', h_shrink_to extra h c = HOk h'
    /\ forest h' (fun p => if decide (p < c) then filter (fun x => x < c) (ch p) else []).
Proof. exact C39_shrink_to_pf. Qed.
Print Assumptions C39_shrink_to.

Example C39_shrink_case : hreach exh /\ forest exh exh_ch /\ filter (fun x => x < 5) (exh_ch 0) = [3; 1; 2].
Proof. split; [apply exh_hreach|]. split; [apply exh_forest|done]. Qed.

(** C40: any interleaving of [next] and [next_back] on [children(n)] answers as a
    double-ended queue holding the children of [n], with the exact length after
    every call, and never panics. *)
Theorem C40_children :
forall h ch n sched, hreach h -> forest h ch ->
  children_len (h_children h n) = length (ch n)
  /\ run_iter (children_next h) (children_next_back h) children_len sched (h_children h n) = Ok (deque sched (ch n)).
Proof. exact C40_children_pf. Qed.
Print Assumptions C40_children.

Example C40_case : hreach exh /\ forest exh exh_ch
  /\ run_iter (children_next exh) (children_next_back exh) children_len [true; false; true; true; false] (h_children exh 0)
     = Ok [(Some 3, 3); (Some 2, 2); (Some 1, 1); (Some 6, 0); (None, 0)].
Proof. split; [apply exh_hreach|]. split; [apply exh_forest|by vm_compute]. Qed.

(** C41: [levels k] are the nodes exactly [k] steps below [n], in sibling order
    (the children of the level above, concatenated). [descendants(n)] yields the
    levels one after the other and then stays at [None]; every node of the
    subtree occurs exactly once. *)
Theorem C41_descendants :
forall h ch n, hreach h -> forest h ch ->
  let levels k := Nat.iter k (mbind ch) [n] in
  (forall k c, c ∈ levels k <-> nsteps (child_of (h_get h)) k c n)
  /\ exists depth, levels depth = []
  /\ let D := concat (levels <$> seq 0 depth) in
     NoDup D /\ (forall c, c ∈ D <-> anc h n c)
     /\ forall k, run_fwd (fun s => Ok (desc_next h s)) k (h_descendants n) = Ok (fwd k D).
Proof. exact C41_descendants_pf. Qed.
Print Assumptions C41_descendants.

Example C41_case : hreach exh /\ forest exh exh_ch
  /\ run_fwd (fun s => Ok (desc_next exh s)) 8 (h_descendants 0)
     = Ok [Some 0; Some 3; Some 1; Some 6; Some 2; Some 4; Some 5; None].
Proof. split; [apply exh_hreach|]. split; [apply exh_forest|by vm_compute]. Qed.

(** C42, [swap_nodes]: the forest with the two indices exchanged everywhere,
    whatever their relation. *)
Theorem C42_swap_nodes :
forall h ch a b, hreach h -> forest h ch ->
  exists h', h_swap_nodes h a b = HOk h' /\ forest h' (fun p => exch a b <$> ch (exch a b p)).
Proof. exact C42_swap_nodes_pf. Qed.
Print Assumptions C42_swap_nodes.

Example C42_swap_case : hreach exh /\ forest exh exh_ch /\ h_parent exh 4 = Some 2
  /\ exch 2 4 <$> exh_ch (exch 2 4 4) = [2; 5].
Proof. split; [apply exh_hreach|]. split; [apply exh_forest|by vm_compute]. Qed.

(** C42, [rekey] to an index without relations: the new index takes the role of
    the old one, and nothing is recorded for the old one any more. *)
Theorem C42_rekey :
forall h ch old new, hreach h -> forest h ch -> old <> new ->
  h_parent h new = None -> ch new = [] ->
  exists h', h_rekey h old new = HOk h'
    /\ forest h' (fun p => if decide (p = new) then ch old else if decide (p = old) then []
                           else (fun c => if decide (c = old) then new else c) <$> ch p)
    /\ h_get h' old = nd_new.
Proof. exact C42_rekey_pf. Qed.
Print Assumptions C42_rekey.

Example C42_rekey_case : hreach exh /\ forest exh exh_ch /\ 2 <> 8 /\ h_parent exh 8 = None /\ exh_ch 8 = [].
Proof. split; [apply exh_hreach|]. split; [apply exh_forest|by vm_compute]. Qed.

(** C43 is false: [rekey(n,n)] panics for a node with a parent. *)
Theorem C43_rekey_same_refuted :
exists h n, hreach h /\ h_parent h n <> None /\ h_rekey h n n = HPanic.
Proof. exact C43_rekey_same_refuted_pf. Qed.
Print Assumptions C43_rekey_same_refuted.

(** What holds instead: [rekey(n,n)] is a no-op exactly for nodes without any
    relation, and panics for every other node. *)
Theorem C43_rekey_same_partial :
forall h ch n, hreach h -> forest h ch ->
  (h_parent h n = None /\ ch n = [] -> h_rekey h n n = HOk h)
  /\ (h_parent h n <> None \/ ch n <> [] -> h_rekey h n n = HPanic).
Proof. exact C43_rekey_same_partial_pf. Qed.
Print Assumptions C43_rekey_same_partial.

Example C43_case : hreach exh /\ forest exh exh_ch /\ exh_ch 2 <> [] /\ h_rekey exh 2 2 = HPanic.
Proof. split; [apply exh_hreach|]. split; [apply exh_forest|by vm_compute]. Qed.

(** C68: in the histories without a self-push no operation loops forever, and
    only [rekey] panics, exactly when its target index has a parent or children. *)
Theorem C68_total_partial :
forall h ch o, hreach h -> forest h ch -> ~ self_push h o ->
  h_step h o <> HLoop
  /\ (h_step h o = HPanic <-> exists old new, o = HRekey old new /\ (h_parent h new <> None \/ ch new <> [])).
Proof. exact C68_total_partial_pf. Qed.
Print Assumptions C68_total_partial.

Example C68_case : hreach exh /\ forest exh exh_ch /\ ~ self_push exh (HSwap 0 5) /\ ~ self_push exh (HRekey 3 2).
Proof. split; [apply exh_hreach|]. split; [apply exh_forest|]. split; intros []. Qed.
