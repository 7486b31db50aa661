(** Property C127: equality of hierarchies and regions. *)
From Verif Require Export HEqThms.

(** C127, every history: two hierarchies compare equal exactly if all six queries agree on every
node; how much storage is allocated makes no difference. *)
Theorem C127_hierarchy_equal :
forall h h', hhist h -> hhist h' ->
  (h_eqb h h' = true <-> forall n,
     h_parent h n = h_parent h' n /\ h_first h n = h_first h' n /\ h_last h n = h_last h' n /\
     h_next h n = h_next h' n /\ h_prev h n = h_prev h' n /\ h_child_count h n = h_child_count h' n).
Proof. exact C127_hierarchy_equal_pf. Qed.
Print Assumptions C127_hierarchy_equal.

(** Storage for more nodes does not matter, the order of children does. *)
Example C127_hierarchy_case : exists h h' h2,
  h_run h_new [HPush 1 0; HPush 2 0; HPush 3 9; HDetach 3] = HOk h /\ h_run h_new [HPushFront 2 0; HPushFront 1 0] = HOk h' /\
  h_run h_new [HPush 2 0; HPush 1 0] = HOk h2 /\ length (um_data h) <> length (um_data h') /\
  h_eqb h h' = true /\ h_eqb h h2 = false.
Proof.
  eexists _, _, _. split; [vm_compute; reflexivity|]. split; [vm_compute; reflexivity|]. split; [vm_compute; reflexivity|].
  split; [vm_compute; lia|]. split; vm_compute; reflexivity.
Qed.

(** C127 for the histories that never push a childless root below itself (C38): hierarchies are equal
exactly if every node has the same children in the same order, that is, if first
child and next sibling agree everywhere. Equal hierarchies stay equal: the same further
call returns the same on both and leaves equal hierarchies, or panics on both. *)
Theorem C127_hierarchy_children :
forall h h', hreach h -> hreach h' ->
  (h_eqb h h' = true <-> forall n, h_first h n = h_first h' n /\ h_next h n = h_next h' n) /\
  (h_eqb h h' = true -> forall o, ~ self_push h o ->
     h_answer h o = h_answer h' o /\ alike (fun a b => h_eqb a b = true) (h_step h o) (h_step h' o)).
Proof. exact C127_hierarchy_children_pf. Qed.
Print Assumptions C127_hierarchy_children.

Example C127_children_case : exists h, hreach exh /\ hreach h /\ h_eqb exh h = true /\ length (um_data h) <> length (um_data exh) /\
  h_answer h (HPush 2 5) = HOk (Some (Cycle 2 5), None) /\ h_step h (HRekey 7 2) = HPanic.
Proof.
  exists (h_mod exh 20 (nd_set_parent None)). split; [exact exh_hreach|].
  split; [eapply (hr_step exh (HEnsure 0 21)); [exact exh_hreach|by intros []|vm_compute; reflexivity]|].
  split; [vm_compute; reflexivity|]. split; [vm_compute; lia|]. split; vm_compute; reflexivity.
Qed.

(** C127 for regions: two regions are equal exactly if the roots, the graphs and the hierarchies are,
whatever each was asked before; equal regions list the same nodes in the same order, and each
answers for every node what the other answers. *)
Theorem C127_region_equal :
forall (G : Type) (geq : G -> G -> bool) (r r' : rgn G),
  (rgn_eqb geq r r' = true <->
     rgn_root r = rgn_root r' /\ geq (rgn_graph r) (rgn_graph r') = true /\ h_eqb (rgn_hier r) (rgn_hier r') = true) /\
  (hreach (rgn_hier r) -> hreach (rgn_hier r') ->
   rg_reach (rgn_hier r) (rgn_root r) (rgn_cache r) -> rg_reach (rgn_hier r') (rgn_root r') (rgn_cache r') ->
   rgn_eqb geq r r' = true ->
   (forall n, exists b c c', rg_is_descendant (rgn_hier r) (rgn_root r) (rgn_cache r) n = HOk (b, c)
      /\ rg_is_descendant (rgn_hier r') (rgn_root r') (rgn_cache r') n = HOk (b, c')) /\
   (exists D, rg_nodes (rgn_hier r) (rgn_root r) = HOk D /\ rg_nodes (rgn_hier r') (rgn_root r') = HOk D)).
Proof. exact C127_region_equal_pf. Qed.
Print Assumptions C127_region_equal.

Example C127_region_case : exists c b, rg_is_descendant exh 0 (rg_new 0) 5 = HOk (b, c) /\ rg_reach exh 0 c /\
  rgn_eqb Nat.eqb (mkRgn 7 0 exh c) (mkRgn 7 0 exh (rg_new 0)) = true /\ rgn_eqb Nat.eqb (mkRgn 7 0 exh c) (mkRgn 7 2 exh c) = false.
Proof.
  destruct (rg_is_descendant exh 0 (rg_new 0) 5) as [[b c]| |] eqn:E; [|vm_compute in E; discriminate E|vm_compute in E; discriminate E].
  exists c, b. split; [done|]. split; [exact (rg_reach_query exh 0 _ 5 b c (rg_reach_new exh 0) E)|]. vm_compute in E. injection E as <- <-. split; vm_compute; reflexivity.
Qed.
