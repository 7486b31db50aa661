(** Property C49 of properties.jsonl. *)
From Verif Require Export DomThms PostProps.

(** The graph of dominators.rs test_dominators_small: a diamond 0 -> 1, 3 -> 2
    followed by 2 -> 4, and a cycle 4 -> 0. *)
Definition dia_ops : list op :=
  [OAdd 1 2; OAdd 1 1; OAdd 2 1; OAdd 1 1; OAdd 1 1;
   OLink 1 3; OLink 2 8; OLink 4 5; OLink 9 6; OLink 7 10; OLink 11 0].
Definition dia_g : pg := default pg_new (run 16 dia_ops pg_new).
Lemma dia_reach : reach 16 dia_g.
Proof. exists dia_ops. apply run_hist. vm_compute. reflexivity. Qed.

(** C49 is false: node 3 has the predecessors 1 and 4, where 4 is not reachable
from the entry 0. Node 1 dominates node 3, but node 0 is returned. *)
Theorem C49_dominators_refuted :
exists g entry v x y m, reach 16 g /\ contains_node g entry = true
  /\ dom_new (gv_of g) Outgoing (fun _ => true) (fun _ _ => true) 99 9 entry = HOk m
  /\ immediate_dominator m v = Some x
  /\ y <> v /\ dominates (fedge g Outgoing (fun _ => true) (fun _ _ => true)) entry y v
  /\ ~ dominates (fedge g Outgoing (fun _ => true) (fun _ _ => true)) entry y x.
Proof. exact C49_dominators_refuted_pf. Qed.
Print Assumptions C49_dominators_refuted.

(** C49 is false for filters that reject the entry: [dominators_filtered] panics
(whatever the graph). *)
Theorem C49_filtered_entry_panics :
forall g d nf pf cap entry fuel, nf entry = false -> 0 < fuel ->
  dom_new (gv_of g) d nf pf fuel cap entry = HPanic.
Proof. exact C49_filtered_entry_panics_pf. Qed.
Print Assumptions C49_filtered_entry_panics.

Example C49_filtered_entry_case : contains_node dia_g 0 = true
  /\ dom_new (gv_of dia_g) Outgoing (fun n => bool_decide (n <> 0)) (fun _ _ => true) 99 5 0 = HPanic.
Proof. split; vm_compute; reflexivity. Qed.

(** C49 with two restrictions: the entry passes the node filter, and all accepted
predecessors of reachable nodes are themselves reachable from the entry. Then
[dominators_filtered] ends without a panic, [immediate_dominator] is defined
exactly for the reachable nodes other than the entry, and is the unique strict
dominator that all other strict dominators dominate. *)
Theorem C49_dominators_partial :
forall w g d nf pf cap entry, reach w g -> length (pg_nodes g) <= cap -> entry < cap -> nf entry = true ->
  (forall u v, rtc (fedge g d nf pf) entry v -> bedge g d nf pf u v -> rtc (fedge g d nf pf) entry u) ->
  exists m,
    (exists N, forall fuel, N <= fuel -> dom_new (gv_of g) d nf pf fuel cap entry = HOk m)
    /\ (forall v, (exists x, immediate_dominator m v = Some x) <-> rtc (fedge g d nf pf) entry v /\ v <> entry)
    /\ (forall v x, immediate_dominator m v = Some x <->
          rtc (fedge g d nf pf) entry v /\ v <> entry /\ is_idom (fedge g d nf pf) entry x v).
Proof. exact C49_dominators_partial_pf. Qed.
Print Assumptions C49_dominators_partial.

Example C49_case : reach 16 dia_g /\ length (pg_nodes dia_g) <= 5
  /\ (forall u v, bedge dia_g Outgoing (fun _ => true) (fun _ _ => true) u v ->
        rtc (fedge dia_g Outgoing (fun _ => true) (fun _ _ => true)) 0 u)
  /\ (m ← dom_new (gv_of dia_g) Outgoing (fun _ => true) (fun _ _ => true) 99 5 0;
      HOk (immediate_dominator m <$> seq 0 6)) = HOk [None; Some 0; Some 0; Some 0; Some 2; None].
Proof.
  split; [apply dia_reach|]. split; [vmdec|]. split; [|vm_compute; reflexivity].
  intros u v (p & q & H & _).
  assert (He : (u, v) ∈ edges_list dia_g) by (apply (edges_list_spec 16); [apply dia_reach|by exists p, q]).
  assert (E : forall a b p q, (p ∈ ports dia_g a Outgoing /\ port_link dia_g p = Ok (Some q) /\ q ∈ ports dia_g b Incoming) ->
    fedge dia_g Outgoing (fun _ => true) (fun _ _ => true) a b) by (intros a b p' q' ?; by exists p', q').
  assert (E01 : fedge dia_g Outgoing (fun _ => true) (fun _ _ => true) 0 1) by (apply (E 0 1 1 3); split; [vmdec|split; [vm_compute; reflexivity|vmdec]]).
  assert (E03 : fedge dia_g Outgoing (fun _ => true) (fun _ _ => true) 0 3) by (apply (E 0 3 2 8); split; [vmdec|split; [vm_compute; reflexivity|vmdec]]).
  assert (E12 : fedge dia_g Outgoing (fun _ => true) (fun _ _ => true) 1 2) by (apply (E 1 2 4 5); split; [vmdec|split; [vm_compute; reflexivity|vmdec]]).
  assert (E24 : fedge dia_g Outgoing (fun _ => true) (fun _ _ => true) 2 4) by (apply (E 2 4 7 10); split; [vmdec|split; [vm_compute; reflexivity|vmdec]]).
  revert He. replace (edges_list dia_g) with [(0, 1); (0, 3); (1, 2); (2, 4); (3, 2); (4, 0)] by (vm_compute; reflexivity). intros He.
  repeat (apply elem_of_cons in He as [He|He]; [injection He as -> _;
    first [apply rtc_refl|apply rtc_once; assumption|eapply rtc_l; [exact E01|]; first [apply rtc_once; assumption|eapply rtc_l; [exact E12|apply rtc_once; assumption]]]|]).
  apply elem_of_nil in He. destruct He.
Qed.

(** Without the second restriction, what is computed: the immediate dominators of
the graph in which every accepted link from an unreachable node is replaced by
one from the first node of the post-order (whose index is the default value of
the index map). In particular the loop always ends, and there is no panic. *)
Theorem C49_dominators_unreachable_partial :
forall w g d nf pf cap entry, reach w g -> length (pg_nodes g) <= cap -> entry < cap -> nf entry = true ->
  exists l first m,
    (exists N, forall fuel, N <= fuel -> postorder (gv_of g) d nf pf fuel cap [entry] = HOk l
                                      /\ dom_new (gv_of g) d nf pf fuel cap entry = HOk m)
    /\ head l = Some first
    /\ (forall v, (exists x, immediate_dominator m v = Some x) <-> rtc (fedge g d nf pf) entry v /\ v <> entry)
    /\ (forall v x, immediate_dominator m v = Some x <->
          rtc (fedge g d nf pf) entry v /\ v <> entry /\ is_idom (dom_edge g d nf pf entry first) entry x v).
Proof. exact C49_dominators_unreachable_partial_pf. Qed.
Print Assumptions C49_dominators_unreachable_partial.

Example C49_unreachable_case : reach 16 unr_g /\ length (pg_nodes unr_g) <= 5
  /\ (m ← dom_new (gv_of unr_g) Outgoing (fun _ => true) (fun _ _ => true) 99 5 0;
      HOk (immediate_dominator m <$> seq 0 6)) = HOk [None; Some 0; Some 0; Some 0; None; None].
Proof. split; [apply unr_reach|]. split; [vmdec|]. vm_compute. reflexivity. Qed.
