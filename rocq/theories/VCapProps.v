(** Property C132: capacities of views. *)
From Verif Require Export VCapThms ViewProps.

(** C132: a region, flat region or subgraph reports capacities that do not underflow, are
at least its own counts and at most those of the graph below. The part is a view again,
so this holds for parts of parts. *)
Theorem C132_part_capacity :
forall E (V F : lview E) N R cn cp kn kp, shows V N R -> part_of V N F ->
  lv_node_count V = HOk kn -> lv_port_count V = HOk kp -> kn <= cn -> kp <= cp ->
  exists N' R' on op xn xp, shows F N' R' /\ lv_node_count F = HOk on /\ lv_port_count F = HOk op /\
    view_capacity cn kn on = Ok xn /\ view_capacity cp kp op = Ok xp /\ on <= xn <= cn /\ op <= xp <= cp.
Proof. exact C132_part_capacity_pf. Qed.
Print Assumptions C132_part_capacity.

(** The capacity of a part can be below the indices of its nodes. *)
Example C132_part_ex : let V := lv_of_pg vx_g in let F := subgraph V [3; 6] in
  shows V (fun n => contains_node vx_g n = true) (linked vx_g) /\ part_of V (fun n => contains_node vx_g n = true) F /\
  exists kn kp, lv_node_count V = HOk kn /\ lv_port_count V = HOk kp /\ lv_node_count F = HOk 2 /\ view_capacity kn kn 2 = Ok 2.
Proof.
  intros V F. split; [exact (pg_shows 16 vx_g vx_reach)|]. split.
  - apply part_sub; [|intros n Hn; apply elem_of_list_In in Hn; cbn in Hn; destruct Hn as [<-|[<-|[]]]; vm_compute; reflexivity].
    apply NoDup_cons; split; [|apply NoDup_singleton]. intros H. by apply elem_of_list_singleton in H.
  - exists (node_count vx_g), (port_count vx_g). split; [reflexivity|]. split; [reflexivity|]. split; [reflexivity|]. vm_compute. reflexivity.
Qed.
