(** Property C135: reuse of indices. *)
From Verif Require Export ReuseThms CapProps.
From Verif Require Import ViewProps.

(** C135: [add_node] right after [remove_node(n)] returns [n] again. If it asks for as many
ports as there was room for at [n], it gets the port indices of [n]; the same inputs and
outputs, if [n] had no spare room and had as many of each. *)
Theorem C135_reuse :
forall w g n g1 i j g2 x, reach w g -> contains_node g n = true -> remove_node g n = Ok g1 ->
  (N.of_nat i <= 65534 /\ N.of_nat (i + j) <= 65535)%N -> add_node (po_max_offset w) g1 i j = Ok (g2, x) ->
  x = n /\
  (i + j = node_port_capacity g n ->
     (forall p, p ∈ all_ports g n -> p ∈ all_ports g2 n) /\
     (num_ports g n Incoming + num_ports g n Outgoing = i + j -> all_ports g2 n = all_ports g n) /\
     (num_ports g n Incoming = i -> num_ports g n Outgoing = j -> forall d, ports g2 n d = ports g n d)).
Proof. exact C135_reuse_pf. Qed.
Print Assumptions C135_reuse.

Example C135_ex : exists g1 g2, reach 16 vx_g /\ remove_node vx_g 2 = Ok g1 /\ add_node (po_max_offset 16) g1 1 2 = Ok (g2, 2) /\
  all_ports vx_g 2 = [6; 7; 8] /\ all_ports g2 2 = [6; 7; 8].
Proof.
  exists (match remove_node vx_g 2 with Ok g => g | Panic => vx_g end).
  exists (match remove_node vx_g 2 with Ok g => match add_node (po_max_offset 16) g 1 2 with Ok (g, _) => g | Panic => vx_g end | Panic => vx_g end).
  split; [exact vx_reach|]. vm_compute. repeat split.
Qed.

(** C135: then the node capacity does not change, and the port capacity neither. More
generally [add_node] does not raise the node capacity as long as an index below that of a
node is free. *)
Theorem C135_capacity :
forall grow fit w a b ops c, alloc_ok grow fit -> cg_hist grow fit w (cg_with_capacity grow a b) ops c ->
  (forall n c1 r1 i j c2 r2, contains_node (cg_g c) n = true -> cg_step grow fit w c (ORemove n) = Ok (c1, r1) ->
     allowed (cg_g c1) (OAdd i j) -> cg_step grow fit w c1 (OAdd i j) = Ok (c2, r2) ->
     r2 = RNode n /\ cg_node_capacity c2 = cg_node_capacity c /\
     (i + j = node_port_capacity (cg_g c) n -> cg_port_capacity c2 = cg_port_capacity c)) /\
  (forall x y i j c1 r1, x < y -> contains_node (cg_g c) x = false -> contains_node (cg_g c) y = true ->
     allowed (cg_g c) (OAdd i j) -> cg_step grow fit w c (OAdd i j) = Ok (c1, r1) -> cg_node_capacity c1 = cg_node_capacity c).
Proof. exact C135_capacity_pf. Qed.
Print Assumptions C135_capacity.

Example C135_capacity_ex : alloc_ok dbl (fun _ len => len) /\ exists c, cg_hist dbl (fun _ len => len) 16 (cg_with_capacity dbl 1 1) [OAdd 1 0; OAdd 0 1; ORemove 0] c /\
  contains_node (cg_g c) 0 = false /\ contains_node (cg_g c) 1 = true /\ cg_node_capacity c = 2.
Proof.
  split. { split; [|intros cap len H; lia]. intros cap need. unfold dbl. lia. }
  set (st := fun c o => match cg_step dbl (fun _ len => len) 16 c o with Ok (c', _) => c' | Panic => c end).
  exists (st (st (st (cg_with_capacity dbl 1 1) (OAdd 1 0)) (OAdd 0 1)) (ORemove 0)). split.
  - eapply (cg_call _ _ _ _ [OAdd 1 0; OAdd 0 1] (st (st (cg_with_capacity dbl 1 1) (OAdd 1 0)) (OAdd 0 1)) _ _ RUnit); [|done|vm_compute; reflexivity].
    eapply (cg_call _ _ _ _ [OAdd 1 0] (st (cg_with_capacity dbl 1 1) (OAdd 1 0)) _ _ (RNode 1)); [|cbn; lia|vm_compute; reflexivity].
    eapply (cg_call _ _ _ _ [] (cg_with_capacity dbl 1 1) _ _ (RNode 0)); [constructor|cbn; lia|vm_compute; reflexivity].
  - vm_compute. repeat split.
Qed.
