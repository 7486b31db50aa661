(** Theorems about the convexity checkers. *)
From Verif Require Export LccQuery.

Lemma C50_topo_convex_pf :
forall w g, reach w g -> pacyclic g ->
  exists c N, (forall fuel, N < fuel -> tcc_new (gv_of g) (neighbours g) fuel = HOk c) /\
  forall S fuel, (forall n, n ∈ S -> contains_node g n = true) -> N < fuel ->
    (exists r, tcc_is_node_convex (neighbours g) c fuel S = HOk r /\ (r = true <-> convex g S)) /\
    (forall inputs outputs, (forall p, p ∈ outputs -> is_Some (port_node g p)) ->
       exists r, tcc_is_convex (gv_of g) (neighbours g) c fuel S inputs outputs = HOk r /\
         (r = true <-> convex g S /\ ~ exists o i, o ∈ outputs /\ i ∈ inputs /\ linked g o i)).
Proof.
  intros w g Hr Hac. destruct (tcc_new_ok w g Hr Hac) as (c & N & G & HN & Hnew).
  exists c, N. split; [done|]. intros S fuel HS Hf. subst N.
  destruct (tcc_query_ok w g Hr Hac c G S fuel HS Hf) as (r & Hq & Hrc). split; [by exists r|].
  intros inputs outputs Hout. destruct (clash_ok w g Hr inputs outputs Hout) as (b & Hb & Hbc).
  unfold tcc_is_convex. rewrite Hb. cbn [lift mbind hres_bind]. destruct b.
  - exists false. split; [done|]. split; [done|]. intros [_ Hn]. exfalso. by apply Hn, Hbc.
  - exists r. split; [done|]. rewrite Hrc. split; [|tauto]. intros Hc. split; [done|]. intros Hx%Hbc. done.
Qed.

Lemma C51_line_convex_pf :
forall w g rnd, reach w g -> pacyclic g ->
  (forall low high low_pos high_pos pos, low < high -> low_pos < pos < high_pos ->
     low <= rnd low high low_pos high_pos pos <= high) ->
  exists c N, (forall fuel, N < fuel -> lcc_new (gv_of g) (neighbours g) fuel = HOk c) /\
  forall S, S <> [] -> NoDup S -> (forall n, n ∈ S -> contains_node g n = true) ->
    exists M, forall fuel, M < fuel ->
      (exists r, lcc_is_node_convex (neighbours g) rnd c fuel S = HOk r /\ (r = true <-> convex g S)) /\
      (forall inputs outputs, (forall p, p ∈ outputs -> is_Some (port_node g p)) ->
         exists r, lcc_is_convex (gv_of g) (neighbours g) rnd c fuel S inputs outputs = HOk r /\
           (r = true <-> convex g S /\ ~ exists o i, o ∈ outputs /\ i ∈ inputs /\ linked g o i)).
Proof.
  intros w g rnd Hr Hac Hrnd. destruct (lcc_new_ok w g Hr Hac) as (c & N & G & Hnew).
  exists c, N. split; [done|]. intros S Hne Hnd HS. exists (lcc_bound c S (nodes_iter g) (neighbours g)). intros fuel Hf.
  assert (HR : forall a b, pedge g Outgoing a b -> contains_node g b = true).
  { intros a b Hab. destruct (reach_inv _ _ Hr) as (fnl & F & I). apply nodes_iter_elem. exact (proj2 (pedge_nodes g fnl F I _ _ _ Hab)). }
  destruct (lcc_query_ok _ _ rnd Hrnd c (lgood_q _ _ G) S Hnd HS (nodes_iter g) (neighbours g) HR (fun n => proj2 (nodes_iter_elem g n))
    (fun n _ => nb_ok w g Hr n Outgoing) fuel Hne Hf) as (r & Hq & Hrc). split; [by exists r|].
  intros inputs outputs Hout. destruct (clash_ok w g Hr inputs outputs Hout) as (b & Hb & Hbc).
  unfold lcc_is_convex. rewrite Hb. cbn [lift mbind hres_bind]. destruct b.
  - exists false. split; [done|]. split; [done|]. intros [_ Hn]. exfalso. by apply Hn, Hbc.
  - exists r. split; [done|]. rewrite Hrc. split; [|tauto]. intros Hc. split; [done|]. intros Hx%Hbc. done.
Qed.

Lemma C51_empty_set_panics_pf :
forall nb rnd c fuel, lcc_is_node_convex nb rnd c fuel [] = HPanic.
Proof.
  done.
Qed.

Definition path_ops : list op := [OAdd 0 1; OAdd 1 1; OAdd 1 0; OLink 0 1; OLink 2 3].
Definition path_g : pg := default pg_new (run 16 path_ops pg_new).
Lemma path_reach : reach 16 path_g.
Proof. exists path_ops. apply run_hist. vm_compute. reflexivity. Qed.
Lemma path_acyclic : pacyclic path_g.
Proof. apply (acyclic_check 16); [apply path_reach|]. vm_compute. reflexivity. Qed.

Lemma C51_repeated_nodes_pf :
exists g c, reach 16 g /\ pacyclic g /\ lcc_new (gv_of g) (neighbours g) 9 = HOk c /\
  lcc_is_node_convex (neighbours g) (fun low _ _ _ _ => low) c 30 [1; 1] = HOk false /\ convex g [1; 1].
Proof.
  exists path_g. destruct (lcc_new (gv_of path_g) (neighbours path_g) 9) as [c| |] eqn:E; [|vm_compute in E; discriminate E|vm_compute in E; discriminate E].
  exists c. split; [apply path_reach|]. split; [apply path_acyclic|]. split; [reflexivity|]. split.
  - vm_compute in E. injection E as <-. vm_compute. reflexivity.
  - intros a x b Ha Hb Hax Hxb. exfalso. assert (a = b) as ->.
    { apply elem_of_cons in Ha as [->|Ha%elem_of_list_singleton]; apply elem_of_cons in Hb as [->|Hb%elem_of_list_singleton]; congruence. }
    apply (path_acyclic b). by etrans.
Qed.
