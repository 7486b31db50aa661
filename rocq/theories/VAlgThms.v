(** Proofs of properties C86 and C87. *)
From Verif Require Export VAlgProofs MTopoThms BoundThms.

Lemma C86_toposort_view_pf :
forall E (V : lview E) N R d src, shows V N R -> NoDup src -> (forall n, n ∈ src -> N n) ->
  exists l,
    (forall fuel, length l < fuel ->
       topo_collect (gv_of_lv V) d (fun _ => true) (fun _ _ => true) fuel
         (topo_new (gv_of_lv V) d (fun _ => true) src) = HOk l)
    /\ NoDup l
    /\ (exists rest, l = src ++ rest)
    /\ (forall n, n ∈ l -> N n)
    /\ (forall n, n ∈ l -> n ∉ src -> (exists a, vdedge V R d a n) /\
          forall x y, R x y -> lv_pnode V (lv_port V y) = Some n -> lv_pdir V (lv_port V y) = Some (rev_dir d) ->
            exists x' y' a, R x' y' /\ lv_port V y' = lv_port V y /\ lv_pnode V (lv_port V x') = Some a /\ before l a n)
    /\ (one_node V R (rev_dir d) -> forall n a, n ∈ l -> n ∉ src -> vdedge V R d a n -> before l a n)
    /\ (forall n, (exists a, vdedge V R d a n) -> (forall a, vdedge V R d a n -> a ∈ l) -> n ∈ l)
    /\ (vacyclic V R -> (forall n, N n -> (~ exists a, vdedge V R d a n) -> n ∈ src) -> forall n, n ∈ l <-> N n).
Proof.
  intros E V N R d src H Hnd Hs. exact (vtopo_ok V N R H d src Hnd Hs).
Qed.

(** The views of a multigraph and of its paths agree with those of C46. *)
Lemma vdedge_medge w m d a b : vdedge (lv_of_m w m) (mlinked w m) d a b <-> medge w m d a b.
Proof. done. Qed.

Lemma C87_view_convex_refuted_pf :
exists m c, mreach 16 m /\ vacyclic (lv_of_m 16 m) (mlinked 16 m) /\ (forall n, n ∈ [0; 2] -> m_contains_node m n = true) /\
  tcc_new (gv_of_lv (lv_of_m 16 m)) (lv_nb (lv_of_m 16 m)) 9 = HOk c /\
  tcc_is_node_convex (lv_nb (lv_of_m 16 m)) c 9 [0; 2] = HOk true /\
  ~ vconvex (lv_of_m 16 m) (mlinked 16 m) [0; 2] /\
  lcc_new (gv_of_lv (lv_of_m 16 m)) (lv_nb (lv_of_m 16 m)) 9 = HPanic.
Proof.
  exists late_m. destruct (tcc_new (gv_of_lv (lv_of_m 16 late_m)) (lv_nb (lv_of_m 16 late_m)) 9) as [c| |] eqn:Ec; [|vm_compute in Ec; discriminate Ec|vm_compute in Ec; discriminate Ec].
  exists c. split; [apply late_reach|]. split; [exact late_acyclic|].
  split. { intros n [->|[->|[]%elem_of_nil]%elem_of_cons]%elem_of_cons; vm_compute; reflexivity. }
  split; [reflexivity|]. split; [vm_compute in Ec; injection Ec as <-; vm_compute; reflexivity|]. split; [|vm_compute; reflexivity].
  intros Hc. assert (Hn : 1 ∈ [0; 2]).
  { apply (Hc 0 1 2); [by left|by right; left| |].
    - apply tc_once. exists (1, 0), (2, 0). split; [split; [vm_compute; reflexivity|]|vm_compute; repeat split].
      destruct (m_port_links 16 late_m (1, 0).1) as [l|] eqn:El; vm_compute in El; [|discriminate El]. exists l. split; [reflexivity|]. injection El as <-. by left.
    - apply tc_once. exact late_edge. }
  apply elem_of_cons in Hn as [Hn|[Hn|[]%elem_of_nil]%elem_of_cons]; discriminate Hn.
Qed.

(** Decides whether the links of each input port of a concrete multigraph come from
    one node. *)
Definition one_src_check (w : N) (m : mpg) : bool :=
  forallb (fun n => forallb (fun q => match m_port_links w m q with
    | Ok l => forallb (fun x => forallb (fun y => bool_decide (port_node (m_graph m) x.2.1 = port_node (m_graph m) y.2.1)) l) l
    | Panic => false end) (ports (m_graph m) n Incoming)) (m_nodes_iter m).
Lemma one_src_ok w m : (2 < w <= 63)%N -> mreach w m -> one_src_check w m = true -> one_node (lv_of_m w m) (mlinked w m) Incoming.
Proof.
  intros Hw Hr Hc [p i] y [p' i'] y' L1 L2 Eq Hd. cbn in Eq. subst p'.
  pose proof (m_shows w Hw m Hr) as H. destruct (lvs_end _ _ _ H _ _ L1) as (n & Hn & HNn). cbn in Hn, Hd.
  destruct (lvs_nodes _ _ _ H) as (L & EL & _ & HL & _). cbn in EL. injection EL as <-.
  unfold one_src_check in Hc. rewrite forallb_forall in Hc. specialize (Hc n). rewrite <- elem_of_list_In in Hc. specialize (Hc (proj2 (HL n) HNn)).
  rewrite forallb_forall in Hc. specialize (Hc p). rewrite <- elem_of_list_In in Hc.
  assert (Hp : p ∈ ports (m_graph m) n Incoming) by (apply (proj2 (lvs_ports _ _ _ H n Incoming HNn)); done). specialize (Hc Hp).
  destruct L1 as [_ (l & El & Hl)]. destruct L2 as [_ (l' & El' & Hl')]. cbn [fst] in *. rewrite El in El'. injection El' as <-. rewrite El in Hc.
  rewrite forallb_forall in Hc. specialize (Hc _ (proj1 (elem_of_list_In _ _) Hl)). rewrite forallb_forall in Hc. specialize (Hc _ (proj1 (elem_of_list_In _ _) Hl')).
  by apply bool_decide_eq_true in Hc.
Qed.
Definition fan2_ops : list MultiSpec.mop := [MAdd 0 1; MAdd 1 0; MAdd 1 0; MLink 0 1; MLink 0 2].
Definition fan2_m : mpg := default m_new (mrun 16 fan2_ops m_new).
Lemma fan2_reach : mreach 16 fan2_m.
Proof. exists fan2_ops. apply mrun_hist. vm_compute. reflexivity. Qed.

Lemma C87_boundary_refuted_pf :
exists m c c', mreach 16 m /\ vacyclic (lv_of_m 16 m) (mlinked 16 m) /\ one_node (lv_of_m 16 m) (mlinked 16 m) Incoming /\
  (forall n, n ∈ [0; 1; 2] -> m_contains_node m n = true) /\ vlinked (lv_of_m 16 m) (mlinked 16 m) 0 2 /\
  tcc_new (gv_of_lv (lv_of_m 16 m)) (lv_nb (lv_of_m 16 m)) 9 = HOk c /\
  lcc_new (gv_of_lv (lv_of_m 16 m)) (lv_nb (lv_of_m 16 m)) 9 = HOk c' /\
  tcc_is_convex (gv_of_lv (lv_of_m 16 m)) (lv_nb (lv_of_m 16 m)) c 9 [0; 1; 2] [2] [0] = HOk true /\
  lcc_is_convex (gv_of_lv (lv_of_m 16 m)) (lv_nb (lv_of_m 16 m)) (fun low _ _ _ _ => low) c' 30 [0; 1; 2] [2] [0] = HOk true.
Proof.
  exists fan2_m. destruct (tcc_new (gv_of_lv (lv_of_m 16 fan2_m)) (lv_nb (lv_of_m 16 fan2_m)) 9) as [c| |] eqn:Ec; [|vm_compute in Ec; discriminate Ec|vm_compute in Ec; discriminate Ec].
  destruct (lcc_new (gv_of_lv (lv_of_m 16 fan2_m)) (lv_nb (lv_of_m 16 fan2_m)) 9) as [c'| |] eqn:Ec'; [|vm_compute in Ec'; discriminate Ec'|vm_compute in Ec'; discriminate Ec'].
  exists c, c'. split; [apply fan2_reach|]. split; [apply (macyclic_check 16); [lia|apply fan2_reach|vm_compute; reflexivity]|]. split.
  { apply one_src_ok; [lia|exact fan2_reach|vm_compute; reflexivity]. }
  split. { intros n [->|[->|[->|[]%elem_of_nil]%elem_of_cons]%elem_of_cons]%elem_of_cons; vm_compute; reflexivity. }
  split. { destruct (m_port_links 16 fan2_m 0) as [l|] eqn:El; vm_compute in El; [|discriminate El].
    exists (0, 1), (2, 0). split; [split; [vm_compute; reflexivity|]|vm_compute; repeat split]. exists l. split; [vm_compute; injection El as <-; reflexivity|]. injection El as <-. by right; left. }
  split; [reflexivity|]. split; [reflexivity|]. split; [vm_compute in Ec; injection Ec as <-; vm_compute; reflexivity|vm_compute in Ec'; injection Ec' as <-; vm_compute; reflexivity].
Qed.

Lemma C87_topo_convex_partial_pf :
forall E (V : lview E) N R, shows V N R -> vacyclic V R -> one_node V R Incoming ->
  exists c K, (forall fuel, K < fuel -> tcc_new (gv_of_lv V) (lv_nb V) fuel = HOk c) /\
  forall S fuel, (forall n, n ∈ S -> N n) -> K < fuel ->
    (exists r, tcc_is_node_convex (lv_nb V) c fuel S = HOk r /\ (r = true <-> vconvex V R S)) /\
    (forall inputs outputs, (forall p, p ∈ outputs -> port_in V N p) ->
       (forall p q q', p ∈ outputs -> vlinked V R p q -> vlinked V R p q' -> q = q') ->
       exists r, tcc_is_convex (gv_of_lv V) (lv_nb V) c fuel S inputs outputs = HOk r /\
         (r = true <-> vconvex V R S /\ ~ exists o i, o ∈ outputs /\ i ∈ inputs /\ vlinked V R o i)).
Proof.
  intros E V N R H Hac Hone. destruct (vtcc_new_ok V N R H Hac Hone) as (c & K & G & -> & Hnew).
  exists c, (length (tcc_nodes c)). split; [done|]. intros S fuel HS Hf.
  destruct (tcc_run_ok N (vdedge V R Outgoing) (lv_nb V)) with (c := c) (s := S) (fuel := fuel) as (r & Hq & Hr); [apply (dedge_N V N R H)|done|intros n Hn; by apply (lv_nb_ok V N R H)|done|done|done|].
  split; [by exists r|]. intros inputs outputs Hout H1. destruct (vclash_ok V N R H inputs outputs Hout H1) as (b & Hb & Hbc).
  unfold tcc_is_convex. rewrite Hb. cbn [lift mbind hres_bind]. destruct b.
  - exists false. split; [done|]. split; [done|]. intros [_ Hn]. exfalso. by apply Hn, Hbc.
  - exists r. split; [done|]. rewrite Hr. split; [|by intros [? _]]. intros Hc. split; [done|]. intros Hx%Hbc. done.
Qed.

Lemma C87_line_convex_partial_pf :
forall E (V : lview E) N R rnd, shows V N R -> vacyclic V R -> one_node V R Incoming ->
  (forall low high low_pos high_pos pos, low < high -> low_pos < pos < high_pos ->
     low <= rnd low high low_pos high_pos pos <= high) ->
  exists c K, (forall fuel, K < fuel -> lcc_new (gv_of_lv V) (lv_nb V) fuel = HOk c) /\
  forall S, S <> [] -> NoDup S -> (forall n, n ∈ S -> N n) ->
    exists M, forall fuel, M < fuel ->
      (exists r, lcc_is_node_convex (lv_nb V) rnd c fuel S = HOk r /\ (r = true <-> vconvex V R S)) /\
      (forall inputs outputs, (forall p, p ∈ outputs -> port_in V N p) ->
         (forall p q q', p ∈ outputs -> vlinked V R p q -> vlinked V R p q' -> q = q') ->
         exists r, lcc_is_convex (gv_of_lv V) (lv_nb V) rnd c fuel S inputs outputs = HOk r /\
           (r = true <-> vconvex V R S /\ ~ exists o i, o ∈ outputs /\ i ∈ inputs /\ vlinked V R o i)).
Proof.
  intros E V N R rnd H Hac Hone Hrnd. destruct (vlcc_new_ok V N R H Hac Hone) as (c & K & G & Hnew).
  exists c, K. split; [done|]. intros S Hne Hnd HS. destruct (nodes_N V N R H) as (L & _ & _ & HL). exists (lcc_bound c S L (lv_nb V)). intros fuel Hf.
  destruct (lcc_query_ok N (vdedge V R Outgoing) rnd Hrnd c G S Hnd HS L (lv_nb V) (fun a b Hab => proj2 (dedge_N V N R H Outgoing a b Hab)) (fun n => proj2 (HL n))
    (fun n Hn => lv_nb_ok V N R H n Outgoing Hn) fuel Hne Hf) as (r & Hq & Hr). split; [by exists r|].
  intros inputs outputs Hout H1. destruct (vclash_ok V N R H inputs outputs Hout H1) as (b & Hb & Hbc).
  unfold lcc_is_convex. rewrite Hb. cbn [lift mbind hres_bind]. destruct b.
  - exists false. split; [done|]. split; [done|]. intros [_ Hn]. exfalso. by apply Hn, Hbc.
  - exists r. split; [done|]. rewrite Hr. split; [|by intros [? _]]. intros Hc. split; [done|]. intros Hx%Hbc. done.
Qed.
