(** Theorems about the dynamic convexity checker. *)
From Verif Require Export DynBound PGRun.

(** The path 0 -> 1 -> 2, with free ports on 0 and 2 for a link 0 -> 2. *)
Definition tri_ops : list op := [OAdd 0 2; OAdd 1 1; OAdd 2 0; OLink 0 2; OLink 3 4].
Definition tri_g : pg := default pg_new (run 16 tri_ops pg_new).
Lemma tri_reach : reach 16 tri_g.
Proof. exists tri_ops. apply run_hist. vm_compute. reflexivity. Qed.
Lemma tri_acyclic : pacyclic tri_g.
Proof. apply (acyclic_check 16); [apply tri_reach|]. vm_compute. reflexivity. Qed.
Definition tri_g' : pg := default pg_new (run 16 (tri_ops ++ [OLink 1 5]) pg_new).
Lemma tri_reach' : reach 16 tri_g'.
Proof. exists (tri_ops ++ [OLink 1 5]). apply run_hist. vm_compute. reflexivity. Qed.
Lemma tri_acyclic' : pacyclic tri_g'.
Proof. apply (acyclic_check 16); [apply tri_reach'|]. vm_compute. reflexivity. Qed.

(** 1 -> 2, and the node 0 first in the order; then 2 -> 0 is linked. *)
Definition reo_ops : list op := [OAdd 1 0; OAdd 0 1; OAdd 1 1; OLink 1 2].
Definition reo_g : pg := default pg_new (run 16 reo_ops pg_new).
Lemma reo_reach : reach 16 reo_g.
Proof. exists reo_ops. apply run_hist. vm_compute. reflexivity. Qed.
Lemma reo_acyclic : pacyclic reo_g.
Proof. apply (acyclic_check 16); [apply reo_reach|]. vm_compute. reflexivity. Qed.

(** 0 -> 1 and 0 -> 2. *)
Definition fork_ops : list op := [OAdd 0 2; OAdd 1 0; OAdd 1 0; OLink 0 2; OLink 1 3].
Definition fork_g : pg := default pg_new (run 16 fork_ops pg_new).
Lemma fork_reach : reach 16 fork_g.
Proof. exists fork_ops. apply run_hist. vm_compute. reflexivity. Qed.
Lemma fork_acyclic : pacyclic fork_g.
Proof. apply (acyclic_check 16); [apply fork_reach|]. vm_compute. reflexivity. Qed.

(** 0 -> 1, with a free input on 0. *)
Definition mov_ops : list op := [OAdd 1 1; OAdd 1 0; OLink 1 2].
Definition mov_g : pg := default pg_new (run 16 mov_ops pg_new).
Lemma mov_reach : reach 16 mov_g.
Proof. exists mov_ops. apply run_hist. vm_compute. reflexivity. Qed.
Lemma mov_acyclic : pacyclic mov_g.
Proof. apply (acyclic_check 16); [apply mov_reach|]. vm_compute. reflexivity. Qed.
Definition mov_g1 : pg := default pg_new (run 16 (mov_ops ++ [OAdd 0 1]) pg_new).
Lemma mov_reach1 : reach 16 mov_g1.
Proof. exists (mov_ops ++ [OAdd 0 1]). apply run_hist. vm_compute. reflexivity. Qed.

(** Three nodes without links. *)
Definition three_ops : list op := [OAdd 0 1; OAdd 0 1; OAdd 1 0].
Definition three_g : pg := default pg_new (run 16 three_ops pg_new).
Lemma three_reach : reach 16 three_g.
Proof. exists three_ops. apply run_hist. vm_compute. reflexivity. Qed.
Lemma three_acyclic : pacyclic three_g.
Proof. apply (acyclic_check 16); [apply three_reach|]. vm_compute. reflexivity. Qed.

Lemma tri_path : rtc (pedge tri_g Outgoing) 0 2.
Proof.
  apply (rtc_l _ _ 1); [|apply rtc_once].
  - exists 0, 2. split; [vmdec|split; [vm_compute; reflexivity|vmdec]].
  - exists 3, 4. split; [vmdec|split; [vm_compute; reflexivity|vmdec]].
Qed.

Lemma C52_dynamic_link_refuted_pf :
exists g g' c p q x, reach 16 g /\ pacyclic g /\ (exists N, forall fuel, N < fuel -> dc_new fuel g = HOk c) /\
  link_ports g p q = Ok (g', inr x) /\ pacyclic g' /\
  exists N, forall fuel, N < fuel -> dc_link_ports fuel c p q = HPanic.
Proof.
  destruct (dgood_new 16 tri_g tri_reach tri_acyclic) as ([t g] & N & Hnew & Hg1 & Hg). cbn [dc_graph dc_topo] in *. subst g.
  exists tri_g, tri_g', (DC t tri_g), 1, 5, (1, 5). split; [apply tri_reach|]. split; [apply tri_acyclic|]. split; [by exists N|].
  split; [vm_compute; reflexivity|]. split; [apply tri_acyclic'|].
  apply (link_reaching 16 tri_g tri_reach t Hg 1 5 0 2); [vmdec|vmdec|apply tri_path].
Qed.

Lemma C52_dynamic_link_partial_pf :
forall w c p q a b g' x, dreach w c -> p ∈ ports (dc_graph c) a Outgoing -> q ∈ ports (dc_graph c) b Incoming ->
  link_ports (dc_graph c) p q = Ok (g', inr x) -> pacyclic g' -> ~ rtc (pedge (dc_graph c) Outgoing) a b ->
  exists N, forall fuel, N < fuel -> exists t, dc_link_ports fuel c p q = HOk (DC t g', inr x).
Proof.
  intros w [t g] p q a b g' x Hd Hp Hq El Hac Hab. destruct (dreach_good w _ Hd) as [Hr Hg]. cbn [dc_graph dc_topo] in *.
  destruct (link_cases w g Hr t Hg p q a b Hp Hq Hab) as [N HN]. exists N. intros fuel Hf.
  destruct (HN fuel Hf) as (g1 & r1 & El1 & H). rewrite El in El1. injection El1 as <- <-. destruct H as [_ H].
  destruct H as (t' & E & _); [|by exists t']. by apply (linked_acyclic w g Hr t Hg p q a b Hp Hq g' x El).
Qed.

Lemma C52_reaching_link_panics_pf :
forall w c p q a b, dreach w c -> p ∈ ports (dc_graph c) a Outgoing -> q ∈ ports (dc_graph c) b Incoming ->
  rtc (pedge (dc_graph c) Outgoing) a b ->
  exists N, forall fuel, N < fuel -> dc_link_ports fuel c p q = HPanic.
Proof.
  intros w [t g] p q a b Hd Hp Hq Hab. destruct (dreach_good w _ Hd) as [Hr Hg]. cbn [dc_graph dc_topo] in *.
  by apply (link_reaching w g Hr t Hg p q a b).
Qed.

Lemma C52_input_first_panics_pf :
forall w c p q a b g' x, dreach w c -> p ∈ ports (dc_graph c) a Outgoing -> q ∈ ports (dc_graph c) b Incoming ->
  link_ports (dc_graph c) q p = Ok (g', inr x) ->
  exists N, forall fuel, N < fuel -> dc_link_ports fuel c q p = HPanic.
Proof.
  intros w [t g] p q a b g' x Hd Hp Hq El. destruct (dreach_good w _ Hd) as [Hr Hg]. cbn [dc_graph dc_topo] in *.
  by apply (reversed_panics w g Hr t Hg p q a b Hp Hq g' x).
Qed.

Lemma C53_dynamic_convex_refuted_pf :
exists g c S, reach 16 g /\ pacyclic g /\ dc_new 9 g = HOk c /\
  dc_is_convex 30 c S [] [] = HOk false /\ convex g S.
Proof.
  exists fork_g. destruct (dc_new 9 fork_g) as [c| |] eqn:E; [|vm_compute in E; discriminate E|vm_compute in E; discriminate E].
  exists c, [0; 2]. split; [apply fork_reach|]. split; [apply fork_acyclic|]. split; [reflexivity|]. split.
  { vm_compute in E. injection E as <-. vm_compute. reflexivity. }
  assert (Hedges : forall a b, pedge fork_g Outgoing a b -> a = 0).
  { intros a b H%(edges_list_spec 16); [|apply fork_reach]. vm_compute in H.
    apply elem_of_cons in H as [H|H%elem_of_list_singleton]; by injection H. }
  intros a x b _ _ _ Hxb. assert (x = 0) as ->; [|by left]. inversion Hxb as [? ? H|? ? ? H]; subst; by eapply Hedges.
Qed.

Lemma C53_dynamic_convex_partial_pf :
forall w c S, dreach w c -> NoDup S -> (forall n, n ∈ S -> contains_node (dc_graph c) n = true) ->
  exists N, forall fuel, N < fuel -> exists r, dc_is_convex fuel c S [] [] = HOk r /\
    (r = true -> convex (dc_graph c) S) /\
    (r = false <-> exists s x h, s ∈ S /\ h ∈ S /\ x ∉ S /\ pedge (dc_graph c) Outgoing s x /\
                                 before (dt_order (dc_topo c)) x h) /\
    ((forall x, x ∉ S -> (exists s, s ∈ S /\ pedge (dc_graph c) Outgoing s x) ->
        (exists h, h ∈ S /\ before (dt_order (dc_topo c)) x h) ->
        exists h, h ∈ S /\ tc (pedge (dc_graph c) Outgoing) x h) ->
     (r = true <-> convex (dc_graph c) S)).
Proof.
  intros w [t g] S Hd Hnd HS. destruct (dreach_good w _ Hd) as [Hr Hg]. cbn [dc_graph dc_topo] in *.
  destruct (convex_query_ok w g t S Hr Hg Hnd HS) as [N HN]. exists N. intros fuel Hf. destruct (HN fuel Hf) as (r & Hq & Hrr).
  exists r. split; [done|].
  assert (Hsound : r = true -> convex g S).
  { intros Ht a x b Ha Hb Hax Hxb. destruct (decide (x ∈ S)) as [|Hx]; [done|]. exfalso.
    assert (H : exists s y, s ∈ S /\ y ∉ S /\ pedge g Outgoing s y /\ rtc (pedge g Outgoing) y x).
    { clear Hxb. induction Hax as [a x Hax|a y x Hay Hyx IH].
      - exists a, x. split; [done|]. split; [done|]. split; [done|]. done.
      - destruct (decide (y ∈ S)) as [Hy|Hy]; [by apply IH|]. exists a, y. split; [done|]. split; [done|]. split; [done|]. by apply tc_rtc. }
    destruct H as (s & y & Hs & Hy & Hsy & Hyx). assert (r = false); [|congruence]. apply Hrr. exists s, y, b.
    split; [done|]. split; [done|]. split; [done|]. split; [done|]. eapply topo_order_tc; [apply Hg|]. by eapply tc_rtc_l. }
  split; [done|]. split; [done|]. intros Hguard. split; [done|]. intros Hc. destruct r; [done|].
  destruct (proj1 Hrr eq_refl) as (s & x & h & Hs & Hh & Hx & Hsx & Hxh). exfalso. apply Hx.
  destruct (Hguard x Hx ltac:(by exists s) ltac:(by exists h)) as (h' & Hh' & Hxh').
  exact (Hc s x h' Hs Hh' ltac:(by apply tc_once) Hxh').
Qed.

Lemma C53_reordered_refuted_pf :
exists g c c' p q x, reach 16 g /\ pacyclic g /\ dc_new 9 g = HOk c /\ dc_link_ports 20 c p q = HOk (c', inr x) /\
  dc_is_convex 30 c' [0; 1] [] [] = HOk true /\ ~ convex (dc_graph c') [0; 1].
Proof.
  exists reo_g. destruct (dc_new 9 reo_g) as [c| |] eqn:E; [|vm_compute in E; discriminate E|vm_compute in E; discriminate E].
  exists c. vm_compute in E. injection E as <-.
  eexists _, 3, 0, _. split; [apply reo_reach|]. split; [apply reo_acyclic|]. split; [reflexivity|]. split; [vm_compute; reflexivity|].
  split; [vm_compute; reflexivity|]. cbn [dc_graph].
  intros H. assert (2 ∈ [0; 1]) as Hn; [|apply elem_of_cons in Hn as [Hn|Hn%elem_of_list_singleton]; discriminate Hn].
  apply (H 1 2 0); [by right; left|by left| |]; apply tc_once.
  - exists 1, 2. split; [vmdec|split; [vm_compute; reflexivity|vmdec]].
  - exists 3, 0. split; [vmdec|split; [vm_compute; reflexivity|vmdec]].
Qed.

Lemma C71_dynamic_order_refuted_pf :
exists g c c' p q x, reach 16 g /\ pacyclic g /\ dc_new 9 g = HOk c /\ dc_link_ports 20 c p q = HOk (c', inr x) /\
  ~ topo_order (dc_graph c') (dt_order (dc_topo c')).
Proof.
  exists reo_g. destruct (dc_new 9 reo_g) as [c| |] eqn:E; [|vm_compute in E; discriminate E|vm_compute in E; discriminate E].
  exists c. vm_compute in E. injection E as <-.
  eexists _, 3, 0, _. split; [apply reo_reach|]. split; [apply reo_acyclic|]. split; [reflexivity|]. split; [vm_compute; reflexivity|].
  cbn [dc_graph dc_topo dt_order]. intros (Hnd & _ & Ho).
  assert (Hb : before [2; 1; 0] 1 2).
  { apply Ho. exists 1, 2. split; [vmdec|split; [vm_compute; reflexivity|vmdec]]. }
  destruct Hb as (i & j & Hij & Hi & Hj).
  assert (H1 : [2; 1; 0] !! 1 = Some 1) by reflexivity. assert (H0 : [2; 1; 0] !! 0 = Some 2) by reflexivity.
  pose proof (NoDup_lookup _ _ _ _ Hnd Hi H1). pose proof (NoDup_lookup _ _ _ _ Hnd Hj H0). lia.
Qed.

Lemma C71_dynamic_order_partial_pf :
forall w c, dreach w c ->
  reach w (dc_graph c) /\ pacyclic (dc_graph c) /\ topo_order (dc_graph c) (dt_order (dc_topo c)) /\ dt_sync (dc_topo c) /\
  (forall n, contains_node (dc_graph c) n = true ->
     exists c', dc_remove_node c n = Ok c' /\ remove_node (dc_graph c) n = Ok (dc_graph c')) /\
  (forall p, exists c' r, dc_unlink_port c p = Ok (c', r) /\ unlink_port (dc_graph c) p = Ok (dc_graph c', r)).
Proof.
  intros w [t g] Hd. destruct (dreach_good w _ Hd) as [Hr Hg]. cbn [dc_graph dc_topo] in *.
  split; [done|]. split; [by eapply topo_order_acyclic; apply Hg|]. split; [apply Hg|]. split; [apply Hg|]. split.
  - intros n Hn. destruct (C05_remove_node_pf w g n Hr) as (g' & Er & _). destruct (dgood_remove w g n g' t Hr Hg Hn Er) as (t' & Et & _).
    exists (DC t' g'). unfold dc_remove_node. cbn [dc_graph dc_topo]. rewrite Er. cbn [mbind res_bind]. rewrite Et. done.
  - intros p. destruct (C09_unlink_port_pf w g p Hr) as (g' & r & Eu & Hl & _ & H3). exists (DC t g'), r. split; [|done].
    unfold dc_unlink_port. cbn [dc_graph dc_topo]. rewrite Eu. cbn [mbind res_bind]. destruct r as [q|]; [|done].
    assert (Hr' : reach w g') by (apply (reach_step w g (OUnlink p) g' (RUnlink (Some q)) Hr); [done|cbn; by rewrite Eu]).
    destruct (H3 q eq_refl) as (_ & _ & _ & Hp & Hn & _). destruct (Hp p) as (_ & Hpn & _).
    assert (Hlp : linked g p q) by by apply Hl. destruct (C01_links_symmetric_pf w g p q Hr Hlp) as (_ & _ & Hcp & _).
    rewrite Hpn. apply contains_port_true in Hcp as [[n d] Hm]. unfold port_node. rewrite Hm. cbn [unwrap fmap option_fmap option_map fst mbind res_bind].
    destruct (nb_ok w g' Hr' n Outgoing) as (l & -> & Hl'). cbn [mbind res_bind].
    assert (Hno : existsb (λ to_node : nat, negb (bool_decide (dt_disconnect t n to_node = None))) l = false).
    { apply not_true_iff_false. rewrite existsb_exists. intros (m & Hm' & Hb%negb_true_iff%bool_decide_eq_false).
      apply Hb. apply elem_of_list_In, Hl' in Hm'. apply (pedge_unlink w g Hr _ _ _ _ _ Eu) in Hm'.
      destruct (dgood_edge _ _ _ _ Hg Hm') as (i & j & Hi & Hj & _). unfold dt_disconnect. by rewrite Hi, Hj. }
    rewrite Hno. done.
Qed.

Lemma before_split (l : list nat) b a : before l b a -> exists l1 mid l2, l = l1 ++ b :: mid ++ a :: l2.
Proof.
  intros (i & j & Hij & Hi & Hj). apply elem_of_list_split_length in Hi as (l1 & r & -> & ->).
  rewrite lookup_app_r in Hj by lia. destruct (j - length l1) as [|k] eqn:Ek; [lia|]. cbn in Hj.
  apply elem_of_list_split_length in Hj as (mid & l2 & -> & _). by exists l1, mid, l2.
Qed.
Lemma before_mid (l1 mid l2 : list nat) a b n : NoDup (l1 ++ b :: mid ++ a :: l2) -> before (l1 ++ b :: mid ++ a :: l2) b n ->
  before (l1 ++ b :: mid ++ a :: l2) n a -> n ∈ mid.
Proof.
  intros Hnd (i & j & Hij & Hi & Hj) (j' & k & Hjk & Hj' & Hk).
  assert (j = j') as <- by exact (NoDup_lookup _ _ _ _ Hnd Hj Hj').
  assert (Hb : (l1 ++ b :: mid ++ a :: l2) !! length l1 = Some b) by by apply list_lookup_middle.
  assert (Ha : (l1 ++ b :: mid ++ a :: l2) !! (length l1 + S (length mid)) = Some a).
  { change (b :: mid ++ a :: l2) with ((b :: mid) ++ a :: l2). rewrite app_assoc. apply list_lookup_middle. rewrite app_length. done. }
  pose proof (NoDup_lookup _ _ _ _ Hnd Hi Hb) as ->. pose proof (NoDup_lookup _ _ _ _ Hnd Hk Ha) as ->.
  rewrite lookup_app_r in Hj by lia. destruct (j - length l1) as [|e] eqn:Ee; [lia|].
  change ((mid ++ a :: l2) !! e = Some n) in Hj. rewrite lookup_app_l in Hj by lia. by eapply elem_of_list_lookup_2.
Qed.

Lemma C71_reorder_needed_pf :
forall w c p q a b c' x, dreach w c -> p ∈ ports (dc_graph c) a Outgoing -> q ∈ ports (dc_graph c) b Incoming ->
  before (dt_order (dc_topo c)) b a -> (exists N, forall fuel, N < fuel -> dc_link_ports fuel c p q = HOk (c', inr x)) ->
  topo_order (dc_graph c') (dt_order (dc_topo c')) ->
  forall n, before (dt_order (dc_topo c)) b n -> before (dt_order (dc_topo c)) n a ->
    ~ pedge (dc_graph c) Outgoing n a /\ tc (pedge (dc_graph c) Outgoing) b n.
Proof.
  intros w [t g] p q a b c' x Hd Hp Hq Hba [N E] Ht n Hbn Hna. destruct (dreach_good w _ Hd) as [Hr Hg]. cbn [dc_graph dc_topo] in *.
  assert (Hn1 : ~ rtc (pedge g Outgoing) a b).
  { intros Hab. destruct (link_reaching w g Hr t Hg p q a b Hp Hq Hab) as [N' HN'].
    specialize (E (S (N `max` N')) ltac:(lia)). rewrite HN' in E by lia. done. }
  destruct (link_cases w g Hr t Hg p q a b Hp Hq Hn1) as [N' HN'].
  apply before_split in Hba as (l1 & mid & l2 & Hl). set (N3 := length l1 + S (length mid) + length l1).
  set (fuel := S (N `max` N' `max` N3)). specialize (E fuel ltac:(lia)). destruct (HN' fuel) as (g' & r & El & H1); [lia|].
  destruct r as [e|x']; [by rewrite E in H1|]. destruct H1 as [Hpan Hok].
  assert (Hn2 : ~ rtc (pedge g Outgoing) b a) by (intros Hx; rewrite Hpan in E by done; done).
  destruct (Hok Hn2) as (t' & E' & _). rewrite E in E'. injection E' as -> ->. cbn [dc_graph dc_topo] in *.
  destruct (port_ab w g Hr p q a b Hp Hq) as [Ha Hb].
  assert (Hnd : NoDup (dt_order t)) by apply Hg. rewrite Hl in Hnd, Hbn, Hna.
  pose proof (before_mid _ _ _ _ _ _ Hnd Hbn Hna) as Hm.
  destruct (reorder_needed w g Hr t Hg p q a b Hp Hq l1 mid l2 Hl g' x' El Hn2 fuel t') as [M1 M2]; [lia| |done|split; auto].
  eapply link_updates; [exact Ha|exact Hb|exact El|apply (pos_a g t Hg a b l1 mid l2 Hl)|apply (pos_b g t Hg a b l1 mid l2 Hl)|lia|exact E].
Qed.

Lemma C101_compact_refuted_pf :
exists g c c1 c2 c3 p q log, reach 16 g /\ pacyclic g /\ dc_new 9 g = HOk c /\ dc_remove_node c 0 = Ok c1 /\
  dc_compact_nodes c1 = Ok (c2, log) /\ ~ topo_order (dc_graph c2) (dt_order (dc_topo c2)) /\
  contains_port (dc_graph c2) p = true /\ contains_port (dc_graph c2) q = true /\
  dc_link_ports 20 c2 p q = HOk (c3, inl (UnknownPort p)) /\ linked (dc_graph c3) p q.
Proof.
  exists three_g. destruct (dc_new 9 three_g) as [c| |] eqn:E; [|vm_compute in E; discriminate E|vm_compute in E; discriminate E].
  exists c. vm_compute in E. injection E as <-. eexists _, _, _, 1, 2, _. split; [apply three_reach|]. split; [apply three_acyclic|].
  split; [reflexivity|]. split; [vm_compute; reflexivity|]. split; [vm_compute; reflexivity|]. split.
  { cbn [dc_graph dc_topo dt_order]. intros (_ & Hel & _).
    assert (Hx : 0 ∈ [1; 2]) by (apply Hel; vm_compute; reflexivity).
    apply elem_of_cons in Hx as [Hx|Hx%elem_of_list_singleton]; discriminate Hx. }
  split; [vm_compute; reflexivity|]. split; [vm_compute; reflexivity|]. split; [vm_compute; reflexivity|]. vm_compute. reflexivity.
Qed.

Lemma C101_swap_refuted_pf :
exists g c c1, reach 16 g /\ pacyclic g /\ dc_new 9 g = HOk c /\ dc_swap_nodes c 0 2 = Ok c1 /\
  ~ topo_order (dc_graph c1) (dt_order (dc_topo c1)) /\ dc_is_convex 30 c1 [0; 2] [] [] = HOk true /\ ~ convex (dc_graph c1) [0; 2].
Proof.
  exists tri_g. destruct (dc_new 9 tri_g) as [c| |] eqn:E; [|vm_compute in E; discriminate E|vm_compute in E; discriminate E].
  exists c. vm_compute in E. injection E as <-. eexists. split; [apply tri_reach|]. split; [apply tri_acyclic|].
  split; [reflexivity|]. split; [vm_compute; reflexivity|]. cbn [dc_graph dc_topo dt_order]. split.
  { intros (Hnd & _ & Ho). assert (Hb : before [0; 1; 2] 2 1).
    { apply Ho. exists 0, 2. split; [vmdec|split; [vm_compute; reflexivity|vmdec]]. }
    destruct Hb as (i & j & Hij & Hi & Hj).
    assert (H1 : [0; 1; 2] !! 1 = Some 1) by reflexivity. assert (H0 : [0; 1; 2] !! 2 = Some 2) by reflexivity.
    pose proof (NoDup_lookup _ _ _ _ Hnd Hi H0). pose proof (NoDup_lookup _ _ _ _ Hnd Hj H1). lia. }
  split; [vm_compute; reflexivity|].
  intros H. assert (1 ∈ [0; 2]) as Hn; [|apply elem_of_cons in Hn as [Hn|Hn%elem_of_list_singleton]; discriminate Hn].
  apply (H 2 1 0); [by right; left|by left| |]; apply tc_once.
  - exists 0, 2. split; [vmdec|split; [vm_compute; reflexivity|vmdec]].
  - exists 3, 4. split; [vmdec|split; [vm_compute; reflexivity|vmdec]].
Qed.

Lemma sorted_ext (l1 l2 : list nat) : StronglySorted lt l1 -> StronglySorted lt l2 -> (forall n, n ∈ l1 <-> n ∈ l2) -> l1 = l2.
Proof.
  revert l2. induction l1 as [|x l1 IH]; intros l2 H1 H2 Hel.
  - destruct l2 as [|y l2]; [done|]. assert (Hy : y ∈ []) by (apply Hel; by left). by apply elem_of_nil in Hy.
  - destruct l2 as [|y l2]; [assert (Hy : x ∈ []) by (apply Hel; by left); by apply elem_of_nil in Hy|].
    apply StronglySorted_inv in H1 as [H1 F1]. apply StronglySorted_inv in H2 as [H2 F2]. rewrite Forall_forall in F1, F2.
    assert (x = y) as ->.
    { assert (Hx : x ∈ y :: l2) by (apply Hel; by left). assert (Hy : y ∈ x :: l1) by (apply Hel; by left).
      apply elem_of_cons in Hx as [->|Hx]; [done|]. apply elem_of_cons in Hy as [->|Hy]; [done|].
      specialize (F1 y Hy). specialize (F2 x Hx). lia. }
    f_equal. apply IH; [done|done|]. intros n. split; intros Hn.
    + assert (Hn' : n ∈ y :: l2) by (apply Hel; by right). apply elem_of_cons in Hn' as [->|?]; [|done]. specialize (F1 y Hn). lia.
    + assert (Hn' : n ∈ y :: l1) by (apply Hel; by right). apply elem_of_cons in Hn' as [->|?]; [|done]. specialize (F2 y Hn). lia.
Qed.
Lemma seq_sorted k n : StronglySorted lt (seq k n).
Proof. revert k. induction n as [|n IH]; intros k; cbn; [constructor|]. constructor; [done|]. apply Forall_forall. intros x ?%elem_of_seq. lia. Qed.

Lemma C101_renumber_partial_pf :
forall w c, dreach w c ->
  (forall n i j c' log, dc_set_num_ports c n i j = Ok (c', log) ->
     set_num_ports (dc_graph c) n i j = Ok (dc_graph c', log) /\ topo_order (dc_graph c') (dt_order (dc_topo c')) /\ dt_sync (dc_topo c')) /\
  ((forall n, ~ hollow (dc_graph c) n) -> exists c' log, dc_compact_ports c = Ok (c', log) /\
     compact_ports (dc_graph c) = Ok (dc_graph c', log) /\ topo_order (dc_graph c') (dt_order (dc_topo c')) /\ dt_sync (dc_topo c')) /\
  (exists c' log, dc_compact_nodes c = Ok (c', log) /\ compact_nodes (dc_graph c) = Ok (dc_graph c', log) /\
     (topo_order (dc_graph c') (dt_order (dc_topo c')) <-> forall o n, (o, n) ∈ log -> o = n)) /\
  (dc_graph (dc_clear c) = clear (dc_graph c) /\
     (topo_order (dc_graph (dc_clear c)) (dt_order (dc_topo (dc_clear c))) <-> node_count (dc_graph c) = 0)).
Proof.
  intros w [t g] Hd. destruct (dreach_good w _ Hd) as [Hr Hg]. cbn [dc_graph dc_topo] in *. split; [|split; [|split]].
  - intros n i j c' log E. destruct (dreach_good w _ (dr_set_ports w _ n i j c' log Hd E)) as [_ [Ht Hs]].
    unfold dc_set_num_ports in E. cbn [dc_graph dc_topo] in E. destruct (set_num_ports g n i j) as [[g' l]|]; [|done].
    cbn [mbind res_bind] in E. injection E as <- <-. done.
  - intros Hh. destruct (C13_compact_ports_pf w g Hr Hh) as (g' & log & E & _). exists (DC t g'), log.
    assert (E' : dc_compact_ports (DC t g) = Ok (DC t g', log)) by (unfold dc_compact_ports; cbn [dc_graph dc_topo]; by rewrite E).
    destruct (dreach_good w _ (dr_compact_ports w _ _ log Hd Hh E')) as [_ [Ht Hs]]. done.
  - destruct (C12_compact_nodes_pf w g Hr) as (g' & log & E & Hr' & H1 & H2 & Hso & Hel & Hc & _). exists (DC t g'), log.
    assert (E' : dc_compact_nodes (DC t g) = Ok (DC t g', log)) by (unfold dc_compact_nodes; cbn [dc_graph dc_topo]; by rewrite E).
    split; [done|]. split; [done|]. cbn [dc_graph dc_topo]. split.
    + intros (_ & Hel' & _). destruct Hg as [(_ & Helg & _) _].
      assert (Hsame : forall n, contains_node g n = true <-> n < node_count g) by (intros n; by rewrite <- Helg, Hel', Hc).
      assert (Hl : log.*1 = log.*2).
      { rewrite H2. apply sorted_ext; [exact Hso|apply seq_sorted|]. intros n. rewrite elem_of_seq, Hel, Hsame. lia. }
      intros o n [k Hk]%elem_of_list_lookup.
      assert (K1 : log.*1 !! k = Some o) by (by rewrite list_lookup_fmap, Hk). assert (K2 : log.*2 !! k = Some n) by (by rewrite list_lookup_fmap, Hk).
      rewrite Hl in K1. congruence.
    + intros Hid. destruct (dreach_good w _ (dr_compact_nodes w _ _ log Hd Hid E')) as [_ [Ht Hs]]. done.
  - split; [done|]. cbn [dc_graph dc_topo dc_clear]. destruct Hg as [(Hnd & Hel & Ho) _]. split.
    + intros (_ & Hel' & _). destruct (decide (node_count g = 0)) as [|Hne]; [done|]. exfalso.
      destruct (nodes_iter g) as [|n l] eqn:En.
      * apply Hne. pose proof (C12_compact_nodes_pf w g Hr) as (g1 & log & E & _ & H1 & H2 & _). rewrite En in H1. destruct log; [|done].
        cbn in H2. destruct (node_count g); [done|discriminate H2].
      * assert (Hn : n ∈ dt_order t) by (apply Hel, nodes_iter_elem; rewrite En; by left). apply Hel' in Hn.
        unfold clear, contains_node, nmeta in Hn. apply bool_decide_eq_true in Hn. cbn in Hn. rewrite lookup_nil in Hn. by destruct Hn.
    + intros Hz. assert (Hnil : dt_order t = []).
      { destruct (dt_order t) as [|n l] eqn:En; [done|]. exfalso. assert (Hn : contains_node g n = true) by (apply Hel; by left).
        pose proof (C12_compact_nodes_pf w g Hr) as (g1 & log & E & _ & H1 & H2 & _ & Hin & _). apply Hin in Hn. rewrite Hz in H2.
        destruct log; [by apply elem_of_nil in Hn|discriminate H2]. }
      rewrite Hnil. split; [apply NoDup_nil_2|]. split.
      * intros n. rewrite elem_of_nil. split; [done|]. unfold clear, contains_node, nmeta. rewrite bool_decide_eq_true. cbn. rewrite lookup_nil. by intros [].
      * intros a b (p & q & Hp & _). exfalso. unfold ports, nmeta, clear in Hp. cbn in Hp. rewrite lookup_nil in Hp. by apply elem_of_nil in Hp.
Qed.

Lemma tri_boundary : boundary_ports tri_g [0; 2] [4] [0].
Proof.
  split; intros p; rewrite elem_of_list_singleton; split.
  - intros ->. exists 2, 1, 3. split; [by right; left|]. split; [vmdec|]. split; [vm_compute; reflexivity|]. split; [vm_compute; reflexivity|].
    intros [?|?%elem_of_list_singleton]%elem_of_cons; discriminate.
  - intros (n & m & q & Hn & Hp & Hq & _). apply elem_of_cons in Hn as [->| ->%elem_of_list_singleton].
    + assert (E : ports tri_g 0 Incoming = []) by (vm_compute; reflexivity). rewrite E in Hp. apply elem_of_nil in Hp. destruct Hp.
    + assert (E : ports tri_g 2 Incoming = [4; 5]) by (vm_compute; reflexivity). rewrite E in Hp.
      apply elem_of_cons in Hp as [->| ->%elem_of_list_singleton]; [reflexivity|]. vm_compute in Hq. discriminate Hq.
  - intros ->. exists 0, 1, 2. split; [by left|]. split; [vmdec|]. split; [vm_compute; reflexivity|]. split; [vm_compute; reflexivity|].
    intros [?|?%elem_of_list_singleton]%elem_of_cons; discriminate.
  - intros (n & m & q & Hn & Hp & Hq & _). apply elem_of_cons in Hn as [->| ->%elem_of_list_singleton].
    + assert (E : ports tri_g 0 Outgoing = [0; 1]) by (vm_compute; reflexivity). rewrite E in Hp.
      apply elem_of_cons in Hp as [->| ->%elem_of_list_singleton]; [reflexivity|]. vm_compute in Hq. discriminate Hq.
    + assert (E : ports tri_g 2 Outgoing = []) by (vm_compute; reflexivity). rewrite E in Hp. apply elem_of_nil in Hp. destruct Hp.
Qed.

Lemma C79_dynamic_boundary_refuted_pf :
exists g c S ins outs, reach 16 g /\ pacyclic g /\ dc_new 20 g = HOk c /\ boundary_ports g S ins outs /\
  dc_is_convex 20 c S ins outs = HOk true /\ ~ convex g S.
Proof.
  exists tri_g. destruct (dc_new 20 tri_g) as [c| |] eqn:E; [|vm_compute in E; discriminate E|vm_compute in E; discriminate E].
  exists c, [0; 2], [4], [0]. split; [apply tri_reach|]. split; [apply tri_acyclic|]. split; [reflexivity|]. split; [apply tri_boundary|].
  vm_compute in E. injection E as <-. split; [vm_compute; reflexivity|].
  intros H. assert (1 ∈ [0; 2]) as Hn; [|apply elem_of_cons in Hn as [Hn|Hn%elem_of_list_singleton]; discriminate Hn].
  apply (H 0 1 2); [by left|by right; left| |]; apply tc_once.
  - exists 0, 2. split; [vmdec|split; [vm_compute; reflexivity|vmdec]].
  - exists 3, 4. split; [vmdec|split; [vm_compute; reflexivity|vmdec]].
Qed.

Lemma C79_dynamic_boundary_partial_pf :
forall w c S ins outs, dreach w c -> NoDup S -> (forall n, n ∈ S -> contains_node (dc_graph c) n = true) -> ~ (ins = [] /\ outs = []) ->
  let g := dc_graph c in
  let E := pedge g Outgoing in
  exists N, forall fuel, N < fuel -> exists r, dc_is_convex fuel c S ins outs = HOk r /\
    (r = false -> exists o i a b x, o ∈ outs /\ i ∈ ins /\ port_node g i = Some a /\ port_node g o = Some b /\
       b ∈ S /\ x ∉ S /\ rtc E a x /\ tc E x b) /\
    (r = false -> (forall i a, i ∈ ins -> port_node g i = Some a -> a ∈ S) -> ~ convex g S) /\
    (r = true -> forall o i a b x, o ∈ outs -> i ∈ ins -> port_node g i = Some a -> port_node g o = Some b -> a ∈ S -> b ∈ S -> x ∉ S ->
       tc E a x -> tc E x b -> rtc (fun u v => u ∈ S /\ v ∈ S /\ E u v) a b).
Proof.
  intros w [t g] S ins outs Hd Hnd HS Hne. destruct (dreach_good w _ Hd) as [Hr Hg]. cbn [dc_graph dc_topo] in *.
  destruct (boundary_query_ok w g Hr t Hg S ins outs Hnd HS Hne) as [N HN]. exists N. intros fuel Hf.
  destruct (HN fuel Hf) as (r & Er & H1 & H2). exists r. split; [done|]. split; [done|]. split; [|done].
  intros Hrf Hi Hc. destruct (H1 Hrf) as (o & i & a & b & x & Ho & Hin & Ea & Eb & Hb & Hx & Hax & Hxb).
  assert (Ha : a ∈ S) by (by eapply Hi). apply rtc_tc in Hax as [->|Hax]; [done|]. apply Hx. by apply (Hc a x b).
Qed.
