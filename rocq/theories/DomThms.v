(** Theorems about the dominator tree. *)
From Verif Require Export DomPG.

Lemma walk_equiv (R R' : nat -> nat -> Prop) a b l : (forall l x y, walk R a x l -> R x y -> R' x y) -> walk R a b l -> walk R' a b l.
Proof. intros H. induction 1 as [|b c l Hw IH Hbc]; [constructor|]. eapply walk_snoc; [exact IH|]. by eapply H. Qed.

(** What [DominatorTree::new] returns, with the list of the post-order. *)
Lemma dom_new_ok w g d nf pf cap entry : reach w g -> length (pg_nodes g) <= cap -> entry < cap -> nf entry = true ->
  exists fnl F l V m, InvG g fnl F /\ dfs (fnext g d nf pf) ∅ [entry] l V
    /\ (exists N, forall fuel, N <= fuel -> postorder (gv_of g) d nf pf fuel cap [entry] = HOk l
                                         /\ dom_new (gv_of g) d nf pf fuel cap entry = HOk m)
    /\ (forall x y, um_get m x = Some y <-> x ∈ l /\ x <> entry /\ is_idom (dedge g d nf pf l) entry y x)
    /\ (forall x, (exists y, um_get m x = Some y) <-> x ∈ l /\ x <> entry).
Proof.
  intros Hr Hcap Hec Hnf. destruct (reach_inv _ _ Hr) as (fnl & F & I).
  destruct (post_run g fnl F I d nf pf cap Hcap [entry]) as (l & V & k & s' & Hd & Hrun & He).
  { by intros n ->%elem_of_list_singleton. }
  rewrite filter_cons, decide_True in Hd by done. rewrite filter_nil in Hd.
  destruct (nti_ok g fnl F I d nf pf entry l V Hd Hnf) as (nti & Hn0 & Hn1 & Hn2).
  pose proof (rr_len g fnl F I d nf pf entry l V Hd Hnf nti Hn1 Hn2) as Hlen.
  set (N := S (k + length l) + (rr l * rr l + 2 * rr l + 3)).
  destruct (dom_main g fnl F I d nf pf entry l V Hd Hnf nti Hn1 Hn2 N) as (m & Hm & M1 & M2); [lia|].
  exists fnl, F, l, V, m. split; [done|]. split; [done|]. split; [|done]. exists N. intros fuel Hf.
  assert (Hpo : postorder (gv_of g) d nf pf fuel cap [entry] = HOk l).
  { unfold postorder. eapply run_collect; [exact Hrun|done|lia|lia]. }
  split; [done|].
  unfold dom_new. rewrite Hpo. cbn [mbind hres_bind]. rewrite Hn0. cbn [lift mbind hres_bind].
  rewrite decide_False by lia. replace (length l - 1) with (rr l) by done.
  destruct (dom_main g fnl F I d nf pf entry l V Hd Hnf nti Hn1 Hn2 fuel) as (m' & Hm' & M1' & M2'); [lia|].
  cbn [mbind hres_bind] in *.
  destruct (dom_loop (gv_of g) d nf pf N nti l (replicate (rr l) None ++ [Some (rr l)])) as [doms| |] eqn:E1; [|done|done].
  destruct (dom_loop (gv_of g) d nf pf fuel nti l (replicate (rr l) None ++ [Some (rr l)])) as [doms'| |] eqn:E2; [|done|done].
  rewrite (dom_loop_mono _ _ _ _ _ _ _ _ _ E1 fuel ltac:(lia)) in E2. injection E2 as <-. exact Hm.
Qed.

Lemma is_idom_ext (R R' : nat -> nat -> Prop) a x v : (forall b l, walk R a b l <-> walk R' a b l) -> is_idom R a x v <-> is_idom R' a x v.
Proof.
  intros H. assert (Hd : forall y b, dominates R a y b <-> dominates R' a y b).
  { intros y b. split; intros Hy l Hl; apply Hy; by apply H. }
  unfold is_idom. rewrite Hd. setoid_rewrite Hd. done.
Qed.

(** Nodes 0 to 4 with links 0 -> 2, 0 -> 1 -> 3 and 4 -> 3. *)
Definition unr_ops : list op :=
  [OAdd 0 2; OAdd 1 1; OAdd 1 0; OAdd 2 0; OAdd 0 1; OLink 0 4; OLink 1 2; OLink 3 5; OLink 7 6].
Definition unr_g : pg := default pg_new (run 16 unr_ops pg_new).
Lemma unr_reach : reach 16 unr_g.
Proof. exists unr_ops. apply run_hist. vm_compute. reflexivity. Qed.
Lemma fedge_list w g nf pf a b : reach w g -> fedge g Outgoing nf pf a b -> (a, b) ∈ edges_list g.
Proof. intros Hr (p & q & H & _). apply (edges_list_spec w); [done|]. by exists p, q. Qed.
Lemma unr_edges a b : fedge unr_g Outgoing (fun _ => true) (fun _ _ => true) a b ->
  (a, b) ∈ [(0, 2); (0, 1); (1, 3); (4, 3)].
Proof. intros H%(fedge_list 16); [|apply unr_reach]. revert H. replace (edges_list unr_g) with [(0, 2); (0, 1); (1, 3); (4, 3)] by (vm_compute; reflexivity). done. Qed.

Lemma C49_dominators_refuted_pf :
exists g entry v x y m, reach 16 g /\ contains_node g entry = true
  /\ dom_new (gv_of g) Outgoing (fun _ => true) (fun _ _ => true) 99 9 entry = HOk m
  /\ immediate_dominator m v = Some x
  /\ y <> v /\ dominates (fedge g Outgoing (fun _ => true) (fun _ _ => true)) entry y v
  /\ ~ dominates (fedge g Outgoing (fun _ => true) (fun _ _ => true)) entry y x.
Proof.
  exists unr_g, 0, 3, 0, 1, (mkUM [None; Some 0; Some 0; Some 0] None). split; [apply unr_reach|].
  split; [vm_compute; reflexivity|]. split; [vm_compute; reflexivity|]. split; [vm_compute; reflexivity|]. split; [lia|]. split.
  - intros l Hl. inversion Hl as [|b c l' Hw Hbc]; subst. right. apply unr_edges in Hbc.
    assert (b = 1 \/ b = 4) as [-> | ->].
    { clear -Hbc. rewrite !elem_of_cons, elem_of_nil in Hbc. naive_solver. }
    + inversion Hw; subst; by left.
    + exfalso. inversion Hw as [|b c l'' Hw' Hbc']; subst. apply unr_edges in Hbc'.
      clear -Hbc'. rewrite !elem_of_cons, elem_of_nil in Hbc'. naive_solver.
  - intros H. specialize (H [0] (walk_nil _ _)). by apply elem_of_list_singleton in H.
Qed.

Lemma C49_filtered_entry_panics_pf :
forall g d nf pf cap entry fuel, nf entry = false -> 0 < fuel ->
  dom_new (gv_of g) d nf pf fuel cap entry = HPanic.
Proof.
  intros g d nf pf cap entry fuel Hnf Hf. unfold dom_new, postorder, post_new. rewrite filter_cons, decide_False by congruence.
  rewrite filter_nil. destruct fuel as [|fuel]; [lia|]. reflexivity.
Qed.

Lemma C49_dominators_partial_pf :
forall w g d nf pf cap entry, reach w g -> length (pg_nodes g) <= cap -> entry < cap -> nf entry = true ->
  (forall u v, rtc (fedge g d nf pf) entry v -> bedge g d nf pf u v -> rtc (fedge g d nf pf) entry u) ->
  exists m,
    (exists N, forall fuel, N <= fuel -> dom_new (gv_of g) d nf pf fuel cap entry = HOk m)
    /\ (forall v, (exists x, immediate_dominator m v = Some x) <-> rtc (fedge g d nf pf) entry v /\ v <> entry)
    /\ (forall v x, immediate_dominator m v = Some x <->
          rtc (fedge g d nf pf) entry v /\ v <> entry /\ is_idom (fedge g d nf pf) entry x v).
Proof.
  intros w g d nf pf cap entry Hr Hcap Hec Hnf Hguard.
  destruct (dom_new_ok w g d nf pf cap entry Hr Hcap Hec Hnf) as (fnl & F & l & V & m & I & Hd & [N HN] & M1 & M2).
  pose proof (dl_reach g fnl F I d nf pf entry l V Hd Hnf) as Hreach.
  assert (Hw : forall b l', walk (dedge g d nf pf l) entry b l' <-> walk (fedge g d nf pf) entry b l').
  { intros b l'. split.
    - apply walk_equiv. intros w' x y _ [Hy [[Hx Hb]|[(z & Hz & Hb) _]]].
      + by apply (fedge_iff g fnl F I d nf pf entry l V Hd Hnf).
      + exfalso. apply Hz, Hreach. apply (Hguard z y); [by apply Hreach|done].
    - apply walk_equiv. intros w' x y Hx Hxy.
      assert (Hxl : x ∈ l).
      { apply Hreach. clear Hxy. induction Hx as [|b' c' w'' Hx' IH Hbc]; [apply rtc_refl|]. by eapply rtc_r. }
      assert (Hyl : y ∈ l) by (by apply (dl_closed g fnl F I d nf pf entry l V Hd Hnf x)).
      split; [done|]. left. split; [done|]. by apply (fedge_iff g fnl F I d nf pf entry l V Hd Hnf). }
  exists m. split; [exists N; intros fuel Hf; by apply HN|]. split.
  - intros v. unfold immediate_dominator. rewrite M2, Hreach. done.
  - intros v x. unfold immediate_dominator. rewrite M1, Hreach. by rewrite (is_idom_ext _ _ entry x v Hw).
Qed.

Lemma C49_dominators_unreachable_partial_pf :
forall w g d nf pf cap entry, reach w g -> length (pg_nodes g) <= cap -> entry < cap -> nf entry = true ->
  exists l first m,
    (exists N, forall fuel, N <= fuel -> postorder (gv_of g) d nf pf fuel cap [entry] = HOk l
                                      /\ dom_new (gv_of g) d nf pf fuel cap entry = HOk m)
    /\ head l = Some first
    /\ (forall v, (exists x, immediate_dominator m v = Some x) <-> rtc (fedge g d nf pf) entry v /\ v <> entry)
    /\ (forall v x, immediate_dominator m v = Some x <->
          rtc (fedge g d nf pf) entry v /\ v <> entry /\ is_idom (dom_edge g d nf pf entry first) entry x v).
Proof.
  intros w g d nf pf cap entry Hr Hcap Hec Hnf.
  destruct (dom_new_ok w g d nf pf cap entry Hr Hcap Hec Hnf) as (fnl & F & l & V & m & I & Hd & [N HN] & M1 & M2).
  pose proof (dl_reach g fnl F I d nf pf entry l V Hd Hnf) as Hreach.
  assert (Hh : exists first, head l = Some first).
  { destruct (dl_last g fnl F I d nf pf entry l V Hd Hnf) as [o ->]. destruct o as [|a o]; eexists; reflexivity. }
  destruct Hh as [first Hfirst].
  assert (Hw : forall b l', walk (dedge g d nf pf l) entry b l' <-> walk (dom_edge g d nf pf entry first) entry b l').
  { assert (Hiff : forall u x, dedge g d nf pf l u x <-> dom_edge g d nf pf entry first u x).
    { intros u x. unfold dedge, dom_edge. cbn zeta. rewrite !Hreach. setoid_rewrite Hreach. rewrite Hfirst.
      split.
      - intros [? [?|[? E]]]; (split; [done|]); [by left|right; split; [done|congruence]].
      - intros [? [?|[? E]]]; (split; [done|]); [by left|right; split; [done|congruence]]. }
    intros b l'. split; apply walk_equiv; intros; by apply Hiff. }
  exists l, first, m. split; [by exists N|]. split; [done|]. split.
  - intros v. unfold immediate_dominator. rewrite M2, Hreach. done.
  - intros v x. unfold immediate_dominator. rewrite M1, Hreach. by rewrite (is_idom_ext _ _ entry x v Hw).
Qed.
