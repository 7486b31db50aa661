(** Post-order traversal: the stack machine of post_order.rs runs the recursive
    depth-first traversal. *)
From Verif Require Export AlgPG.

Section dfs.
  Context (next : nat -> list nat).
  Local Notation dfs := (dfs next).

  Lemma dfs_set V ns o V' : dfs V ns o V' ->
    (forall x, x ∈ V' <-> x ∈ V \/ x ∈ o) /\ (forall x, x ∈ o -> x ∉ V) /\ NoDup o /\ (forall x, x ∈ ns -> x ∈ V').
  Proof.
    induction 1 as [V|V n ns o V' Hn _ (I1 & I2 & I3 & I4)|V n ns o1 V1 o2 V2 Hn _ (I1 & I2 & I3 & I4) _ (J1 & J2 & J3 & J4)].
    - split_and!; [|set_solver|apply NoDup_nil_2|set_solver]. set_solver.
    - split_and!; [done|done|done|]. intros x [->|?]%elem_of_cons; [|auto]. apply I1. by left.
    - split_and!.
      + intros x. rewrite J1, I1, elem_of_app, elem_of_cons. set_solver.
      + intros x. rewrite elem_of_app, elem_of_cons. intros [Hx|[->|Hx]]; [|done|].
        * specialize (I2 x Hx). set_solver.
        * intros HV. apply (J2 x Hx). apply I1. set_solver.
      + apply NoDup_app. split; [done|]. split.
        * intros x Hx [->|Hx2]%elem_of_cons; [specialize (I2 n Hx); set_solver|].
          apply (J2 x Hx2). apply I1. by right.
        * apply NoDup_cons. split; [|done]. intros Hx. apply (J2 n Hx). apply I1. set_solver.
      + intros x [->|?]%elem_of_cons; [|auto]. apply J1. left. apply I1. set_solver.
  Qed.

  (** The traversal ends when all nodes lie in a finite set. *)
  Lemma dfs_total (dom : list nat) : (forall n, n ∈ dom -> forall m, m ∈ next n -> m ∈ dom) ->
    forall k V, size (list_to_set dom ∖ V : gset nat) <= k ->
    forall ns, (forall n, n ∈ ns -> n ∈ dom) -> exists o V', dfs V ns o V'.
  Proof.
    intros Hdom k. induction k as [|k IHk]; intros V Hk ns.
    - induction ns as [|n ns IH]; intros Hns; [exists [], V; constructor|].
      destruct IH as (o & V' & Ho); [set_solver|]. exists o, V'. apply dfs_skip; [|done].
      assert (Hs : (list_to_set dom ∖ V : gset nat) ≡ ∅) by (apply size_empty_inv; lia).
      assert (n ∈ dom) by (apply Hns; left). destruct (decide (n ∈ V)); [done|].
      exfalso. apply (not_elem_of_empty (C := gset nat) n). rewrite <- Hs. apply elem_of_difference.
      by rewrite elem_of_list_to_set.
    - intros Hns. revert V Hk Hns. induction ns as [|n ns IH]; intros V Hk Hns; [exists [], V; constructor|].
      destruct (decide (n ∈ V)) as [Hn|Hn].
      + destruct (IH V Hk) as (o & V' & Ho); [set_solver|]. exists o, V'. by apply dfs_skip.
      + assert (Hnd : n ∈ dom) by (apply Hns; left).
        assert (Hsz : size (list_to_set dom ∖ ({[n]} ∪ V) : gset nat) <= k).
        { assert (Hlt : size (list_to_set dom ∖ ({[n]} ∪ V) : gset nat) < size (list_to_set dom ∖ V : gset nat)); [|lia].
          apply subset_size. split; [set_solver|]. intros Hsub.
          assert (n ∈ (list_to_set dom ∖ ({[n]} ∪ V) : gset nat)); [|set_solver].
          apply Hsub, elem_of_difference. by rewrite elem_of_list_to_set. }
        destruct (IHk _ Hsz (next n)) as (o1 & V1 & H1); [eauto|].
        destruct (dfs_set _ _ _ _ H1) as (HV1 & _).
        destruct (IH V1) as (o2 & V2 & H2).
        * etrans; [|exact Hk]. apply subseteq_size. set_solver.
        * set_solver.
        * exists (o1 ++ n :: o2), V2. by eapply dfs_visit.
  Qed.

  Lemma dfs_det V ns o V' : dfs V ns o V' -> forall o' V'', dfs V ns o' V'' -> o = o' /\ V' = V''.
  Proof.
    induction 1 as [V|V n ns o V' Hn _ IH|V n ns o1 V1 o2 V2 Hn _ IH1 _ IH2]; intros o' V'' H; inversion H; subst; try done.
    - by apply IH.
    - match goal with H1 : dfs ({[n]} ∪ V) _ _ _, H2 : dfs _ ns _ _ |- _ => apply IH1 in H1 as [-> ->]; apply IH2 in H2 as [-> ->] end.
      done.
  Qed.

  Definition nedge (a b : nat) : Prop := b ∈ next a.

  Lemma dfs_reach V ns o V' : dfs V ns o V' -> forall x, x ∈ o -> exists s, s ∈ ns /\ rtc nedge s x.
  Proof.
    induction 1 as [V|V n ns o V' Hn _ IH|V n ns o1 V1 o2 V2 Hn _ IH1 _ IH2]; intros x Hx.
    - by apply elem_of_nil in Hx.
    - destruct (IH x Hx) as (s & ? & ?). exists s. split; [by right|done].
    - apply elem_of_app in Hx as [Hx|[->|Hx]%elem_of_cons].
      + destruct (IH1 x Hx) as (s & ? & ?). exists n. split; [by left|]. by eapply rtc_l.
      + exists n. split; [by left|done].
      + destruct (IH2 x Hx) as (s & ? & ?). exists s. split; [by right|done].
  Qed.
  Lemma dfs_closed V ns o V' : dfs V ns o V' -> forall x y, x ∈ o -> nedge x y -> y ∈ V'.
  Proof.
    induction 1 as [V|V n ns o V' Hn _ IH|V n ns o1 V1 o2 V2 Hn H1 IH1 H2 IH2]; intros x y Hx Hy.
    - by apply elem_of_nil in Hx.
    - eauto.
    - destruct (dfs_set _ _ _ _ H1) as (S1 & _ & _ & C1). destruct (dfs_set _ _ _ _ H2) as (S2 & _).
      apply elem_of_app in Hx as [Hx|[->|Hx]%elem_of_cons].
      + apply S2. left. eauto.
      + apply S2. left. by apply C1.
      + eauto.
  Qed.

  (** Every visited node is preceded by its neighbours, except those it is a
      descendant of. *)
  Lemma dfs_order V ns o V' : dfs V ns o V' -> forall A : gset nat,
    (forall a n, a ∈ A -> n ∈ ns -> rtc nedge a n) ->
    forall u v, u ∈ o -> nedge u v -> (v ∈ V /\ v ∉ A) \/ before o v u \/ rtc nedge v u.
  Proof.
    assert (Bl : forall o1 o2 a b, before o1 a b -> before (o1 ++ o2) a b).
    { intros o1 o2 a b (i & j & ? & Hi & Hj). exists i, j. split; [done|]. split; by apply lookup_app_l_Some. }
    assert (Br : forall o1 o2 a b, before o2 a b -> before (o1 ++ o2) a b).
    { intros o1 o2 a b (i & j & ? & Hi & Hj). exists (length o1 + i), (length o1 + j). split; [lia|].
      split; rewrite lookup_app_r by lia; rewrite <- ?Hi, <- ?Hj; f_equal; lia. }
    assert (Bx : forall o1 o2 a b, a ∈ o1 -> b ∈ o2 -> before (o1 ++ o2) a b).
    { intros o1 o2 a b [i Hi]%elem_of_list_lookup [j Hj]%elem_of_list_lookup. exists i, (length o1 + j).
      pose proof (lookup_lt_Some _ _ _ Hi). split; [lia|]. split; [by apply lookup_app_l_Some|].
      rewrite lookup_app_r by lia. rewrite <- Hj. f_equal. lia. }
    induction 1 as [V|V n ns o V' Hn _ IH|V n ns o1 V1 o2 V2 Hn H1 IH1 H2 IH2]; intros A HA u v Hu Huv.
    - by apply elem_of_nil in Hu.
    - apply IH; [|done|done]. intros a m Ha Hm. apply HA; [done|by right].
    - destruct (dfs_set _ _ _ _ H1) as (S1 & _ & _ & C1).
      apply elem_of_app in Hu as [Hu|[->|Hu]%elem_of_cons].
      + destruct (IH1 ({[n]} ∪ A)) with (u := u) (v := v) as [[Hv1 Hv2]|[Hb|?]]; [|done|done| | |auto].
        * intros a m Ha Hm. apply rtc_r with (y := n); [|done]. apply elem_of_union in Ha as [->%elem_of_singleton|Ha]; [done|].
          apply HA; [done|by left].
        * left. set_solver.
        * right; left. by apply Bl.
      + specialize (C1 v Huv). apply S1 in C1 as [Hv|Hv].
        * apply elem_of_union in Hv as [->%elem_of_singleton|Hv]; [right; right; apply rtc_refl|].
          destruct (decide (v ∈ A)); [|by auto]. right; right. apply HA; [done|by left].
        * right; left. apply Bx; [done|by left].
      + destruct (IH2 A) with (u := u) (v := v) as [[Hv1 Hv2]|[Hb|?]]; [|done|done| | |auto].
        * intros a m Ha Hm. apply HA; [done|by right].
        * apply S1 in Hv1 as [[->%elem_of_singleton|Hv]%elem_of_union|Hv]; [|by auto|].
          -- right; left. apply Br. change (n :: o2) with ([n] ++ o2). apply Bx; [by left|done].
          -- right; left. apply Bx; [done|by right].
        * right; left. apply Br. change (n :: o2) with ([n] ++ o2). by apply Br.
  Qed.
End dfs.

(** ** The machine *)

(** Several rounds of the loop, with the nodes returned. *)
Inductive po_run (v : gview) d nf pf : nat -> po_st -> list nat -> po_st -> Prop :=
  | pr_nil s : po_run v d nf pf 0 s [] s
  | pr_cont k s s1 o s2 : po_round v d nf pf s = Ok (PoContinue s1) -> po_run v d nf pf k s1 o s2 ->
      po_run v d nf pf (S k) s o s2
  | pr_ret k s n s1 o s2 : po_round v d nf pf s = Ok (PoReturn n s1) -> po_run v d nf pf k s1 o s2 ->
      po_run v d nf pf (S k) s (n :: o) s2.

Lemma po_run_app v d nf pf k1 s1 o1 s2 : po_run v d nf pf k1 s1 o1 s2 -> forall k2 o2 s3,
  po_run v d nf pf k2 s2 o2 s3 -> po_run v d nf pf (k1 + k2) s1 (o1 ++ o2) s3.
Proof. induction 1; intros; cbn; [done|eapply pr_cont; eauto|eapply pr_ret; eauto]. Qed.

Lemma po_next_mono v d nf pf k : forall s r k', po_next v d nf pf k s = HOk r -> k <= k' -> po_next v d nf pf k' s = HOk r.
Proof.
  induction k as [|k IH]; intros s r k' H Hk; [done|]. destruct k' as [|k']; [lia|]. cbn [po_next] in *.
  destruct (po_round v d nf pf s) as [[s1|n s1|]|]; cbn [lift mbind hres_bind] in *; try done. apply IH; [done|lia].
Qed.

(** The calls of [next] that follow such a run down to the empty stack. *)
Lemma run_collect v d nf pf k s o s' : po_run v d nf pf k s o s' -> po_stack s' = [] ->
  forall fuel k', k < fuel -> length o < k' -> po_collect v d nf pf fuel k' s = HOk o.
Proof.
  intros H He.
  assert (G : (o = [] /\ po_next v d nf pf (S k) s = HOk (None, s')) \/
    exists n o' s1, o = n :: o' /\ po_next v d nf pf (S k) s = HOk (Some n, s1) /\
      (forall fuel k', k < fuel -> length o' < k' -> po_collect v d nf pf fuel k' s1 = HOk o')).
  { induction H as [s|k s s1 o s2 Hr H IH|k s n s1 o s2 Hr H IH].
    - left. split; [done|]. cbn [po_next]. unfold po_round. by rewrite He.
    - destruct (IH He) as [[-> Hn]|(n & o' & s3 & -> & Hn & Hc)].
      + left. split; [done|]. change (po_next v d nf pf (S (S k)) s) with
          (r ← lift (po_round v d nf pf s); match r with PoDone => HOk (None, s) | PoReturn n s => HOk (Some n, s) | PoContinue s => po_next v d nf pf (S k) s end).
        rewrite Hr. exact Hn.
      + right. exists n, o', s3. split; [done|]. split.
        * change (po_next v d nf pf (S (S k)) s) with
          (r ← lift (po_round v d nf pf s); match r with PoDone => HOk (None, s) | PoReturn n s => HOk (Some n, s) | PoContinue s => po_next v d nf pf (S k) s end).
          rewrite Hr. exact Hn.
        * intros. apply Hc; lia.
    - right. exists n, o, s1. split; [done|]. split.
      + cbn [po_next]. by rewrite Hr.
      + intros fuel k' Hf Hk. destruct k' as [|k']; [lia|]. cbn [po_collect].
        destruct (IH He) as [[-> Hn]|(n' & o' & s3 & -> & Hn & Hc)]; erewrite po_next_mono by (first [exact Hn|lia]); cbn [mbind hres_bind]; [done|].
        rewrite Hc; [done|lia|]. cbn in Hk. lia. }
  intros fuel k' Hf Hk. destruct k' as [|k']; [lia|]. cbn [po_collect].
  destruct G as [[-> Hn]|(n' & o' & s3 & -> & Hn & Hc)]; erewrite po_next_mono by (first [exact Hn|lia]); cbn [mbind hres_bind]; [done|].
  rewrite Hc; [done|lia|]. cbn in Hk. lia.
Qed.

Section machine.
  Context (v : gview) (d : dir) (nf : nat -> bool) (pf : nat -> nat -> bool) (cap : nat) (next : nat -> list nat).

  Definition bits (l : list bool) (V : gset nat) : Prop := length l = cap /\ forall n, l !! n = Some true <-> n ∈ V.
  Lemma bits_get l V n : bits l V -> n < cap -> vget l n = Ok (bool_decide (n ∈ V)).
  Proof.
    intros [Hl Hb] Hn. rewrite <- Hl in Hn. apply lookup_lt_is_Some in Hn as [b Hb']. rewrite (vget_ok _ _ _ Hb'). f_equal.
    specialize (Hb n). rewrite Hb' in Hb. destruct b; symmetry; [apply bool_decide_eq_true; by apply Hb|].
    apply bool_decide_eq_false. intros H. apply Hb in H. done.
  Qed.
  Lemma bits_set l V n : bits l V -> n < cap -> exists l', vset l n true = Ok l' /\ bits l' ({[n]} ∪ V).
  Proof.
    intros [Hl Hb] Hn. exists (<[n := true]> l). split; [apply vset_ok; lia|]. split; [by rewrite insert_length|].
    intros m. rewrite list_lookup_insert_Some, Hb. rewrite elem_of_union, elem_of_singleton. split.
    - intros [(-> & _ & _)|[? ?]]; [by left|by right].
    - destruct (decide (n = m)) as [->|]; [|set_solver]. left. repeat split; lia.
  Qed.

  (** Pushing the neighbours of [n] *)
  Definition push_ok : Prop := forall n vis V st, bits vis V ->
    rfold (po_push v nf pf n vis) (rev (gv_ports v n d)) st = Ok (filter (fun m => m ∉ V) (next n) ++ st).

  Lemma dfs_machine : push_ok -> (forall n m, m ∈ next n -> m < cap) ->
    forall V ns o V', dfs next V ns o V' ->
    forall (W F : gset nat) st vis fin seen, W ⊆ V -> F ⊆ V -> (forall n, n ∈ ns -> n < cap) ->
      (forall n, n ∈ ns -> n ∉ W -> n ∈ V -> n ∈ F) ->
      bits vis V -> bits fin F ->
      exists k vis' fin', po_run v d nf pf k (PO (filter (fun m => m ∉ W) ns ++ st) vis fin seen) o
                            (PO st vis' fin' (seen + length o))
        /\ bits vis' V' /\ bits fin' (F ∪ list_to_set o).
  Proof.
    intros Hpush Hcap.
    induction 1 as [V|V n ns o V' Hn H IH|V n ns o1 V1 o2 V2 Hn H1 IH1 H2 IH2]; intros W F st vis fin seen HW HF Hns Hok Hv Hf.
    - exists 0, vis, fin. split; [|split; [done|]]. { cbn. rewrite Nat.add_0_r. constructor. }
      destruct Hf as [? Hf]. split; [done|]. intros n. rewrite Hf. set_solver.
    - rewrite filter_cons. destruct (decide (n ∉ W)) as [HnW|HnW].
      + destruct (bits_set vis V n Hv) as (vis' & Hs & Hv'); [apply Hns; left|].
        destruct (bits_set fin F n Hf) as (fin' & Hs2 & Hf'); [apply Hns; left|].
        assert (HnF : n ∈ F) by (apply Hok; [by left|done|done]).
        destruct (IH W F st vis' fin' seen) as (k & vis2 & fin2 & Hr & Hb1 & Hb2); [done|done|set_solver|set_solver|..].
        { destruct Hv' as [? Hv']. split; [done|]. intros m. rewrite Hv'. set_solver. }
        { destruct Hf' as [? Hf']. split; [done|]. intros m. rewrite Hf'. set_solver. }
        exists (S k), vis2, fin2. split; [|done]. eapply pr_cont; [|exact Hr].
        unfold po_round. cbn [po_stack app po_vis po_fin po_seen].
        rewrite (bits_get vis V n Hv) by (apply Hns; left). rewrite bool_decide_true by done. rewrite Hs.
        rewrite (bits_get fin F n Hf) by (apply Hns; left). rewrite bool_decide_true by done. cbn [mbind res_bind negb].
        rewrite Hs2. done.
      + apply IH; [done|done|set_solver|set_solver|done|done].
    - assert (Hnc : n < cap) by (apply Hns; left).
      rewrite filter_cons. rewrite decide_True by set_solver.
      destruct (dfs_set _ _ _ _ _ H1) as (S1 & D1 & _).
      destruct (bits_set vis V n Hv Hnc) as (vis1 & Hs & Hv1).
      destruct (IH1 ({[n]} ∪ V) F ((n :: filter (fun m => m ∉ W) ns) ++ st) vis1 fin seen) as (k1 & vis2 & fin2 & Hr1 & Hb1 & Hf1);
        [done|set_solver|by eauto|set_solver|done|done|].
      destruct (bits_set vis2 V1 n Hb1 Hnc) as (vis3 & Hs3 & Hv3).
      destruct (bits_set fin2 (F ∪ list_to_set o1) n Hf1 Hnc) as (fin3 & Hs4 & Hf3).
      assert (HnV1 : n ∈ V1) by (apply S1; set_solver).
      assert (Hno1 : n ∉ o1) by (intros Hx; specialize (D1 n Hx); set_solver).
      destruct (IH2 W ({[n]} ∪ (F ∪ list_to_set o1)) st vis3 fin3 (seen + length o1 + 1)) as (k2 & vis4 & fin4 & Hr2 & Hb4 & Hf4).
      { intros x Hx. apply S1. set_solver. }
      { intros x Hx. apply S1. rewrite !elem_of_union, elem_of_list_to_set in Hx. set_solver. }
      { set_solver. }
      { intros x Hx HxW HxV. rewrite !elem_of_union, elem_of_list_to_set. apply S1 in HxV. set_solver. }
      { destruct Hv3 as [? Hv3]. split; [done|]. intros m. rewrite Hv3. set_solver. }
      { done. }
      exists (S (k1 + S k2)), vis4, fin4. split; [|split; [done|]].
      + eapply pr_cont.
        { unfold po_round. cbn [po_stack app po_vis po_fin po_seen].
          rewrite (bits_get vis V n Hv Hnc). rewrite bool_decide_false by done. rewrite Hs. cbn [mbind res_bind negb].
          rewrite (Hpush _ _ _ _ Hv1). cbn [mbind res_bind]. reflexivity. }
        eapply po_run_app; [exact Hr1|]. eapply pr_ret.
        { unfold po_round. cbn [po_stack app po_vis po_fin po_seen].
          rewrite (bits_get vis2 V1 n Hb1 Hnc). rewrite bool_decide_true by done. rewrite Hs3. cbn [mbind res_bind negb].
          rewrite (bits_get fin2 _ n Hf1 Hnc). rewrite bool_decide_false by set_solver. cbn [mbind res_bind negb]. rewrite Hs4. cbn [mbind res_bind]. reflexivity. }
        replace (seen + length (o1 ++ n :: o2)) with (seen + length o1 + 1 + length o2) by (rewrite app_length; cbn; lia).
        exact Hr2.
      + destruct Hf4 as [? Hf4]. split; [done|]. intros m. rewrite Hf4. rewrite !elem_of_union, !elem_of_list_to_set. set_solver.
  Qed.
End machine.

Lemma po_run_seen v d nf pf k s o s' : po_run v d nf pf k s o s' -> po_seen s' = po_seen s + length o.
Proof.
  assert (Hc : forall s s1, po_round v d nf pf s = Ok (PoContinue s1) -> po_seen s1 = po_seen s).
  { intros s0 s1. unfold po_round. destruct (po_stack s0) as [|n rest]; [done|].
    destruct (vget (po_vis s0) n) as [b|]; [|by intros [=]]. destruct (vset (po_vis s0) n true) as [vis|]; [|by intros [=]]. cbn [mbind res_bind]. destruct b; cbn [negb].
    - destruct (vget (po_fin s0) n) as [f|]; [|by intros [=]]. destruct (vset (po_fin s0) n true) as [fin|]; [|by intros [=]]. cbn [mbind res_bind]. destruct f; cbn [negb]; [|by intros [=]].
      by intros [= <-].
    - destruct (rfold _ _ _) as [st|]; [|by intros [=]]. cbn [mbind res_bind]. by intros [= <-]. }
  assert (Hr : forall s n s1, po_round v d nf pf s = Ok (PoReturn n s1) -> po_seen s1 = po_seen s + 1).
  { intros s0 m s1. unfold po_round. destruct (po_stack s0) as [|n rest]; [done|].
    destruct (vget (po_vis s0) n) as [b|]; [|by intros [=]]. destruct (vset (po_vis s0) n true) as [vis|]; [|by intros [=]]. cbn [mbind res_bind]. destruct b; cbn [negb].
    - destruct (vget (po_fin s0) n) as [f|]; [|by intros [=]]. destruct (vset (po_fin s0) n true) as [fin|]; [|by intros [=]]. cbn [mbind res_bind]. destruct f; cbn [negb]; [done|].
      by intros [= <- <-].
    - destruct (rfold _ _ _) as [st|]; [|by intros [=]]. done. }
  induction 1 as [|k s s1 o s2 H1 _ IH|k s n s1 o s2 H1 _ IH]; cbn; [lia| |].
  - rewrite IH, (Hc _ _ H1). lia.
  - rewrite IH, (Hr _ _ _ H1). lia.
Qed.

(** The iterator after [k] calls of [next]. *)
Fixpoint po_after (v : gview) (d : dir) (nf : nat -> bool) (pf : nat -> nat -> bool) (fuel k : nat) (s : po_st) : hres po_st :=
  match k with
  | 0 => HOk s
  | S k => '(_, s) ← po_next v d nf pf fuel s; po_after v d nf pf fuel k s
  end.
Lemma run_next v d nf pf k s o s' : po_run v d nf pf k s o s' -> po_stack s' = [] ->
  (o = [] /\ po_next v d nf pf (S k) s = HOk (None, s')) \/
  exists k1 n o' s1, o = n :: o' /\ po_next v d nf pf (S k) s = HOk (Some n, s1) /\ k1 <= k /\ po_run v d nf pf k1 s1 o' s'.
Proof.
  intros H He. induction H as [s|k s s1 o s2 Hr H IH|k s n s1 o s2 Hr H IH].
  - left. split; [done|]. cbn [po_next]. unfold po_round. by rewrite He.
  - change (po_next v d nf pf (S (S k)) s) with
        (r ← lift (po_round v d nf pf s); match r with PoDone => HOk (None, s) | PoReturn n s => HOk (Some n, s) | PoContinue s => po_next v d nf pf (S k) s end).
    rewrite Hr. cbn [lift mbind hres_bind]. destruct (IH He) as [[-> Hn]|(k1 & n & o' & s3 & -> & Hn & ? & ?)]; [by left|].
    right. exists k1, n, o', s3. repeat split; [done|lia|done].
  - right. exists k, n, o, s1. split; [done|]. split; [|split; [lia|done]]. cbn [po_next]. by rewrite Hr.
Qed.
Lemma run_after v d nf pf j : forall k s o s', po_run v d nf pf k s o s' -> po_stack s' = [] ->
  exists s1 k1, (forall fuel, k < fuel -> po_after v d nf pf fuel j s = HOk s1) /\ k1 <= k /\ po_run v d nf pf k1 s1 (drop j o) s'.
Proof.
  induction j as [|j IH]; intros k s o s' H He; [by exists s, k|].
  destruct (run_next _ _ _ _ _ _ _ _ H He) as [[-> Hn]|(k1 & n & o' & s1 & -> & Hn & Hk & H1)].
  - destruct (IH 0 s' [] s') as (s1 & k1 & Ha & Hk1 & Hr1); [constructor|done|]. exists s1, k1. split; [|split; [lia|by rewrite drop_nil in *]].
    intros fuel Hf. cbn [po_after]. erewrite po_next_mono by (first [exact Hn|lia]). cbn [mbind hres_bind]. apply Ha. lia.
  - destruct (IH k1 s1 o' s' H1 He) as (s2 & k2 & Ha & Hk2 & Hr2). exists s2, k2. split; [|split; [lia|done]].
    intros fuel Hf. cbn [po_after]. erewrite po_next_mono by (first [exact Hn|lia]). cbn [mbind hres_bind]. apply Ha. lia.
Qed.

Lemma filter_all {A} (P : A -> Prop) `{!forall x, Decision (P x)} (l : list A) : (forall x, P x) -> filter P l = l.
Proof. intros Hall. induction l as [|a l IH]; [done|]. rewrite filter_cons, decide_True by done. by rewrite IH. Qed.

(** ** On a [PortGraph] *)
Section pgpost.
  Context (g : pg) (fnl : list nat) (F : nat -> list nat) (I : InvG g fnl F).
  Context (d : dir) (nf : nat -> bool) (pf : nat -> nat -> bool) (cap : nat) (Hcap : length (pg_nodes g) <= cap).

  Lemma elem_fnext u x : x ∈ fnext g d nf pf u <-> fedge g d nf pf u x.
  Proof.
    unfold fnext, fedge. rewrite elem_of_list_omap. split.
    - intros (p & Hp & Hx). destruct (port_link g p) as [[q|]|] eqn:Hl; [|done|done].
      destruct (port_node g q) as [m|] eqn:Hq; [|done].
      destruct (pf u p && nf m && pf m q) eqn:Hb; [|done]. injection Hx as <-.
      apply andb_true_iff in Hb as [[Hb1 Hb2]%andb_true_iff Hb3]. exists p, q. split; [|done].
      split; [done|]. split; [done|].
      destruct (wf_sym _ (gv_wf g fnl F I) p q u d Hp) as [_ [m' Hm']]; [by apply (glk_iff _ _ _ I)|].
      apply port_node_iff in Hq as [d' Hq]. cbn [gv_of gv_ports] in Hm'.
      pose proof (proj1 (elem_ports _ _ _ I _ _ _) Hm') as H2. rewrite Hq in H2. by injection H2 as -> ->.
    - intros (p & q & (Hp & Hl & Hq) & H1 & H2 & H3). exists p. split; [done|]. unfold linked in Hl. rewrite Hl.
      assert (port_node g q = Some x) as ->.
      { apply port_node_iff. eexists. by apply (elem_ports _ _ _ I). }
      by rewrite H1, H2, H3.
  Qed.
  Lemma fnext_cap n m : m ∈ fnext g d nf pf n -> m < cap.
  Proof.
    intros (p & q & (_ & _ & Hq) & _)%elem_fnext. apply (elem_ports _ _ _ I), (pmeta_nmeta _ _ _ I) in Hq as [x Hx].
    unfold nmeta in Hx. destruct (pg_nodes g !! m) eqn:E; [|done]. apply lookup_lt_Some in E. lia.
  Qed.
  Lemma pg_push_ok : push_ok (gv_of g) d nf pf cap (fnext g d nf pf).
  Proof.
    intros n vis V st Hb. cbn [gv_of gv_ports]. unfold fnext.
    assert (H : forall ps, (forall p, p ∈ ps -> p ∈ ports g n d) ->
      forall st, rfold (po_push (gv_of g) nf pf n vis) (rev ps) st =
      Ok (filter (fun m => m ∉ V) (omap (fun p => match port_link g p with
                 | Ok (Some q) => match port_node g q with
                                  | Some v => if pf n p && nf v && pf v q then Some v else None
                                  | None => None
                                  end
                 | _ => None
                 end) ps) ++ st)); [|by apply H].
    induction ps as [|p ps IH]; intros Hps st0; [done|]. cbn [rev]. rewrite rfold_app, IH by set_solver. cbn [mbind res_bind rfold].
    assert (Hp : p ∈ ports g n d) by (apply Hps; left).
    pose proof (proj1 (elem_ports _ _ _ I _ _ _) Hp) as Hpm.
    unfold po_push. rewrite (gv_link_eq _ _ _ I). rewrite (port_link_eq _ _ _ I), Hpm. cbn [omap list_omap].
    rewrite (port_link_eq _ _ _ I), Hpm.
    cbn [mbind res_bind]. destruct (plink g p) as [q|] eqn:Hl; [|by destruct (pf n p)].
    assert (Hpq : linked g p q) by (apply (linked_iff _ _ _ I); eauto).
    destruct (wf_sym _ (gv_wf g fnl F I) p q n d Hp) as [_ [m Hm]]; [by apply (glk_iff _ _ _ I)|]. cbn [gv_of gv_ports] in Hm.
    assert (Hqn : port_node g q = Some m) by (apply port_node_iff; eexists; by apply (elem_ports _ _ _ I)).
    cbn [gv_of gv_node]. rewrite Hqn. cbn [unwrap mbind res_bind].
    destruct (pf n p) eqn:H1; [|done]. destruct (nf m) eqn:H2; [|done]. destruct (pf m q) eqn:H3; [|done]. cbn [andb].
    rewrite (bits_get cap vis V m Hb); cycle 1.
    { apply (fnext_cap n). apply elem_fnext. exists p, q. done. }
    cbn [mbind res_bind]. rewrite filter_cons. destruct (bool_decide (m ∈ V)) eqn:Hd.
    - apply bool_decide_eq_true in Hd. by rewrite decide_False by (intros Hx; by apply Hx).
    - apply bool_decide_eq_false in Hd. by rewrite decide_True.
  Qed.

  Lemma bits_init : bits cap (replicate cap false) ∅.
  Proof.
    split; [apply replicate_length|]. intros n. rewrite lookup_replicate. set_solver.
  Qed.

  Lemma post_run src : (forall n, n ∈ src -> nf n = true -> n < cap) ->
    exists l V k s', dfs (fnext g d nf pf) ∅ (filter (fun n => nf n = true) src) l V
      /\ po_run (gv_of g) d nf pf k (post_new nf cap src) l s' /\ po_stack s' = [].
  Proof.
    intros Hsrc. set (fs := filter (fun n => nf n = true) src).
    assert (Hfs : forall n, n ∈ fs -> n < cap) by (intros n [? ?]%elem_of_list_filter; auto).
    destruct (dfs_total (fnext g d nf pf) (seq 0 cap)) with (k := size (list_to_set (seq 0 cap) ∖ ∅ : gset nat)) (V := (∅ : gset nat)) (ns := fs)
      as (l & V & Hd); [|done|..].
    { intros n _ m Hm%fnext_cap. apply elem_of_seq. lia. }
    { intros n Hn%Hfs. apply elem_of_seq. lia. }
    destruct (dfs_machine (gv_of g) d nf pf cap _ pg_push_ok fnext_cap _ _ _ _ Hd ∅ ∅ [] (replicate cap false) (replicate cap false) 0)
      as (k & vis' & fin' & Hrun & _); [done|done|done|set_solver|apply bits_init|apply bits_init|].
    exists l, V, k. eexists. split; [done|]. split; [|shelve]. unfold post_new. fold fs.
    rewrite filter_all, app_nil_r in Hrun by set_solver. exact Hrun. Unshelve. done.
  Qed.
End pgpost.
