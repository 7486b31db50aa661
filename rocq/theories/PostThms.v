(** Theorems about the post-order traversal. *)
From Verif Require Export PostProofs.

Lemma C48_postorder_pf :
forall w g d nf pf cap src, reach w g -> length (pg_nodes g) <= cap ->
  (forall n, n ∈ src -> nf n = true -> n < cap) ->
  exists l V,
    (exists N, forall fuel, N <= fuel -> postorder (gv_of g) d nf pf fuel cap src = HOk l)
    /\ dfs (fnext g d nf pf) ∅ (filter (fun n => nf n = true) src) l V
    /\ NoDup l
    /\ (forall n, n ∈ l <-> exists s, s ∈ src /\ nf s = true /\ rtc (fedge g d nf pf) s n)
    /\ (forall u v, u ∈ l -> fedge g d nf pf u v -> before l v u \/ rtc (fedge g d nf pf) v u).
Proof.
  intros w g d nf pf cap src Hr Hcap Hsrc. destruct (reach_inv _ _ Hr) as (fnl & F & I).
  destruct (post_run g fnl F I d nf pf cap Hcap src Hsrc) as (l & V & k & s' & Hd & Hrun & He).
  assert (Hrtc : forall a b, rtc (nedge (fnext g d nf pf)) a b <-> rtc (fedge g d nf pf) a b).
  { intros a b. split; induction 1 as [|x y z Hxy _ IH]; [done| |done|]; (eapply rtc_l; [|exact IH]); by apply (elem_fnext g fnl F I). }
  destruct (dfs_set _ _ _ _ _ Hd) as (S1 & _ & S3 & S4).
  exists l, V. split; [|split; [done|split; [done|split]]].
  - exists (S (k + length l)). intros fuel Hf. unfold postorder. eapply run_collect; [exact Hrun|done|lia|lia].
  - intros n. split.
    + intros Hn. destruct (dfs_reach _ _ _ _ _ Hd n Hn) as (s & [Hs1 Hs2]%elem_of_list_filter & Hs). exists s.
      split; [done|]. split; [done|]. by apply Hrtc.
    + intros (s & Hs & Hnf & Hrt). assert (Hsl : s ∈ l).
      { assert (Hs' : s ∈ filter (fun n => nf n = true) src) by (by apply elem_of_list_filter).
        apply S4, S1 in Hs' as [?|?]; [set_solver|done]. }
      apply Hrtc in Hrt. induction Hrt as [|x y z Hxy _ IH] in Hsl |- *; [done|]. apply IH.
      pose proof (dfs_closed _ _ _ _ _ Hd x y Hsl Hxy) as Hy. apply S1 in Hy as [?|?]; [set_solver|done].
  - intros u v Hu Huv. destruct (dfs_order _ _ _ _ _ Hd ∅) with (u := u) (v := v) as [[? ?]|[?|?]]; [set_solver|done| |set_solver|auto|].
    + by apply (elem_fnext g fnl F I).
    + right. by apply Hrtc.
Qed.

Lemma C70_postorder_size_hint_pf :
forall w g d nf pf cap src k, reach w g -> length (pg_nodes g) <= cap ->
  (forall n, n ∈ src -> contains_node g n = true) ->
  exists s hi rest,
    (exists N, forall fuel, N <= fuel ->
       po_after (gv_of g) d nf pf fuel k (post_new nf cap src) = HOk s
       /\ po_collect (gv_of g) d nf pf fuel fuel s = HOk rest)
    /\ po_size_hint (gv_of g) s = Ok (0, hi)
    /\ length rest <= hi.
Proof.
  intros w g d nf pf cap src k Hr Hcap Hsrc.
  assert (Hsrc' : forall n, n ∈ src -> nf n = true -> n < cap).
  { intros n Hn%Hsrc _. apply contains_node_true in Hn as [m Hm]. unfold nmeta in Hm.
    destruct (pg_nodes g !! n) eqn:E; [|done]. apply lookup_lt_Some in E. lia. }
  destruct (reach_inv _ _ Hr) as (fnl & F & I).
  destruct (post_run g fnl F I d nf pf cap Hcap src Hsrc') as (l & V & k0 & s' & Hd & Hrun & He).
  destruct (run_after _ _ _ _ k _ _ _ _ Hrun He) as (s1 & k1 & Ha & Hk1 & Hr1).
  pose proof (po_run_seen _ _ _ _ _ _ _ _ Hrun) as E1. pose proof (po_run_seen _ _ _ _ _ _ _ _ Hr1) as E2.
  unfold post_new in E1. cbn [po_seen] in E1.
  assert (Hlen : length l <= length (nodes_iter g)).
  { destruct (dfs_set _ _ _ _ _ Hd) as (_ & _ & S3 & _). apply submseteq_length, NoDup_submseteq; [done|].
    intros n Hn. destruct (dfs_reach _ _ _ _ _ Hd n Hn) as (s & [_ Hs]%elem_of_list_filter & Hrt).
    assert (Hs' : s ∈ nodes_iter g) by (by apply nodes_iter_elem, Hsrc). clear Hs Hn.
    induction Hrt as [|x y z Hxy _ IH]; [done|]. apply IH. apply (elem_fnext g fnl F I) in Hxy as (p & q & Hpq & _).
    apply (pedge_nodes g fnl F I d x y). by exists p, q. }
  assert (Hdrop : length (drop k l) <= length l) by (rewrite drop_length; lia).
  exists s1, (length (nodes_iter g) - po_seen s1), (drop k l). split; [|split].
  - exists (S (k0 + length l)). intros fuel Hf. split; [apply Ha; lia|].
    eapply run_collect; [exact Hr1|done|lia|lia].
  - unfold po_size_hint, usub. cbn [gv_of gv_nodes]. rewrite decide_True by lia. done.
  - lia.
Qed.
