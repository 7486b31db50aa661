(** A generic worklist search, the common core of the loops of dynamic.rs. *)
From Verif Require Export AlgSpec BaseLemmas.

Section bfs.
  Context (stop : nat -> bool) (ex : nat -> list nat) (U : list nat).
  Context (HU : forall n m, n ∈ U -> m ∈ ex n -> m ∈ U).

  Fixpoint gbfs (fuel : nat) (queue : list nat) (visited : gset nat) : hres bool :=
    match fuel with
    | 0 => HLoop
    | S fuel =>
        match queue with
        | [] => HOk false
        | node :: queue =>
            if stop node then HOk true
            else if decide (node ∈ visited) then gbfs fuel queue visited
            else gbfs fuel (queue ++ ex node) ({[node]} ∪ visited)
        end
    end.

  Definition exr (a b : nat) : Prop := stop a = false /\ b ∈ ex a.
  Definition bfs_cost (visited : gset nat) : nat :=
    sum_list ((fun n => if decide (n ∈ visited) then 0 else length (ex n)) <$> U).
  Lemma bfs_cost_step n visited : n ∈ U -> n ∉ visited -> length (ex n) + bfs_cost ({[n]} ∪ visited) <= bfs_cost visited.
  Proof.
    intros Hn Hv. unfold bfs_cost. clear HU. induction U as [|x l IH]; [by apply elem_of_nil in Hn|]. cbn.
    assert (Hle : sum_list ((λ n0, if decide (n0 ∈ {[n]} ∪ visited) then 0 else length (ex n0)) <$> l) <=
                  sum_list ((λ n0, if decide (n0 ∈ visited) then 0 else length (ex n0)) <$> l)).
    { clear IH Hn. induction l as [|y l IH]; cbn; [done|]. repeat case_decide; set_solver by lia. }
    apply elem_of_cons in Hn as [->|Hn].
    - rewrite decide_True by set_solver. rewrite decide_False by done. lia.
    - specialize (IH Hn). repeat case_decide; set_solver by lia.
  Qed.

  Lemma gbfs_run fuel queue visited :
    (forall n, n ∈ queue -> n ∈ U) ->
    (forall n, n ∈ visited -> n ∈ U /\ stop n = false /\ forall m, m ∈ ex n -> m ∈ visited \/ m ∈ queue) ->
    length queue + bfs_cost visited < fuel ->
    exists r, gbfs fuel queue visited = HOk r /\
      (r = true <-> exists s t, (s ∈ visited \/ s ∈ queue) /\ rtc exr s t /\ stop t = true).
  Proof.
    revert queue visited. induction fuel as [|fuel IH]; intros queue visited HQ HV Hf; [lia|]. cbn [gbfs].
    destruct queue as [|node queue].
    { exists false. split; [done|]. split; [done|]. intros (s & t & Hs & Hst & Ht). exfalso.
      destruct Hs as [Hs|Hs%elem_of_nil]; [|done].
      assert (Hcl : t ∈ visited).
      { clear Ht. revert Hs. induction Hst as [|x y z [_ Hxy] _ IH']; [done|]. intros Hx. apply IH'.
        destruct (HV x Hx) as (_ & _ & H). destruct (H _ Hxy) as [|?%elem_of_nil]; done. }
      destruct (HV t Hcl) as (_ & ? & _). congruence. }
    destruct (stop node) eqn:Es.
    { exists true. split; [done|]. split; [|done]. intros _. exists node, node. split; [right; by left|]. split; [done|done]. }
    destruct (decide (node ∈ visited)) as [Hv|Hv].
    - destruct (IH queue visited) as (r & -> & Hr).
      + intros n Hn. apply HQ. by right.
      + intros n Hn. destruct (HV n Hn) as (? & ? & H). split; [done|]. split; [done|]. intros m Hm.
        destruct (H m Hm) as [?|[->|?]%elem_of_cons]; tauto.
      + cbn in Hf. lia.
      + exists r. split; [done|]. rewrite Hr. split; intros (s & t & Hs & Hst & Ht); exists s, t; split; try done.
        * destruct Hs; [by left|right; by right].
        * destruct Hs as [?|[->|?]%elem_of_cons]; tauto.
    - destruct (IH (queue ++ ex node) ({[node]} ∪ visited)) as (r & -> & Hr).
      + intros n [Hn|Hn]%elem_of_app; [apply HQ; by right|]. eapply HU; [|exact Hn]. apply HQ. by left.
      + intros n [->%elem_of_singleton|Hn]%elem_of_union.
        * split; [apply HQ; by left|]. split; [done|]. intros m Hm. right. apply elem_of_app. by right.
        * destruct (HV n Hn) as (? & ? & H). split; [done|]. split; [done|]. intros m Hm. rewrite elem_of_union, elem_of_singleton, elem_of_app.
          destruct (H m Hm) as [?|[->|?]%elem_of_cons]; tauto.
      + pose proof (bfs_cost_step node visited (HQ node ltac:(by left)) Hv). rewrite app_length. cbn in Hf. lia.
      + exists r. split; [done|]. rewrite Hr. split; intros (s & t & Hs & Hst & Ht).
        * destruct (decide (s ∈ ex node)) as [Hx|Hx].
          -- exists node, t. split; [right; by left|]. split; [|done]. eapply rtc_l; [|exact Hst]. done.
          -- exists s, t. split; [|done]. rewrite elem_of_union, elem_of_singleton, elem_of_app in Hs. rewrite elem_of_cons. tauto.
        * exists s, t. split; [|done]. rewrite elem_of_union, elem_of_singleton, elem_of_app. rewrite elem_of_cons in Hs. tauto.
  Qed.

  (** From one start node: true iff a stop node is reachable. *)
  Lemma gbfs_ok start : start ∈ U -> exists N, forall fuel, N < fuel -> exists r, gbfs fuel [start] ∅ = HOk r /\
    (r = true <-> exists t, rtc exr start t /\ stop t = true).
  Proof.
    intros Hs. exists (1 + bfs_cost ∅). intros fuel Hf. destruct (gbfs_run fuel [start] ∅) as (r & -> & Hr).
    - by intros n ->%elem_of_list_singleton.
    - intros n Hn. by apply elem_of_empty in Hn.
    - done.
    - exists r. split; [done|]. rewrite Hr. split.
      + intros (s & t & [?%elem_of_empty| ->%elem_of_list_singleton] & ?); [done|]. by exists t.
      + intros (t & ?). exists start, t. split; [right; by left|done].
  Qed.
End bfs.
