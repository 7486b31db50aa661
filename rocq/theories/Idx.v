(** Positions of the elements of a list that satisfy a test, and their ranks. *)
From Coq Require Export Sorted.
From Verif Require Export BaseLemmas.

Section idx.
  Context {A : Type} (f : A -> bool).

  (** Positions (counted from [s]) of the elements satisfying [f]. *)
  Fixpoint idxs (l : list A) (s : nat) : list nat :=
    match l with
    | [] => []
    | x :: l' => if f x then s :: idxs l' (S s) else idxs l' (S s)
    end.

  (** Number of elements satisfying [f] before position [p]. *)
  Fixpoint rank (l : list A) (p : nat) : nat :=
    match l, p with
    | x :: l', S p' => (if f x then 1 else 0) + rank l' p'
    | _, _ => 0
    end.

  Lemma elem_of_idxs l s i : i ∈ idxs l s <-> s <= i /\ exists x, l !! (i - s) = Some x /\ f x = true.
  Proof.
    revert s. induction l as [|y l IH]; intros s; cbn.
    - rewrite elem_of_nil. split; [done|]. intros [_ (x & Hx & _)]. by rewrite lookup_nil in Hx.
    - assert (Hrec : i ∈ idxs l (S s) <-> S s <= i /\ exists x, (y :: l) !! (i - s) = Some x /\ f x = true).
      { rewrite IH. split; intros [Hle Hx]; (split; [done|]); replace (i - s) with (S (i - S s)) in * by lia; done. }
      destruct (f y) eqn:E; [rewrite elem_of_cons|]; rewrite Hrec.
      + split.
        * intros [->|[? ?]]; [|split; [lia|done]]. split; [lia|]. rewrite Nat.sub_diag. eauto.
        * intros [Hle Hx]. destruct (decide (i = s)); [by left|]. right. split; [lia|done].
      + split.
        * intros [? ?]; split; [lia|done].
        * intros [Hle (x & Hx & Hf)]. split; [|eauto]. destruct (decide (i = s)) as [->|]; [|lia].
          rewrite Nat.sub_diag in Hx. cbn in Hx. congruence.
  Qed.

  Lemma idxs_ge l s i : i ∈ idxs l s -> s <= i.
  Proof. by intros [? _]%elem_of_idxs. Qed.

  Lemma idxs_sorted l s : StronglySorted lt (idxs l s).
  Proof.
    revert s. induction l as [|y l IH]; intros s; cbn; [constructor|].
    destruct (f y); [|done]. constructor; [done|]. apply Forall_forall. intros i Hi%idxs_ge. lia.
  Qed.

  Lemma idxs_NoDup l s : NoDup (idxs l s).
  Proof.
    revert s. induction l as [|y l IH]; intros s; cbn; [constructor|].
    destruct (f y); [|done]. constructor; [|done]. intros Hi%idxs_ge. lia.
  Qed.

  Lemma idxs_lookup_rank l s i x : l !! i = Some x -> f x = true -> idxs l s !! rank l i = Some (s + i).
  Proof.
    revert s i. induction l as [|y l IH]; intros s i Hi Hf; [done|]. destruct i as [|i]; cbn in *.
    - injection Hi as ->. rewrite Hf. cbn. f_equal. lia.
    - specialize (IH (S s) i Hi Hf). replace (s + S i) with (S s + i) by lia. by destruct (f y).
  Qed.

  Lemma rank_le l p : rank l p <= p.
  Proof. revert p. induction l as [|y l IH]; intros [|p]; cbn; try lia. specialize (IH p). destruct (f y); lia. Qed.
  Lemma rank_0 l : rank l 0 = 0.
  Proof. by destruct l. Qed.
  Lemma rank_S l p : rank l (S p) = rank l p + match l !! p with Some x => if f x then 1 else 0 | None => 0 end.
  Proof.
    revert p. induction l as [|y l IH]; intros p; [done|]. destruct p as [|p].
    - cbn. rewrite rank_0. lia.
    - change (rank (y :: l) (S (S p))) with ((if f y then 1 else 0) + rank l (S p)). rewrite IH.
      change (rank (y :: l) (S p)) with ((if f y then 1 else 0) + rank l p). change ((y :: l) !! S p) with (l !! p). lia.
  Qed.
  Lemma rank_mono l p q : p <= q -> rank l p <= rank l q.
  Proof. induction 1 as [|q Hle IH]; [done|]. rewrite rank_S. lia. Qed.
  Lemma rank_lt l p q x : l !! p = Some x -> f x = true -> p < q -> rank l p < rank l q.
  Proof.
    intros Hp Hf Hlt. pose proof (rank_mono l (S p) q Hlt) as H. rewrite rank_S, Hp, Hf in H. lia.
  Qed.
  Lemma rank_inj l p q x y : l !! p = Some x -> f x = true -> l !! q = Some y -> f y = true ->
    rank l p = rank l q -> p = q.
  Proof.
    intros Hp Hf Hq Hg E. destruct (lt_eq_lt_dec p q) as [[H|H]|H]; [|done|].
    - pose proof (rank_lt l p q x Hp Hf H). lia.
    - pose proof (rank_lt l q p y Hq Hg H). lia.
  Qed.
  Lemma rank_total l s p : length l <= p -> rank l p = length (idxs l s).
  Proof.
    revert s p. induction l as [|y l IH]; intros s p Hp; [done|]. destruct p as [|p]; [cbn in Hp; lia|].
    cbn in *. rewrite (IH (S s) p) by lia. by destruct (f y).
  Qed.
  Lemma rank_lt_total l p x : l !! p = Some x -> f x = true -> rank l p < length (idxs l 0).
  Proof.
    intros Hp Hf. rewrite <- (rank_total l 0 (length l)) by lia. apply (rank_lt l p _ x); [done|done|].
    by eapply lookup_lt_Some.
  Qed.
  (** Over a stretch of selected positions the rank grows by one each. *)
  Lemma rank_run l s n : (forall i, s <= i < s + n -> exists x, l !! i = Some x /\ f x = true) ->
    forall i, i <= n -> rank l (s + i) = rank l s + i.
  Proof.
    intros H i. induction i as [|i IH]; intros Hi; [by rewrite !Nat.add_0_r|].
    rewrite Nat.add_succ_r, rank_S. destruct (H (s + i)) as (x & Hx & Hf); [lia|]. rewrite Hx, Hf. rewrite IH by lia. lia.
  Qed.
  Lemma idxs_lookup_inv l k i : idxs l 0 !! k = Some i -> (exists x, l !! i = Some x /\ f x = true) /\ k = rank l i.
  Proof.
    intros Hk. pose proof (elem_of_list_lookup_2 _ _ _ Hk) as Hin.
    apply elem_of_idxs in Hin as [_ (x & Hx & Hf)]. rewrite Nat.sub_0_r in Hx.
    split; [by eauto|]. eapply NoDup_lookup; [apply (idxs_NoDup l 0)|done|].
    rewrite (idxs_lookup_rank l 0 i x) by done. done.
  Qed.
  Lemma idxs_length l s : length (idxs l s) <= length l.
  Proof. revert s. induction l as [|y l IH]; intros s; cbn; [lia|]. specialize (IH (S s)). destruct (f y); cbn; lia. Qed.
  Lemma idxs_card l : card (fun i => exists x, l !! i = Some x /\ f x = true) (length (idxs l 0)).
  Proof.
    exists (idxs l 0). split_and!; [apply idxs_NoDup| |done]. intros i. rewrite elem_of_idxs, Nat.sub_0_r.
    split; [by intros [_ ?]|]. intros ?. split; [lia|done].
  Qed.

  Lemma filter_idxs l s k :
    filter (fun x => f x = true) l !! k = (idxs l s !! k) ≫= (fun i => l !! (i - s)).
  Proof.
    revert s k. induction l as [|y l IH]; intros s k; [done|].
    assert (Hrec : forall k', (idxs l (S s) !! k') ≫= (fun i => l !! (i - S s)) =
                              (idxs l (S s) !! k') ≫= (fun i => (y :: l) !! (i - s))).
    { intros k'. destruct (idxs l (S s) !! k') as [i|] eqn:E; [|done]. cbn.
      apply elem_of_list_lookup_2, idxs_ge in E. by replace (i - s) with (S (i - S s)) by lia. }
    destruct (f y) eqn:E.
    - rewrite filter_cons_True by done. cbn [idxs]. rewrite E. destruct k as [|k].
      + cbn. by rewrite Nat.sub_diag.
      + etransitivity; [apply (IH (S s) k)|apply Hrec].
    - rewrite filter_cons_False by congruence. cbn [idxs]. rewrite E, (IH (S s) k). apply Hrec.
  Qed.
  Lemma filter_length l s : length (filter (fun x => f x = true) l) = length (idxs l s).
  Proof.
    revert s. induction l as [|y l IH]; intros s; [done|]. cbn [idxs]. destruct (f y) eqn:E.
    - rewrite filter_cons_True by done. cbn. by rewrite (IH (S s)).
    - rewrite filter_cons_False by congruence. apply IH.
  Qed.
End idx.
