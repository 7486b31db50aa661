(** Replaying moves on a side table. *)
From Verif Require Export PGRun.

Section replay.
  Context {V : Type} (upd : (nat -> V) -> nat -> nat -> nat -> V).
  Context (Hupd1 : forall f a b, upd f a b b = f a).
  Context (Hupd2 : forall f a b x, x <> a -> x <> b -> upd f a b x = f x).

  Lemma replay_pairs (ps : list (nat * nat)) f :
    NoDup ps.*1 -> NoDup ps.*2 ->
    (forall i j o w o' w', i < j -> ps !! i = Some (o, w) -> ps !! j = Some (o', w') -> w <> o') ->
    (forall o w, (o, w) ∈ ps -> foldl (fun f x => upd f x.1 x.2) f ps w = f o) /\
    (forall x, x ∉ ps.*1 -> x ∉ ps.*2 -> foldl (fun f x => upd f x.1 x.2) f ps x = f x).
  Proof.
    revert f. induction ps as [|[o1 w1] ps IH]; intros f N1 N2 Ho.
    { split; [|done]. intros o w []%elem_of_nil. }
    rewrite fmap_cons in N1, N2. cbn in N1, N2. apply NoDup_cons in N1 as [A1 N1]. apply NoDup_cons in N2 as [A2 N2].
    cbn [foldl fst snd]. destruct (IH (upd f o1 w1) N1 N2) as [H1 H2].
    { intros i j o w o' w' Hij Hi Hj. apply (Ho (S i) (S j) o w o' w'); [lia|done|done]. }
    assert (Hw1 : w1 ∉ ps.*1).
    { intros ([o w] & E & Hj)%elem_of_list_fmap. cbn in E. apply elem_of_list_lookup_1 in Hj as [j Hj].
      apply (Ho 0 (S j) o1 w1 o w); [lia|done|done|done]. }
    split.
    - intros o w [[= -> ->]|Hin]%elem_of_cons.
      + rewrite H2 by done. apply Hupd1.
      + rewrite (H1 _ _ Hin). apply Hupd2.
        * intros ->. apply A1. apply elem_of_list_fmap. by exists (o1, w).
        * intros ->. apply Hw1. apply elem_of_list_fmap. by exists (w1, w).
    - intros x Hx1 Hx2. rewrite !fmap_cons, !not_elem_of_cons in *. cbn in *.
      rewrite H2 by tauto. apply Hupd2; tauto.
  Qed.
End replay.

Lemma tswap_1 {V} (f : nat -> V) a b : tswap f a b b = f a.
Proof. unfold tswap. case_decide; [by subst|]. by rewrite decide_True. Qed.
Lemma tswap_2 {V} (f : nat -> V) a b x : x <> a -> x <> b -> tswap f a b x = f x.
Proof. intros. unfold tswap. by rewrite !decide_False. Qed.
Lemma trekey_1 {V} (dv : V) (f : nat -> V) a b : trekey dv f a b b = f a.
Proof. unfold trekey. by rewrite decide_True. Qed.
Lemma trekey_2 {V} (dv : V) (f : nat -> V) a b x : x <> a -> x <> b -> trekey dv f a b x = f x.
Proof. intros. unfold trekey. by rewrite !decide_False. Qed.

Lemma moved_log_fold {V} (F : (nat -> V) -> nat * port_op -> nat -> V) (upd : (nat -> V) -> nat -> nat -> nat -> V) ps f :
  (forall f o w, F f (o, Moved w) = upd f o w) ->
  foldl F f (moved_log ps) = foldl (fun f x => upd f x.1 x.2) f ps.
Proof.
  intros HF. revert f. induction ps as [|[o w] ps IH]; intros f; [done|]. cbn. rewrite HF. apply IH.
Qed.

(** Compaction logs. *)
Lemma zip_seq_pairs (l : list nat) : NoDup l -> StronglySorted lt l ->
  let ps := zip l (seq 0 (length l)) in
  ps.*1 = l /\ ps.*2 = seq 0 (length l) /\ NoDup ps.*1 /\ NoDup ps.*2 /\
  (forall i j o w o' w', i < j -> ps !! i = Some (o, w) -> ps !! j = Some (o', w') -> w <> o') /\
  (forall o w, (o, w) ∈ ps -> w <= o).
Proof.
  intros Hnd Hs ps.
  assert (E1 : ps.*1 = l) by (unfold ps; rewrite fst_zip; [done|by rewrite seq_length]).
  assert (E2 : ps.*2 = seq 0 (length l)) by (unfold ps; rewrite snd_zip; [done|by rewrite seq_length]).
  assert (Hlk : forall i o w, ps !! i = Some (o, w) -> l !! i = Some o /\ w = i).
  { intros i o w H. unfold ps in H. apply lookup_zip_with_Some in H as (x & y & [= -> ->] & Hx & Hy).
    apply lookup_seq in Hy. split; [done|lia]. }
  assert (Hge : forall i o, l !! i = Some o -> i <= o).
  { clear -Hs. assert (H : forall l k, StronglySorted lt l -> (forall x, x ∈ l -> k <= x) ->
      forall i o, l !! i = Some o -> k + i <= o).
    { clear. induction l as [|a l IH]; intros k Hs Hk i o; [done|]. apply StronglySorted_inv in Hs as [Hs Hf].
      destruct i as [|i]; cbn.
      - intros [= ->]. specialize (Hk o ltac:(by left)). lia.
      - intros Hi. assert (S k + i <= o); [|lia]. eapply IH; [done| |done].
        intros x Hx. rewrite Forall_forall in Hf. apply Hf in Hx. specialize (Hk a ltac:(by left)). lia. }
    intros i o Hi. apply (H l 0 Hs); [intros; lia|done]. }
  split_and!; [done|done|by rewrite E1|rewrite E2; apply NoDup_seq| |].
  - intros i j o w o' w' Hij [_ ->]%Hlk [Hj _]%Hlk. apply Hge in Hj. lia.
  - intros o w (i & [Hi ->]%Hlk)%elem_of_list_lookup_1. by apply Hge.
Qed.

(** Iteration lists. *)
Lemma omap_cons' {A B} (f : A -> option B) a l :
  omap f (a :: l) = match f a with Some y => y :: omap f l | None => omap f l end.
Proof. done. Qed.
Lemma nodes_iter_eq g : nodes_iter g = node_ids g.
Proof.
  unfold nodes_iter, node_ids, enumerate. generalize (pg_nodes g). intros l.
  assert (H : forall k, omap (fun x => match x with (i, NNode _) => Some i | _ => None end)
    (imap (fun i e => (i + k, e)) l) = idxs is_nnode l k).
  { induction l as [|e l IH]; intros k; [done|]. rewrite imap_cons, omap_cons'. cbn [idxs].
    assert (E : imap ((fun i e => (i + k, e)) ∘ S) l = imap (fun i e => (i + S k, e)) l).
    { apply imap_ext. intros i x _. cbn. f_equal. lia. }
    rewrite E, (IH (S k)). by destruct e. }
  rewrite <- (H 0). f_equal. apply imap_ext. intros i x _. by rewrite Nat.add_0_r.
Qed.
Lemma ports_iter_eq g : ports_iter g = port_ids g.
Proof.
  unfold ports_iter, port_ids, enumerate. generalize (pg_pmeta g). intros l.
  assert (H : forall k, omap (fun x => match x with (i, PPort _ _) => Some i | _ => None end)
    (imap (fun i e => (i + k, e)) l) = idxs is_pport l k).
  { induction l as [|e l IH]; intros k; [done|]. rewrite imap_cons, omap_cons'. cbn [idxs].
    assert (E : imap ((fun i e => (i + k, e)) ∘ S) l = imap (fun i e => (i + S k, e)) l).
    { apply imap_ext. intros i x _. cbn. f_equal. lia. }
    rewrite E, (IH (S k)). by destruct e. }
  rewrite <- (H 0). f_equal. apply imap_ext. intros i x _. by rewrite Nat.add_0_r.
Qed.
Lemma node_ids_sorted g : StronglySorted lt (node_ids g).
Proof. apply idxs_sorted. Qed.
Lemma port_ids_sorted g : StronglySorted lt (port_ids g).
Proof. apply idxs_sorted. Qed.
Lemma node_ids_length g fnl F : InvG g fnl F -> length (node_ids g) = pg_ncount g.
Proof.
  intros I. destruct (i_counts _ _ _ I) as (C1 & _ & _).
  eapply (card_unique (fun n => n ∈ node_ids g)); [apply card_list, idxs_NoDup|].
  eapply card_ext; [|exact C1]. intros n. cbn. rewrite node_ids_elem. apply not_eq_None_Some.
Qed.
Lemma port_ids_length g fnl F : InvG g fnl F -> length (port_ids g) = pg_pcount g.
Proof.
  intros I. destruct (i_counts _ _ _ I) as (_ & C1 & _).
  eapply (card_unique (fun n => n ∈ port_ids g)); [apply card_list, idxs_NoDup|].
  eapply card_ext; [|exact C1]. intros n. cbn. rewrite port_ids_elem. apply not_eq_None_Some.
Qed.
