(** Lemmas about the vocabulary of Base.v. *)
From Verif Require Export Base.

Lemma bind_Ok {A B} (a : A) (f : A -> res B) : mbind f (Ok a) = f a.
Proof. reflexivity. Qed.

Lemma bind_inv {A B} (m : res A) (f : A -> res B) b :
  mbind f m = Ok b -> exists a, m = Ok a /\ f a = Ok b.
Proof. destruct m; cbn; [eauto|discriminate]. Qed.

Lemma assert_ok (b : bool) : b = true -> assert b = Ok tt.
Proof. by intros ->. Qed.
Lemma assert_inv (b : bool) u : assert b = Ok u -> b = true.
Proof. by destruct b. Qed.

Lemma vget_ok {A} (l : list A) i x : l !! i = Some x -> vget l i = Ok x.
Proof. unfold vget. by intros ->. Qed.
Lemma vget_inv {A} (l : list A) i x : vget l i = Ok x -> l !! i = Some x.
Proof. unfold vget. destruct (l !! i); cbn; congruence. Qed.

Lemma vset_ok {A} (l : list A) i x : i < length l -> vset l i x = Ok (<[i:=x]> l).
Proof. intros. unfold vset. by rewrite decide_True. Qed.
Lemma vset_inv {A} (l : list A) i x l' :
  vset l i x = Ok l' -> i < length l /\ l' = <[i:=x]> l.
Proof. unfold vset. case_decide; [|discriminate]. intros [= <-]. done. Qed.

Lemma vfill_ok {A} (l : list A) s n x :
  s + n <= length l -> vfill l s n x = Ok (list_inserts s (replicate n x) l).
Proof. intros. unfold vfill. by rewrite decide_True. Qed.
Lemma vfill_inv {A} (l : list A) s n x l' :
  vfill l s n x = Ok l' ->
  s + n <= length l /\ l' = list_inserts s (replicate n x) l.
Proof. unfold vfill. case_decide; [|discriminate]. intros [= <-]. done. Qed.

Lemma usub_ok a b : b <= a -> usub a b = Ok (a - b).
Proof. intros. unfold usub. by rewrite decide_True. Qed.
Lemma usub_inv a b c : usub a b = Ok c -> b <= a /\ c = a - b.
Proof. unfold usub. case_decide; [|discriminate]. intros [= <-]. done. Qed.

Lemma lookup_fill {A} (l : list A) s n x i :
  s + n <= length l ->
  list_inserts s (replicate n x) l !! i =
    if decide (s <= i < s + n) then Some x else l !! i.
Proof.
  intros Hl. case_decide as H.
  - rewrite list_lookup_inserts; rewrite ?replicate_length; [|lia|lia].
    apply lookup_replicate_2. lia.
  - destruct (decide (i < s)).
    + apply list_lookup_inserts_lt. lia.
    + apply list_lookup_inserts_ge. rewrite replicate_length. lia.
Qed.

Lemma lookup_insert_if {A} (l : list A) i j x :
  i < length l ->
  <[i:=x]> l !! j = if decide (j = i) then Some x else l !! j.
Proof.
  intros. case_decide as E; [rewrite E|].
  - by apply list_lookup_insert.
  - by apply list_lookup_insert_ne.
Qed.

Lemma lookup_resize_if {A} (l : list A) n x i :
  length l <= n ->
  resize n x l !! i = if decide (i < length l) then l !! i
                      else if decide (i < n) then Some x else None.
Proof.
  intros. case_decide; [|case_decide].
  - apply lookup_resize; lia.
  - apply lookup_resize_new; lia.
  - apply lookup_resize_old. lia.
Qed.

Lemma trunc16_id n : (N.of_nat n <= 65535)%N -> trunc16 n = n.
Proof. intros. unfold trunc16. rewrite N.mod_small; lia. Qed.

Lemma next_pow2_ge n : n <= next_pow2 n.
Proof.
  unfold next_pow2. destruct (decide (n = 0)) as [->|]; [lia|].
  destruct (decide (n = 1)) as [->|]; [vm_compute; lia|].
  pose proof (N.log2_up_spec (N.of_nat n)). lia.
Qed.
Lemma next_pow2_pos n : 0 < next_pow2 n.
Proof.
  unfold next_pow2. assert (2 ^ N.log2_up (N.of_nat n) ≠ 0)%N; [|lia].
  apply N.pow_nonzero. lia.
Qed.
Lemma next_pow2_le n : (N.of_nat n <= 32768)%N -> (N.of_nat (next_pow2 n) <= 32768)%N.
Proof.
  intros. unfold next_pow2. rewrite N2Nat.id.
  change 32768%N with (2 ^ 15)%N at 1. apply N.pow_le_mono_r; [lia|].
  change 15%N with (N.log2_up 32768). by apply N.log2_up_le_mono.
Qed.

(** Executing the head of a monadic sequence. *)
Section exec.
  Context {A B : Type}.
  Lemma b_vget (l : list A) i x (f : A -> res B) : l !! i = Some x -> mbind f (vget l i) = f x.
  Proof. intros H. by rewrite (vget_ok _ _ _ H). Qed.
  Lemma b_vset (l : list A) i x (f : list A -> res B) : i < length l -> mbind f (vset l i x) = f (<[i:=x]> l).
  Proof. intros H. by rewrite vset_ok. Qed.
  Lemma b_vfill (l : list A) s n x (f : list A -> res B) : s + n <= length l ->
    mbind f (vfill l s n x) = f (list_inserts s (replicate n x) l).
  Proof. intros H. by rewrite vfill_ok. Qed.
  Lemma b_usub a b (f : nat -> res B) : b <= a -> mbind f (usub a b) = f (a - b).
  Proof. intros H. by rewrite usub_ok. Qed.
  Lemma b_assert (b : bool) (f : unit -> res B) : b = true -> mbind f (assert b) = f tt.
  Proof. intros ->. done. Qed.
End exec.

(** Fold rules. *)
Lemma rfold_app {A S} (f : S -> A -> res S) l1 l2 s :
  rfold f (l1 ++ l2) s = mbind (rfold f l2) (rfold f l1 s).
Proof.
  revert s. induction l1 as [|a l1 IH]; intros s; [done|]. cbn.
  destruct (f s a); cbn; [apply IH|done].
Qed.

Lemma rfold_ok {A S} (f : S -> A -> res S) (P : list A -> S -> Prop) l s :
  P [] s ->
  (forall done x rest s, l = done ++ x :: rest -> P done s ->
     exists s', f s x = Ok s' /\ P (done ++ [x]) s') ->
  exists s', rfold f l s = Ok s' /\ P l s'.
Proof.
  intros H0 Hstep.
  assert (Hgen : forall rest done s, l = done ++ rest -> P done s ->
            exists s', rfold f rest s = Ok s' /\ P l s').
  { induction rest as [|x rest IH]; intros dn s1 Hl HP.
    - rewrite app_nil_r in Hl. subst. by exists s1.
    - destruct (Hstep dn x rest s1 Hl HP) as (s2 & Hf & HP2).
      destruct (IH (dn ++ [x]) s2) as (s3 & Hr & HP3).
      + by rewrite <- app_assoc.
      + done.
      + exists s3. cbn. rewrite Hf. cbn. done. }
  apply (Hgen l []); done.
Qed.

(** Partial-correctness version. *)
Lemma rfold_inv {A S} (f : S -> A -> res S) (P : list A -> S -> Prop) l s s' :
  rfold f l s = Ok s' ->
  P [] s ->
  (forall done x rest s s', l = done ++ x :: rest -> P done s ->
     f s x = Ok s' -> P (done ++ [x]) s') ->
  P l s'.
Proof.
  intros Hf H0 Hstep.
  assert (Hgen : forall rest done s, l = done ++ rest -> P done s ->
            rfold f rest s = Ok s' -> P l s').
  { induction rest as [|x rest IH]; intros dn s1 Hl HP Hr; cbn in Hr.
    - rewrite app_nil_r in Hl. subst. congruence.
    - apply bind_inv in Hr as (s2 & Hs & Hr).
      eapply (IH (dn ++ [x])); [|by eapply Hstep|done].
      by rewrite <- app_assoc. }
  eapply (Hgen l []); eauto.
Qed.

(** Cardinalities. *)
Lemma card_ext {A} (P Q : A -> Prop) n :
  (forall x, P x <-> Q x) -> card P n -> card Q n.
Proof.
  intros E (L & H1 & H2 & H3). exists L. split_and!; [done| |done].
  intros x. rewrite H2. apply E.
Qed.

Lemma card_unique {A} (P : A -> Prop) n m : card P n -> card P m -> n = m.
Proof.
  intros (L & H1 & H2 & <-) (L' & H1' & H2' & <-).
  apply Permutation_length, NoDup_Permutation; [done|done|].
  intros x. rewrite H2, H2'. done.
Qed.

Lemma card_empty {A} (P : A -> Prop) : (forall x, ~ P x) -> card P 0.
Proof.
  intros H. exists []. split_and!; [constructor| |done].
  intros x. split; [by intros ?%elem_of_nil|]. intros ?. by destruct (H x).
Qed.

Lemma card_list {A} (L : list A) : NoDup L -> card (fun x => x ∈ L) (length L).
Proof. intros. by exists L. Qed.

Lemma card_seq s n : card (fun x => s <= x < s + n) n.
Proof.
  exists (seq s n). split_and!.
  - apply NoDup_ListNoDup, seq_NoDup.
  - intros x. rewrite elem_of_seq. done.
  - apply seq_length.
Qed.

Lemma card_union {A} (P Q : A -> Prop) n m :
  (forall x, P x -> Q x -> False) ->
  card P n -> card Q m -> card (fun x => P x \/ Q x) (n + m).
Proof.
  intros D (L & H1 & H2 & <-) (L' & H1' & H2' & <-).
  exists (L ++ L'). split_and!.
  - apply NoDup_app. split_and!; [done| |done].
    intros x Hx Hx'. apply (D x); [by apply H2|by apply H2'].
  - intros x. rewrite elem_of_app, H2, H2'. done.
  - by rewrite app_length.
Qed.

Lemma card_add {A} (P : A -> Prop) n y :
  ~ P y -> card P n -> card (fun x => x = y \/ P x) (S n).
Proof.
  intros D H. change (S n) with (1 + n). apply card_union; [congruence| |done].
  exists [y]. split_and!; [apply NoDup_singleton| |done].
  intros x. by rewrite elem_of_list_singleton.
Qed.

Lemma card_minus {A} `{EqDecision A} (P Q : A -> Prop) n m :
  (forall x, Q x -> P x) ->
  card P n -> card Q m -> m <= n /\ card (fun x => P x /\ ~ Q x) (n - m).
Proof.
  intros D (L & H1 & H2 & <-) (L' & H1' & H2' & <-).
  assert (HP : L ≡ₚ L' ++ list_difference L L').
  { apply NoDup_Permutation; [done| |].
    - apply NoDup_app. split_and!; [done| |by apply NoDup_list_difference].
      intros x Hx. rewrite elem_of_list_difference. tauto.
    - intros x. rewrite elem_of_app, elem_of_list_difference, H2, H2'.
      destruct (decide (x ∈ L')) as [e|e]; rewrite H2' in e; naive_solver. }
  apply Permutation_length in HP. rewrite app_length in HP.
  split; [lia|]. exists (list_difference L L'). split_and!.
  - by apply NoDup_list_difference.
  - intros x. rewrite elem_of_list_difference, H2, H2'. done.
  - lia.
Qed.

Lemma card_del {A} `{EqDecision A} (P : A -> Prop) n y :
  P y -> card P n -> 0 < n /\ card (fun x => P x /\ x <> y) (n - 1).
Proof.
  intros Hy H.
  destruct (card_minus P (fun x => x = y) n 1) as [? ?].
  - congruence.
  - done.
  - exists [y]. split_and!; [apply NoDup_singleton| |done].
    intros x. by rewrite elem_of_list_singleton.
  - split; [lia|done].
Qed.

Lemma card_bij {A B} (P : A -> Prop) (Q : B -> Prop) (f : A -> B) n :
  (forall x y, P x -> P y -> f x = f y -> x = y) ->
  (forall y, Q y <-> exists x, P x /\ y = f x) ->
  card P n -> card Q n.
Proof.
  intros Hi Hs (L & H1 & H2 & <-). exists (f <$> L). split_and!.
  - assert (Hall : forall x, x ∈ L -> P x) by (intros; by apply H2).
    clear H2 Hs. induction L as [|a L IH]; [constructor|].
    apply NoDup_cons in H1 as [H1 H1']. cbn. constructor.
    + intros (x & Hx & Hin)%elem_of_list_fmap.
      apply Hi in Hx; [congruence| |]; apply Hall; [constructor|by constructor].
    + apply IH; [done|]. intros. apply Hall. by constructor.
  - intros y. rewrite elem_of_list_fmap, Hs. split.
    + intros (x & -> & ?). exists x. split; [by apply H2|done].
    + intros (x & ? & ->). exists x. split; [done|by apply H2].
  - apply fmap_length.
Qed.

Lemma card_zero {A} (P : A -> Prop) x : card P 0 -> ~ P x.
Proof. intros (L & _ & H2 & H3) Hx. destruct L; [|done]. apply H2 in Hx. by apply elem_of_nil in Hx. Qed.
