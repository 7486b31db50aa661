(** How insertion, removal and renaming act on children lists. *)
From Verif Require Export HierSpec.

Lemma ins_list_lookup i n l k : i <= length l ->
  ins_list i n l !! k = if decide (k < i) then l !! k else if decide (k = i) then Some n else l !! (k - 1).
Proof.
  intros Hi. unfold ins_list.
  assert (Hlen : length (take i l) = i) by (rewrite take_length; lia).
  destruct (decide (k < i)).
  - rewrite lookup_app_l by lia. by rewrite lookup_take.
  - rewrite lookup_app_r by lia. rewrite Hlen. destruct (decide (k = i)) as [->|].
    + by rewrite Nat.sub_diag.
    + destruct (k - i) as [|m] eqn:E; [lia|]. change (drop i l !! m = l !! (k - 1)). rewrite lookup_drop. f_equal. lia.
Qed.
Lemma ins_list_elem i n l x : x ∈ ins_list i n l <-> x = n \/ x ∈ l.
Proof.
  unfold ins_list. rewrite <- (take_drop i l) at 3. rewrite !elem_of_app, elem_of_cons. tauto.
Qed.
Lemma ins_list_nodup i n l : NoDup l -> n ∉ l -> NoDup (ins_list i n l).
Proof.
  intros Hd Hn. unfold ins_list. rewrite <- Permutation_middle, NoDup_cons, take_drop. done.
Qed.
Lemma ins_list_length i n l : length (ins_list i n l) = S (length l).
Proof. unfold ins_list. rewrite <- Permutation_middle. cbn. by rewrite take_drop. Qed.
Lemma ins_list_end n l : ins_list (length l) n l = l ++ [n].
Proof. unfold ins_list. by rewrite take_ge, drop_ge by lia. Qed.
Lemma ins_list_front n l : ins_list 0 n l = n :: l.
Proof. done. Qed.

Lemma forest_slot v ch p c : forestv v ch -> nd_parent (v c) = Some p -> exists i, ch p !! i = Some c.
Proof. intros (_ & Hp & _) H. apply Hp in H. by apply elem_of_list_lookup. Qed.
Lemma forest_head v ch p : forestv v ch -> nd_first (v p) = ch p !! 0.
Proof. intros (H & _). destruct (H p) as (_ & -> & _). by destruct (ch p). Qed.
Lemma forest_last v ch p : forestv v ch -> nd_last (v p) = ch p !! pred (length (ch p)).
Proof. intros (H & _). destruct (H p) as (_ & _ & -> & _). apply last_lookup. Qed.
Lemma forest_notself v ch : forestv v ch -> acyclicv v -> forall p, p ∉ ch p.
Proof. intros (_ & Hp & _) Hac p H. apply Hp in H. apply (Hac p). by apply tc_once. Qed.
Lemma forest_uniq v ch p i q j c : forestv v ch -> ch p !! i = Some c -> ch q !! j = Some c -> p = q /\ i = j.
Proof.
  intros (H & Hp & _) H1 H2.
  assert (p = q) as <-.
  { pose proof (proj1 (Hp p c) (elem_of_list_lookup_2 _ _ _ H1)).
    pose proof (proj1 (Hp q c) (elem_of_list_lookup_2 _ _ _ H2)). congruence. }
  split; [done|]. destruct (H p) as [Hnd _]. by eapply NoDup_lookup.
Qed.

(** ** Insertion *)
Definition ins_nd (v : nat -> nd) (n p : nat) (pr nx : option nat) (x : nat) : nd :=
  mkND (if decide (x = p /\ pr = None) then Some n else nd_first (v x))
       (if decide (x = p /\ nx = None) then Some n else nd_last (v x))
       (if decide (x = p) then S (nd_count (v x)) else nd_count (v x))
       (if decide (x = n) then Some p else nd_parent (v x))
       (if decide (x = n) then pr else if decide (nx = Some x) then Some n else nd_prev (v x))
       (if decide (x = n) then nx else if decide (pr = Some x) then Some n else nd_next (v x)).
Definition before_at (l : list nat) (i : nat) : option nat := match i with 0 => None | S j => l !! j end.

Lemma acyclic_ins v v' n p : acyclicv v -> ~ rtc (child_of v) p n -> nd_parent (v n) = None ->
  (forall x, nd_parent (v' x) = if decide (x = n) then Some p else nd_parent (v x)) ->
  acyclicv v'.
Proof.
  intros Hac Hnot Hroot Hv'.
  (* a path in the new forest that starts at [p] never meets [n] *)
  assert (Hp : forall x, rtc (child_of v) p x -> forall y, rtc (child_of v') x y -> rtc (child_of v) p y).
  { intros x Hx y Hxy. revert Hx. induction Hxy as [|x y z Hxy _ IH]; intros Hx; [done|].
    apply IH. eapply rtc_r; [done|]. unfold child_of in Hxy |- *. rewrite Hv' in Hxy.
    destruct (decide (x = n)) as [->|]; done. }
  (* a path avoiding n is an old path; otherwise it passes through n *)
  assert (Hold : forall x y, tc (child_of v') x y -> tc (child_of v) x y \/ rtc (child_of v) p y).
  { intros x y Hxy. induction Hxy as [x y Hxy|x y z Hxy Hyz IH].
    - unfold child_of in Hxy. rewrite Hv' in Hxy. destruct (decide (x = n)).
      + right. injection Hxy as ->. apply rtc_refl.
      + left. by apply tc_once.
    - destruct IH as [IH|IH]; [|by right].
      unfold child_of in Hxy. rewrite Hv' in Hxy. destruct (decide (x = n)).
      + right. injection Hxy as ->. by apply tc_rtc.
      + left. by eapply tc_l. }
  intros x Hx. destruct (Hold _ _ Hx) as [Ho|Ho]; [by eapply Hac|].
  (* then x is reachable from p by old steps, hence so is everything on the loop, and no step uses n *)
  assert (Hall : forall y z, tc (child_of v') y z -> rtc (child_of v) p y -> tc (child_of v) y z).
  { intros y z Hyz. induction Hyz as [y z Hyz|y z w Hyz Hzw IH]; intros Hy;
      unfold child_of in Hyz; rewrite Hv' in Hyz; destruct (decide (y = n)) as [->|]; try done.
    - by apply tc_once.
    - eapply tc_l; [done|]. apply IH. by eapply rtc_r. }
  by eapply Hac, Hall.
Qed.

Lemma forest_ins v ch n p i v' :
  forestv v ch -> acyclicv v -> nd_parent (v n) = None -> ~ rtc (child_of v) p n -> i <= length (ch p) ->
  (forall x, v' x = ins_nd v n p (before_at (ch p) i) (ch p !! i) x) ->
  forestv v' (setch p (ins_list i n (ch p)) ch) /\ acyclicv v'.
Proof.
  intros HF Hac Hroot Hnot Hi Hv'.
  assert (Hnp : n <> p) by (intros ->; apply Hnot, rtc_refl).
  pose proof HF as (Hl & Hp & Hs & Hr).
  assert (Hnin : forall q, n ∉ ch q) by (intros q Hq; apply Hp in Hq; congruence).
  split.
  2:{ eapply acyclic_ins; [done..|]. intros x. by rewrite Hv'. }
  split; [|split; [|split]].
  - intros q. rewrite Hv'. unfold setch, ins_nd; cbn. destruct (decide (q = p)) as [->|Hq].
    + destruct (Hl p) as (Hnd & Hf & Hla & Hc). split; [by apply ins_list_nodup|].
      rewrite Hf, Hla, Hc, ins_list_length. split; [|split; [|done]].
      * assert (E : head (ins_list i n (ch p)) = ins_list i n (ch p) !! 0) by (by destruct (ins_list i n (ch p))).
        rewrite E, ins_list_lookup by done. destruct i as [|i]; cbn.
        -- by rewrite decide_True by done.
        -- destruct (lookup_lt_is_Some_2 (ch p) i) as [y Hy]; [lia|]. rewrite Hy.
           rewrite decide_False by naive_solver. by destruct (ch p).
      * rewrite (last_lookup (ins_list _ _ _)), ins_list_length, ins_list_lookup by done. cbn.
        destruct (decide (length (ch p) < i)); [lia|].
        destruct (decide (length (ch p) = i)) as [<-|Hne].
        -- rewrite decide_True; [done|]. split; [done|]. apply lookup_ge_None. lia.
        -- rewrite decide_False. { rewrite last_lookup. f_equal. lia. }
           intros [_ H]. apply lookup_ge_None in H. lia.
    + rewrite !decide_False by naive_solver. apply Hl.
  - intros q c. rewrite Hv'. unfold setch, ins_nd; cbn.
    destruct (decide (q = p)) as [->|Hq].
    + rewrite ins_list_elem, Hp. destruct (decide (c = n)) as [->|]; naive_solver.
    + destruct (decide (c = n)) as [->|]; [|apply Hp].
      split; [by intros ?%Hnin|congruence].
  - intros q k c. rewrite Hv'. unfold setch, ins_nd; cbn.
    destruct (decide (q = p)) as [->|Hq].
    + rewrite !ins_list_lookup by done.
      destruct (decide (k < i)) as [Hk|Hk]; [|destruct (decide (k = i)) as [->|Hk']].
      * intros Hc. destruct (Hs _ _ _ Hc) as [Hnx Hpv].
        assert (c <> n) by (intros ->; by eapply Hnin, elem_of_list_lookup_2).
        rewrite !(decide_False (P := c = n)) by done.
        assert (ch p !! i <> Some c).
        { intros E. destruct (forest_uniq _ _ _ _ _ _ _ HF Hc E). lia. }
        rewrite (decide_False (P := ch p !! i = Some c)) by done. split.
        -- destruct i as [|i]; [lia|]. cbn. destruct (decide (k = i)) as [->|].
           ++ rewrite decide_True by done. by rewrite decide_False, decide_True by lia.
           ++ rewrite decide_False, decide_True by (try lia; intros E; destruct (forest_uniq _ _ _ _ _ _ _ HF Hc E); lia). done.
        -- rewrite Hpv. destruct k as [|k]; [done|]. rewrite ins_list_lookup by done. by rewrite decide_True by lia.
      * intros [= <-]. rewrite !(decide_True (P := n = n)) by done. rewrite decide_False, decide_False by lia. split.
        -- f_equal. lia.
        -- destruct i as [|i]; [done|]. cbn. rewrite ins_list_lookup by done. by rewrite decide_True by lia.
      * intros Hc. destruct k as [|k]; [lia|]. replace (S k - 1) with k in Hc by lia. destruct (Hs _ _ _ Hc) as [Hnx Hpv].
        assert (c <> n) by (intros ->; by eapply Hnin, elem_of_list_lookup_2).
        rewrite !(decide_False (P := c = n)) by done.
        rewrite ins_list_lookup by done.
        replace (S (S k) - 1) with (S k) by lia. split.
        -- rewrite decide_False. { by rewrite decide_False, decide_False by lia. }
           intros E. destruct i as [|i]; [done|]. cbn in E. destruct (forest_uniq _ _ _ _ _ _ _ HF Hc E). lia.
        -- destruct (decide (k = i)) as [->|].
           ++ rewrite decide_True by done. by rewrite decide_False by lia.
           ++ rewrite decide_False. { rewrite decide_False by lia. rewrite Hpv. destruct k; [lia|]. f_equal. lia. }
              intros E. destruct (forest_uniq _ _ _ _ _ _ _ HF Hc E). lia.
    + intros Hc. assert (c <> n) by (intros ->; by eapply Hnin, elem_of_list_lookup_2).
      rewrite !(decide_False (P := c = n)) by done.
      rewrite !decide_False; [by apply Hs| |].
      all: intros E; try (destruct i as [|i]; [done|]; cbn in E); destruct (forest_uniq _ _ _ _ _ _ _ HF Hc E); done.
  - intros c. rewrite Hv'. unfold ins_nd; cbn. destruct (decide (c = n)); [done|].
    intros Hc. rewrite !decide_False; [by apply Hr| |].
    all: intros E; try (destruct i as [|i]; [done|]; cbn in E); apply elem_of_list_lookup_2, Hp in E; congruence.
Qed.

(** ** Removal *)
Definition del_nd (v : nat -> nd) (n p : nat) (pr nx : option nat) (x : nat) : nd :=
  mkND (if decide (x = p /\ pr = None) then nx else nd_first (v x))
       (if decide (x = p /\ nx = None) then pr else nd_last (v x))
       (if decide (x = p) then nd_count (v x) - 1 else nd_count (v x))
       (if decide (x = n) then None else nd_parent (v x))
       (if decide (x = n) then None else if decide (nx = Some x) then pr else nd_prev (v x))
       (if decide (x = n) then None else if decide (pr = Some x) then nx else nd_next (v x)).
Lemma acyclic_sub v v' : acyclicv v -> (forall c p, nd_parent (v' c) = Some p -> nd_parent (v c) = Some p) -> acyclicv v'.
Proof.
  intros Hac Hs n. pose proof (Hac n) as Hx. contradict Hx. revert Hx.
  assert (H : forall x y, tc (child_of v') x y -> tc (child_of v) x y); [|apply H].
  intros x y Hn. induction Hn as [x y H|x y z H _ IH].
  - apply tc_once. unfold child_of in *. by apply Hs.
  - eapply tc_l; [|done]. unfold child_of in *. by apply Hs.
Qed.
Lemma forest_del v ch n p i v' :
  forestv v ch -> acyclicv v -> ch p !! i = Some n ->
  (forall x, v' x = del_nd v n p (before_at (ch p) i) (ch p !! S i) x) ->
  forestv v' (setch p (delete i (ch p)) ch) /\ acyclicv v'.
Proof.
  intros HF Hac Hn Hv'. pose proof HF as (Hl & Hp & Hs & Hr).
  pose proof (lookup_lt_Some _ _ _ Hn) as Hi.
  assert (Hdel : forall k, delete i (ch p) !! k = if decide (k < i) then ch p !! k else ch p !! S k).
  { intros k. destruct (decide (k < i)); [by apply lookup_delete_lt|apply lookup_delete_ge; lia]. }
  assert (Hlen : length (delete i (ch p)) = length (ch p) - 1) by (apply length_delete; by eexists).
  assert (Hdelem : forall c, c ∈ delete i (ch p) <-> c ∈ ch p /\ c <> n).
  { intros c. rewrite !elem_of_list_lookup. split.
    - intros [k Hk]. rewrite Hdel in Hk. destruct (decide (k < i)); (split; [by eexists|]);
        intros ->; destruct (forest_uniq _ _ _ _ _ _ _ HF Hk Hn); lia.
    - intros [[k Hk] Hne]. assert (k <> i) by congruence. destruct (decide (k < i)).
      + exists k. rewrite Hdel. by rewrite decide_True by lia.
      + exists (k - 1). rewrite Hdel. rewrite decide_False by lia. by replace (S (k - 1)) with k by lia. }
  assert (Hpar : nd_parent (v n) = Some p) by (by apply Hp, elem_of_list_lookup_2 with i).
  split.
  2:{ eapply acyclic_sub; [done|]. intros c q. rewrite Hv'. cbn. by destruct (decide (c = n)). }
  split; [|split; [|split]].
  - intros q. rewrite Hv'. unfold setch, del_nd; cbn. destruct (decide (q = p)) as [->|Hq].
    + destruct (Hl p) as (Hnd & Hf & Hla & Hc).
      split.
      { rewrite delete_take_drop. rewrite <- (take_drop_middle _ _ _ Hn) in Hnd.
        apply NoDup_app in Hnd as (A & B & C). apply NoDup_cons in C as [C1 C2]. apply NoDup_app.
        repeat split; try done. intros x Hx Hx'. apply (B x Hx). by apply elem_of_cons; right. }
      rewrite Hc, Hlen. split; [|split; [|done]].
      * assert (E : head (delete i (ch p)) = delete i (ch p) !! 0) by (by destruct (delete i (ch p))).
        rewrite E, Hdel, (forest_head _ _ _ HF). destruct i as [|i]; cbn.
        -- by rewrite decide_True by done.
        -- destruct (lookup_lt_is_Some_2 (ch p) i) as [y Hy]; [lia|]. rewrite Hy.
           by rewrite decide_False by naive_solver.
      * rewrite last_lookup, Hdel, Hlen. rewrite Hla, last_lookup.
        destruct (decide (S i = length (ch p))) as [E|Hne].
        -- rewrite decide_True; [|split; [done|]; apply lookup_ge_None; lia].
           destruct i as [|i]; cbn.
           ++ rewrite decide_False by lia. symmetry. apply lookup_ge_None. lia.
           ++ rewrite decide_True by lia. f_equal. lia.
        -- rewrite decide_False. { rewrite decide_False by lia. f_equal. lia. }
           intros [_ H]. apply lookup_ge_None in H. lia.
    + rewrite !decide_False by naive_solver. apply Hl.
  - intros q c. rewrite Hv'. unfold setch, del_nd; cbn.
    destruct (decide (q = p)) as [->|Hq].
    + rewrite Hdelem, Hp. destruct (decide (c = n)) as [->|]; naive_solver.
    + destruct (decide (c = n)) as [->|]; [|apply Hp].
      split; [|done]. intros H%Hp. congruence.
  - intros q k c. rewrite Hv'. unfold setch, del_nd; cbn.
    destruct (decide (q = p)) as [->|Hq].
    + rewrite !Hdel.
      destruct (decide (k < i)) as [Hk|Hk].
      * intros Hc. destruct (Hs _ _ _ Hc) as [Hnx Hpv].
        assert (c <> n) by (intros ->; destruct (forest_uniq _ _ _ _ _ _ _ HF Hc Hn); lia).
        rewrite !(decide_False (P := c = n)) by done.
        rewrite (decide_False (P := ch p !! S i = Some c)) by (intros E; destruct (forest_uniq _ _ _ _ _ _ _ HF Hc E); lia).
        split.
        -- destruct i as [|i]; [lia|]. cbn. destruct (decide (k = i)) as [->|].
           ++ rewrite decide_True by done. by rewrite decide_False by lia.
           ++ rewrite decide_False by (intros E; destruct (forest_uniq _ _ _ _ _ _ _ HF Hc E); lia).
              by rewrite decide_True by lia.
        -- rewrite Hpv. destruct k as [|k]; [done|]. rewrite Hdel. by rewrite decide_True by lia.
      * intros Hc. destruct (Hs _ _ _ Hc) as [Hnx Hpv].
        assert (c <> n) by (intros ->; destruct (forest_uniq _ _ _ _ _ _ _ HF Hc Hn); lia).
        rewrite !(decide_False (P := c = n)) by done.
        rewrite (decide_False (P := S k < i)) by lia. split.
        -- rewrite decide_False; [done|].
           intros E. destruct i as [|i]; [done|]. cbn in E. destruct (forest_uniq _ _ _ _ _ _ _ HF Hc E). lia.
        -- destruct (decide (k = i)) as [->|].
           ++ rewrite decide_True by done. destruct i as [|i]; [done|]. cbn. rewrite Hdel. by rewrite decide_True by lia.
           ++ rewrite decide_False by (intros E; destruct (forest_uniq _ _ _ _ _ _ _ HF Hc E); lia).
              rewrite Hpv. destruct k as [|k]; [lia|]. rewrite Hdel. by rewrite decide_False by lia.
    + intros Hc. assert (c <> n) by (intros ->; destruct (forest_uniq _ _ _ _ _ _ _ HF Hc Hn); congruence).
      rewrite !(decide_False (P := c = n)) by done.
      rewrite !decide_False; [by apply Hs| |].
      all: intros E; try (destruct i as [|i]; [done|]; cbn in E); destruct (forest_uniq _ _ _ _ _ _ _ HF Hc E); done.
  - intros c. rewrite Hv'. unfold del_nd; cbn. destruct (decide (c = n)); [done|].
    intros Hc. rewrite !decide_False; [by apply Hr| |].
    all: intros E; try (destruct i as [|i]; [done|]; cbn in E); apply elem_of_list_lookup_2, Hp in E; congruence.
Qed.

(** ** Detaching all children *)
Lemma forest_clear v ch n v' :
  forestv v ch -> acyclicv v ->
  (forall x, v' x = mkND (if decide (x = n) then None else nd_first (v x))
                         (if decide (x = n) then None else nd_last (v x))
                         (if decide (x = n) then 0 else nd_count (v x))
                         (if decide (x ∈ ch n) then None else nd_parent (v x))
                         (if decide (x ∈ ch n) then None else nd_prev (v x))
                         (if decide (x ∈ ch n) then None else nd_next (v x))) ->
  forestv v' (setch n [] ch) /\ acyclicv v'.
Proof.
  intros HF Hac Hv'. pose proof HF as (Hl & Hp & Hs & Hr).
  split.
  2:{ eapply acyclic_sub; [done|]. intros c q. rewrite Hv'. cbn. by destruct (decide (c ∈ ch n)). }
  split; [|split; [|split]].
  - intros q. rewrite Hv'. unfold setch; cbn. destruct (decide (q = n)) as [->|Hq]; [|apply Hl].
    split; [apply NoDup_nil_2|done].
  - intros q c. rewrite Hv'. unfold setch; cbn. destruct (decide (q = n)) as [->|Hq].
    + rewrite elem_of_nil. destruct (decide (c ∈ ch n)) as [|H]; [done|]. rewrite Hp in H. naive_solver.
    + destruct (decide (c ∈ ch n)) as [H|H]; [|apply Hp]. split; [|done].
      intros H'. apply Hp in H, H'. congruence.
  - intros q k c. rewrite Hv'. unfold setch; cbn. destruct (decide (q = n)) as [->|Hq]; [done|].
    intros Hc. rewrite !decide_False; [by apply Hs|..]; intros H; apply elem_of_list_lookup_2 in Hc;
      apply Hp in H, Hc; congruence.
  - intros c. rewrite Hv'. cbn. destruct (decide (c ∈ ch n)); [done|]. apply Hr.
Qed.

(** ** Renaming *)
Lemma exch_invol a b x : exch a b (exch a b x) = x.
Proof. unfold exch. repeat (destruct (decide _)); congruence. Qed.
Lemma exch_inj a b x y : exch a b x = exch a b y -> x = y.
Proof. intros H. rewrite <- (exch_invol a b x), <- (exch_invol a b y). by f_equal. Qed.
Lemma forest_ren v ch a b v' :
  forestv v ch -> acyclicv v ->
  (forall x, v' x = ren_nd (exch a b) (v (exch a b x))) ->
  forestv v' (fun p => exch a b <$> ch (exch a b p)) /\ acyclicv v'.
Proof.
  intros HF Hac Hv'. pose proof HF as (Hl & Hp & Hs & Hr). set (f := exch a b) in *.
  assert (Hff : forall x, f (f x) = x) by apply exch_invol.
  assert (Hinj : Inj (=) (=) f) by (intros x y; apply exch_inj).
  assert (HfS : forall o x, f <$> o = Some x <-> o = Some (f x)).
  { intros [y|] x; cbn; [|naive_solver]. split; [intros [= <-]; by rewrite Hff|intros [= ->]; by rewrite Hff]. }
  split.
  - split; [|split; [|split]].
    + intros p. rewrite Hv'. cbn. destruct (Hl (f p)) as (H1 & H2 & H3 & H4).
      split; [by apply NoDup_fmap|]. rewrite H2, H3, H4, fmap_length, fmap_last.
      split; [by destruct (ch (f p))|done].
    + intros p c. rewrite Hv'. cbn. rewrite HfS, <- Hp. rewrite elem_of_list_fmap. split.
      * intros (y & -> & Hy). by rewrite Hff.
      * intros H. exists (f c). by rewrite Hff.
    + intros p i c. rewrite list_lookup_fmap, HfS, Hv'. cbn. intros Hc. destruct (Hs _ _ _ Hc) as [-> ->].
      rewrite list_lookup_fmap. split; [done|]. destruct i; [done|]. by rewrite list_lookup_fmap.
    + intros c. rewrite Hv'. cbn. intros H%fmap_None. destruct (Hr _ H) as [-> ->]. done.
  - intros n Hn. apply (Hac (f n)).
    assert (H : forall x y, tc (child_of v') x y -> tc (child_of v) (f x) (f y)); [|by apply H].
    intros x y Hxy. induction Hxy as [x y Hxy|x y z Hxy _ IH].
    + apply tc_once. unfold child_of in *. rewrite Hv' in Hxy. cbn in Hxy. by apply HfS in Hxy.
    + eapply tc_l; [|done]. unfold child_of in *. rewrite Hv' in Hxy. cbn in Hxy. by apply HfS in Hxy.
Qed.
