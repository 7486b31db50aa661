(** Proofs of C136. *)
From Verif Require Export KeySpec CapThms MapThms.
From Verif Require Import IndexThms IndexProofs PG3Thms.

Lemma C136_room_refuted_pf :
  exists m rs, um_run false (um_with_default false) [MEnsure 0 128] = Ok (m, rs) /\
    um_iter_len (um_iter_init m) = 128 /\ um_kiter_next_back 8 (um_iter_init m) = Panic.
Proof.
  eexists _, _. vm_compute. done.
Qed.

Lemma C136_above_max_refuted_pf :
  exists x m b, ix_max_index 8 = 126%N /\ ix_new 8 127 = Ok x /\ ix_into_usize 8 x = Ok 127%N /\
    um_set (um_with_default 0) 127 5 = Ok m /\ um_get m 127 = 5 /\ um_kiter_next_back 8 (um_iter_init m) = Panic /\
    bv_set [] 127 true = Ok b /\ bv_get b 127 = true /\ bv_kiter_next 8 (bv_kiter_init b) = Panic.
Proof.
  eexists _, _, _. vm_compute. done.
Qed.

Lemma key_of_ok w i : (1 < w)%N -> (N.of_nat i <= ix_max_index w)%N -> key_of w i = Ok (N.of_nat i).
Proof.
  intros Hw Hi. unfold key_of, ix_try_from. rewrite try_from_eq by done. unfold ix_max_index in Hi.
  destruct (N.ltb_spec (bf_max_index w) (N.of_nat i)); [lia|done].
Qed.
Lemma key_of_panic w i : (1 < w)%N -> (ix_max_index w < N.of_nat i)%N -> key_of w i = Panic.
Proof.
  intros Hw Hi. unfold key_of, ix_try_from. rewrite try_from_eq by done. unfold ix_max_index in Hi.
  destruct (N.ltb_spec (bf_max_index w) (N.of_nat i)); [done|lia].
Qed.
Lemma is_key_of w i : (1 < w)%N -> (N.of_nat i <= ix_max_index w)%N -> is_key w (N.of_nat i) i.
Proof.
  intros Hw Hi. destruct (C25_index_faithful_pf w Hw) as (_ & H & _). destruct (H _ Hi) as (x & H1 & H2 & _ & H4).
  unfold is_key. unfold ix_try_from in *. rewrite try_from_eq in * by done. unfold ix_max_index in Hi.
  destruct (N.ltb_spec (bf_max_index w) (N.of_nat i)); [lia|]. injection H4 as <-. done.
Qed.
Lemma um_run_len {V} w (vdef : V) ops : forall m m' rs, um_run vdef m ops = Ok (m', rs) ->
  (forall o, o ∈ ops -> call_fits w o) -> length (um_data m) <= N.to_nat (ix_max_index w + 1) ->
  length (um_data m') <= N.to_nat (ix_max_index w + 1).
Proof.
  induction ops as [|o ops IH]; intros m m' rs; cbn [um_run]; [by intros [= <- _]|]. intros ([m1 r] & E & H)%bind_inv Hf HB.
  apply bind_inv in H as ([m2 rs2] & E2 & H). injection H as <- _. eapply IH; [exact E2|set_solver|]. clear IH E2.
  destruct (Hf o) as [F1 F2]; [set_solver|]. destruct (mop_keys o) as [ks|] eqn:Ek.
  - eapply um_step_len; [done|exact E|done|]. intros x Hx. specialize (F1 _ eq_refl x Hx). lia.
  - destruct o; try done. cbn in E. injection E as <- _. unfold um_ensure_capacity. destruct (decide _); [|done].
    cbn. rewrite vresize_length. specialize (F2 _ _ eq_refl). lia.
Qed.
Definition keyed {V} (i : nat) (l : list V) : list (N * V) := imap (fun j v => (N.of_nat (i + j), v)) l.
Lemma keyed_cons {V} i x (l : list V) : keyed i (x :: l) = (N.of_nat i, x) :: keyed (S i) l.
Proof. unfold keyed. cbn. rewrite Nat.add_0_r. f_equal. apply imap_ext. intros. cbn. do 2 f_equal. lia. Qed.
Lemma keyed_snoc {V} i x (l : list V) : keyed i (l ++ [x]) = keyed i l ++ [(N.of_nat (i + length l), x)].
Proof. unfold keyed. rewrite imap_app. cbn. by rewrite Nat.add_0_r. Qed.
Lemma keyed_sorted {V} (l : list V) : forall i, StronglySorted N.lt (keyed i l).*1.
Proof.
  induction l as [|x l IH]; intros i; [constructor|]. rewrite keyed_cons. cbn. constructor; [apply IH|].
  apply Forall_forall. intros y (z & -> & Hz)%elem_of_list_fmap. apply elem_of_lookup_imap in Hz as (j & v & -> & _). cbn. lia.
Qed.
Lemma dense_iter {V} w (m : umap V) : (1 < w)%N -> length (um_data m) <= N.to_nat (ix_max_index w + 1) ->
  (forall sched, run_iter (um_kiter_next w) (um_kiter_next_back w) um_iter_len sched (um_iter_init m) = Ok (deque sched (keyed 0 (um_data m)))).
Proof.
  intros Hw HB sched.
  apply (run_iter_sim _ _ _ (fun s L => L = keyed s.1 s.2 /\ s.1 + length s.2 <= N.to_nat (ix_max_index w + 1))); [..|done]; intros [i l] L [-> Hl]; cbn [fst snd] in *.
  - unfold um_kiter_next, um_iter_next. cbn [fst snd]. destruct l as [|x l]; [eexists; done|]. rewrite keyed_cons. unfold key_answer. cbn [fst snd head tail length] in *.
    rewrite key_of_ok by (done || lia). eexists. split; [done|]. cbn. split; [done|lia].
  - unfold um_kiter_next_back, um_iter_next_back. cbn [fst snd]. destruct l as [|x l _] using rev_ind; [eexists; done|].
    rewrite last_snoc, keyed_snoc, last_snoc, !removelast_last, app_length in *. cbn [length] in *. unfold key_answer. cbn [fst snd].
    replace (length l + 1 - 1) with (length l) by lia. rewrite key_of_ok by (done || lia). eexists. split; [done|]. cbn. split; [done|lia].
  - unfold um_iter_len, keyed. cbn. by rewrite imap_length.
Qed.

Lemma C136_dense_iter_partial_pf :
  forall (V : Type) (w : N) (vdef d : V) ops m rs, (1 < w)%N ->
    (forall o, o ∈ ops -> call_fits w o) -> um_run vdef (um_with_default d) ops = Ok (m, rs) ->
    exists L,
      (forall sched, run_iter (um_kiter_next w) (um_kiter_next_back w) um_iter_len sched (um_iter_init m) = Ok (deque sched L)) /\
      (forall n, exists s, um_kiter_nth w n (um_iter_init m) = Ok (L !! n, s)) /\
      StronglySorted N.lt L.*1 /\
      (forall x v, (x, v) ∈ L -> exists i, is_key w x i /\ v = um_get m i) /\
      (forall i, um_get m i <> um_default m -> exists x, is_key w x i /\ (x, um_get m i) ∈ L).
Proof.
  intros V w vdef d ops m rs Hw Hf E. apply um_run_len with (w := w) in E; [|done|cbn; lia]. exists (keyed 0 (um_data m)). split_and!.
  - by apply dense_iter.
  - intros n. unfold um_kiter_nth, um_iter_nth, um_iter_next, um_iter_init. cbn [fst snd]. unfold keyed. rewrite list_lookup_imap.
    destruct (drop n (um_data m)) as [|v l] eqn:Ed.
    + eexists. unfold key_answer. cbn. rewrite lookup_ge_None_2; [done|]. apply (f_equal length) in Ed. rewrite drop_length in Ed. cbn in Ed. lia.
    + assert (Hn : um_data m !! n = Some v) by (rewrite <- (Nat.add_0_r n), <- lookup_drop, Ed; done). rewrite Hn.
      apply lookup_lt_Some in Hn. unfold key_answer. cbn [fst snd]. replace (0 + Nat.min n (length (um_data m))) with n by lia.
      rewrite key_of_ok by (done || lia). eexists. done.
  - apply keyed_sorted.
  - intros x v (j & y & [= -> ->] & Hj)%elem_of_lookup_imap. exists j. split.
    + apply is_key_of; [done|]. apply lookup_lt_Some in Hj. lia.
    + unfold um_get. by rewrite Hj.
  - intros i Hi. unfold um_get in *. destruct (um_data m !! i) as [v|] eqn:Ei; cbn in *; [|done]. exists (N.of_nat i). split.
    + apply is_key_of; [done|]. apply lookup_lt_Some in Ei. lia.
    + apply elem_of_lookup_imap. exists i, v. done.
Qed.

Lemma C136_dense_panics_pf :
  forall (V : Type) (w : N) (m : umap V), (1 < w)%N ->
    ((exists sched, run_iter (um_kiter_next w) (um_kiter_next_back w) um_iter_len sched (um_iter_init m) = Panic) <->
     (ix_max_index w + 1 < N.of_nat (length (um_data m)))%N).
Proof.
  intros V w m Hw. split.
  - intros [sched H]. destruct (decide (length (um_data m) <= N.to_nat (ix_max_index w + 1))) as [Hl|Hl]; [|lia].
    by rewrite dense_iter in H.
  - intros Hl. exists [false]. cbn [run_iter]. unfold um_kiter_next_back, um_iter_next_back, um_iter_init. cbn [fst snd].
    destruct (um_data m) as [|x l _] using rev_ind; [cbn in Hl; lia|]. rewrite last_snoc. unfold key_answer. cbn [fst snd]. rewrite app_length in *. cbn [length] in *.
    rewrite key_of_panic; [done|done|lia].
Qed.

Lemma bv_ones_spec b : forall i k, k ∈ bv_ones i b <-> i <= k /\ b !! (k - i) = Some true.
Proof.
  induction b as [|x b IH]; intros i k; cbn [bv_ones]; [rewrite lookup_nil; set_solver|]. rewrite elem_of_app, IH. split.
  - intros [H|[H1 H2]].
    + destruct x; [|by apply elem_of_nil in H]. apply elem_of_list_singleton in H as ->. by rewrite Nat.sub_diag.
    + split; [lia|]. replace (k - i) with (S (k - S i)) by lia. done.
  - intros [H1 H2]. destruct (decide (k = i)) as [->|Hne].
    + rewrite Nat.sub_diag in H2. cbn in H2. injection H2 as ->. left. set_solver.
    + right. split; [lia|]. replace (k - i) with (S (k - S i)) in H2 by lia. done.
Qed.
Lemma bv_ones_sorted b : forall i, StronglySorted lt (bv_ones i b).
Proof.
  induction b as [|x b IH]; intros i; cbn [bv_ones]; [constructor|]. destruct x; cbn; [|apply IH]. constructor; [apply IH|].
  apply Forall_forall. intros k Hk. apply bv_ones_spec in Hk. lia.
Qed.
Lemma bv_set_len b k v b' B : bv_set b k v = Ok b' -> length b <= B -> k < B -> length b' <= B.
Proof.
  unfold bv_set. destruct (decide _); [destruct v|]; [..|intros [_ ->]%vset_inv; by rewrite insert_length].
  - intros [_ ->]%vset_inv _ Hk. rewrite insert_length, vresize_length. lia.
  - intros [= ->]. done.
Qed.
Lemma bv_take_len b k b' v : bv_take b k = Ok (b', v) -> length b' = length b.
Proof.
  unfold bv_take. destruct (decide _); [|by intros [= -> _]]. intros (x & _ & H)%bind_inv. apply bind_inv in H as (y & (_ & ->)%vset_inv & H).
  injection H as <- _. apply insert_length.
Qed.
Lemma bv_step_len b o b' r B : bv_step b o = Ok (b', r) -> length b <= B -> (forall k, k ∈ bop_keys o -> k < B) -> length b' <= B.
Proof.
  intros E HB Hk. destruct o as [k|k v|k|k|k n|x y]; cbn [bv_step bop_keys] in *.
  - by injection E as <- _.
  - apply bind_inv in E as (c & E & H). injection H as <- _. eapply bv_set_len; [exact E|done|]. apply Hk. set_solver.
  - apply bind_inv in E as ([c z] & E%bv_take_len & H). injection H as <- _. lia.
  - apply bind_inv in E as (c & E & H). injection H as <- _. unfold bv_remove in E. apply bind_inv in E as ([c' z] & E%bv_take_len & H). injection H as <-. lia.
  - apply bind_inv in E as (c & E & H). injection H as <- _. unfold bv_rekey in E. apply bind_inv in E as ([c' z] & E%bv_take_len & H).
    destruct n as [n|]; [|injection H as <-; lia]. eapply bv_set_len; [exact H|lia|]. apply Hk. set_solver.
  - apply bind_inv in E as (c & E & H). injection H as <- _. unfold bv_swap in E. cbn zeta in E. destruct (negb _); [|by injection E as <-].
    apply bind_inv in E as (c' & E1 & E). eapply bv_set_len; [exact E| |apply Hk; set_solver]. eapply bv_set_len; [exact E1|done|apply Hk; set_solver].
Qed.
Lemma bv_run_len B ops : forall b b' rs, bv_run b ops = Ok (b', rs) -> length b <= B ->
  (forall o, o ∈ ops -> forall k, k ∈ bop_keys o -> k < B) -> length b' <= B.
Proof.
  induction ops as [|o ops IH]; intros b b' rs; cbn [bv_run]; [by intros [= <- _]|]. intros ([b1 r] & E & H)%bind_inv HB Hk.
  apply bind_inv in H as ([b2 rs2] & E2 & H). injection H as <- _. eapply IH; [exact E2| |set_solver]. eapply bv_step_len; [exact E|done|]. apply Hk. set_solver.
Qed.
Definition bkeyed (l : list nat) : list (N * bool) := (fun i => (N.of_nat i, true)) <$> l.

Lemma C136_bits_iter_partial_pf :
  forall w ops b rs, (1 < w)%N -> (forall o, o ∈ ops -> keys_fit w (bop_keys o)) -> bv_run [] ops = Ok (b, rs) ->
    exists L,
      (forall sched, run_iter (bv_kiter_next w) (bv_kiter_next_back w) length sched (bv_kiter_init b) = Ok (deque sched L)) /\
      (forall n, exists s, bv_kiter_nth w n (bv_kiter_init b) = Ok (L !! n, s)) /\
      StronglySorted N.lt L.*1 /\
      (forall x v, (x, v) ∈ L <-> v = true /\ exists i, is_key w x i /\ bv_get b i = true).
Proof.
  intros w ops b rs Hw Hf E. apply (bv_run_len (N.to_nat (ix_max_index w + 1))) in E; [|cbn; lia|].
  2:{ intros o Ho k Hk. specialize (Hf o Ho k Hk). lia. }
  assert (Hin : forall k, k ∈ bv_ones 0 b <-> bv_get b k = true).
  { intros k. rewrite bv_ones_spec, Nat.sub_0_r. unfold bv_get. split; [intros [_ ->]; done|]. intros H. split; [lia|]. by destruct (b !! k) as [[]|]. }
  assert (Hle : forall k, k ∈ bv_ones 0 b -> (N.of_nat k <= ix_max_index w)%N).
  { intros k Hk%bv_ones_spec. rewrite Nat.sub_0_r in Hk. destruct Hk as [_ Hk%lookup_lt_Some]. lia. }
  exists (bkeyed (bv_ones 0 b)). unfold bv_kiter_init. split_and!.
  - intros sched. apply (run_iter_sim _ _ _ (fun s L => L = bkeyed s /\ forall k, k ∈ s -> (N.of_nat k <= ix_max_index w)%N)); [..|done]; intros l L [-> Hl].
    + unfold bv_kiter_next. destruct l as [|i l]; [eexists; done|]. unfold key_answer. cbn [fst snd]. rewrite key_of_ok; [|done|apply Hl; set_solver].
      eexists. split; [done|]. split; [done|set_solver].
    + unfold bv_kiter_next_back. destruct l as [|i l _] using rev_ind; [eexists; done|]. unfold bkeyed in *. rewrite fmap_app, !last_snoc. cbn [fmap list_fmap].
      rewrite last_snoc, !removelast_last. unfold key_answer. cbn [fst snd]. rewrite key_of_ok; [|done|apply Hl; set_solver].
      eexists. split; [done|]. split; [done|set_solver].
    + unfold bkeyed. by rewrite fmap_length.
  - intros n. unfold bv_kiter_nth, bkeyed. rewrite list_lookup_fmap. destruct (drop n (bv_ones 0 b)) as [|i l] eqn:Ed.
    + eexists. unfold key_answer. cbn. rewrite lookup_ge_None_2; [done|]. apply (f_equal length) in Ed. rewrite drop_length in Ed. cbn in Ed. lia.
    + assert (Hn : bv_ones 0 b !! n = Some i) by (rewrite <- (Nat.add_0_r n), <- lookup_drop, Ed; done). rewrite Hn.
      unfold key_answer. cbn [fst snd]. rewrite key_of_ok; [eexists; done|done|]. apply Hle. by eapply elem_of_list_lookup_2.
  - unfold bkeyed. pose proof (bv_ones_sorted b 0) as Hs. clear -Hs. induction Hs as [|i l Hs IH Hi]; cbn; constructor; [done|].
    apply Forall_forall. intros x (y & -> & (z & -> & Hz)%elem_of_list_fmap)%elem_of_list_fmap. rewrite Forall_forall in Hi. specialize (Hi _ Hz). cbn. lia.
  - intros x v. unfold bkeyed. rewrite elem_of_list_fmap. split.
    + intros (i & [= -> ->] & Hi). split; [done|]. exists i. split; [apply is_key_of; auto|by apply Hin].
    + intros (-> & i & Hk & Hi). exists i. apply Hin in Hi. split; [|done]. destruct (is_key_of w i Hw (Hle _ Hi)) as [K1 _]. destruct Hk as [K2 _]. congruence.
Qed.
