(** Property C136: iterating secondary maps whose keys are node or port indices. *)
From Verif Require Export KeyThms.

(** C136 is false: the 8-bit node indices are 0 to 126. After [ensure_capacity(128)], which
names no key, [count] gives 128 and iterating from the back panics at once. *)
Theorem C136_room_refuted :
  exists m rs, um_run false (um_with_default false) [MEnsure 0 128] = Ok (m, rs) /\
    um_iter_len (um_iter_init m) = 128 /\ um_kiter_next_back 8 (um_iter_init m) = Panic.
Proof. exact C136_room_refuted_pf. Qed.
Print Assumptions C136_room_refuted.

(** C136 is false for a second reason: [NodeIndex::<u8>::new(127)] is accepted although the
maximum is 126 (C26). A map takes it as a key and gives its value back, but iterating
panics: for [UnmanagedDenseMap] and for [BitVec]. *)
Theorem C136_above_max_refuted :
  exists x m b, ix_max_index 8 = 126%N /\ ix_new 8 127 = Ok x /\ ix_into_usize 8 x = Ok 127%N /\
    um_set (um_with_default 0) 127 5 = Ok m /\ um_get m 127 = 5 /\ um_kiter_next_back 8 (um_iter_init m) = Panic /\
    bv_set [] 127 true = Ok b /\ bv_get b 127 = true /\ bv_kiter_next 8 (bv_kiter_init b) = Panic.
Proof. exact C136_above_max_refuted_pf. Qed.
Print Assumptions C136_above_max_refuted.

(** What holds for [UnmanagedDenseMap], with keys of any width: as long as no call uses a
key above the maximum or asks for more room than there are keys, iterating never
panics, from either end and with [nth]. Every key it yields is a key of the type, with the value
[get] gives for it, in ascending order; every key with a value other than the default
is among them. Missing: the calls of the two refutations. *)
Theorem C136_dense_iter_partial :
  forall (V : Type) (w : N) (vdef d : V) ops m rs, (1 < w)%N ->
    (forall o, o ∈ ops -> call_fits w o) -> um_run vdef (um_with_default d) ops = Ok (m, rs) ->
    exists L,
      (forall sched, run_iter (um_kiter_next w) (um_kiter_next_back w) um_iter_len sched (um_iter_init m) = Ok (deque sched L)) /\
      (forall n, exists s, um_kiter_nth w n (um_iter_init m) = Ok (L !! n, s)) /\
      StronglySorted N.lt L.*1 /\
      (forall x v, (x, v) ∈ L -> exists i, is_key w x i /\ v = um_get m i) /\
      (forall i, um_get m i <> um_default m -> exists x, is_key w x i /\ (x, um_get m i) ∈ L).
Proof. exact C136_dense_iter_partial_pf. Qed.
Print Assumptions C136_dense_iter_partial.

Example C136_dense_iter_partial_nonvacuous :
  let ops := [MSet 2 7; MSwap 2 126; MEnsure 0 127] in
  (1 < 8)%N /\ (forall o, o ∈ ops -> call_fits 8 o) /\ exists m rs, um_run 0 (um_with_default 0) ops = Ok (m, rs) /\
  run_iter (um_kiter_next 8) (um_kiter_next_back 8) um_iter_len [false; true] (um_iter_init m) =
    Ok [(Some (126%N, 7), 126); (Some (0%N, 0), 125)].
Proof.
  cbn zeta. split; [done|]. split.
  - intros o Ho. repeat (apply elem_of_cons in Ho as [->|Ho]); [..|by apply elem_of_nil in Ho]; (split; [intros ks [= <-] k Hk|intros e c; intros [=]]);
      repeat (apply elem_of_cons in Hk as [->|Hk]); try (by apply elem_of_nil in Hk); subst; vm_compute; done.
  - eexists _, _. vm_compute. done.
Qed.

(** When iterating a dense map panics: exactly if it stores more slots than there are keys. *)
Theorem C136_dense_panics :
  forall (V : Type) (w : N) (m : umap V), (1 < w)%N ->
    ((exists sched, run_iter (um_kiter_next w) (um_kiter_next_back w) um_iter_len sched (um_iter_init m) = Panic) <->
     (ix_max_index w + 1 < N.of_nat (length (um_data m)))%N).
Proof. exact C136_dense_panics_pf. Qed.
Print Assumptions C136_dense_panics.

Example C136_dense_panics_nonvacuous :
  (1 < 4)%N /\ (ix_max_index 4 + 1 < N.of_nat (length (um_data (mkUM (replicate 8 0) 0))))%N /\
  um_kiter_nth 4 6 (um_iter_init (mkUM (replicate 8 0) 0)) = Ok (Some (6%N, 0), (7, [0])) /\
  um_kiter_nth 4 7 (um_iter_init (mkUM (replicate 8 0) 0)) = Panic.
Proof. vm_compute. done. Qed.

(** What holds for [BitVec]: as long as no call uses a key above the maximum, iterating never
panics, from either end and with [nth], and yields exactly the keys with the value
[true], in ascending order. Missing: the calls of the second refutation. *)
Theorem C136_bits_iter_partial :
  forall w ops b rs, (1 < w)%N -> (forall o, o ∈ ops -> keys_fit w (bop_keys o)) -> bv_run [] ops = Ok (b, rs) ->
    exists L,
      (forall sched, run_iter (bv_kiter_next w) (bv_kiter_next_back w) length sched (bv_kiter_init b) = Ok (deque sched L)) /\
      (forall n, exists s, bv_kiter_nth w n (bv_kiter_init b) = Ok (L !! n, s)) /\
      StronglySorted N.lt L.*1 /\
      (forall x v, (x, v) ∈ L <-> v = true /\ exists i, is_key w x i /\ bv_get b i = true).
Proof. exact C136_bits_iter_partial_pf. Qed.
Print Assumptions C136_bits_iter_partial.

Example C136_bits_iter_partial_nonvacuous :
  let ops := [BSet 126 true; BSet 3 true; BSwap 3 5] in
  (1 < 8)%N /\ (forall o, o ∈ ops -> keys_fit 8 (bop_keys o)) /\ exists b rs, bv_run [] ops = Ok (b, rs) /\
  run_iter (bv_kiter_next 8) (bv_kiter_next_back 8) length [false; true; true] (bv_kiter_init b) =
    Ok [(Some (126%N, true), 1); (Some (5%N, true), 0); (None, 0)].
Proof.
  cbn zeta. split; [done|]. split.
  - intros o Ho k Hk. repeat (apply elem_of_cons in Ho as [->|Ho]); [..|by apply elem_of_nil in Ho]; cbn [bop_keys] in Hk;
      repeat (apply elem_of_cons in Hk as [->|Hk]); try (by apply elem_of_nil in Hk); vm_compute; done.
  - eexists _, _. vm_compute. done.
Qed.
