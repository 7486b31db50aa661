(** Properties C30-C35 of properties.jsonl. *)
From Verif Require Export MapThms.


(** C30. Any sequence of calls on a map created with default [d] never panics and
    answers as the total map does, provided [d] is the type's default or the
    calls do not include [rekey] (see C31). Maps created with [new] are the case
    [d = vdef]. *)
Theorem C30_dense_map :
  forall (V : Type) (vdef d : V) ops,
    (d = vdef \/ forall old new, MRekey old new ∉ ops) ->
    exists m rs, um_run vdef (um_with_default d) ops = Ok (m, rs) /\
      rs = (spec_run d (fun _ => d) ops).2 /\ forall k, um_get m k = (spec_run d (fun _ => d) ops).1 k.
Proof. exact C30_dense_map_pf. Qed.
Print Assumptions C30_dense_map.

Example C30_dense_map_nonvacuous :
  let ops := [MSet 3 7; MSwap 3 0; MRekey 0 (Some 5); MTake 5; MEnsure 0 20; MDisjoint [1; 2]] in
  um_run 0 (um_with_default 0) ops = Ok (mkUM (replicate 20 0) 0, [Some []; Some []; Some []; Some [7]; Some []; Some [0; 0]]).
Proof. vm_compute. done. Qed.

(** C31 is false: with custom default 7 (the type's default being 0), writing 1
    at key 0 and [rekey(0, None)] leaves 0, not 7, at key 0. *)
Theorem C31_rekey_custom_default_refuted :
  exists m m', um_set (um_with_default 7) 0 1 = Ok m /\ um_rekey 0 m 0 None = Ok m' /\ um_get m' 0 = 0 /\ um_default m' = 7.
Proof. exact C31_rekey_custom_default_refuted_pf. Qed.
Print Assumptions C31_rekey_custom_default_refuted.



(** C31 is false in its second part too: keys 0 and 5 written, key 9 never
    written; [rekey(9, Some(0))] leaves 0, not 7, at key 0. *)
Theorem C31_rekey_never_written_refuted :
  exists m m1 m', um_set (um_with_default 7) 0 1 = Ok m /\ um_set m 5 1 = Ok m1 /\ um_rekey 0 m1 9 (Some 0) = Ok m' /\
    um_get m1 9 = 7 /\ um_get m' 0 = 0.
Proof. exact C31_rekey_never_written_refuted_pf. Qed.
Print Assumptions C31_rekey_never_written_refuted.



(** What [rekey] does on a map with any default [d]: the value of [old] (if
    stored) moves to [new]; a stored slot that is vacated, or overwritten from a
    key that was never stored, holds the {e type's} default. Hence C31 holds
    exactly when [d] is the type's default or the slots concerned lie beyond the
    stored ones. Missing: the code does not use [d]. *)
Theorem C31_rekey_partial :
  forall (V : Type) (vdef : V) m old new,
    exists m', um_rekey vdef m old new = Ok m' /\ um_default m' = um_default m /\
      (forall k, k <> old -> Some k <> new -> um_get m' k = um_get m k) /\
      (new <> Some old -> um_get m' old = if decide (old < length (um_data m)) then vdef else um_default m) /\
      (forall k, new = Some k -> um_get m' k =
         if decide (old < length (um_data m)) then um_get m old
         else if decide (k < length (um_data m)) then vdef else um_default m).
Proof. exact C31_rekey_partial_pf. Qed.
Print Assumptions C31_rekey_partial.

Example C31_rekey_partial_nonvacuous :
  um_rekey 0 (mkUM [1; 2] 7) 1 (Some 3) = Ok (mkUM [1; 0; 7; 2] 7).
Proof. vm_compute. done. Qed.

(** C32. [shrink_to(n)] keeps the values below [n]; keys at or above [n] read as
    the default. *)
Theorem C32_shrink_to :
  forall (V : Type) (m : umap V) n,
    um_default (um_shrink_to m n) = um_default m /\
    (forall k, k < n -> um_get (um_shrink_to m n) k = um_get m k) /\
    (forall k, n <= k -> um_get (um_shrink_to m n) k = um_default m).
Proof. exact C32_shrink_to_pf. Qed.
Print Assumptions C32_shrink_to.

Example C32_shrink_to_nonvacuous : um_get (um_shrink_to (mkUM [4; 5; 6] 0) 2) 1 = 5 /\ um_get (um_shrink_to (mkUM [4; 5; 6] 0) 2) 2 = 0.
Proof. done. Qed.

(** C33. With a lawful element equality, two maps compare equal exactly when
    their defaults are equal and they agree at every key, whatever their
    allocated lengths. *)
Theorem C33_equality :
  forall (V : Type) (veq : V -> V -> bool) (m m' : umap V), (forall x y, veq x y = true <-> x = y) ->
    (um_eqb veq m m' = true <-> um_default m = um_default m' /\ forall k, um_get m k = um_get m' k).
Proof. exact C33_equality_pf. Qed.
Print Assumptions C33_equality.

Example C33_equality_nonvacuous : (forall x y, Nat.eqb x y = true <-> x = y) /\
  um_eqb Nat.eqb (mkUM [1; 0; 0] 0) (mkUM [1] 0) = true /\ um_eqb Nat.eqb (mkUM [1; 0; 2] 0) (mkUM [1] 0) = false.
Proof. split; [apply Nat.eqb_eq|done]. Qed.

(** C34 is false: after writing key 2, [iter] also yields the untouched keys 0
    and 1 with their default value. *)
Theorem C34_iter_refuted :
  exists m x s, um_set (um_with_default 0) 2 5 = Ok m /\ um_iter_next (um_iter_init m) = (Some (0, x), s) /\ x = um_default m.
Proof. exact C34_iter_refuted_pf. Qed.
Print Assumptions C34_iter_refuted.



(** What [iter] yields: every stored key once, in ascending order, with its
    value, from both ends; this includes every key whose value is not the
    default. Missing: stored default values are yielded too. *)
Theorem C34_iter_partial :
  forall (V : Type) (m : umap V), exists L,
    (forall sched, run_iter (fun s => Ok (um_iter_next s)) (fun s => Ok (um_iter_next_back s)) um_iter_len sched (um_iter_init m)
       = Ok (deque sched L)) /\
    (forall n, (um_iter_nth n (um_iter_init m)).1 = L !! n) /\
    StronglySorted lt L.*1 /\
    (forall k v, (k, v) ∈ L -> v = um_get m k /\ k < length (um_data m)) /\
    (forall k, um_get m k <> um_default m -> (k, um_get m k) ∈ L).
Proof. exact C34_iter_partial_pf. Qed.
Print Assumptions C34_iter_partial.

Example C34_iter_partial_nonvacuous :
  run_iter (fun s => Ok (um_iter_next s)) (fun s => Ok (um_iter_next_back s)) um_iter_len [false; true] (um_iter_init (mkUM [0; 4; 6] 0))
    = Ok [(Some (2, 6), 2); (Some (0, 0), 1)].
Proof. vm_compute. done. Qed.

(** C35. The [BitVec] and [HashSet] maps never panic and answer every sequence of
    calls as a total boolean map with default [false]; their iterators yield
    exactly the true keys once, [BitVec]'s in ascending order. *)
Theorem C35_bool_maps :
  forall ops,
    (exists b rs, bv_run [] ops = Ok (b, rs) /\ rs = (bspec_run (fun _ => false) ops).2 /\
       (forall k, bv_get b k = (bspec_run (fun _ => false) ops).1 k) /\
       StronglySorted lt (bv_iter b).*1 /\
       (forall k v, (k, v) ∈ bv_iter b <-> v = true /\ bv_get b k = true)) /\
    (exists s rs, hs_run ∅ ops = (s, rs) /\ rs = (bspec_run (fun _ => false) ops).2 /\
       (forall k, hs_get s k = (bspec_run (fun _ => false) ops).1 k) /\
       (forall l, hs_iter s l -> NoDup l.*1 /\ forall k v, (k, v) ∈ l <-> v = true /\ hs_get s k = true)).
Proof. exact C35_bool_maps_pf. Qed.
Print Assumptions C35_bool_maps.

Example C35_bool_maps_nonvacuous :
  bv_run [] [BSet 2 true; BSwap 2 5; BTake 5; BSet 1 true; BRekey 1 (Some 3); BGet 3] =
    Ok ([false; false; false; true; false; false], [None; None; Some true; None; None; Some true]).
Proof. vm_compute. done. Qed.
