(** Calls on secondary maps that stay within a key type. *)
From Verif Require Export KeyModel CapSpec.

(** The keys in a call on a [BitVec]; [CapSpec.mop_keys] has those for dense maps. *)
Definition bop_keys (o : bop) : list nat :=
  match o with
  | BGet k | BSet k _ | BTake k | BRemove k => [k]
  | BRekey a b => a :: option_list b
  | BSwap a b => [a; b]
  end.
(** All keys are at most the maximal index of the [w]-bit key type. *)
Definition keys_fit (w : N) (ks : list nat) : Prop := forall k, k ∈ ks -> (N.of_nat k <= ix_max_index w)%N.
(** The call has such keys, and asks for no more room than there are keys. *)
Definition call_fits {V} (w : N) (o : mop V) : Prop :=
  (forall ks, mop_keys o = Some ks -> keys_fit w ks) /\
  (forall extra c, o = MEnsure extra c -> (N.of_nat c <= ix_max_index w + 1)%N).
(** [x] is the key with index [i]. *)
Definition is_key (w : N) (x : N) (i : nat) : Prop :=
  ix_try_from w (N.of_nat i) = Ok (Some x) /\ ix_index w x = N.of_nat i.
