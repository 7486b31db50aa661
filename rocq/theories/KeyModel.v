(** Model of the iterators of secondary maps with the conversion of positions into
    keys. MapModel.v has the iterators over positions; here the key type is
    [NodeIndex<U>] or [PortIndex<U>], with [w] bits. [Option::unwrap] panics on a
    position that the key type cannot hold. *)
From Verif Require Export MapModel IndexModel.

(** unmanaged.rs:418, 425, 447 and secondary.rs:209, 216, 238:
    [key.try_into().ok().unwrap()] *)
Definition key_of (w : N) (i : nat) : res N := o ← ix_try_from w (N.of_nat i); unwrap o.

(** [Option::map] with the conversion of the key, on an answer of the inner iterator *)
Definition key_answer {V S} (w : N) (a : option (nat * V) * S) : res (option (N * V) * S) :=
  match a.1 with
  | None => Ok (None, a.2)
  | Some (i, v) => k ← key_of w i; Ok (Some (k, v), a.2)
  end.

(** unmanaged.rs:415-419 [next], 422-426 [nth], 444-448 [next_back]; [count] and
    [size_hint] (429-436) convert no key, they are [um_iter_len] *)
Definition um_kiter_next {V} (w : N) (s : nat * list V) := key_answer w (um_iter_next s).
Definition um_kiter_nth {V} (w : N) (n : nat) (s : nat * list V) := key_answer w (um_iter_nth n s).
Definition um_kiter_next_back {V} (w : N) (s : nat * list V) := key_answer w (um_iter_next_back s).

(** secondary.rs:194-240 [BitVecIter] over [IterOnes]: the positions left *)
Definition bv_kiter_init (b : list bool) : list nat := bv_ones 0 b.
Definition bv_kiter_next (w : N) (s : list nat) : res (option (N * bool) * list nat) :=
  key_answer w (match s with [] => (None, s) | i :: l => (Some (i, true), l) end).
Definition bv_kiter_nth (w : N) (n : nat) (s : list nat) : res (option (N * bool) * list nat) :=
  key_answer w (match drop n s with [] => (None, []) | i :: l => (Some (i, true), l) end).
Definition bv_kiter_next_back (w : N) (s : list nat) : res (option (N * bool) * list nat) :=
  key_answer w (match last s with None => (None, s) | Some i => (Some (i, true), removelast s) end).
