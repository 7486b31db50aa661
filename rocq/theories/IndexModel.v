(** Model of src/index.rs: packed bit fields, node/port indices, optional
    indices and port offsets, for every base width [w] (8, 16, 32, 64), plus
    [PortMeta] of src/portgraph.rs. Values of the base type [U] are numbers
    below [2^w]; [usize] has 64 bits, so [U::from_usize] fails exactly on
    values above [U::MAX] and [to_usize] never fails. *)
From Verif Require Export Base.
Local Open Scope N_scope.

(** [U::max_value()] *)
Definition umax (w : N) : N := 2 ^ w - 1.
(** [!x] on [U] *)
Definition bnot (w x : N) : N := N.lxor x (umax w).

(** index.rs:561-563 [msb_mask] *)
Definition msb_mask (w : N) : N := umax w - N.shiftr (umax w) 1.
(** index.rs:471-473 [new_none] *)
Definition bf_none (w : N) : N := umax w.
(** index.rs:567-569 [is_none] *)
Definition bf_is_none (w x : N) : bool := x =? bf_none w.
(** index.rs:477-483 [max_index] *)
Definition bf_max_index (w : N) : N := N.shiftr (umax w) 1 - 1.
(** [U::from_usize(i).expect(..)] *)
Definition from_usize (w i : N) : res N := if i <=? umax w then Ok i else Panic.
(** index.rs:536-541 [set_bit_flag] *)
Definition bf_set_flag (w x : N) : res N :=
  _ ← assert (negb (bf_is_none w x)); Ok (N.lor x (msb_mask w)).
(** index.rs:548-553 [unset_bit_flag] *)
Definition bf_unset_flag (w x : N) : res N :=
  _ ← assert (negb (bf_is_none w x)); Ok (N.land x (bnot w (msb_mask w))).
(** index.rs:556-558 [flip_bit_flag] *)
Definition bf_flip_flag (w x : N) : N := N.lxor x (msb_mask w).
(** index.rs:459-467 [BitField::new] *)
Definition bf_new (w i : N) (flag : bool) : res N :=
  u ← from_usize w i; if flag then bf_set_flag w u else Ok u.
(** index.rs:500-504 [index_unchecked] *)
Definition bf_index_unchecked (w x : N) : N := N.land x (bnot w (msb_mask w)).
(** index.rs:489-494 [index] *)
Definition bf_index (w x : N) : option N :=
  if bf_is_none w x then None else Some (bf_index_unchecked w x).
(** index.rs:512-520 [set_index] *)
Definition bf_set_index (w x i : N) : res N :=
  u ← from_usize w i;
  let msb := if bf_is_none w x then 0 else N.land x (msb_mask w) in
  Ok (N.lor u msb).
(** index.rs:524-529 [bit_flag] *)
Definition bf_flag (w x : N) : option bool :=
  if bf_is_none w x then None else Some (negb (N.land x (msb_mask w) =? 0)).
(** index.rs:572-583 [TryFrom<usize> for BitField] *)
Definition bf_try_from (w i : N) : res (option N) :=
  if bf_max_index w <? i then Ok None else x ← bf_new w i false; Ok (Some x).
(** index.rs:585-590 [From<BitField> for usize] *)
Definition bf_into_usize (w x : N) : res N := unwrap (bf_index w x).

(** index.rs:33-72 [NodeIndex]/[PortIndex] (macro [index_impls]) *)
Definition ix_max_index (w : N) : N := bf_max_index w.
Definition ix_new (w i : N) : res N := bf_new w i false.
Definition ix_index (w x : N) : N := bf_index_unchecked w x.
Definition ix_try_from (w i : N) : res (option N) := bf_try_from w i.
Definition ix_into_usize (w x : N) : res N := bf_into_usize w x.

(** index.rs:136-283 [MaybeNodeIndex]/[MaybePortIndex] (macro
    [maybe_index_impls]); [mi_new] includes the [debug_assert!]. *)
Definition mi_new (w : N) (o : option N) : res N :=
  match o with
  | Some x => _ ← assert (negb (bf_is_none w x)); Ok x
  | None => Ok (bf_none w)
  end.
Definition mi_to_option (w x : N) : option N := if bf_is_none w x then None else Some x.
Definition mi_is_none (w x : N) : bool := bf_is_none w x.
Definition mi_is_some (w x : N) : bool := negb (mi_is_none w x).
Definition mi_from_index (x : N) : N := x.
(** [expect]/[unwrap] *)
Definition mi_unwrap (w x : N) : res N := if mi_is_none w x then Panic else Ok x.
(** [take]: the new content and the returned value *)
Definition mi_take (w x : N) : res (N * N) := n ← mi_new w None; Ok (n, x).
(** [replace]: the new content and the returned value *)
Definition mi_replace (x v : N) : N * N := (mi_from_index v, x).
Definition mi_default (w : N) : N := bf_none w.

(** index.rs:299-347 [PortOffset] *)
Definition po_max_offset (w : N) : N := bf_max_index w.
Definition po_new (w : N) (d : dir) (i : N) : res N := bf_new w i (bool_decide (d = Outgoing)).
Definition po_direction (w x : N) : res dir :=
  b ← unwrap (bf_flag w x); Ok (if (b : bool) then Outgoing else Incoming).
Definition po_index (w x : N) : res N := unwrap (bf_index w x).
Definition po_opposite (w x : N) : N := bf_flip_flag w x.
(** index.rs:350-354 *)
Definition po_default (w : N) : res N := po_new w Outgoing 0.

(** portgraph.rs:1088-1115 [PortMeta]: node and direction in 32 bits, the node
    shifted by one so that the value is never zero. *)
Definition pmeta_new (node : N) (d : dir) : N :=
  let db := N.shiftl (match d with Incoming => 0 | Outgoing => 1 end) 31 in
  N.lor ((node + 1) mod 2 ^ 32) db.
Definition pmeta_mask : N := bnot 32 (N.shiftl 1 31).
Definition pmeta_node (x : N) : res N :=
  let i := N.land x pmeta_mask in if 1 <=? i then ix_new 32 (i - 1) else Panic.
Definition pmeta_direction (x : N) : dir :=
  if N.shiftr x 31 =? 0 then Incoming else Outgoing.
