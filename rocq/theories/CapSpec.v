(** What is asked of capacities. *)
From Verif Require Export CapModel.

(** An allocator gives at least what is needed; shrinking keeps what is used. *)
Definition alloc_ok (grow fit : nat -> nat -> nat) : Prop :=
  (forall cap need, need <= grow cap need) /\ (forall cap len, len <= cap -> len <= fit cap len <= cap).

(** [cg_hist c ops c']: the calls [ops], allowed when made, lead from [c] to [c']. *)
Inductive cg_hist (grow fit : nat -> nat -> nat) (w : N) (c0 : cgraph) : list op -> cgraph -> Prop :=
| cg_start : cg_hist grow fit w c0 [] c0
| cg_call ops c o c' r : cg_hist grow fit w c0 ops c -> allowed (cg_g c) o -> cg_step grow fit w c o = Ok (c', r) ->
    cg_hist grow fit w c0 (ops ++ [o]) c'.
(** Calls other than those about capacity. *)
Definition no_cap_call (o : op) : Prop := match o with OReserve _ _ | OShrink => False | _ => True end.

(** Calls on a map, with [ensure_capacity] and [shrink_to]. *)
Inductive cop (V : Type) := CCall (o : mop V) | CEnsure (c : nat) | CShrink (c : nat).
Arguments CCall {V}. Arguments CEnsure {V}. Arguments CShrink {V}.
(** The keys of a call; those of [ensure_capacity] are treated above. *)
Definition mop_keys {V} (o : mop V) : option (list nat) :=
  match o with
  | MGet k | MSet k _ | MWrite k _ | MTouch k | MTake k | MRemove k => Some [k]
  | MSwap a b => Some [a; b]
  | MRekey old new => Some (old :: option_list new)
  | MEnsure _ _ => None
  | MDisjoint ks => Some ks
  | MClone => Some []
  end.
Inductive cm_hist {V} (grow fit : nat -> nat -> nat) (vdef : V) (c0 : cmap V) : list (cop V) -> cmap V -> Prop :=
| cm_start : cm_hist grow fit vdef c0 [] c0
| cm_call ops c o ks c' r : cm_hist grow fit vdef c0 ops c -> mop_keys o = Some ks -> cm_step grow vdef c o = Ok (c', r) ->
    cm_hist grow fit vdef c0 (ops ++ [CCall o]) c'
| cm_ens ops c k : cm_hist grow fit vdef c0 ops c -> cm_hist grow fit vdef c0 (ops ++ [CEnsure k]) (cm_ensure grow c k)
| cm_shr ops c k : cm_hist grow fit vdef c0 ops c -> cm_hist grow fit vdef c0 (ops ++ [CShrink k]) (cm_shrink fit c k).
(** A call with keys below [k]. *)
Definition below {V} (k : nat) (o : cop V) : Prop :=
  match o with CCall o => forall ks x, mop_keys o = Some ks -> x ∈ ks -> x < k | _ => False end.
