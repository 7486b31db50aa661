(** Which numbers errors may carry. *)
From Verif Require Export ErrModel PGSpec.

(** Node and port indices never exceed the documented maximum (C26). *)
Definition valid_ix (n : nat) : Prop := (N.of_nat n <= max_index)%N.
(** The indices and offsets in the error are valid. *)
Definition valid_link_error (w : N) (e : link_error) : Prop :=
  match e with
  | AlreadyLinked p | UnknownPort p => valid_ix p
  | UnknownOffset n _ off => valid_ix n /\ (N.of_nat off <= po_max_offset w)%N
  | IncompatibleDirections a b _ => valid_ix a /\ valid_ix b
  end.
Definition valid_attach_error (e : attach_error) : Prop :=
  match e with
  | AlreadyAttached n | RootSibling n => valid_ix n
  | Cycle n p => valid_ix n /\ valid_ix p
  end.
Definition valid_dt_error (e : dt_error) : Prop :=
  match e with DtInvalidNode n => valid_ix n | DtWouldCreateCycle a b => valid_ix a /\ valid_ix b end.
