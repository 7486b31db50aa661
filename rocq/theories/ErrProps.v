(** Property C129: the texts of errors. *)
From Coq Require Import Ascii String.
From stdpp Require Import pretty.
From Verif Require Export ErrThms.

(** C129, errors of linking: the text can always be produced, and different errors
have different texts; the text is all that Python code sees of the error. *)
Theorem C129_link_errors :
forall w e e', (1 < w)%N -> valid_link_error w e -> valid_link_error w e' ->
  exists t t', link_error_text w e = Ok t /\ link_error_text w e' = Ok t' /\ (t = t' <-> e = e').
Proof. exact C129_link_errors_pf. Qed.
Print Assumptions C129_link_errors.

Example C129_link_case : valid_link_error 16 (UnknownOffset 3 Outgoing 12) /\
  link_error_text 16 (UnknownOffset 3 Outgoing 12) = Ok "unknown port offset 12 in node NodeIndex(3) in direction Outgoing"%string /\
  link_error_text 16 (IncompatibleDirections 0 1 Incoming) = Ok "Cannot link two ports with direction Incoming. In ports PortIndex(0) and PortIndex(1)"%string /\
  link_error_text 16 (UnknownPort 7) = Ok "unknown port 'PortIndex(7)''"%string.
Proof. split; [split; vm_compute; discriminate|]. vm_compute. split_and!; reflexivity. Qed.

(** C129, errors of hierarchies, of dynamic sorting, of copying a subgraph and of indices: different errors of
a kind have different texts; try_from has an error exactly for numbers above the maximum, and
its text names the number. *)
Theorem C129_other_errors :
(forall e e', valid_attach_error e -> valid_attach_error e' -> (attach_error_text e = attach_error_text e' <-> e = e')) /\
(forall e e', valid_dt_error e -> valid_dt_error e' -> (dt_error_text e = dt_error_text e' <-> e = e')) /\
(forall i x i' x', valid_ix i -> valid_ix x -> valid_ix i' -> valid_ix x' ->
   (copy_error_text i x = copy_error_text i' x' <-> i = i' /\ x = x')) /\
(forall w i, (1 < w)%N -> exists r, try_from_text w i = Ok r /\
   (r = None <-> (i <= ix_max_index w)%N) /\
   (forall t j, r = Some t -> (t = ("the index " +:+ pretty j +:+ " is too large.")%string <-> j = i))).
Proof. exact C129_other_errors_pf. Qed.
Print Assumptions C129_other_errors.

Example C129_case : valid_attach_error (Cycle 2 5) /\ attach_error_text (Cycle 2 5) = "attaching the node NodeIndex(2) to NodeIndex(5) would introduce a cycle"%string /\
  dt_error_text (DtInvalidNode 4) = "NodeIndex(4) has not been added to the topological order."%string /\
  try_from_text 16 32767 = Ok (Some "the index 32767 is too large."%string) /\ try_from_text 16 32766 = Ok None.
Proof. split; [split; vm_compute; discriminate|]. vm_compute. split_and!; reflexivity. Qed.
