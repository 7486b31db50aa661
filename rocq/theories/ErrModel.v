(** The texts of errors ([Display], derived by the thiserror crate from the
    [#[error(..)]] attributes: the attribute's string with the named fields
    inserted). *)
From Coq Require Import Ascii String.
From stdpp Require Import pretty.
From Verif Require Export DebugModel HierModel DynModel.
Open Scope list_scope.
Open Scope string_scope.

(** portgraph.rs:1131-1151; the offset of [UnknownOffset] is stored packed *)
Definition link_error_text (w : N) (e : link_error) : res string :=
  match e with
  | AlreadyLinked p => Ok ("port " +:+ dbg_port_ix p +:+ " is already linked")
  | UnknownPort p => Ok ("unknown port '" +:+ dbg_port_ix p +:+ "''")
  | UnknownOffset n d off =>
      x ← po_new w d (N.of_nat off); i ← po_index w x; d ← po_direction w x;
      Ok ("unknown port offset " +:+ pretty i +:+ " in node " +:+ dbg_node_ix n +:+ " in direction " +:+ dbg_dir d)
  | IncompatibleDirections a b d =>
      Ok ("Cannot link two ports with direction " +:+ dbg_dir d +:+ ". In ports " +:+ dbg_port_ix a +:+ " and " +:+ dbg_port_ix b)
  end.
(** hierarchy.rs:729-741 *)
Definition attach_error_text (e : attach_error) : string :=
  match e with
  | AlreadyAttached n => "the node " +:+ dbg_node_ix n +:+ " is already attached"
  | RootSibling r => "can not attach a sibling to root node " +:+ dbg_node_ix r
  | Cycle n p => "attaching the node " +:+ dbg_node_ix n +:+ " to " +:+ dbg_node_ix p +:+ " would introduce a cycle"
  end.
(** algorithms/dynamic.rs:11-29 *)
Definition dt_error_text (e : dt_error) : string :=
  match e with
  | DtInvalidNode n => dbg_node_ix n +:+ " has not been added to the topological order."
  | DtWouldCreateCycle a b => "Connecting " +:+ dbg_node_ix a +:+ " to " +:+ dbg_node_ix b +:+ " would create a cycle in the DAG."
  end.
(** view/subgraph.rs:322-335 *)
Definition copy_error_text (internal external : nat) : string :=
  "Cannot copy edge between external port " +:+ dbg_port_ix external +:+ " and (copy of) internal port " +:+ dbg_port_ix internal.
(** index.rs:592-597 *)
Definition index_error_text (i : N) : string := "the index " +:+ pretty i +:+ " is too large.".
(** index.rs:59-66, 572-582: the text of the error of [try_from], if any *)
Definition try_from_text (w i : N) : res (option string) :=
  o ← ix_try_from w i; Ok (match o with Some _ => None | None => Some (index_error_text i) end).
