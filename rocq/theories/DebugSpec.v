(** What is to be read in the [Debug] text of a graph. *)
From Coq Require Import Ascii String.
From stdpp Require Import pretty.
From Verif Require Export DebugModel PGSpec DotTextSpec.
Open Scope list_scope.
Open Scope string_scope.

(** A list of consecutive ports: none, one, or from the first up to the one after the last. *)
Definition ports_shown (l : list nat) : string :=
  match l with
  | [] => "[]"
  | [p] => "[PortIndex(" +:+ pretty p +:+ ")]"
  | p :: _ => "PortIndex(" +:+ pretty p +:+ ")..PortIndex(" +:+ pretty (p + length l)%nat +:+ ")"
  end.
Definition node_shown (n : nat) (ins outs : list nat) : string :=
  "NodeIndex(" +:+ pretty n +:+ "): Node { inputs: " +:+ ports_shown ins +:+ ", outputs: " +:+ ports_shown outs +:+ " }".
Definition port_shown (p n : nat) (d : dir) (link : option nat) : string :=
  "PortIndex(" +:+ pretty p +:+ "): Port { node: NodeIndex(" +:+ pretty n +:+ "), direction: "
  +:+ (match d with Incoming => "Incoming" | Outgoing => "Outgoing" end)
  +:+ (match link with Some q => ", link: PortIndex(" +:+ pretty q +:+ ")" | None => "" end) +:+ " }".
