(** Properties C124 and C125: the Debug output. *)
From Coq Require Import Ascii String.
From stdpp Require Import pretty.
From Verif Require Export DebugThms.
From Verif Require Import ViewProps.
Open Scope list_scope.

(** C124. Formatting a graph with Debug never panics, and two graphs, of any offset types
and histories, have the same text exactly if no observation distinguishes them:
freed slots and spare capacity do not show, and everything else does. *)
Theorem C124_debug_graph :
forall w w' g g', reach w g -> reach w' g' ->
  exists s, dbg_pg g = Ok s /\ (dbg_pg g' = Ok s <-> same_graph g g').
Proof. exact C124_debug_graph_pf. Qed.
Print Assumptions C124_debug_graph.

Definition dbg_ops : list op := [OAdd 0 2; OAdd 1 0; OAdd 3 0; OLink 0 2; ORemove 2].
Definition dbg_g : pg := default pg_new (run 16 dbg_ops pg_new).
Example C124_case : reach 16 two_g /\ reach 16 dbg_g /\
  dbg_pg two_g = Ok ("PortGraph { nodes: {NodeIndex(0): Node { inputs: [], outputs: [PortIndex(0)] }, " +:+
    "NodeIndex(1): Node { inputs: [PortIndex(1)], outputs: [] }}, " +:+
    "ports: {PortIndex(0): Port { node: NodeIndex(0), direction: Outgoing, link: PortIndex(1) }, " +:+
    "PortIndex(1): Port { node: NodeIndex(1), direction: Incoming, link: PortIndex(0) }} }")%string /\
  dbg_pg dbg_g = Ok ("PortGraph { nodes: {NodeIndex(0): Node { inputs: [], outputs: PortIndex(0)..PortIndex(2) }, " +:+
    "NodeIndex(1): Node { inputs: [PortIndex(2)], outputs: [] }}, " +:+
    "ports: {PortIndex(0): Port { node: NodeIndex(0), direction: Outgoing, link: PortIndex(2) }, " +:+
    "PortIndex(1): Port { node: NodeIndex(0), direction: Outgoing }, " +:+
    "PortIndex(2): Port { node: NodeIndex(1), direction: Incoming, link: PortIndex(0) }} }")%string.
Proof.
  split; [exists two_ops; apply run_hist; vm_compute; reflexivity|]. split; [exists dbg_ops; apply run_hist; vm_compute; reflexivity|].
  split; vm_compute; reflexivity.
Qed.

(** C124, what the text says: for each node its lists of inputs and outputs, each given by
its ends, and for each port its node, its direction and the port it is linked to. *)
Theorem C124_debug_entries :
forall w g s, reach w g -> dbg_pg g = Ok s ->
  (forall n, contains_node g n = true -> contains_text (node_shown n (ports g n Incoming) (ports g n Outgoing)) s) /\
  (forall p n d l, port_node g p = Some n -> port_direction g p = Some d -> port_link g p = Ok l -> contains_text (port_shown p n d l) s).
Proof. exact C124_debug_entries_pf. Qed.
Print Assumptions C124_debug_entries.

Example C124_entries_case : reach 16 dbg_g /\ contains_node dbg_g 0 = true /\ ports dbg_g 0 Outgoing = [0; 1] /\ port_link dbg_g 0 = Ok (Some 2) /\
  node_shown 0 [] [0; 1] = "NodeIndex(0): Node { inputs: [], outputs: PortIndex(0)..PortIndex(2) }"%string /\
  port_shown 0 0 Outgoing (Some 2) = "PortIndex(0): Port { node: NodeIndex(0), direction: Outgoing, link: PortIndex(2) }"%string.
Proof. split; [exists dbg_ops; apply run_hist; vm_compute; reflexivity|]. split_and!; vm_compute; reflexivity. Qed.

(** C125. The Debug text of an index is its kind and its number in decimal, of an offset its
direction and number, of an optional index None or Some of the index; of a
subport its port and offset. None of them panics, and different values have
different texts. *)
Theorem C125_debug_index :
forall w, (1 < w)%N ->
  (forall name i i' x x', (i <= ix_max_index w)%N -> (i' <= ix_max_index w)%N -> ix_new w i = Ok x -> ix_new w i' = Ok x' ->
     dbg_ix name w x = (name +:+ "(" +:+ pretty i +:+ ")")%string /\
     dbg_mi name w (mi_from_index x) = ("Some(" +:+ name +:+ "(" +:+ pretty i +:+ "))")%string /\
     dbg_mi name w (mi_default w) = "None"%string /\
     (dbg_ix name w x = dbg_ix name w x' <-> x = x') /\
     (dbg_mi name w (mi_from_index x) = dbg_mi name w (mi_from_index x') <-> x = x')) /\
  (forall d d' i i' x x', (i <= po_max_offset w)%N -> (i' <= po_max_offset w)%N -> po_new w d i = Ok x -> po_new w d' i' = Ok x' ->
     dbg_po w x = Ok ((match d with Incoming => "Incoming" | Outgoing => "Outgoing" end) +:+ "(" +:+ pretty i +:+ ")")%string /\
     (dbg_po w x = dbg_po w x' <-> x = x')) /\
  (forall s s', dbg_sp s = dbg_sp s' <-> s = s').
Proof. exact C125_debug_index_pf. Qed.
Print Assumptions C125_debug_index.

Example C125_case : (5 <= ix_max_index 32)%N /\ ix_new 32 5 = Ok 5%N /\ dbg_ix "NodeIndex" 32 5 = "NodeIndex(5)"%string /\
  dbg_mi "PortIndex" 16 12 = "Some(PortIndex(12))"%string /\ dbg_mi "PortIndex" 16 65535 = "None"%string /\
  po_new 16 Outgoing 7 = Ok 32775%N /\ dbg_po 16 32775 = Ok "Outgoing(7)"%string /\ dbg_sp (3, 12) = "SubportIndex(3:12)"%string.
Proof. vm_compute. split_and!; congruence. Qed.
