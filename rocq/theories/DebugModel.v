(** The [Debug] output of graphs and indices, as text ([{:?}], on one line).

    What the formatter of the standard library writes for [debug_struct] and
    [debug_map], and for derived implementations, is modelled from its
    documentation. Simplified: not in the alternate format ([{:#?}]); the [BitVec]s
    of [MultiPortGraph], formatted by the bitvec crate, are not modelled. *)
From Coq Require Import Ascii String.
From stdpp Require Import pretty.
From Verif Require Export IndexModel PGViewModel MultiModel.
Open Scope list_scope.
Open Scope string_scope.

(** ** What the standard library provides *)
Fixpoint join_with (sep : string) (l : list string) : string :=
  match l with [] => "" | [s] => s | s :: l => s +:+ sep +:+ join_with sep l end.
Definition dbg_entry (x : string * string) : string := x.1 +:+ ": " +:+ x.2.
(** [debug_struct], with at least one field *)
Definition debug_struct (name : string) (fields : list (string * string)) : string :=
  name +:+ " { " +:+ join_with ", " (dbg_entry <$> fields) +:+ " }".
(** [debug_map] *)
Definition debug_map (entries : list (string * string)) : string :=
  "{" +:+ join_with ", " (dbg_entry <$> entries) +:+ "}".
Fixpoint res_map {A B} (f : A -> res B) (l : list A) : res (list B) :=
  match l with [] => Ok [] | a :: l => b ← f a; r ← res_map f l; Ok (b :: r) end.

(** ** Indices *)
(** index.rs:75-80 *)
Definition dbg_ix (name : string) (w x : N) : string := name +:+ "(" +:+ pretty (ix_index w x) +:+ ")".
(** index.rs:211-215, [Option]'s derived implementation *)
Definition dbg_mi (name : string) (w x : N) : string :=
  match mi_to_option w x with None => "None" | Some x => "Some(" +:+ dbg_ix name w x +:+ ")" end.
(** lib.rs:97-105, derived *)
Definition dbg_dir (d : dir) : string := match d with Incoming => "Incoming" | Outgoing => "Outgoing" end.
(** index.rs:356-363 *)
Definition dbg_po (w x : N) : res string :=
  d ← po_direction w x; i ← po_index w x; Ok (dbg_dir d +:+ "(" +:+ pretty i +:+ ")").
(** multiportgraph.rs:664-668 *)
Definition dbg_sp (s : subport) : string := "SubportIndex(" +:+ pretty s.1 +:+ ":" +:+ pretty s.2 +:+ ")".

(** ** portgraph.rs *)
(** Indices of nodes and ports of a graph are decoded in the model *)
Definition dbg_node_ix (n : nat) : string := dbg_ix "NodeIndex" 32 (N.of_nat n).
Definition dbg_port_ix (p : nat) : string := dbg_ix "PortIndex" 32 (N.of_nat p).
(** portgraph.rs:1027-1045 [PortRangeDebug] of [start..start + len] *)
Definition dbg_new_port (i : nat) : res string := x ← ix_new 32 (N.of_nat i); Ok (dbg_ix "PortIndex" 32 x).
Definition dbg_range (start len : nat) : res string :=
  match len with
  | 0 => Ok "[]"
  | 1 => s ← dbg_new_port start; Ok ("[" +:+ s +:+ "]")
  | _ => s ← dbg_new_port start; t ← dbg_new_port (start + len); Ok (s +:+ ".." +:+ t)
  end.
(** iter.rs:21-28 [_ports]: the range of the ports of a node, the default range is [0..0] *)
Definition dbg_ports (g : pg) (n : nat) (d : dir) : res string :=
  match nmeta g n with Some m => dbg_range (nm_start m d) (nm_num m d) | None => dbg_range 0 0 end.
(** portgraph.rs:1013-1025 [NodeDebug] *)
Definition dbg_node (g : pg) (n : nat) : res (string * string) :=
  i ← dbg_ports g n Incoming; o ← dbg_ports g n Outgoing;
  Ok (dbg_node_ix n, debug_struct "Node" [("inputs", i); ("outputs", o)]).
(** portgraph.rs:1060-1080 [PortDebug] *)
Definition dbg_port (g : pg) (p : nat) : res (string * string) :=
  d ← unwrap (port_direction g p); l ← port_link g p; n ← unwrap (port_node g p);
  Ok (dbg_port_ix p, debug_struct "Port" ([("node", dbg_node_ix n); ("direction", dbg_dir d)]
        ++ match l with Some q => [("link", dbg_port_ix q)] | None => [] end)%list).
(** portgraph.rs:988-1011, 1046-1058 *)
Definition dbg_pg (g : pg) : res string :=
  ns ← res_map (dbg_node g) (nodes_iter g); ps ← res_map (dbg_port g) (ports_iter g);
  Ok (debug_struct "PortGraph" [("nodes", debug_map ns); ("ports", debug_map ps)]).
