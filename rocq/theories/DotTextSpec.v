(** When the text of the graphviz output can be read back, and as what. *)
From Coq Require Import Ascii String.
From stdpp Require Import pretty.
From Verif Require Export DotTextModel MermSpec.
Open Scope list_scope.

Notation dot_stmt := (dot_item string pres_style edge_style).

(** No line feed and no character that begins a tag. *)
Definition plain_label (s : string) : Prop := free_of newline s /\ free_of "<" s.
(** No line feed and no double quote. *)
Definition plain_value (s : string) : Prop := free_of newline s /\ free_of quote s.
Definition plain_cell (x : cell string * nat) : Prop := plain_label (c_label x.1).
Definition plain_stmt (i : dot_stmt) : Prop :=
  match i with
  | DNode n l a w ins outs =>
      plain_label l /\ Forall plain_cell ins /\ Forall plain_cell outs /\
      forall b v, a = Some b -> Some v ∈ [ps_color b; ps_fill b; ps_stroke b; ps_width b] -> plain_value v
  | DEdge _ _ _ _ s => plain_value (as_dot_str s)
  | _ => True
  end.

(** What a port shows: its offset, its label, or both with a colon between. *)
Definition shown_text (c : cell string) : string :=
  match c_shown c with
  | None => c_label c
  | Some o => if decide (c_label c = ""%string) then pretty o else (pretty o +:+ ": " +:+ c_label c)%string
  end.
(** The same port with the same text in it, the same border and width. *)
Definition same_cell (x y : cell string * nat) : Prop :=
  c_id x.1 = c_id y.1 /\ c_border x.1 = c_border y.1 /\ shown_text x.1 = shown_text y.1 /\ x.2 = y.2.
(** The same node with the same label, attributes and ports; the same edge with
    the same style, up to the label of the style, which is not written. *)
Definition same_stmt (i j : dot_stmt) : Prop :=
  match i, j with
  | DNode n l a w ins outs, DNode n' l' a' w' ins' outs' =>
      n = n' /\ l = l' /\ default pres_default a = default pres_default a' /\ w = w' /\ Forall2 same_cell ins ins' /\ Forall2 same_cell outs outs'
  | DEdge a oa b ob s, DEdge a' oa' b' ob' s' => a = a' /\ oa = oa' /\ b = b' /\ ob = ob' /\ as_dot_str s = as_dot_str s'
  | DHier n, DHier n' => n = n'
  | DHierEdge p c, DHierEdge p' c' => p = p' /\ c = c'
  | _, _ => False
  end.

(** Styles whose labels and values do not need escaping. *)
Definition plain_node (s : node_style string pres_style) : Prop :=
  match s with
  | NHidden => True
  | NBox l => plain_label l
  | NBoxed l a => plain_label l /\ forall v, Some v ∈ [ps_color a; ps_fill a; ps_stroke a; ps_width a] -> plain_value v
  end.
Definition plain_port (s : port_style string) : Prop :=
  match s with PHidden => True | PPlain l _ | PBoxed l _ => plain_label l end.
Definition plain_edge (s : edge_style) : Prop := plain_value (as_dot_str s).

(** A line of a text after its first one; how it begins and what it contains. *)
Definition line_of (text line : string) : Prop := exists pre post, text = (pre +:+ String newline (line +:+ String newline post))%string.
Definition starts_with (s line : string) : Prop := exists t, line = (s +:+ t)%string.
Definition contains_text (s line : string) : Prop := exists a b, line = (a +:+ s +:+ b)%string.
(** What graphviz reads in a line: nodes by number, their ports by direction and
    offset, edges between ports, the tree of the hierarchy. *)
Definition reads (i : dot_stmt) (line : string) : Prop :=
  match i with
  | DNode n l _ _ ins outs =>
      starts_with (pretty n +:+ " [") line /\ contains_text (">" +:+ l +:+ "</td></tr>") line /\
      (forall c w, (c, w) ∈ ins -> contains_text ("<td port=""in" +:+ pretty (c_id c) +:+ """ ") line) /\
      (forall c w, (c, w) ∈ outs -> contains_text ("<td port=""out" +:+ pretty (c_id c) +:+ """ ") line)
  | DEdge a oa b ob s =>
      line = (pretty a +:+ ":out" +:+ pretty oa +:+ " -> " +:+ pretty b +:+ ":in" +:+ pretty ob +:+ " [style=""" +:+ as_dot_str s +:+ """]")%string
  | DHier n => starts_with ("hier" +:+ pretty n +:+ " [") line
  | DHierEdge p c => starts_with ("hier" +:+ pretty p +:+ " -> hier" +:+ pretty c +:+ " ") line
  end.
