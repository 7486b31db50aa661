(** Model of the text written by src/render/dot.rs for a list of statements.

    Simplified: nothing is left out of the text; [format!] of a number is
    [pretty]. *)
From Coq Require Import Ascii String.
From stdpp Require Import pretty.
From Verif Require Export DotModel MermModel.
Open Scope list_scope.
Open Scope string_scope.

(** dot.rs:302-317 [encode_presentation_attrs] *)
Definition dot_attr (key : string) (v : option string) : string :=
  match v with Some v => key +:+ "=""" +:+ v +:+ """ " | None => "" end.
Definition dot_attrs (a : pres_style) : string :=
  dot_attr "fontcolor" (ps_color a) +:+ dot_attr "fillcolor" (ps_fill a) +:+ dot_attr "color" (ps_stroke a) +:+ dot_attr "penwidth" (ps_width a).
(** dot.rs:173-178 [make_label] *)
Definition cell_text (c : cell string) : string :=
  match c_shown c, c_label c with
  | None, l => l
  | Some o, EmptyString => pretty o
  | Some o, l => pretty o +:+ ": " +:+ l
  end.
(** dot.rs:183-195: the style of the cell *)
Definition cell_style (c : cell string) : string := if c_border c then "" else "border=""0""".
(** dot.rs:210-212, one cell *)
Definition dot_cell_text (d : string) (x : cell string * nat) : string :=
  "<td port=""" +:+ (d +:+ pretty (c_id x.1)) +:+ """ align=""text"" colspan=""" +:+ pretty x.2 +:+ """ cellpadding=""1"" "
  +:+ cell_style x.1 +:+ ">" +:+ cell_text x.1 +:+ "</td>".
(** dot.rs:204-216 [get_ports_row_dot] *)
Definition dot_row_text (d : string) (row : list (cell string * nat)) : string :=
  match row with [] => "" | _ => "<tr>" +:+ foldr String.append "" (dot_cell_text d <$> row) +:+ "</tr>" end.
(** dot.rs:138-140 *)
Definition dot_label_text (width : nat) (label : string) : string :=
  "<tr><td align=""text"" border=""0"" colspan=""" +:+ pretty width +:+ """>" +:+ label +:+ "</td></tr>".
(** dot.rs:142-152, 230-236, 244-248, 259-263: the text of a statement, before its line feed *)
Definition dot_line (i : dot_item string pres_style edge_style) : string :=
  match i with
  | DNode n l a w ins outs =>
      pretty n +:+ " [shape=plain " +:+ dot_attrs (default pres_default a) +:+ "label=<<table border=""1"">"
      +:+ dot_row_text "in" ins +:+ dot_label_text w l +:+ dot_row_text "out" outs +:+ "</table>>]"
  | DEdge a oa b ob s =>
      pretty a +:+ ":out" +:+ pretty oa +:+ " -> " +:+ pretty b +:+ ":in" +:+ pretty ob +:+ " [style=""" +:+ as_dot_str s +:+ """]"
  | DHier n => "hier" +:+ pretty n +:+ " [shape=plain label=""" +:+ pretty n +:+ """]"
  | DHierEdge p c => "hier" +:+ pretty p +:+ " -> hier" +:+ pretty c +:+ "  [style = ""dashed""] "
  end.
(** dot.rs:77-87 [finish], the text of the statements of [dot_finish] *)
Definition dot_text (out : list (dot_item string pres_style edge_style)) : string :=
  "digraph {" +:+ String newline "" +:+ foldr String.append "" ((fun i => dot_line i +:+ String newline "") <$> out)
  +:+ "}" +:+ String newline "".
