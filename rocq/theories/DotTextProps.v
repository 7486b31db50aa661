(** Property C122: the text of the graphviz output. *)
From Coq Require Import Ascii String.
From stdpp Require Import pretty.
From Verif Require Export DotTextThms.
From Verif Require Import ViewProps.
Open Scope list_scope.

(** C122 does not hold: labels are written into the table of their node as they are. A
graph of one node, with a label that closes the table and opens another one, has
the same text as a graph of two nodes. *)
Theorem C122_dot_text_refuted :
exists g g' (label label' : nat -> string) out out', reach 16 g /\ reach 16 g' /\ node_count g = 1 /\ node_count g' = 2 /\
  dot_finish (lv_of_pg g) (pg_off 16 g) (fun n => NBoxed (label n) pres_default) (fun _ => PHidden) (fun _ _ => Solid) 0 None = HOk out /\
  dot_finish (lv_of_pg g') (pg_off 16 g') (fun n => NBoxed (label' n) pres_default) (fun _ => PHidden) (fun _ _ => Solid) 0 None = HOk out' /\
  dot_text out = dot_text out'.
Proof. exact C122_dot_text_refuted_pf. Qed.
Print Assumptions C122_dot_text_refuted.

(** C122 for styles whose labels have no line feed and no opening angle bracket and whose
other values have no line feed and no double quote, on every view: the text has
one line for each statement between its first and last line; and from the text
every statement can be read, that is, any other drawing, of any graph and with
any such styles, with the same text has the same nodes with the same labels and
attributes, the same ports, texts, borders and widths in the same rows, and the
same edges and styles, in the same order. Missing: labels that need escaping. *)
Theorem C122_dot_text_partial :
forall E (V : lview E) off ns ps es fuel forest out,
  (forall n, plain_node (ns n)) -> (forall p, plain_port (ps p)) -> (forall x y, plain_edge (es x y)) ->
  dot_finish V off ns ps es fuel forest = HOk out ->
  (exists lines, split_lines (dot_text out) = "digraph {"%string :: lines ++ ["}"%string] /\ length lines = length out) /\
  (forall E' (V' : lview E') off' ns' ps' es' fuel' forest' out',
     (forall n, plain_node (ns' n)) -> (forall p, plain_port (ps' p)) -> (forall x y, plain_edge (es' x y)) ->
     dot_finish V' off' ns' ps' es' fuel' forest' = HOk out' -> dot_text out = dot_text out' -> Forall2 same_stmt out out').
Proof. exact C122_dot_text_partial_pf. Qed.
Print Assumptions C122_dot_text_partial.

Example C122_case : exists out, (forall n : nat, plain_node (NBoxed (pretty n) (PStyle (Some "red") None None (Some "2")))) /\
  dot_finish (lv_of_pg two_g) (pg_off 16 two_g) (fun n => NBoxed (pretty n) (PStyle (Some "red"%string) None None (Some "2"%string)))
    (fun _ => PBoxed "p"%string true) (fun _ _ => Dotted) 0 None = HOk out /\
  split_lines (dot_text out) = ["digraph {";
    "0 [shape=plain fontcolor=""red"" penwidth=""2"" label=<<table border=""1""><tr><td align=""text"" border=""0"" colspan=""1"">0</td></tr><tr><td port=""out0"" align=""text"" colspan=""1"" cellpadding=""1"" >0: p</td></tr></table>>]";
    "0:out0 -> 1:in0 [style=""dotted""]";
    "1 [shape=plain fontcolor=""red"" penwidth=""2"" label=<<table border=""1""><tr><td port=""in0"" align=""text"" colspan=""1"" cellpadding=""1"" >0: p</td></tr><tr><td align=""text"" border=""0"" colspan=""1"">1</td></tr></table>>]";
    "}"]%string.
Proof.
  eexists. split; [|split; [vm_compute; reflexivity|vm_compute; reflexivity]].
  intros n. split; [split; by apply num_free|]. intros v Hv. cbn in Hv. rewrite !elem_of_cons, elem_of_nil in Hv.
  destruct Hv as [[= ->]|[[=]|[[=]|[[= ->]|[]]]]]; split; lit_free.
Qed.

(** C122, every drawing, with any labels: each statement has its line in the text. An edge from
an output to an input is written as an edge from the port with that name in the table of the
one node to the port with that name in the table of the other, and every port of the table
has its name. (What follows in a label that needs escaping is not excluded.) *)
Theorem C122_dot_lines :
forall (out : list dot_stmt) i, i ∈ out -> exists line, line_of (dot_text out) line /\ reads i line.
Proof. exact C122_dot_lines_pf. Qed.
Print Assumptions C122_dot_lines.

Example C122_lines_case : exists out,
  dot_finish (lv_of_pg two_g) (pg_off 16 two_g) (fun n => NBoxed (pretty (n : nat)) pres_default) (fun _ => PBoxed "p"%string true) (fun _ _ => Dotted) 0 None = HOk out /\
  DEdge 0 0 1 0 Dotted ∈ out.
Proof. eexists. split; [vm_compute; reflexivity|]. do 1 right; left. Qed.
