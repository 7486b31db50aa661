(** C130: the text of a mermaid chart determines what is drawn, if no label
    contains an escape. *)
From Coq Require Import Ascii String.
From stdpp Require Import pretty.
From Verif Require Import MTextSpec MTextThms.
Open Scope list_scope.

(** In general it does not: a quote and the text of its escape are written the same, a
line feed and the tag of a line break too, and an attribute with a comma is written
like two attributes. *)
Theorem C130_mermaid_text_refuted :
(exists (ns ns' : nat -> node_style string pres_style) (es : nat -> nat -> edge_style) lines lines',
    mm_all_lines ns es [(1, MMLeaf 0)] = Ok lines /\ mm_all_lines ns' es [(1, MMLeaf 0)] = Ok lines' /\
    mm_text lines = mm_text lines' /\ style_label (ns 0) = Some (String quote "") /\ style_label (ns' 0) = Some "#quot;"%string) /\
  (exists (ns ns' : nat -> node_style string pres_style) (es : nat -> nat -> edge_style) lines lines',
    mm_all_lines ns es [(1, MMLeaf 0)] = Ok lines /\ mm_all_lines ns' es [(1, MMLeaf 0)] = Ok lines' /\
    mm_text lines = mm_text lines' /\ style_label (ns 0) = Some (String newline "") /\ style_label (ns' 0) = Some "<br>"%string) /\
  (exists (ns ns' : nat -> node_style string pres_style) (es : nat -> nat -> edge_style) lines lines',
    mm_all_lines ns es [(1, MMLeaf 0)] = Ok lines /\ mm_all_lines ns' es [(1, MMLeaf 0)] = Ok lines' /\
    mm_text lines = mm_text lines' /\ css (ns_attrs (ns 0)) = ["color:red,fill:blue"]%string /\ css (ns_attrs (ns' 0)) = ["color:red"; "fill:blue"]%string).
Proof. exact C130_mermaid_text_refuted_pf. Qed.
Print Assumptions C130_mermaid_text_refuted.

(** If labels are free of escapes, attributes of commas and line feeds, and edge styles are
not custom, the text is written, and two charts with the same text draw the same
leaves, blocks and links in the same order, at the same indentation, with the same
labels and attributes. The types of ports of the two charts may differ. *)
Theorem C130_mermaid_text_partial :
forall E E' (ns ns' : nat -> node_style string pres_style) (es : E -> E -> edge_style) (es' : E' -> E' -> edge_style) out out',
  plain_styles ns es -> plain_styles ns' es' ->
  exists lines lines', mm_all_lines ns es out = Ok lines /\ mm_all_lines ns' es' out' = Ok lines' /\
    (mm_text lines = mm_text lines' -> mm_draw ns es <$> out = mm_draw ns' es' <$> out').
Proof. exact C130_mermaid_text_partial_pf. Qed.
Print Assumptions C130_mermaid_text_partial.

(** A chart with a block, a labelled leaf with an attribute and a quote in its label, and a labelled link. *)
Definition ex_ns (n : nat) : node_style string pres_style :=
  match n with 0 => NHidden | 1 => NBoxed (String quote "a#b") (PStyle (Some "red"%string) None None None) | _ => NBox "c" end.
Definition ex_es (x y : nat) : edge_style := Labelled "l" Dotted.
Example C130_ex : plain_styles ex_ns ex_es /\
  mm_draw ex_ns ex_es <$> [(1, MMStart 0); (2, MMLeaf 1); (2, MMLeaf 2); (2, MMLink 1 0 2 0); (1, MMEnd)]
    = [(1, DrBlock 0 None []); (2, DrLeaf 1 (Some (String quote "a#b")) ["color:red"%string]); (2, DrLeaf 2 (Some "c"%string) []);
       (2, DrLink 1 false (Some "l"%string) 2); (1, DrEnd)].
Proof.
  assert (Hn : forall c t s, free_of c s -> ~ contains_text (String c t) s).
  { intros c t s Hf (a & b & ->). induction a as [|x a IH]; [destruct Hf as [Hf _]; by apply Hf|]. destruct Hf as [_ Hf]. by apply IH. }
  split; [|reflexivity]. split; [|split].
  - intros [|[|n]] l [= <-].
    + split; [|apply (Hn "<"%char); vm_compute; repeat split; discriminate]. intros (a & b & E).
      destruct a as [|x1 [|x2 [|x3 [|x4 [|x5 a]]]]]; discriminate E.
    + split; [apply (Hn "#"%char)|apply (Hn "<"%char)]; vm_compute; repeat split; discriminate.
  - intros [|[|n]]; (split; [intros s Hs t ->; cbn in Hs; rewrite !elem_of_cons, elem_of_nil in Hs; naive_solver
      | intros s Hs; cbn in Hs; rewrite ?elem_of_cons, elem_of_nil in Hs]); try done.
    all: try (destruct Hs as [-> |[]]; vm_compute; repeat split; discriminate).
  - intros x y. split; [done|]. intros l [= <-]. split; [apply (Hn "#"%char)|apply (Hn "<"%char)]; vm_compute; repeat split; discriminate.
Qed.
