(** What the mermaid text determines. *)
From Coq Require Import Ascii String.
From stdpp Require Import pretty.
From Verif Require Export MTextSpec MTextProofs.
Open Scope list_scope.

Lemma C130_mermaid_text_refuted_pf :
(exists (ns ns' : nat -> node_style string pres_style) (es : nat -> nat -> edge_style) lines lines',
    mm_all_lines ns es [(1, MMLeaf 0)] = Ok lines /\ mm_all_lines ns' es [(1, MMLeaf 0)] = Ok lines' /\
    mm_text lines = mm_text lines' /\ style_label (ns 0) = Some (String quote "") /\ style_label (ns' 0) = Some "#quot;"%string) /\
  (exists (ns ns' : nat -> node_style string pres_style) (es : nat -> nat -> edge_style) lines lines',
    mm_all_lines ns es [(1, MMLeaf 0)] = Ok lines /\ mm_all_lines ns' es [(1, MMLeaf 0)] = Ok lines' /\
    mm_text lines = mm_text lines' /\ style_label (ns 0) = Some (String newline "") /\ style_label (ns' 0) = Some "<br>"%string) /\
  (exists (ns ns' : nat -> node_style string pres_style) (es : nat -> nat -> edge_style) lines lines',
    mm_all_lines ns es [(1, MMLeaf 0)] = Ok lines /\ mm_all_lines ns' es [(1, MMLeaf 0)] = Ok lines' /\
    mm_text lines = mm_text lines' /\ css (ns_attrs (ns 0)) = ["color:red,fill:blue"]%string /\ css (ns_attrs (ns' 0)) = ["color:red"; "fill:blue"]%string).
Proof.
split; [|split].
- exists (fun _ => NBox (String quote "")), (fun _ => NBox "#quot;"%string), (fun _ _ => Solid). eexists _, _. repeat split; reflexivity.
- exists (fun _ => NBox (String newline "")), (fun _ => NBox "<br>"%string), (fun _ _ => Solid). eexists _, _. repeat split; reflexivity.
- exists (fun _ => NBoxed "a"%string (PStyle (Some "red,fill:blue"%string) None None None)), (fun _ => NBoxed "a"%string (PStyle (Some "red"%string) (Some "blue"%string) None None)), (fun _ _ => Solid).
  eexists _, _. repeat split; reflexivity.
Qed.

Lemma C130_mermaid_text_partial_pf :
forall E E' (ns ns' : nat -> node_style string pres_style) (es : E -> E -> edge_style) (es' : E' -> E' -> edge_style) out out',
  plain_styles ns es -> plain_styles ns' es' ->
  exists lines lines', mm_all_lines ns es out = Ok lines /\ mm_all_lines ns' es' out' = Ok lines' /\
    (mm_text lines = mm_text lines' -> mm_draw ns es <$> out = mm_draw ns' es' <$> out').
Proof.
intros E E' ns ns' es es' out out' HP HP'.
assert (Ht : forall E (ns : nat -> node_style string pres_style) (es : E -> E -> edge_style) out, plain_styles ns es ->
  split_lines (mm_text (concat (item_lines ns es <$> out))) = "graph LR"%string :: ((fun l : nat * string => str_repeat "    " l.1 +:+ l.2)%string <$> concat (item_lines ns es <$> out))).
{ clear. intros E ns es out HP. pose proof HP as (_ & Ha & He). destruct (C117_text_pf E ns es out) as (lines & El & Hs & _).
  - intros n. apply Ha.
  - intros x y t Hc. rewrite (proj1 (He x y)) in Hc. discriminate Hc.
  - rewrite (all_lines_eq ns es HP) in El. injection El as <-. exact Hs. }
exists (concat (item_lines ns es <$> out)), (concat (item_lines ns' es' <$> out')).
split; [by apply all_lines_eq|]. split; [by apply all_lines_eq|]. intros EQ. apply (f_equal split_lines) in EQ. rewrite !Ht in EQ by done.
injection EQ as EQ. apply lines_inj in EQ; [|apply items_nonblank|apply items_nonblank]. by apply (items_inj ns ns' es es').
Qed.
