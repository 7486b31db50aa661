(** What the text of a mermaid chart draws. *)
From Coq Require Import Ascii String.
From stdpp Require Import pretty.
From Verif Require Export DotTextSpec.

(** A leaf or block with its number, its label (none if it is hidden) and the
    attributes set; the end of a block; a link with its kind (solid or not)
    and its label, if it has one. *)
Inductive drawn :=
| DrLeaf (n : nat) (label : option string) (attrs : list string)
| DrBlock (n : nat) (label : option string) (attrs : list string)
| DrEnd
| DrLink (a : nat) (solid : bool) (label : option string) (b : nat).

Definition style_label {A} (s : node_style string A) : option string :=
  match s with NHidden => None | NBox l | NBoxed l _ => Some l end.
Definition is_solid (e : edge_style) : bool := match strip_label e with Solid => true | _ => false end.
Definition edge_label (e : edge_style) : option string := match e with Labelled l _ => Some l | _ => None end.
Definition mm_draw {E} (ns : nat -> node_style string pres_style) (es : E -> E -> edge_style) (i : nat * mm_item E) : nat * drawn :=
  (i.1, match i.2 with
        | MMLeaf n => DrLeaf n (style_label (ns n)) (css (ns_attrs (ns n)))
        | MMStart n => DrBlock n (style_label (ns n)) (css (ns_attrs (ns n)))
        | MMEnd => DrEnd
        | MMLink a x b y => DrLink a (is_solid (es x y)) (edge_label (es x y)) b
        end).

(** The label contains neither of the texts that stand for a quote and a line feed. *)
Definition no_escapes (l : string) : Prop := ~ contains_text "#quot;" l /\ ~ contains_text "<br>" l.
(** Labels do not contain escapes, attributes have neither commas nor line feeds, and
    no edge style is custom. *)
Definition plain_styles {E} (ns : nat -> node_style string pres_style) (es : E -> E -> edge_style) : Prop :=
  (forall n l, style_label (ns n) = Some l -> no_escapes l) /\
  (forall n, attrs_free (ns_attrs (ns n)) /\ forall s, s ∈ css (ns_attrs (ns n)) -> free_of "," s) /\
  (forall x y, mm_custom (es x y) = None /\ forall l, edge_label (es x y) = Some l -> no_escapes l).
