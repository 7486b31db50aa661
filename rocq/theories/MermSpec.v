(** What the mermaid output of a graph with a hierarchy should contain. *)
From Coq Require Import Ascii String.
From stdpp Require Import pretty.
From Verif Require Export MermModel DotSpec.
Open Scope list_scope.

Section spec.
  Context {E : Type}.
  Definition mm_node (i : mm_item E) : option nat := match i with MMLeaf n | MMStart n => Some n | _ => None end.
  Definition mm_link (i : mm_item E) : option (E * E) := match i with MMLink _ x _ y => Some (x, y) | _ => None end.
  (** Read the output, keeping the list of open blocks, innermost first. The
      result is the list of nodes and links with the blocks around them; there is
      none if the blocks do not match or the indentation is not one more than the
      number of open blocks. *)
  Fixpoint placed (open : list nat) (out : list (nat * mm_item E)) : option (list (list nat * mm_item E)) :=
    match out with
    | [] => match open with [] => Some [] | _ => None end
    | (ind, i) :: out =>
        match i with
        | MMEnd => match open with [] => None | _ :: open => if decide (ind = S (length open)) then placed open out else None end
        | _ =>
            if decide (ind = S (length open)) then
              r ← placed (match i with MMStart n => n :: open | _ => open end) out; Some ((open, i) :: r)
            else None
        end
    end.
  (** The nodes and the links of a list of placed items, in order. *)
  Definition the_nodes (items : list (list nat * mm_item E)) : list nat := omap (fun i => mm_node i.2) items.
  Definition the_links (items : list (list nat * mm_item E)) : list (E * E) := omap (fun i => mm_link i.2) items.
End spec.

(** [blocks h N n os]: [os] are the ancestors of [n] in the hierarchy below its
    topmost visible one, innermost first. *)
Inductive blocks (h : hier) (N : nat -> Prop) : nat -> list nat -> Prop :=
| blocks_top n : (forall p, h_parent h n = Some p -> ~ N p) -> blocks h N n []
| blocks_in n p os : h_parent h n = Some p -> N p -> blocks h N p os -> blocks h N n (p :: os).
(** The nodes below [n], each before its children, children in order. *)
Inductive tree_order (ch : nat -> list nat) : nat -> list nat -> Prop :=
| pre_node n ls : Forall2 (tree_order ch) (ch n) ls -> tree_order ch n (n :: concat ls).
(** [c] is the lowest common ancestor of [a] and [b]. *)
Definition is_lca (h : hier) (a b c : nat) : Prop :=
  anc h c a /\ anc h c b /\ forall d, anc h d a -> anc h d b -> anc h d c.

(** The custom style below the labels of an edge style. *)
Fixpoint mm_custom (e : edge_style) : option string :=
  match e with Custom s => Some s | Labelled _ e => mm_custom e | _ => None end.
(** The presentation attributes have no line feeds. *)
Definition attrs_free (a : pres_style) : Prop :=
  forall s, s ∈ [ps_color a; ps_fill a; ps_stroke a; ps_width a] -> forall t, s = Some t -> free_of newline t.
(** The lines of a text, each ended by a line feed; what comes after the last one
    is one more line unless it is empty. *)
Fixpoint split_lines (s : string) : list string :=
  match s with
  | EmptyString => []
  | String c s =>
      if Ascii.eqb c newline then EmptyString :: split_lines s
      else match split_lines s with [] => [String c EmptyString] | l :: ls => String c l :: ls end
  end.
(** The parts of a text between the characters [sep]. *)
Fixpoint split_on (sep : ascii) (s : string) : list string :=
  match s with
  | EmptyString => [EmptyString]
  | String c s =>
      if Ascii.eqb c sep then EmptyString :: split_on sep s
      else match split_on sep s with [] => [String c EmptyString] | l :: ls => String c l :: ls end
  end.
(** The attributes that are set, as written in a style sheet. *)
Definition css (a : pres_style) : list string :=
  omap (fun x => v ← x.2; Some (x.1 +:+ ":" +:+ v))
    [("color", ps_color a); ("fill", ps_fill a); ("stroke", ps_stroke a); ("stroke-width", ps_width a)]%string.
