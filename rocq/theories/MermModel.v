(** Model of the mermaid renderer, src/render/mermaid.rs.

    Simplified: the style closures are functions. The order in which a [HashMap]
    is iterated is a parameter ([shuffle]). Loops carry fuel; [HLoop] is running
    out of it. *)
From Coq Require Import Ascii String.
From stdpp Require Import gmap pretty.
From Verif Require Export DotModel.
Open Scope list_scope.

(** What the builder is asked to write: [add_leaf], [start_subgraph],
    [end_subgraph], [add_link] (mermaid.rs:322-408). *)
Inductive mm_item (E : Type) := MMLeaf (n : nat) | MMStart (n : nat) | MMEnd | MMLink (a : nat) (x : E) (b : nat) (y : E).
Arguments MMLeaf {E}. Arguments MMStart {E}. Arguments MMEnd {E}. Arguments MMLink {E}.
(** mermaid.rs:195-200 [ExplorationStep] *)
Inductive mm_step := SExplore (n : nat) | SExit (n : nat).

Section merm.
  Context {E : Type} (V : lview E).
  (** Each item with the indentation at which it is written. *)
  Notation out_t := (list (nat * mm_item E)).
  (** mermaid.rs:115-119 [edges] *)
  Notation edges_t := (gmap (option nat) (list (nat * E * nat * E))).

  (** mermaid.rs:173-180 [is_root] *)
  Definition mm_is_root (forest : option hier) (n : nat) : bool :=
    match forest with
    | None => true
    | Some h => h_is_root h n || match h_parent h n with None => true | Some p => negb (lv_has_node V p) end
    end.
  (** mermaid.rs:184-186 [is_leaf] *)
  Definition mm_is_leaf (forest : option hier) (n : nat) : bool :=
    match forest with None => true | Some h => negb (h_has_children h n) end.
  (** mermaid.rs:189-191 [node_children], run from the back by [rev] *)
  Fixpoint mm_back (fuel : nat) (h : hier) (s : children_st) : hres (list nat) :=
    match fuel with
    | 0 => HLoop
    | S fuel =>
        match children_next_back h s with
        | Panic => HPanic
        | Ok (None, _) => HOk []
        | Ok (Some c, s) => l ← mm_back fuel h s; HOk (c :: l)
        end
    end.
  Definition mm_children_rev (fuel : nat) (forest : option hier) (n : nat) : hres (list nat) :=
    match forest with None => HOk [] | Some h => mm_back fuel h (h_children h n) end.

  (** mermaid.rs:142-150 *)
  Fixpoint mm_queue (fuel : nat) (lc : option lca_t) (ls : list (E * E)) (edges : edges_t) : hres edges_t :=
    match ls with
    | [] => HOk edges
    | (x, y) :: ls =>
        match lv_pnode V (lv_port V x), lv_pnode V (lv_port V y) with
        | Some a, Some b =>
            k ← match lc with None => HOk None | Some l => lca_lca fuel l a b end;
            mm_queue fuel lc ls (<[k := default [] (edges !! k) ++ [(a, x, b, y)]]> edges)
        | _, _ => HPanic
        end
    end.
  Definition mm_links (indent : nat) (es : list (nat * E * nat * E)) : out_t :=
    (fun '(a, x, b, y) => (indent, MMLink a x b y)) <$> es.

  (** mermaid.rs:124-162, the [while let] loop; [F] is the fuel of the loops inside *)
  Fixpoint mm_loop (F : nat) (forest : option hier) (lc : option lca_t) (fuel : nat)
      (stack : list mm_step) (edges : edges_t) (indent : nat) (out : out_t) : hres (out_t * edges_t * nat) :=
    match fuel with
    | 0 => HLoop
    | S fuel =>
        match stack with
        | [] => HOk (out, edges, indent)
        | SExplore n :: stack =>
            ls ← lv_links V n Outgoing;
            edges ← mm_queue F lc ls edges;
            if mm_is_leaf forest n then mm_loop F forest lc fuel stack edges indent (out ++ [(indent, MMLeaf n)])
            else
              cs ← mm_children_rev F forest n;
              mm_loop F forest lc fuel (rev (SExplore <$> cs) ++ SExit n :: stack) edges (indent + 1) (out ++ [(indent, MMStart n)])
        | SExit n :: stack =>
            let out := out ++ mm_links indent (default [] (edges !! Some n)) in
            indent ← h_sub indent 1;
            mm_loop F forest lc fuel stack (delete (Some n) edges) indent (out ++ [(indent, MMEnd)])
        end
    end.
  (** mermaid.rs:95-170 [finish], [explore_forest] *)
  Definition mm_finish (shuffle : list (option nat * list (nat * E * nat * E)) -> list (option nat * list (nat * E * nat * E)))
      (fuel : nat) (forest : option hier) : hres out_t :=
    nodes ← lv_nodes V;
    lc ← match forest with None => HOk None | Some h => l ← lca_new fuel nodes h; HOk (Some l) end;
    '(out, edges, indent) ← mm_loop fuel forest lc fuel
      (rev (SExplore <$> filter (fun n => mm_is_root forest n = true) nodes)) ∅ 1 [];
    HOk (out ++ mm_links indent (concat (snd <$> shuffle (map_to_list edges)))).
End merm.

(** ** The text of the output *)
(** render.rs:17-58 [PresentationStyle] *)
Record pres_style := PStyle { ps_color : option string; ps_fill : option string; ps_stroke : option string; ps_width : option string }.
Definition pres_default : pres_style := PStyle None None None None.
(** [PresentationStyle::is_empty] *)
Definition pres_empty (a : pres_style) : bool :=
  match a with PStyle None None None None => true | _ => false end.
(** [itertools::join] *)
Fixpoint str_join (sep : string) (l : list string) : string :=
  match l with [] => "" | [s] => s | s :: l => s +:+ sep +:+ str_join sep l end.
(** mermaid.rs:430-446 [encode_presentation_attrs] *)
Definition encode_attrs (a : pres_style) : string :=
  str_join "," (option_list (String.append "color:" <$> ps_color a) ++ option_list (String.append "fill:" <$> ps_fill a)
    ++ option_list (String.append "stroke:" <$> ps_stroke a) ++ option_list (String.append "stroke-width:" <$> ps_width a)).
(** render.rs:110-116 [NodeStyle::attrs] *)
Definition ns_attrs (s : node_style string pres_style) : pres_style :=
  match s with NBoxed _ a => a | _ => pres_default end.

Section text.
  Context {E : Type} (ns : nat -> node_style string pres_style) (es : E -> E -> edge_style).
  (** A line with its indentation, before the line feed is added. *)
  Definition mm_style (indent n : nat) (a : pres_style) : list (nat * string) :=
    if pres_empty a then [] else [(indent, "style " +:+ pretty n +:+ " " +:+ encode_attrs a)].
  (** mermaid.rs:322-408: the lines written for an item *)
  Definition mm_lines (i : nat * mm_item E) : res (list (nat * string)) :=
    let '(ind, i) := i in
    match i with
    | MMLeaf n =>
        Ok match ns n with
           | NHidden => [(ind, pretty n +:+ ":::hidden")]
           | NBox l => [(ind, pretty n +:+ "[" +:+ encode_label (pretty n) l +:+ "]")]
           | NBoxed l a => (ind, pretty n +:+ "[" +:+ encode_label (pretty n) l +:+ "]") :: mm_style ind n a
           end
    | MMStart n =>
        Ok ((ind, "subgraph " +:+ pretty n +:+ " [" +:+
              match ns n with NHidden => " " | NBox l | NBoxed l _ => encode_label (pretty n) l end +:+ "]")
            :: (ind + 1, "direction LR") :: mm_style (ind + 1) n (ns_attrs (ns n)))
    | MMEnd => Ok [(ind, "end")]
    | MMLink a x b y => s ← as_mermaid_str (es x y); Ok [(ind, pretty a +:+ s +:+ pretty b)]
    end.
  Fixpoint mm_all_lines (out : list (nat * mm_item E)) : res (list (nat * string)) :=
    match out with [] => Ok [] | i :: out => l ← mm_lines i; k ← mm_all_lines out; Ok (l ++ k) end.
  (** mermaid.rs:295-319 [push_line], [push_strings] *)
  Fixpoint str_repeat (s : string) (k : nat) : string := match k with 0 => "" | S k => s +:+ str_repeat s k end.
  Definition mm_push (l : nat * string) : string := str_repeat "    " l.1 +:+ l.2 +:+ String newline "".
  (** mermaid.rs:281-291 [init], 411-413 [finish] *)
  Definition mm_text (lines : list (nat * string)) : string :=
    "graph LR" +:+ String newline "" +:+ foldr String.append "" (mm_push <$> lines).
End text.
