(** Model of the graphviz renderer, src/render/dot.rs, and of the labels and
    edge styles of src/render.rs and src/render/mermaid.rs.

    Simplified: the output is the list of the statements written, not their text
    (ports, numbers and label positions are kept, punctuation is not); labels of
    nodes and ports and presentation attributes are of any type; the style
    closures are functions; [port_offset] is a parameter (it is delegated to the
    underlying graph and not part of [lview]). *)
From Coq Require Import Ascii String.
From Verif Require Export ViewModel LcaModel.

(** render.rs:64-79 [NodeStyle] *)
Inductive node_style (L A : Type) := NHidden | NBox (l : L) | NBoxed (l : L) (a : A).
Arguments NHidden {L A}. Arguments NBox {L A}. Arguments NBoxed {L A}.
(** render.rs:128-137 [PortStyle] *)
Inductive port_style (L : Type) := PHidden | PPlain (l : L) (show_offset : bool) | PBoxed (l : L) (show_offset : bool).
Arguments PHidden {L}. Arguments PPlain {L}. Arguments PBoxed {L}.

(** dot.rs:292-299 [PortCellStrings]: the offset in the identifier, whether there
    is a border, the offset shown if any, the label; and the [colspan] given to
    the cell in 213-221 *)
Record cell (L : Type) := Cell { c_id : nat; c_border : bool; c_shown : option nat; c_label : L }.
Arguments Cell {L}. Arguments c_id {L}. Arguments c_border {L}. Arguments c_shown {L}. Arguments c_label {L}.
(** A statement of the output. *)
Inductive dot_item (L A S : Type) :=
| DNode (n : nat) (label : L) (attrs : option A) (width : nat) (inputs outputs : list (cell L * nat)) (* dot.rs:138-153 *)
| DEdge (a oa b ob : nat) (style : S)                                                                (* dot.rs:230-236 *)
| DHier (n : nat)                                                                                    (* dot.rs:244-249 *)
| DHierEdge (p c : nat).                                                                             (* dot.rs:252-265 *)
Arguments DNode {L A S}. Arguments DEdge {L A S}. Arguments DHier {L A S}. Arguments DHierEdge {L A S}.

Section dot.
  Context {E L A S : Type} (V : lview E) (off : nat -> hres nat).
  Context (ns : nat -> node_style L A) (ps : nat -> port_style L) (es : E -> E -> S).

  (** dot.rs:168-196 [get_port_strings] *)
  Definition dot_cell (i p : nat) : option (cell L) :=
    match ps p with
    | PHidden => None
    | PPlain l b => Some (Cell i false (if b then Some i else None) l)
    | PBoxed l b => Some (Cell i true (if b then Some i else None) l)
    end.
  Definition dot_cells (n : nat) (d : dir) : list (cell L) := omap id (imap dot_cell (lv_ports V n d)).
  (** dot.rs:204-216 [get_ports_row_dot] *)
  Definition dot_row (cs : list (cell L)) (others : nat) : list (cell L * nat) := (fun c => (c, others)) <$> cs.
  (** dot.rs:219-237 [get_edge_dot] *)
  Definition dot_edge (n : nat) (x : E * E) : hres (dot_item L A S) :=
    o ← off (lv_port V x.1);
    match lv_pnode V (lv_port V x.2) with
    | None => HPanic
    | Some b => o' ← off (lv_port V x.2); HOk (DEdge n o b o' (es x.1 x.2))
    end.
  (** dot.rs:114-164, one node *)
  Definition dot_node (n : nat) : hres (list (dot_item L A S)) :=
    let shown l a :=
      let ins := dot_cells n Incoming in
      let outs := dot_cells n Outgoing in
      let ins_len := Nat.max (length ins) 1 in
      let outs_len := Nat.max (length outs) 1 in
      ls ← hmap (lv_plinks V) (lv_ports V n Outgoing);
      edges ← hmap (dot_edge n) (concat ls);
      HOk (DNode n l a (ins_len * outs_len) (dot_row ins outs_len) (dot_row outs ins_len) :: edges) in
    match ns n with
    | NBoxed l a => shown l (Some a)
    | NBox l => shown l None
    | NHidden => HOk []
    end.
  (** dot.rs:239-268 [hierarchy_strings], one node *)
  Definition dot_hier (fuel : nat) (h : hier) (n : nat) : hres (list (dot_item L A S)) :=
    cs ← h_children_list fuel h (h_children h n);
    HOk (DHier n :: (DHierEdge n <$> filter (fun c => lv_has_node V c = true) cs)).
  (** dot.rs:77-87 [finish] *)
  Definition dot_finish (fuel : nat) (forest : option hier) : hres (list (dot_item L A S)) :=
    nodes ← lv_nodes V;
    a ← hmap dot_node nodes;
    match forest with
    | None => HOk (concat a)
    | Some h => b ← hmap (dot_hier fuel h) nodes; HOk (concat a ++ concat b)
    end.
End dot.

(** portgraph.rs:346-364 and index.rs: the index of the offset of a port *)
Definition pg_off (w : N) (g : pg) (p : nat) : hres nat :=
  o ← lift (port_offset w g p); o ← lift (unwrap o); i ← lift (po_index w o); HOk (N.to_nat i).

(** ** Labels and edge styles, as strings *)
(** [str::replace] of one character *)
Fixpoint str_replace (c : ascii) (by_ : string) (s : string) : string :=
  match s with
  | EmptyString => EmptyString
  | String x s => if Ascii.eqb x c then (by_ ++ str_replace c by_ s)%string else String x (str_replace c by_ s)
  end.
(** the double quote and the line feed *)
Definition quote : ascii := ascii_of_nat 34.
Definition newline : ascii := ascii_of_nat 10.
(** mermaid.rs:422-427 [encode_label] *)
Definition encode_label (id label : string) : string :=
  match label with
  | EmptyString => id
  | _ => (String quote EmptyString ++ str_replace newline "<br>" (str_replace quote "#quot;" label) ++ String quote EmptyString)%string
  end.
(** render.rs:164-177 [EdgeStyle] *)
Inductive edge_style := Solid | Dotted | Dashed | Labelled (l : string) (e : edge_style) | Custom (s : string).
(** render.rs:183-188 *)
Definition with_label (e : edge_style) (l : string) : edge_style :=
  match e with Labelled _ e => Labelled l e | _ => Labelled l e end.
(** render.rs:191-196 *)
Fixpoint strip_label (e : edge_style) : edge_style := match e with Labelled _ e => strip_label e | e => e end.
(** render.rs:199-208 *)
Fixpoint as_dot_str (e : edge_style) : string :=
  match e with
  | Solid => "" | Dotted => "dotted" | Dashed => "dashed" | Custom s => s | Labelled _ e => as_dot_str e
  end.
(** render.rs:211-232; [unreachable!] panics *)
Definition as_mermaid_str (e : edge_style) : res string :=
  match e with
  | Solid => Ok "-->"%string
  | Dotted => Ok "-.->"%string
  | Dashed => Ok "-.->"%string
  | Custom s => Ok s
  | Labelled l e =>
      let l := encode_label "" l in
      match strip_label e with
      | Solid => Ok ("--" ++ l ++ "-->")%string
      | Dotted => Ok ("-." ++ l ++ ".->")%string
      | Dashed => Ok ("-." ++ l ++ ".->")%string
      | Custom s => Ok s
      | Labelled _ _ => Panic
      end
  end.
