(** What the graphviz output of a view should contain. *)
From Coq Require Import Ascii String Sorted.
From Verif Require Export DotModel ViewSpec.

Section spec.
  Context {E L A S : Type} (V : lview E).
  (** [off] is the position of the port among the ports of its node in its direction *)
  Definition offsets_ok (N : nat -> Prop) (off : nat -> hres nat) : Prop :=
    forall n d i p, N n -> lv_ports V n d !! i = Some p -> off p = HOk i.
  (** The nodes that are not hidden. *)
  Definition drawn_node (ns : nat -> node_style L A) (n : nat) : bool := match ns n with NHidden => false | _ => true end.
  Definition drawn_port (ps : nat -> port_style L) (p : nat) : bool := match ps p with PHidden => false | _ => true end.

  (** The node statements and the edge statements of the output, in order. *)
  Definition node_of (i : dot_item L A S) : option nat := match i with DNode n _ _ _ _ _ => Some n | _ => None end.
  Definition is_edge (i : dot_item L A S) : bool := match i with DEdge _ _ _ _ _ => true | _ => false end.
  Definition dot_nodes (out : list (dot_item L A S)) : list nat := omap node_of out.
  Definition dot_edges (out : list (dot_item L A S)) : list (dot_item L A S) := filter (fun i => is_edge i = true) out.
  Definition hier_node (i : dot_item L A S) : option nat := match i with DHier n => Some n | _ => None end.
  Definition hier_edge (i : dot_item L A S) : option (nat * nat) := match i with DHierEdge p c => Some (p, c) | _ => None end.

  (** The edge statement joins the offsets of the two ends of the link, with its style. *)
  Definition draws (es : E -> E -> S) (x : E * E) (i : dot_item L A S) : Prop :=
    exists a oa b ob, i = DEdge a oa b ob (es x.1 x.2) /\
      lv_ports V a Outgoing !! oa = Some (lv_port V x.1) /\ lv_ports V b Incoming !! ob = Some (lv_port V x.2).
  (** A table row has one cell for each port that is not hidden, in order, with the
      offset as identifier and the style of the port; and fills the table. *)
  Definition row_of (ps : nat -> port_style L) (n : nat) (d : dir) (width : nat) (row : list (cell L * nat)) : Prop :=
    (forall i, i ∈ c_id <$> (fst <$> row) <-> exists p, lv_ports V n d !! i = Some p /\ drawn_port ps p = true) /\
    StronglySorted lt (c_id <$> (fst <$> row)) /\
    (forall c k, (c, k) ∈ row -> exists p b, lv_ports V n d !! c_id c = Some p /\
       ps p = (if c_border c then PBoxed (c_label c) b else PPlain (c_label c) b) /\ c_shown c = (if b then Some (c_id c) else None)) /\
    (row <> [] -> sum_list (snd <$> row) = width).
End spec.

(** [c] does not occur in [s]. *)
Fixpoint free_of (c : ascii) (s : string) : Prop :=
  match s with EmptyString => True | String x s => x <> c /\ free_of c s end.
(** [s] occurs in [t]. *)
Definition occurs_in (s t : string) : Prop := exists u v, t = (u ++ s ++ v)%string.
