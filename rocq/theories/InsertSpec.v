(** Vocabulary for inserting a graph or view into a graph. *)
From Verif Require Export InsertModel BoundSpec.

(** The view [V] takes its ports from the graph [og]. *)
Definition view_over {E} (V : lview E) (og : pg) : Prop :=
  (forall n d, lv_ports V n d = ports og n d) /\ (forall p, lv_pnode V p = port_node og p) /\
  (forall p, lv_pdir V p = port_direction og p).

(** [R] is the returned map from old to new nodes. Port [p'] of the graph [g'] is
    the copy of port [p] of [og]: it has the same direction and offset at the
    new node. *)
Definition port_copy (og g' : pg) (R : list (nat * nat)) (p p' : nat) : Prop :=
  exists o n d k, (o, n) ∈ R /\ port_at og o d k p /\ port_at g' n d k p'.

(** The nodes [L] have been copied: [R] maps them to distinct new nodes, which
    have as many ports; the nodes that [had] holds of are kept, with their
    ports; [has] holds of these and the new ones. *)
Record nodes_copied (L : list nat) (og g g' : pg) (had has : nat -> Prop) (R : list (nat * nat)) : Prop := {
  nc_old : R.*1 = L;
  nc_new : NoDup R.*2;
  nc_has n : has n <-> had n \/ n ∈ R.*2;
  nc_fresh n : had n -> n ∉ R.*2;
  nc_kept n d : had n -> ports g' n d = ports g n d;
  nc_num o n d : (o, n) ∈ R -> num_ports g' n d = num_ports og o d;
}.
(** The links [Rl] of the view [V] have been copied: [f] maps the link ends of
    [V] to link ends of the new graph at the copied ports. [old] are the links
    before, [new] the links after, and [endp] gives the port of a link end. *)
Record links_copied {E E'} (V : lview E) (Rl : E -> E -> Prop) (og g' : pg) (endp : E' -> nat) (old new : E' -> E' -> Prop)
    (R : list (nat * nat)) (f : E -> E') : Prop := {
  lc_end x y : Rl x y -> port_copy og g' R (lv_port V x) (endp (f x));
  lc_inj x y x' y' : Rl x y -> Rl x' y' -> f x = f x' -> x = x';
  lc_fresh x y z : Rl x y -> ~ old (f x) z;
  lc_links a b : new a b <-> old a b \/ exists x y, Rl x y /\ a = f x /\ b = f y;
}.
