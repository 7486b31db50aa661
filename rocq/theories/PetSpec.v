(** What petgraph's traits ask for (petgraph 0.8, module [visit]), over the nodes
    [N] and the links [R] of a view. *)
From Verif Require Export PetModel ViewSpec.

(** [e] is an edge reference with identifier [x]; its source is the node of the
    first end of [x] and its target that of the second *)
Definition refers_to {E} (V : lview E) (e : edge_ref E) (x : E * E) : Prop :=
  er_id e = x /\ lv_pnode V (lv_port V x.1) = Some (er_source e) /\ lv_pnode V (lv_port V x.2) = Some (er_target e).

(** [L] lists once each of the links at the ports of node [n] in direction [d],
    seen from the node: the pair of the end at [n] and of the other end *)
Definition lists_links_at {E} (V : lview E) (R : E -> E -> Prop) (n : nat) (d : dir) (L : list (E * E)) : Prop :=
  NoDup L /\ forall x y, (x, y) ∈ L <-> R x y /\ lv_pnode V (lv_port V x) = Some n /\ lv_pdir V (lv_port V x) = Some d.

(** A link leads from node [a] to node [b]. *)
Definition has_edge {E} (V : lview E) (R : E -> E -> Prop) (a b : nat) : Prop :=
  exists x y, R x y /\ lv_pdir V (lv_port V x) = Some Outgoing /\
    lv_pnode V (lv_port V x) = Some a /\ lv_pnode V (lv_port V y) = Some b.

(** Calls on a visit map. *)
Inductive vcall := VVisit (n : nat) | VUnvisit (n : nat) | VReset.
Definition vrun1 (m : list bool) (c : vcall) : res (list bool) :=
  match c with
  | VVisit n => '(m, _) ← pet_visit m n; Ok m
  | VUnvisit n => '(m, _) ← pet_unvisit m n; Ok m
  | VReset => Ok (pet_reset_map m)
  end.
Fixpoint vrun (m : list bool) (cs : list vcall) : res (list bool) :=
  match cs with [] => Ok m | c :: cs => m ← vrun1 m c; vrun m cs end.
(** The nodes visited after the calls [cs], the latest call first. *)
Fixpoint visited_after (cs : list vcall) (n : nat) : bool :=
  match cs with
  | [] => false
  | VVisit k :: cs => if decide (n = k) then true else visited_after cs n
  | VUnvisit k :: cs => if decide (n = k) then false else visited_after cs n
  | VReset :: _ => false
  end.
