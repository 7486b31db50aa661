(** [Weights] (weights.rs): two dense maps, for nodes and for ports. *)
From Verif Require Export MapModel PGModel.

Section weights.
  Context {A B : Type} (adef : A) (bdef : B).   (* [N::default()] and [P::default()] *)

  (** weights.rs:53-58 *)
  Record weights := mkW { w_nodes : umap A; w_ports : umap B }.

  (** weights.rs:69-74 [new], 92-97 [default] *)
  Definition w_new : weights := mkW (um_new adef) (um_new bdef).
  (** weights.rs:78-83 [with_capacity]; capacities are not part of the state *)
  Definition w_with_capacity (nodes ports : nat) : weights := mkW (um_new adef) (um_new bdef).
  (** weights.rs:107-109 [Index<NodeIndex>] *)
  Definition w_node (ws : weights) (n : nat) : A := um_get (w_nodes ws) n.
  (** weights.rs:117-119 [IndexMut<NodeIndex>], and the write *)
  Definition w_set_node (ws : weights) (n : nat) (v : A) : res weights :=
    m ← um_set (w_nodes ws) n v; Ok (mkW m (w_ports ws)).
  (** weights.rs:129-131 [Index<PortIndex>] *)
  Definition w_port (ws : weights) (p : nat) : B := um_get (w_ports ws) p.
  (** weights.rs:139-141 [IndexMut<PortIndex>], and the write *)
  Definition w_set_port (ws : weights) (p : nat) (v : B) : res weights :=
    m ← um_set (w_ports ws) p v; Ok (mkW (w_nodes ws) m).
  (** The maps are public fields; calls on them go through these. *)
  Definition w_on_nodes (f : umap A -> res (umap A)) (ws : weights) : res weights :=
    m ← f (w_nodes ws); Ok (mkW m (w_ports ws)).
  Definition w_on_ports (f : umap B -> res (umap B)) (ws : weights) : res weights :=
    m ← f (w_ports ws); Ok (mkW (w_nodes ws) m).
  (** weights.rs:37-38: [weights.nodes.shrink_to(a); weights.ports.shrink_to(b)] *)
  Definition w_shrink (ws : weights) (a b : nat) : weights :=
    mkW (um_shrink_to (w_nodes ws) a) (um_shrink_to (w_ports ws) b).
End weights.
Arguments weights : clear implicits.

(** weights.rs:31-33, the documented callback:
    [op.new_index().map(|new| weights.ports.swap(old, new))] *)
Definition move_by_swap {V} (m : umap V) (x : nat * port_op) : res (umap V) :=
  match x.2 with Moved new => um_swap m x.1 new | Removed _ => Ok m end.
(** The same with [weights.ports.rekey(old, op.new_index())]. *)
Definition move_by_rekey {V} (vdef : V) (m : umap V) (x : nat * port_op) : res (umap V) :=
  um_rekey vdef m x.1 (match x.2 with Moved new => Some new | Removed _ => None end).
(** The callbacks of compactions, [|old, new|] with [swap] or [rekey]. *)
Definition renum_by_swap {V} (m : umap V) (x : nat * nat) : res (umap V) := um_swap m x.1 x.2.
Definition renum_by_rekey {V} (vdef : V) (m : umap V) (x : nat * nat) : res (umap V) := um_rekey vdef m x.1 (Some x.2).
