(** Vocabulary for the order of boundary ports. *)
From Verif Require Export PordModel BoundSpec.

(** A link from an output port of [u] to an input port of [v]. *)
Definition vedge {E} (V : lview E) (R : E -> E -> Prop) (u v : nat) : Prop :=
  exists x y, R x y /\ lv_pnode V (lv_port V x) = Some u /\ lv_pdir V (lv_port V x) = Some Outgoing /\ lv_pnode V (lv_port V y) = Some v.

(** The [j]-th output of the boundary can be reached from its [i]-th input: the
    node of the one from the node of the other. *)
Definition port_path {E} (V : lview E) (R : E -> E -> Prop) (B : boundary) (i j : nat) : Prop :=
  exists p q n m, bd_inputs B !! i = Some p /\ bd_outputs B !! j = Some q /\
    lv_pnode V p = Some n /\ lv_pnode V q = Some m /\ rtc (vedge V R) n m.

(** The ordering [o] holds the relation [Q] between inputs and outputs. *)
Definition holds_order (o : pord) (inputs outputs : nat) (Q : nat -> nat -> Prop) : Prop :=
  length (po_reachable o) = inputs /\ length (po_reaching o) = outputs /\
  (forall i s, po_reachable o !! i = Some s -> forall z, z ∈ s <-> exists j, z = BP j Outgoing /\ Q i j) /\
  (forall j s, po_reaching o !! j = Some s -> forall z, z ∈ s <-> exists i, z = BP i Incoming /\ Q i j).

(** A boundary without repeated ports, whose ports belong to the view and have no
    link in it: what is left of a boundary in the subgraph it cuts out, when no
    link joins two of its ports. *)
Record cut_boundary {E} (V : lview E) (N : nat -> Prop) (R : E -> E -> Prop) (B : boundary) : Prop := CutBoundary {
  cb_inputs : NoDup (bd_inputs B);
  cb_outputs : NoDup (bd_outputs B);
  cb_ports p : p ∈ bd_ports B -> port_in V N p;
  cb_unlinked x y : R x y -> lv_port V x ∉ bd_ports B;
}.
