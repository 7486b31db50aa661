(** The order of the boundary ports (boundary.rs: [port_ordering] and
    [PortOrdering]). Hash and B-tree maps are finite maps. The order in which a
    hash set is iterated is a parameter. *)
From Verif Require Export BoundModel.

Definition bport_code (x : bport) : nat * bool := (bp_index x, match bp_dir x with Incoming => true | Outgoing => false end).
Definition bport_decode (x : nat * bool) : bport := BP x.1 (if x.2 then Incoming else Outgoing).
Lemma bport_decode_code x : bport_decode (bport_code x) = x.
Proof. by destruct x as [i []]. Qed.
Global Instance bport_eq_dec : EqDecision bport.
Proof. solve_decision. Defined.
Global Instance bport_countable : Countable bport := inj_countable' bport_code bport_decode bport_decode_code.

(** ** [PortOrdering] (boundary.rs:349-447) *)

(** boundary.rs:350-355 *)
Record pord := POrd { po_reachable : list (gset bport); po_reaching : list (gset bport) }.
(** boundary.rs:430-435 [new] *)
Definition pord_new (num_inputs num_outputs : nat) : pord := POrd (replicate num_inputs ∅) (replicate num_outputs ∅).
(** boundary.rs:438-446 [add_order]; [index] (360-362) is the index of the port *)
Definition po_add_order (o : pord) (from to : bport) : hres pord :=
  a ← lift (vget (po_reachable o) (bp_index from));
  b ← lift (vget (po_reaching o) (bp_index to));
  HOk (POrd (<[bp_index from := {[to]} ∪ a]> (po_reachable o)) (<[bp_index to := {[from]} ∪ b]> (po_reaching o))).
(** boundary.rs:365-374 *)
Definition po_reachable_ports (o : pord) (x : bport) : hres (gset bport) := lift (vget (po_reachable o) (bp_index x)).
Definition po_reaching_ports (o : pord) (x : bport) : hres (gset bport) := lift (vget (po_reaching o) (bp_index x)).
(** boundary.rs:381-385, 407-411 *)
Definition po_incompatible (self other : pord) : bool :=
  negb (bool_decide (length (po_reachable self) = length (po_reachable other)))
  || negb (bool_decide (length (po_reaching self) = length (po_reaching other))).
(** boundary.rs:380-397 [is_stronger_than] *)
Fixpoint po_all_contained (l : list (gset bport * gset bport)) : bool :=
  match l with
  | [] => true
  | (self, other) :: l => if existsb (fun p => bool_decide (p ∉ self)) (elements other) then false else po_all_contained l
  end.
Definition po_is_stronger_than (self other : pord) : hres bool :=
  if po_incompatible self other then HPanic else HOk (po_all_contained (zip (po_reachable self) (po_reachable other))).
(** boundary.rs:403-427 [missing_pairs] *)
Definition po_missing_pairs (order : list bport -> list bport) (self other : pord) : hres (list (bport * bport)) :=
  if po_incompatible self other then HPanic
  else HOk (concat (imap (fun i (x : gset bport * gset bport) =>
    (fun p => (BP i Incoming, p)) <$> filter (fun p => p ∉ x.1) (order (elements x.2)))
    (zip (po_reachable self) (po_reachable other)))).

(** ** [port_ordering] (boundary.rs:149-258) *)
(** What [TopoSort] asks of the view; a call that does not return is taken for
    a panic here. *)
Definition gv_of_lv {E} (V : lview E) : gview :=
  GV (match lv_nodes V with HOk l => l | _ => [] end) (lv_ports V)
     (fun p => match lv_plinks V p with HOk l => Ok (map (fun x => lv_port V x.2) l) | _ => Panic end) (lv_pnode V).

Section ordering.
  Context {E} (V : lview E) (B : boundary) (order : list nat -> list nat).

  (** [entry(node).or_default().push(port)] *)
  Definition pn_push (m : gmap nat (list nat)) (n p : nat) : gmap nat (list nat) := <[n := default [] (m !! n) ++ [p]]> m.
  (** boundary.rs:156-163 *)
  Definition pn_map (ps : list nat) : hres (gmap nat (list nat)) :=
    hfold (fun m p => n ← lift (unwrap (lv_pnode V p)); HOk (pn_push m n p)) ps ∅.
  (** boundary.rs:175 *)
  Definition po_source_port (p : nat) : hres bool :=
    if decide (p ∈ bd_ports B) then HOk true else l ← lv_plinks V p; HOk (bool_decide (length l = 0)).
  (** [Iterator::all] *)
  Fixpoint hall {A} (f : A -> hres bool) (l : list A) : hres bool :=
    match l with [] => HOk true | a :: l => b ← f a; if (b : bool) then hall f l else HOk false end.
  (** boundary.rs:172-176 *)
  Definition po_is_source (n : nat) : hres bool := hall po_source_port (lv_ports V n Incoming).
  (** boundary.rs:184 *)
  Definition po_filter : nat -> nat -> bool := fun _ p => bool_decide (p ∉ bd_ports B).
  Definition po_topo_next (t : topo_st) : res (option nat * topo_st) :=
    topo_next (gv_of_lv V) Outgoing (fun _ => true) po_filter t.

  (** boundary.rs:224-234, for one input neighbour *)
  Definition po_neigh_step (s : gmap nat (nat * gset nat) * gset nat) (m : nat) : hres (gmap nat (nat * gset nat) * gset nat) :=
    let '(reaching, ports) := s in
    '(output_neighs, input_reaching) ← lift (unwrap (reaching !! m));
    let ports := input_reaching ∪ ports in
    output_neighs ← lift (usub output_neighs 1);
    HOk (if decide (output_neighs = 0) then delete m reaching else <[m := (output_neighs, input_reaching)]> reaching, ports).
  (** boundary.rs:238-245 *)
  Definition po_order_step (out_port : nat) (o : pord) (in_port : nat) : hres pord :=
    from ← bd_find_port B in_port Incoming;
    to ← bd_find_port B out_port Outgoing;
    po_add_order o from to.
  Definition po_out_step (reaching_ports : gset nat) (o : pord) (out_port : nat) : hres pord :=
    hfold (po_order_step out_port) (order (elements reaching_ports)) o.

  (** boundary.rs:212 *)
  Definition po_initial (n : nat) : hres bool := l ← lv_neigh V n Incoming; HOk (bool_decide (length l = 0)).

  (** boundary.rs:187-255, the loop *)
  Fixpoint po_loop (ifuel fuel : nat) (input_nodes output_nodes : gmap nat (list nat))
      (reaching : gmap nat (nat * gset nat)) (o : pord) (topo : topo_st) (added_graph_initials : bool) : hres pord :=
    match fuel with
    | 0 => HLoop
    | S fuel =>
        '(next, topo) ← lift (po_topo_next topo);
        match next with
        | None =>
            if decide (input_nodes = ∅ /\ output_nodes = ∅) then HOk o
            else if added_graph_initials then HPanic
            else
              l ← internal_nodes V ifuel B;
              new_source_nodes ← hfilter po_initial l;
              po_loop ifuel fuel input_nodes output_nodes reaching o
                (topo_add_sources (gv_of_lv V) Outgoing (fun _ => true) topo new_source_nodes) true
        | Some node =>
            let reaching_ports : gset nat := list_to_set (default [] (input_nodes !! node)) in
            let input_nodes := delete node input_nodes in
            neighs ← lv_neigh V node Incoming;
            '(reaching, reaching_ports) ← hfold po_neigh_step neighs (reaching, reaching_ports);
            o ← hfold (po_out_step reaching_ports) (default [] (output_nodes !! node)) o;
            let output_nodes := delete node output_nodes in
            output_neighs ← lv_neigh V node Outgoing;
            let reaching := <[node := (length output_neighs, reaching_ports)]> reaching in
            if decide (input_nodes = ∅ /\ output_nodes = ∅) then HOk o
            else po_loop ifuel fuel input_nodes output_nodes reaching o topo added_graph_initials
        end
    end.
  (** boundary.rs:149-258 *)
  Definition port_ordering (fuel : nat) : hres pord :=
    input_nodes ← pn_map (bd_inputs B);
    output_nodes ← pn_map (bd_outputs B);
    source_nodes ← hfilter po_is_source (btree_list (dom input_nodes));
    po_loop fuel fuel input_nodes output_nodes ∅ (pord_new (length (bd_inputs B)) (length (bd_outputs B)))
      (topo_new (gv_of_lv V) Outgoing (fun _ => true) source_nodes) false.
End ordering.
(** boundary.rs:268-277 [is_stronger_than] *)
Definition bd_is_stronger_than {E E'} (order : list nat -> list nat) (fuel : nat) (V : lview E) (V' : lview E') (B B' : boundary) : hres bool :=
  self_ordering ← port_ordering V B order fuel;
  other_ordering ← port_ordering V' B' order fuel;
  po_is_stronger_than self_ordering other_ordering.
