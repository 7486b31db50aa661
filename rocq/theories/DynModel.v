(** Dynamic topological order and its convexity checker
    (algorithms/dynamic.rs). Hash maps are finite maps; the order in which a
    hash set is iterated is a parameter. *)
From Verif Require Export ConvexModel.

(** dynamic.rs:31-37 [DynamicTopoSort] *)
Record dts := DTS { dt_order : list nat; dt_pos : gmap nat nat }.

(** [*node_to_pos.get(&n).unwrap_or(&usize::MAX)]; [None] is [usize::MAX], which
    is no position of a vector. *)
Definition dt_posx (t : dts) (n : nat) : option nat := dt_pos t !! n.
(** [a <= b] on such positions *)
Definition posx_le (a b : option nat) : bool :=
  match a, b with
  | _, None => true
  | None, Some _ => false
  | Some a, Some b => bool_decide (a <= b)
  end.

(** Results of calls on the order (dynamic.rs:12-29) *)
Inductive dt_error := DtInvalidNode (n : nat) | DtWouldCreateCycle (from to : nat).
Global Instance dt_error_eq_dec : EqDecision dt_error.
Proof. solve_decision. Defined.

(** dynamic.rs:50-54, 97-99: insert the positions of the nodes listed *)
Definition dt_number (order : list nat) (m : gmap nat nat) : gmap nat nat :=
  foldl (fun m x => <[x.2 := x.1]> m) m (enumerate order).

(** dynamic.rs:59-66 [add_node] *)
Definition dt_add_node (t : dts) (n : nat) : dts :=
  match dt_pos t !! n with
  | Some _ => t
  | None => DTS (dt_order t ++ [n]) (<[n := length (dt_order t)]> (dt_pos t))
  end.
(** dynamic.rs:93-103 [remove_node]; [Vec::remove] panics beyond the end *)
Definition dt_remove_node (t : dts) (n : nat) : res (dts * option dt_error) :=
  match dt_pos t !! n with
  | Some pos =>
      if decide (pos < length (dt_order t)) then
        let order := delete pos (dt_order t) in
        Ok (DTS order (dt_number order (delete n (dt_pos t))), None)
      else Panic
  | None => Ok (t, Some (DtInvalidNode n))
  end.
(** dynamic.rs:106-119 [disconnect_nodes] *)
Definition dt_disconnect (t : dts) (from to : nat) : option dt_error :=
  match dt_pos t !! from with
  | None => Some (DtInvalidNode from)
  | Some _ => match dt_pos t !! to with None => Some (DtInvalidNode to) | Some _ => None end
  end.

Section graph.
  (** the graph, with [neighbours(node, direction)] (view.rs:436-490) *)
  Context (v : gview) (nb : nat -> dir -> res (list nat)).

  (** dynamic.rs:41-56 [with_graph] *)
  Definition dt_with_graph (fuel : nat) : hres dts :=
    order ← cc_topsort v nb fuel;
    HOk (DTS order (dt_number order ∅)).

  (** dynamic.rs:127-141, the loop of [would_create_cycle] *)
  Fixpoint dt_cycle_loop (fuel : nat) (t : dts) (from : nat) (queue : list nat) (visited : gset nat) : hres bool :=
    match fuel with
    | 0 => HLoop
    | S fuel =>
        match queue with
        | [] => HOk false
        | node :: queue =>
            if decide (node = from) then HOk true
            else if decide (node ∈ visited) then dt_cycle_loop fuel t from queue visited
            else
              l ← lift (nb node Outgoing);
              dt_cycle_loop fuel t from
                (queue ++ filter (fun m => posx_le (dt_posx t m) (dt_posx t from) = true) l) ({[node]} ∪ visited)
        end
    end.
  (** dynamic.rs:122-143 [would_create_cycle] *)
  Definition dt_would_create_cycle (fuel : nat) (t : dts) (from to : nat) : hres bool :=
    dt_cycle_loop fuel t from [to] ∅.

  (** dynamic.rs:178-213 [dfs]. It never returns [true], so the loops over the
      neighbours are never left early. [vc] is [visited] and [cone]. *)
  Fixpoint dt_dfs (fuel : nat) (t : dts) (bound : nat) (d : dir) (vc : gset nat * list nat) (n : nat)
      : hres (gset nat * list nat) :=
    match fuel with
    | 0 => HLoop
    | S fuel =>
        pos ← lift (unwrap (dt_pos t !! n));
        let out_of_bounds := match d with Outgoing => bool_decide (bound <= pos) | Incoming => bool_decide (pos <= bound) end in
        if decide (n ∈ vc.1) then HOk vc
        else if out_of_bounds : bool then HOk vc
        else
          l ← lift (nb n d);
          foldl (fun s m => vc ← s; dt_dfs fuel t bound d vc m) (HOk ({[n]} ∪ vc.1, vc.2 ++ [n])) l
    end.
  (** dynamic.rs:165-176 [cone] *)
  Definition dt_cone (fuel : nat) (t : dts) (start bound : nat) (d : dir) : hres (list nat) :=
    '(_, cone) ← dt_dfs fuel t bound d (∅, []) start; HOk cone.
  (** dynamic.rs:157-161 *)
  Definition dt_place (s : list nat * gmap nat nat * nat) (w : nat) : res (list nat * gmap nat nat * nat) :=
    let '(order, pos, new_pos) := s in
    order ← vset order new_pos w;
    Ok (order, <[w := new_pos]> pos, new_pos + 1).
  (** dynamic.rs:146-162 [update_order] *)
  Definition dt_update_order (fuel : nat) (t : dts) (from to : nat) : hres dts :=
    from_pos ← lift (unwrap (dt_pos t !! from));
    to_pos ← lift (unwrap (dt_pos t !! to));
    if decide (from_pos < to_pos) then HOk t
    else
      delta_f ← dt_cone fuel t to from_pos Outgoing;
      delta_b ← dt_cone fuel t from to_pos Incoming;
      '(order, pos, _) ← lift (rfold dt_place (delta_b ++ delta_f) (dt_order t, dt_pos t, to_pos));
      HOk (DTS order pos).
  (** dynamic.rs:69-90 [connect_nodes] *)
  Definition dt_connect (fuel : nat) (t : dts) (from to : nat) : hres (dts * option dt_error) :=
    match dt_pos t !! from with
    | None => HOk (t, Some (DtInvalidNode from))
    | Some from_pos =>
        match dt_pos t !! to with
        | None => HOk (t, Some (DtInvalidNode to))
        | Some to_pos =>
            b ← dt_would_create_cycle fuel t from to;
            if b : bool then HOk (t, Some (DtWouldCreateCycle from to))
            else if decide (to_pos <= from_pos) then t ← dt_update_order fuel t from to; HOk (t, None)
            else HOk (t, None)
        end
    end.

  (** dynamic.rs:230-245, the loop of [has_path_outside_subgraph] *)
  Fixpoint dt_outside_loop (fuel : nat) (t : dts) (start stop min_pos max_pos : nat) (nodes : list nat)
      (queue : list nat) (visited : gset nat) : hres bool :=
    match fuel with
    | 0 => HLoop
    | S fuel =>
        match queue with
        | [] => HOk false
        | node :: queue =>
            if decide (node ∉ nodes /\ node <> start) then HOk true
            else if decide (node = stop) then dt_outside_loop fuel t start stop min_pos max_pos nodes queue visited
            else if decide (node ∈ visited) then dt_outside_loop fuel t start stop min_pos max_pos nodes queue visited
            else
              l ← lift (nb node Outgoing);
              dt_outside_loop fuel t start stop min_pos max_pos nodes
                (queue ++ filter (fun n => posx_le (Some min_pos) (dt_posx t n) && posx_le (dt_posx t n) (Some max_pos) = true) l)
                ({[node]} ∪ visited)
        end
    end.
  (** dynamic.rs:219-248 [has_path_outside_subgraph] *)
  Definition dt_has_path_outside (fuel : nat) (t : dts) (start stop min_pos max_pos : nat) (nodes : list nat) : hres bool :=
    dt_outside_loop fuel t start stop min_pos max_pos nodes [start] ∅.

  (** dynamic.rs:263-290, the loop of [can_reach_inputs] *)
  Fixpoint dt_inputs_loop (fuel : nat) (t : dts) (start min_pos max_pos : nat) (nodes inputs : list nat)
      (queue : list (nat * bool)) (visited : gset nat) : hres bool :=
    match fuel with
    | 0 => HLoop
    | S fuel =>
        match queue with
        | [] => HOk false
        | (node, has_exited) :: queue =>
            if decide (node ∈ visited) then dt_inputs_loop fuel t start min_pos max_pos nodes inputs queue visited
            else
              let visited := {[node]} ∪ visited in
              let inside n := posx_le (Some min_pos) (dt_posx t n) && posx_le (dt_posx t n) (Some max_pos) in
              if negb (inside node) then dt_inputs_loop fuel t start min_pos max_pos nodes inputs queue visited
              else
                let exited := has_exited || bool_decide (node ∉ nodes /\ node <> start) in
                if exited && existsb (fun p => bool_decide (gv_node v p = Some node)) inputs then HOk true
                else
                  l ← lift (nb node Incoming);
                  dt_inputs_loop fuel t start min_pos max_pos nodes inputs
                    (queue ++ map (fun n => (n, exited)) (filter (fun n => inside n = true) l)) visited
        end
    end.
  (** dynamic.rs:251-292 [can_reach_inputs] *)
  Definition dt_can_reach_inputs (fuel : nat) (t : dts) (start min_pos max_pos : nat) (nodes inputs : list nat) : hres bool :=
    dt_inputs_loop fuel t start min_pos max_pos nodes inputs [(start, false)] ∅.

  (** [for x in l { if f(x) { return true } } false] *)
  Fixpoint hany {A} (f : A -> hres bool) (l : list A) : hres bool :=
    match l with
    | [] => HOk false
    | x :: l => b ← f x; if b : bool then HOk true else hany f l
    end.

  (** dynamic.rs:440-513 [is_convex]; [nodes] is the hash set collected from the
      argument, in the order in which it is iterated *)
  Definition dt_is_convex (fuel : nat) (t : dts) (nodes inputs outputs : list nat) : hres bool :=
    if existsb (fun n => bool_decide (dt_pos t !! n = None)) nodes then HOk false
    else if decide (length nodes < 2) then HOk true
    else
      let ps := omap (fun n => dt_pos t !! n) nodes in
      let min_pos := foldl min (default 0 (head ps)) ps in
      let max_pos := foldl max 0 ps in
      if decide (inputs = [] /\ outputs = []) then
        b ← hany (fun start => hany (fun stop =>
              if decide (start = stop) then HOk false
              else
                start_pos ← lift (unwrap (dt_pos t !! start));
                stop_pos ← lift (unwrap (dt_pos t !! stop));
                if decide (start_pos < stop_pos) then dt_has_path_outside fuel t start stop min_pos max_pos nodes
                else HOk false) nodes) nodes;
        HOk (negb b)
      else
        b ← hany (fun output =>
              match gv_node v output with
              | Some output_node =>
                  if decide (output_node ∈ nodes) then dt_can_reach_inputs fuel t output_node min_pos max_pos nodes inputs
                  else HOk false
              | None => HOk false
              end) outputs;
        HOk (negb b).
End graph.

(** ** The checker on a [PortGraph] *)

(** dynamic.rs:293-297 [DynamicTopoConvexChecker] *)
Record dchk := DC { dc_topo : dts; dc_graph : pg }.

(** dynamic.rs:304-309 [new] *)
Definition dc_new (fuel : nat) (g : pg) : hres dchk :=
  t ← dt_with_graph (gv_of g) (neighbours g) fuel; HOk (DC t g).
(** dynamic.rs:362-366 [add_node] *)
Definition dc_add_node (w : N) (c : dchk) (i j : nat) : res (dchk * nat) :=
  '(g, n) ← add_node (po_max_offset w) (dc_graph c) i j;
  Ok (DC (dt_add_node (dc_topo c) n) g, n).
(** dynamic.rs:368-371 [remove_node]; [expect] *)
Definition dc_remove_node (c : dchk) (n : nat) : res dchk :=
  g ← remove_node (dc_graph c) n;
  '(t, e) ← dt_remove_node (dc_topo c) n;
  match e with None => Ok (DC t g) | Some _ => Panic end.
(** dynamic.rs:373-383: the other calls only change the graph *)
Definition dc_set_num_ports (c : dchk) (n i j : nat) : res (dchk * list (nat * port_op)) :=
  '(g, log) ← set_num_ports (dc_graph c) n i j; Ok (DC (dc_topo c) g, log).
Definition dc_swap_nodes (c : dchk) (a b : nat) : res dchk :=
  g ← swap_nodes (dc_graph c) a b; Ok (DC (dc_topo c) g).
Definition dc_compact_nodes (c : dchk) : res (dchk * list (nat * nat)) :=
  '(g, log) ← compact_nodes (dc_graph c); Ok (DC (dc_topo c) g, log).
Definition dc_compact_ports (c : dchk) : res (dchk * list (nat * nat)) :=
  '(g, log) ← compact_ports (dc_graph c); Ok (DC (dc_topo c) g, log).
Definition dc_clear (c : dchk) : dchk := DC (dc_topo c) (clear (dc_graph c)).
(** dynamic.rs:388-416 [link_ports] *)
Definition dc_link_ports (fuel : nat) (c : dchk) (from to : nat) : hres (dchk * (link_error + nat * nat)) :=
  match port_node (dc_graph c) from with
  | None => HOk (c, inl (UnknownPort from))
  | Some from_node =>
      match port_node (dc_graph c) to with
      | None => HOk (c, inl (UnknownPort to))
      | Some to_node =>
          b ← dt_would_create_cycle (neighbours (dc_graph c)) fuel (dc_topo c) to_node from_node;
          if b : bool then HPanic
          else
            '(g, r) ← lift (link_ports (dc_graph c) from to);
            match r with
            | inl e => HOk (DC (dc_topo c) g, inl e)
            | inr x =>
                '(t, e) ← dt_connect (neighbours g) fuel (dc_topo c) from_node to_node;
                match e with
                | None => HOk (DC t g, inr x)
                | Some (DtInvalidNode _) => HOk (DC t g, inl (UnknownPort from))
                | Some (DtWouldCreateCycle _ _) => HPanic
                end
            end
      end
  end.
(** dynamic.rs:418-436 [unlink_port] *)
Definition dc_unlink_port (c : dchk) (p : nat) : res (dchk * option nat) :=
  '(g, r) ← unlink_port (dc_graph c) p;
  match r with
  | None => Ok (DC (dc_topo c) g, None)
  | Some q =>
      from_node ← unwrap (port_node g p);
      l ← neighbours g from_node Outgoing;
      if existsb (fun to_node => negb (bool_decide (dt_disconnect (dc_topo c) from_node to_node = None))) l then Panic
      else Ok (DC (dc_topo c) g, Some q)
  end.
(** dynamic.rs:440-513 [is_convex] *)
Definition dc_is_convex (fuel : nat) (c : dchk) (nodes inputs outputs : list nat) : hres bool :=
  dt_is_convex (gv_of (dc_graph c)) (neighbours (dc_graph c)) fuel (dc_topo c) nodes inputs outputs.
