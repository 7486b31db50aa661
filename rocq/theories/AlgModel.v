(** Traversals: [toposort], [postorder] and [dominators]
    (algorithms/{toposort,post_order,dominators}.rs). Filter closures are pure
    functions ([FnMut] closures with their own state are not modelled); a missing
    filter is the constant [true]. *)
From Verif Require Export HierModel PGViewModel.
From stdpp Require Export gmap.

Definition lift {A} (x : res A) : hres A := match x with Ok a => HOk a | Panic => HPanic end.

(** What the traversals ask of a [LinkView] (view.rs:19-120, 340-390). A
    sub-port of a multigraph is represented by its port ([From] in
    multiportgraph.rs). *)
Record gview := GV {
  gv_nodes : list nat;                   (* nodes_iter *)
  gv_ports : nat -> dir -> list nat;     (* ports(node, direction) *)
  gv_links : nat -> res (list nat);      (* port_links(port), the other ends *)
  gv_node : nat -> option nat;           (* port_node *)
}.
(** view.rs:385-387 [port_link] *)
Definition gv_link (v : gview) (p : nat) : res (option nat) := l ← gv_links v p; Ok (head l).
Definition gv_of (g : pg) : gview :=
  GV (nodes_iter g) (ports g) (fun p => mbind (M := res) (fun l => Ok (snd <$> l)) (port_links g p)) (port_node g).

(** ** toposort.rs *)

(** toposort.rs:112-129. [ts_vis] is the set of keys that read as [true] in
    [visited_ports] (any lawful [SecondaryMap<PortIndex, bool>], see C35; a map
    whose default is [true] is first set to [false] on every port). *)
Record topo_st := TS { ts_vis : gset nat; ts_cand : list nat; ts_seen : nat }.

Section topo.
  Context (v : gview) (d : dir) (nf : nat -> bool) (pf : nat -> nat -> bool).

  Definition mark_all (ps : list nat) (vis : gset nat) : gset nat := foldl (fun vis p => {[p]} ∪ vis) vis ps.

  (** toposort.rs:143-181 [new] *)
  Definition topo_new (src : list nat) : topo_st :=
    let cand := filter (fun n => nf n = true) src in
    TS (foldl (fun vis n => mark_all (gv_ports v n (rev_dir d)) vis) ∅ cand) cand 0.

  (** toposort.rs:222-244 [becomes_ready], the [all] over the ports [ps] *)
  Fixpoint topo_ready_all (n from : nat) (ps : list nat) (vis : gset nat) : res (bool * gset nat) :=
    match ps with
    | [] => Ok (true, vis)
    | p :: ps =>
        if decide (p = from) then
          if decide (p ∈ vis) then Ok (false, vis) else topo_ready_all n from ps vis
        else if decide (p ∈ vis) then topo_ready_all n from ps vis
        else
          lk ← gv_link v p;
          if decide (lk = None) then topo_ready_all n from ps ({[p]} ∪ vis)
          else if pf n p then Ok (false, vis) else topo_ready_all n from ps ({[p]} ∪ vis)
    end.
  Definition topo_ready (n from : nat) (vis : gset nat) : res (bool * gset nat) :=
    if nf n then topo_ready_all n from (gv_ports v n (rev_dir d)) vis else Ok (false, vis).

  (** toposort.rs:288-295, over the linked ports *)
  Definition topo_link_step (s : gset nat * list nat) (q : nat) : res (gset nat * list nat) :=
    let '(vis, cand) := s in
    target ← unwrap (gv_node v q);
    '(b, vis) ← topo_ready target q vis;
    Ok ({[q]} ∪ vis, if b : bool then cand ++ [target] else cand).
  (** toposort.rs:276-296, over the ports of the node *)
  Definition topo_port_step (node : nat) (s : gset nat * list nat) (p : nat) : res (gset nat * list nat) :=
    let '(vis, cand) := s in
    let vis := {[p]} ∪ vis in
    if pf node p then
      qs ← gv_links v p;
      rfold topo_link_step qs (vis, cand)
    else Ok (vis, cand).
  (** toposort.rs:272-300 [next] *)
  Definition topo_next (s : topo_st) : res (option nat * topo_st) :=
    match ts_cand s with
    | [] => Ok (None, s)
    | node :: cand =>
        '(vis, cand) ← rfold (topo_port_step node) (gv_ports v node d) (ts_vis s, cand);
        Ok (Some node, TS vis cand (ts_seen s + 1))
    end.
  (** toposort.rs:303-308 [size_hint] *)
  Definition topo_size_hint (s : topo_st) : res (nat * nat) :=
    u ← usub (length (gv_nodes v)) (ts_seen s); Ok (length (ts_cand s), u).
  (** toposort.rs:185-189 [ports_remaining] *)
  Definition topo_ports_remaining (all : list nat) (s : topo_st) : list nat := filter (fun p => p ∉ ts_vis s) all.
  (** toposort.rs:194-218 [add_sources], for one node *)
  Definition topo_add_source (s : topo_st) (node : nat) : topo_st :=
    if nf node then
      let ins := gv_ports v node (rev_dir d) in
      let new := if decide (ins = []) then
                   bool_decide (node ∉ ts_cand s) && existsb (fun p => bool_decide (p ∉ ts_vis s)) (gv_ports v node d)
                 else existsb (fun p => bool_decide (p ∉ ts_vis s)) ins in
      TS (mark_all ins (ts_vis s)) (if new : bool then ts_cand s ++ [node] else ts_cand s) (ts_seen s)
    else s.
  Definition topo_add_sources (s : topo_st) (src : list nat) : topo_st := foldl topo_add_source s src.

  (** [collect]: calls of [next] until it answers [None] *)
  Fixpoint topo_collect (fuel : nat) (s : topo_st) : hres (list nat) :=
    match fuel with
    | 0 => HLoop
    | S fuel =>
        '(o, s) ← lift (topo_next s);
        match o with
        | None => HOk []
        | Some n => l ← topo_collect fuel s; HOk (n :: l)
        end
    end.
End topo.

(** ** post_order.rs *)

(** post_order.rs:140-155; the top of the stack is the head of the list.
    [visited] and [finished] are bit vectors of [node_capacity] bits (133-137):
    an access beyond panics. *)
Record po_st := PO { po_stack : list nat; po_vis : list bool; po_fin : list bool; po_seen : nat }.

Section postorder.
  Context (v : gview) (d : dir) (nf : nat -> bool) (pf : nat -> nat -> bool).

  (** post_order.rs:158-187 [new]; [cap] is [node_capacity] *)
  Definition post_new (cap : nat) (src : list nat) : po_st :=
    PO (filter (fun n => nf n = true) src) (replicate cap false) (replicate cap false) 0.

  (** post_order.rs:216-233, over the ports in reverse order *)
  Definition po_push (next : nat) (vis : list bool) (stack : list nat) (port : nat) : res (list nat) :=
    if pf next port then
      lk ← gv_link v port;
      match lk with
      | None => Ok stack
      | Some link =>
          link_node ← unwrap (gv_node v link);
          if nf link_node then
            if pf link_node link then
              b ← vget vis link_node;
              Ok (if b : bool then stack else link_node :: stack)
            else Ok stack
          else Ok stack
      end
    else Ok stack.
  Inductive po_out := PoContinue (s : po_st) | PoReturn (n : nat) (s : po_st) | PoDone.
  (** post_order.rs:212-244, one round of the loop of [next] *)
  Definition po_round (s : po_st) : res po_out :=
    match po_stack s with
    | [] => Ok PoDone
    | next :: rest =>
        b ← vget (po_vis s) next;
        vis ← vset (po_vis s) next true;
        if negb b then
          stack ← rfold (po_push next vis) (rev (gv_ports v next d)) (po_stack s);
          Ok (PoContinue (PO stack vis (po_fin s) (po_seen s)))
        else
          f ← vget (po_fin s) next;
          fin ← vset (po_fin s) next true;
          if negb f then Ok (PoReturn next (PO rest vis fin (po_seen s + 1)))
          else Ok (PoContinue (PO rest vis fin (po_seen s)))
    end.
  (** post_order.rs:211-247 [next] *)
  Fixpoint po_next (fuel : nat) (s : po_st) : hres (option nat * po_st) :=
    match fuel with
    | 0 => HLoop
    | S fuel =>
        r ← lift (po_round s);
        match r with
        | PoDone => HOk (None, s)
        | PoReturn n s => HOk (Some n, s)
        | PoContinue s => po_next fuel s
        end
    end.
  (** [collect]: at most [k] calls of [next], the last answering [None] *)
  Fixpoint po_collect (fuel k : nat) (s : po_st) : hres (list nat) :=
    match k with
    | 0 => HLoop
    | S k =>
        '(o, s) ← po_next fuel s;
        match o with
        | None => HOk []
        | Some n => l ← po_collect fuel k s; HOk (n :: l)
        end
    end.
  Definition postorder (fuel cap : nat) (src : list nat) : hres (list nat) := po_collect fuel fuel (post_new cap src).
  (** post_order.rs:250-252 [size_hint] *)
  Definition po_size_hint (s : po_st) : res (nat * nat) :=
    u ← usub (length (gv_nodes v)) (po_seen s); Ok (0, u).
End postorder.

(** ** dominators.rs *)

Section dominators.
  Context (v : gview) (d : dir) (nf : nat -> bool) (pf : nat -> nat -> bool).

  (** Indices into the post-order; [None] is [usize::MAX], larger than all others. *)
  Definition fin_lt (a b : option nat) : bool :=
    match a, b with
    | Some a, Some b => bool_decide (a < b)
    | Some _, None => true
    | None, _ => false
    end.
  (** [dominators[finger]] *)
  Definition dom_at (doms : list (option nat)) (f : option nat) : hres (option nat) :=
    match f with
    | None => HPanic
    | Some i => lift (vget doms i)
    end.
  (** dominators.rs:227-235 [intersect] *)
  Fixpoint intersect (fuel : nat) (doms : list (option nat)) (f1 f2 : option nat) : hres (option nat) :=
    match fuel with
    | 0 => HLoop
    | S fuel =>
        if decide (f1 = f2) then HOk f1
        else if fin_lt f1 f2 then f1 ← dom_at doms f1; intersect fuel doms f1 f2
        else f2 ← dom_at doms f2; intersect fuel doms f1 f2
    end.

  (** dominators.rs:176-191, the [filter_map] *)
  Fixpoint dom_preds (node_to_index : umap nat) (doms : list (option nat)) (node : nat) (ps : list nat)
      : res (list nat) :=
    match ps with
    | [] => Ok []
    | port :: ps =>
        r ← (if pf node port then
               lk ← gv_link v port;
               match lk with
               | None => Ok None
               | Some link =>
                   match gv_node v link with
                   | None => Ok None
                   | Some pred =>
                       if nf pred && pf pred link then
                         let pred_index := um_get node_to_index pred in
                         dm ← vget doms pred_index;
                         Ok (match dm with None => None | Some _ => Some pred_index end)
                       else Ok None
                   end
               end
             else Ok None);
        l ← dom_preds node_to_index doms node ps;
        Ok (match r with Some i => i :: l | None => l end)
    end.
  (** dominators.rs:192-193 [reduce] *)
  Fixpoint dom_reduce (fuel : nat) (doms : list (option nat)) (acc : option nat) (l : list nat) : hres (option nat) :=
    match l with
    | [] => HOk acc
    | i :: l => acc ← intersect fuel doms acc (Some i); dom_reduce fuel doms acc l
    end.
  (** dominators.rs:167-199, the body of the [for] loop *)
  Definition dom_visit (fuel : nat) (node_to_index : umap nat) (index_to_node : list nat)
      (s : list (option nat) * bool) (idx : nat) : hres (list (option nat) * bool) :=
    let '(doms, changed) := s in
    node ← lift (vget index_to_node idx);
    l ← lift (dom_preds node_to_index doms node (gv_ports v node (rev_dir d)));
    match l with
    | [] => HPanic
    | i :: l =>
        new ← dom_reduce fuel doms (Some i) l;
        old ← lift (vget doms idx);
        if decide (new = old) then HOk (doms, changed)
        else doms ← lift (vset doms idx new); HOk (doms, true)
    end.
  Fixpoint hfold {A S} (f : S -> A -> hres S) (l : list A) (s : S) : hres S :=
    match l with [] => HOk s | a :: l => s ← f s a; hfold f l s end.
  (** dominators.rs:162-200 *)
  Fixpoint dom_loop (fuel : nat) (node_to_index : umap nat) (index_to_node : list nat)
      (doms : list (option nat)) : hres (list (option nat)) :=
    match fuel with
    | 0 => HLoop
    | S fuel' =>
        '(doms, changed) ← hfold (dom_visit fuel node_to_index index_to_node)
                             (rev (seq 0 (length index_to_node - 1))) (doms, false);
        if changed : bool then dom_loop fuel' node_to_index index_to_node doms else HOk doms
    end.
  (** dominators.rs:202-208 *)
  Definition dom_set (index_to_node : list nat) (idom : umap (option nat)) (x : nat * option nat)
      : hres (umap (option nat)) :=
    node ← lift (vget index_to_node x.1);
    i ← lift (unwrap x.2);
    dom ← lift (vget index_to_node i);
    lift (um_set idom node (Some dom)).
  (** dominators.rs:131-211 [new]; the [root] is the entry *)
  Definition dom_new (fuel cap entry : nat) : hres (umap (option nat)) :=
    index_to_node ← postorder v d nf pf fuel cap [entry];
    node_to_index ← lift (rfold (fun m x => um_set m x.2 x.1) (enumerate index_to_node) (um_with_default 0));
    let num_nodes := length index_to_node in
    if decide (num_nodes = 0) then HPanic (* last_mut().unwrap() *)
    else
      doms ← dom_loop fuel node_to_index index_to_node
               (replicate (num_nodes - 1) None ++ [Some (num_nodes - 1)]);
      hfold (dom_set index_to_node) (take (num_nodes - 1) (enumerate doms)) (um_with_default None).
  (** dominators.rs:221-223 [immediate_dominator] *)
  Definition immediate_dominator (idom : umap (option nat)) (n : nat) : option nat := um_get idom n.
End dominators.
