(** Model of src/portgraph.rs: the data structure and its mutating operations.

    Simplifications (all of them): type parameters [N], [P] are fixed to [u32]
    as in every method of the source (portgraph.rs:108, 333, 452, 723, 755);
    [MaybeNodeIndex]/[MaybePortIndex] are [option nat] and [PortMeta] is a pair
    (their bit encodings are modelled in IndexModel.v); vector capacities are
    not modelled; callbacks are modelled by the list of calls they receive. *)
From Verif Require Export Base.

(** portgraph.rs:804-819 [struct NodeMeta]. [nm_inc] is the decoded count: the
    source stores it plus one in a [NonZeroU16] (834-840, 848-852). *)
Record node_meta := NM {
  nm_first : nat;
  nm_inc : nat;
  nm_out : nat;
  nm_cap : nat;
}.

(** portgraph.rs:928-942, 976-986 [enum NodeEntry], [struct FreeNodeEntry] *)
Inductive node_entry :=
| NFree (prev next : option nat)
| NNode (m : node_meta).

(** portgraph.rs:1117-1126 [enum PortEntry] (with [PortMeta], 1081-1115) *)
Inductive port_entry :=
| PFree
| PPort (n : nat) (d : dir).

(** portgraph.rs:46-70 [struct PortGraph] *)
Record pg := PG {
  pg_nodes : list node_entry;      (* node_meta *)
  pg_link : list (option nat);     (* port_link *)
  pg_pmeta : list port_entry;      (* port_meta *)
  pg_nfree : option nat;           (* node_free *)
  pg_pfree : list (option nat);    (* port_free *)
  pg_ncount : nat;                 (* node_count *)
  pg_pcount : nat;                 (* port_count *)
  pg_lcount : nat;                 (* link_count *)
}.

(** Field updates. *)
Definition with_nodes (g : pg) x := PG x (pg_link g) (pg_pmeta g) (pg_nfree g) (pg_pfree g) (pg_ncount g) (pg_pcount g) (pg_lcount g).
Definition with_link (g : pg) x := PG (pg_nodes g) x (pg_pmeta g) (pg_nfree g) (pg_pfree g) (pg_ncount g) (pg_pcount g) (pg_lcount g).
Definition with_pmeta (g : pg) x := PG (pg_nodes g) (pg_link g) x (pg_nfree g) (pg_pfree g) (pg_ncount g) (pg_pcount g) (pg_lcount g).
Definition with_nfree (g : pg) x := PG (pg_nodes g) (pg_link g) (pg_pmeta g) x (pg_pfree g) (pg_ncount g) (pg_pcount g) (pg_lcount g).
Definition with_pfree (g : pg) x := PG (pg_nodes g) (pg_link g) (pg_pmeta g) (pg_nfree g) x (pg_ncount g) (pg_pcount g) (pg_lcount g).
Definition with_ncount (g : pg) x := PG (pg_nodes g) (pg_link g) (pg_pmeta g) (pg_nfree g) (pg_pfree g) x (pg_pcount g) (pg_lcount g).
Definition with_pcount (g : pg) x := PG (pg_nodes g) (pg_link g) (pg_pmeta g) (pg_nfree g) (pg_pfree g) (pg_ncount g) x (pg_lcount g).
Definition with_lcount (g : pg) x := PG (pg_nodes g) (pg_link g) (pg_pmeta g) (pg_nfree g) (pg_pfree g) (pg_ncount g) (pg_pcount g) x.

(** portgraph.rs:78-90 [PortGraph::new] (and 93-105 [with_capacity]) *)
Definition pg_new : pg := PG [] [] [] None [] 0 0 0.

(** Largest index of a node or port: [BitField::<u32>::max_index()],
    index.rs:478-484. *)
Definition max_index : N := 2147483646%N.

(** [NodeIndex::new(i)] / [PortIndex::new(i)] at the places where a vector
    grows. Simplification: the model stops with [Panic] as soon as the index
    exceeds [max_index]; the source accepts some larger values and then wraps
    (property C26). *)
Definition idx_new (i : nat) : res nat :=
  if (N.of_nat i <=? max_index)%N then Ok i else Panic.

(** portgraph.rs:829-841 [NodeMeta::new]. Arguments are the [u16] values. *)
Definition nm_new (first inc out cap : nat) : res node_meta :=
  _ ← assert (N.of_nat inc <=? 65534)%N;
  _ ← assert (N.of_nat out <=? 65535)%N;
  _ ← assert (N.min (N.of_nat inc + N.of_nat out) 65535 <=? N.of_nat cap)%N;
  _ ← assert (bool_decide (0 < cap) || bool_decide (first = 0));
  Ok (NM first inc out cap).

(** portgraph.rs:922-926 [NodeMeta::default] *)
Definition nm_default : node_meta := NM 0 0 0 0.

(** portgraph.rs:861-872 *)
Definition nm_num (m : node_meta) (d : dir) : nat :=
  match d with Incoming => nm_inc m | Outgoing => nm_out m end.
Definition nm_total (m : node_meta) : nat := nm_out m + nm_inc m.

(** portgraph.rs:882-919: index ranges of a node's ports *)
Definition nm_start (m : node_meta) (d : dir) : nat :=
  match d with Incoming => nm_first m | Outgoing => nm_first m + nm_inc m end.
Definition nm_ports (m : node_meta) (d : dir) : list nat :=
  seq (nm_start m d) (nm_num m d).
Definition nm_all_ports (m : node_meta) : list nat :=
  seq (nm_first m) (nm_inc m + nm_out m).

(** portgraph.rs:226-231 [node_meta_valid] *)
Definition nmeta (g : pg) (n : nat) : option node_meta :=
  match pg_nodes g !! n with Some (NNode m) => Some m | _ => None end.

(** portgraph.rs:235-240 [port_meta_valid] *)
Definition pmeta (g : pg) (p : nat) : option (nat * dir) :=
  match pg_pmeta g !! p with Some (PPort n d) => Some (n, d) | _ => None end.

(** portgraph.rs:947-961 [free_entry], [free_entry_mut] *)
Definition nfree (g : pg) (n : nat) : option (option nat * option nat) :=
  match pg_nodes g !! n with Some (NFree a b) => Some (a, b) | _ => None end.

(** portgraph.rs:110-127 [alloc_node] *)
Definition alloc_node (g : pg) : res (pg * nat) :=
  match pg_nfree g with
  | Some n =>
      e ← vget (pg_nodes g) n;
      match e with
      | NNode _ => Panic
      | NFree _ next =>
          match next with
          | None => Ok (with_nfree g next, n)
          | Some x =>
              e' ← vget (pg_nodes g) x;
              match e' with
              | NNode _ => Panic
              | NFree _ nx =>
                  ns ← vset (pg_nodes g) x (NFree None nx);
                  Ok (with_nodes (with_nfree g next) ns, n)
              end
          end
      end
  | None =>
      n ← idx_new (length (pg_nodes g));
      Ok (with_nodes g (pg_nodes g ++ [NFree None None]), n)
  end.

(** portgraph.rs:132-186 [alloc_ports]. *)
Definition alloc_ports (g : pg) (node inc out extra : nat) : res (pg * node_meta) :=
  let requested := inc + out + extra in
  if decide (requested = 0) then Ok (g, nm_default)
  else
    match pg_pfree g !! (requested - 1) with
    | Some (Some port) =>
        (* 152-168 *)
        free_next ← vget (pg_link g) port;
        lk ← vset (pg_link g) port None;
        pf ← vset (pg_pfree g) (requested - 1) free_next;
        m ← nm_new port (trunc16 inc) (trunc16 out) (trunc16 requested);
        pm ← vfill (pg_pmeta g) (nm_first m) (nm_inc m) (PPort node Incoming);
        pm ← vfill pm (nm_first m + nm_inc m) (nm_out m) (PPort node Outgoing);
        _ ← assert (bool_decide (nm_total m <= nm_cap m));
        pm ← vfill pm (nm_first m + nm_total m) (nm_cap m - nm_total m) PFree;
        lk ← vfill lk port requested None;
        Ok (with_pfree (with_pmeta (with_link g lk) pm) pf, m)
    | _ =>
        (* 169-184; the index check covers the whole new slab *)
        let old_len := length (pg_pmeta g) in
        _ ← idx_new (old_len + requested - 1);
        let pm := resize (old_len + inc) (PPort node Incoming) (pg_pmeta g) in
        let pm := resize (old_len + inc + out) (PPort node Outgoing) pm in
        let pm := resize (old_len + requested) PFree pm in
        let lk := resize (old_len + requested) None (pg_link g) in
        m ← nm_new old_len (trunc16 inc) (trunc16 out) (trunc16 requested);
        Ok (with_pmeta (with_link g lk) pm, m)
    end.

(** portgraph.rs:189-196 [free_node] *)
Definition free_node (g : pg) (node : nat) : res pg :=
  ns ← match pg_nfree g with
       | Some h =>
           e ← vget (pg_nodes g) h;
           match e with
           | NNode _ => Panic
           | NFree _ nx => vset (pg_nodes g) h (NFree (Some node) nx)
           end
       | None => Ok (pg_nodes g)
       end;
  ns ← vset ns node (NFree None (pg_nfree g));
  Ok (with_nfree (with_nodes g ns) (Some node)).

(** portgraph.rs:212-219: one iteration of the loop in [free_ports] *)
Definition free_port_step (g : pg) (i : nat) : res pg :=
  pm ← vset (pg_pmeta g) i PFree;
  l ← vget (pg_link g) i;
  lk ← vset (pg_link g) i None;
  match l with
  | Some q =>
      lk ← vset lk q None;
      c ← usub (pg_lcount g) 1;
      Ok (with_lcount (with_link (with_pmeta g pm) lk) c)
  | None => Ok (with_link (with_pmeta g pm) lk)
  end.

(** portgraph.rs:202-223 [free_ports] *)
Definition free_ports (g : pg) (first size : nat) : res pg :=
  let g := if decide (length (pg_pfree g) < size)
           then with_pfree g (resize size None (pg_pfree g)) else g in
  if decide (size = 0) then Ok g
  else
    g ← rfold free_port_step (seq first size) g;
    old ← vget (pg_pfree g) (size - 1);
    pf ← vset (pg_pfree g) (size - 1) (Some first);
    lk ← vset (pg_link g) first old;
    Ok (with_link (with_pfree g pf) lk).

(** portgraph.rs:453-471 [add_node]; [po_max] is
    [PortOffset::<PO>::max_offset()] of the offset type. *)
Definition add_node (po_max : N) (g : pg) (inc out : nat) : res (pg * nat) :=
  _ ← assert (N.of_nat inc <=? po_max)%N;
  _ ← assert (N.of_nat out <=? po_max)%N;
  '(g, n) ← alloc_node g;
  '(g, m) ← alloc_ports g n inc out 0;
  ns ← vset (pg_nodes g) n (NNode m);
  let g := with_nodes g ns in
  let g := with_ncount g (pg_ncount g + 1) in
  let g := with_pcount g (pg_pcount g + (inc + out)) in
  Ok (g, n).

(** portgraph.rs:473-496 [remove_node] *)
Definition remove_node (g : pg) (node : nat) : res pg :=
  match pg_nodes g !! node with
  | Some (NNode m) =>
      g ← free_node g node;
      nc ← usub (pg_ncount g) 1;
      let g := with_ncount g nc in
      if decide (0 < nm_cap m) then
        pc ← usub (pg_pcount g) (nm_total m);
        let g := with_pcount g pc in
        _ ← assert (bool_decide (nm_first m + nm_cap m <= length (pg_link g)));
        _ ← assert (bool_decide (nm_first m + nm_cap m <= length (pg_pmeta g)));
        free_ports g (nm_first m) (nm_cap m)
      else Ok g
  | _ => Ok g
  end.

(** portgraph.rs:498-507 [clear] *)
Definition clear (g : pg) : pg := pg_new.

(** portgraph.rs:1131-1151 [LinkError]; [UnknownOffset] is produced by
    [link_offsets] (view.rs:554-575). *)
Inductive link_error :=
| AlreadyLinked (port : nat)
| UnknownPort (port : nat)
| UnknownOffset (node : nat) (d : dir) (off : nat)
| IncompatibleDirections (port_a port_b : nat) (d : dir).

(** portgraph.rs:756-787 [link_ports] *)
Definition link_ports (g : pg) (a b : nat) : res (pg * (link_error + nat * nat)) :=
  match pmeta g a with
  | None => Ok (g, inl (UnknownPort a))
  | Some (_, da) =>
      match pmeta g b with
      | None => Ok (g, inl (UnknownPort a))
      | Some (_, db) =>
          if decide (da = db) then Ok (g, inl (IncompatibleDirections a b da))
          else
            la ← vget (pg_link g) a;
            match la with
            | Some _ => Ok (g, inl (AlreadyLinked a))
            | None =>
                lb ← vget (pg_link g) b;
                match lb with
                | Some _ => Ok (g, inl (AlreadyLinked b))
                | None =>
                    lk ← vset (pg_link g) a (Some b);
                    lk ← vset lk b (Some a);
                    Ok (with_lcount (with_link g lk) (pg_lcount g + 1), inr (a, b))
                end
            end
      end
  end.

(** portgraph.rs:789-795 [unlink_port] *)
Definition unlink_port (g : pg) (p : nat) : res (pg * option nat) :=
  match pmeta g p with
  | None => Ok (g, None)
  | Some _ =>
      l ← vget (pg_link g) p;
      match l with
      | None => Ok (g, None)
      | Some q =>
          lk ← vset (pg_link g) p None;
          lk ← vset lk q None;
          c ← usub (pg_lcount g) 1;
          Ok (with_lcount (with_link g lk) c, Some q)
      end
  end.

(** portgraph.rs:1160-1173 [PortOperation] *)
Inductive port_op :=
| Moved (new_index : nat)
| Removed (old_link : option nat).

(** portgraph.rs:273-280 and 549-556: unlink the ports to be dropped,
    recording the callback calls. *)
Definition drop_step (s : pg * list (nat * port_op)) (p : nat)
    : res (pg * list (nat * port_op)) :=
  '(g, l) ← unlink_port s.1 p;
  Ok (g, s.2 ++ [(p, Removed l)]).

(** The ports dropped when shrinking to [inc], [out]: the iterator
    [_inputs(node).skip(incoming).chain(_outputs(node).skip(outgoing))] *)
Definition dropped_ports (m : node_meta) (inc out : nat) : list nat :=
  drop inc (nm_ports m Incoming) ++ drop out (nm_ports m Outgoing).

(** portgraph.rs:282-291 [move_port] *)
Definition move_step (s : pg * list (nat * port_op)) (pr : nat * nat)
    : res (pg * list (nat * port_op)) :=
  let g := s.1 in
  let '(old, new) := pr in
  l ← vget (pg_link g) old;
  lk ← vset (pg_link g) new l;
  e ← vget (pg_pmeta g) old;
  pm ← vset (pg_pmeta g) new e;
  lk ← match l with
       | Some q => vset lk q (Some new)
       | None => Ok lk
       end;
  Ok (with_pmeta (with_link g lk) pm, s.2 ++ [(old, Moved new)]).

(** portgraph.rs:306-309: initialise one new port *)
Definition init_step (node : nat) (d : dir) (g : pg) (p : nat) : res pg :=
  lk ← vset (pg_link g) p None;
  pm ← vset (pg_pmeta g) p (PPort node d);
  Ok (with_pmeta (with_link g lk) pm).

(** portgraph.rs:312-316: clear one port that is no longer used *)
Definition empty_step (g : pg) (p : nat) : res pg :=
  lk ← vset (pg_link g) p None;
  pm ← vset (pg_pmeta g) p PFree;
  Ok (with_pmeta (with_link g lk) pm).

(** portgraph.rs:255-322 [resize_ports_inplace] *)
Definition resize_inplace (g : pg) (node inc out : nat)
    : res (pg * list (nat * port_op)) :=
  m ← unwrap (nmeta g node);
  m' ← nm_new (nm_first m) (trunc16 inc) (trunc16 out) (trunc16 (nm_cap m));
  '(g, log) ← rfold drop_step (dropped_ports m inc out) (g, []);
  let pairs := zip (nm_ports m Outgoing) (nm_ports m' Outgoing) in
  let pairs := if decide (inc < nm_inc m) then pairs else rev pairs in
  '(g, log) ← rfold move_step pairs (g, log);
  g ← rfold (init_step node Incoming) (drop (nm_inc m) (nm_ports m' Incoming)) g;
  g ← rfold (init_step node Outgoing) (drop (nm_out m) (nm_ports m' Outgoing)) g;
  g ← rfold empty_step (seq (nm_first m' + nm_total m') (nm_total m - nm_total m')) g;
  ns ← vset (pg_nodes g) node (NNode m');
  let g := with_nodes g ns in
  pc ← usub (pg_pcount g) (nm_inc m + nm_out m);
  Ok (with_pcount g (pc + (inc + out)), log).

(** portgraph.rs:567-576: move one port to the new slab *)
Definition realloc_step (s : pg * list (nat * port_op)) (pr : nat * nat)
    : res (pg * list (nat * port_op)) :=
  let g := s.1 in
  let '(old, new) := pr in
  l ← vget (pg_link g) old;
  lk ← match l with
       | Some q => vset (pg_link g) q (Some new)
       | None => Ok (pg_link g)
       end;
  l' ← vget lk old;
  lk ← vset lk old None;
  lk ← vset lk new l';
  e ← vget (pg_pmeta g) old;
  pm ← vset (pg_pmeta g) new e;
  Ok (with_pmeta (with_link g lk) pm, s.2 ++ [(old, Moved new)]).

(** portgraph.rs:515-583 [set_num_ports], with the callback calls *)
Definition set_num_ports (g : pg) (node inc out : nat)
    : res (pg * list (nat * port_op)) :=
  _ ← assert (N.of_nat inc <=? 65534)%N;
  _ ← assert (N.of_nat out <=? 65535)%N;
  let new_total := inc + out in
  match nmeta g node with
  | None => Ok (g, [])
  | Some m =>
      let old_total := nm_inc m + nm_out m in
      if decide (nm_inc m = inc /\ nm_out m = out) then Ok (g, [])
      else if decide (1 <= new_total < nm_cap m) then resize_inplace g node inc out
      else
        '(g, log) ← rfold drop_step (dropped_ports m inc out) (g, []);
        '(g, m') ← alloc_ports g node inc out (next_pow2 new_total - new_total);
        '(g, log) ← rfold realloc_step (zip (nm_ports m Incoming) (nm_ports m' Incoming)) (g, log);
        '(g, log) ← rfold realloc_step (zip (nm_ports m Outgoing) (nm_ports m' Outgoing)) (g, log);
        ns ← vset (pg_nodes g) node (NNode m');
        g ← free_ports (with_nodes g ns) (nm_first m) (nm_cap m);
        pc ← usub (pg_pcount g) old_total;
        Ok (with_pcount g (pc + new_total), log)
  end.

(** portgraph.rs:600-604 and 625-629: rewrite the metadata of a node's ports *)
Definition relabel_ports (pm : list port_entry) (node : nat) (m : node_meta)
    : res (list port_entry) :=
  pm ← rfold (fun pm p => vset pm p (PPort node Incoming)) (nm_ports m Incoming) pm;
  rfold (fun pm p => vset pm p (PPort node Outgoing)) (nm_ports m Outgoing) pm.

(** portgraph.rs:591-611: the [retain] loop of [compact_nodes]. [es] are the
    entries still to be visited; returns the kept entries, the port metadata
    and the callback calls. *)
Fixpoint compact_nodes_loop (es : list node_entry) (old new : nat) (pm : list port_entry)
    : res (list node_entry * list port_entry * list (nat * nat)) :=
  match es with
  | [] => Ok ([], pm, [])
  | NFree _ _ :: es' => compact_nodes_loop es' (S old) new pm
  | NNode m :: es' =>
      pm ← relabel_ports pm new m;
      '(ns, pm, log) ← compact_nodes_loop es' (S old) (S new) pm;
      Ok (NNode m :: ns, pm, (old, new) :: log)
  end.

(** portgraph.rs:585-614 [compact_nodes] *)
Definition compact_nodes (g : pg) : res (pg * list (nat * nat)) :=
  '(ns, pm, log) ← compact_nodes_loop (pg_nodes g) 0 0 (pg_pmeta g);
  Ok (with_nfree (with_pmeta (with_nodes g ns) pm) None, log).

(** portgraph.rs:635-642 [update_free_list] *)
Definition update_free_list (ns : list node_entry) (new_node : nat)
    (prev next : option nat) : res (list node_entry) :=
  ns ← match prev with
       | None => Ok ns
       | Some p =>
           e ← vget ns p;
           match e with
           | NNode _ => Panic
           | NFree a _ => vset ns p (NFree a (Some new_node))
           end
       end;
  match next with
  | None => Ok ns
  | Some x =>
      e ← vget ns x;
      match e with
      | NNode _ => Panic
      | NFree _ b => vset ns x (NFree (Some new_node) b)
      end
  end.

(** portgraph.rs:616-648 [swap_nodes] *)
Definition swap_nodes (g : pg) (a b : nat) : res pg :=
  ma ← vget (pg_nodes g) a;
  mb ← vget (pg_nodes g) b;
  ns ← vset (pg_nodes g) a mb;
  ns ← vset ns b ma;
  let upd pm new_node e :=
    match e with NFree _ _ => Ok pm | NNode m => relabel_ports pm new_node m end in
  pm ← upd (pg_pmeta g) a mb;
  pm ← upd pm b ma;
  ns ← match ma, mb with
       | NFree p x, NNode _ => update_free_list ns b p x
       | NNode _, NFree p x => update_free_list ns a p x
       | _, _ => Ok ns
       end;
  Ok (with_pmeta (with_nodes g ns) pm).

(** portgraph.rs:656-674: the link loop of [compact_ports]; [n] positions
    remain, the next one to visit is [old]. *)
Fixpoint compact_links_loop (n old new : nat) (pm : list port_entry)
    (lk : list (option nat)) : res (list (option nat) * nat) :=
  match n with
  | 0 => Ok (lk, new)
  | S n' =>
      e ← vget pm old;
      match e with
      | PFree => compact_links_loop n' (S old) new pm lk
      | PPort _ _ =>
          if decide (new = old) then compact_links_loop n' (S old) (S new) pm lk
          else
            l ← vget lk old;
            lk ← match l with
                 | Some q => vset lk q (Some new)
                 | None => Ok lk
                 end;
            x ← vget lk new;
            y ← vget lk old;
            lk ← vset lk new y;
            lk ← vset lk old x;
            compact_links_loop n' (S old) (S new) pm lk
      end
  end.

(** portgraph.rs:680-710: the metadata loop of [compact_ports] *)
Fixpoint compact_pmeta_loop (es : list port_entry) (old new : nat)
    (ns : list node_entry)
    : res (list port_entry * list node_entry * list (nat * nat)) :=
  match es with
  | [] => Ok ([], ns, [])
  | PFree :: es' => compact_pmeta_loop es' (S old) new ns
  | PPort n d :: es' =>
      e ← vget ns n;
      match e with
      | NFree _ _ => Panic
      | NNode m =>
          ns ← (if decide (nm_first m = old) then
                  m' ← nm_new new (nm_inc m) (nm_out m) (trunc16 (nm_total m));
                  vset ns n (NNode m')
                else Ok ns);
          '(pm, ns, log) ← compact_pmeta_loop es' (S old) (S new) ns;
          Ok (PPort n d :: pm, ns, (old, new) :: log)
      end
  end.

(** portgraph.rs:650-713 [compact_ports] *)
Definition compact_ports (g : pg) : res (pg * list (nat * nat)) :=
  '(lk, k) ← compact_links_loop (length (pg_link g)) 0 0 (pg_pmeta g) (pg_link g);
  '(pm, ns, log) ← compact_pmeta_loop (pg_pmeta g) 0 0 (pg_nodes g);
  Ok (with_pfree (with_nodes (with_pmeta (with_link g (take k lk)) pm) ns) [], log).

(** portgraph.rs:509-513 [reserve] and 715-720 [shrink_to_fit]: only vector
    capacities change, which are not modelled. *)
Definition reserve (g : pg) (nodes ports : nat) : pg := g.
Definition shrink_to_fit (g : pg) : pg := g.
