(** Model of the read interface of [PortGraph] (src/portgraph.rs and
    src/portgraph/iter.rs) and of the default methods of [LinkView]/[LinkMut]
    (src/view.rs). [w] is the bit width of the port-offset type [PO]. *)
From Verif Require Export PGModel IndexModel.

(** portgraph.rs:337-344 *)
Definition port_direction (g : pg) (p : nat) : option dir := snd <$> pmeta g p.
Definition port_node (g : pg) (p : nat) : option nat := fst <$> pmeta g p.

(** portgraph.rs:346-364. [wrapping_sub] is written with [2^64] added. *)
Definition port_offset (w : N) (g : pg) (p : nat) : res (option N) :=
  match pmeta g p with
  | None => Ok None
  | Some (n, d) =>
      e ← vget (pg_nodes g) n;
      match e with
      | NFree _ _ => Panic
      | NNode m =>
          let off := ((N.of_nat p + 2 ^ 64 - N.of_nat (nm_first m)) mod 2 ^ 64)%N in
          x ← match d with
              | Incoming => po_new w Incoming off
              | Outgoing => po_new w Outgoing (off - N.of_nat (nm_inc m))%N
              end;
          Ok (Some x)
      end
  end.

(** portgraph.rs:366-371; [o] is an encoded offset *)
Definition port_index (w : N) (g : pg) (n : nat) (o : N) : res (option nat) :=
  match nmeta g n with
  | None => Ok None
  | Some m =>
      d ← po_direction w o;
      i ← po_index w o;
      Ok (nm_ports m d !! N.to_nat i)
  end.

(** portgraph.rs:373-381 *)
Definition input (w : N) (g : pg) (n : nat) (i : N) : res (option nat) :=
  o ← po_new w Incoming i; port_index w g n o.
Definition output (w : N) (g : pg) (n : nat) (i : N) : res (option nat) :=
  o ← po_new w Outgoing i; port_index w g n o.

(** portgraph.rs:383-392 *)
Definition num_ports (g : pg) (n : nat) (d : dir) : nat :=
  match nmeta g n with Some m => nm_num m d | None => 0 end.

(** portgraph.rs:394-402 *)
Definition contains_node (g : pg) (n : nat) : bool := bool_decide (is_Some (nmeta g n)).
Definition contains_port (g : pg) (p : nat) : bool := bool_decide (is_Some (pmeta g p)).

(** portgraph.rs:404-417, 734-737 *)
Definition is_empty (g : pg) : bool := bool_decide (pg_ncount g = 0) && bool_decide (pg_pcount g = 0).
Definition node_count (g : pg) : nat := pg_ncount g.
Definition port_count (g : pg) : nat := pg_pcount g.
Definition link_count (g : pg) : nat := pg_lcount g.
(** portgraph.rs:429-432 *)
Definition node_port_capacity (g : pg) (n : nat) : nat :=
  match nmeta g n with Some m => nm_cap m | None => 0 end.

(** portgraph.rs:726-732 and view.rs:385-387 [port_link] *)
Definition port_links (g : pg) (p : nat) : res (list (nat * nat)) :=
  _ ← unwrap (pmeta g p);
  l ← vget (pg_link g) p;
  Ok (match l with Some q => [(p, q)] | None => [] end).
Definition port_link (g : pg) (p : nat) : res (option nat) :=
  l ← port_links g p; Ok (snd <$> head l).

(** [&vec[s..s+n]] *)
Definition vslice {A} (l : list A) (s n : nat) : res (list A) :=
  if decide (s + n <= length l) then Ok (take n (drop s l)) else Panic.

(** ** Iterators: states, [next] and [next_back] *)

(** [Range<usize>] *)
Definition rng_next (r : nat * nat) : option nat * (nat * nat) :=
  if decide (r.1 < r.2) then (Some r.1, (S r.1, r.2)) else (None, r).
Definition rng_next_back (r : nat * nat) : option nat * (nat * nat) :=
  if decide (r.1 < r.2) then (Some (r.2 - 1), (r.1, r.2 - 1)) else (None, r).
Definition rng_len (r : nat * nat) : nat := r.2 - r.1.

(** iter.rs:21-28, 48-56, 159-209: [NodePorts] is a range *)
Definition ports_init (g : pg) (n : nat) (d : dir) : nat * nat :=
  match nmeta g n with Some m => (nm_start m d, nm_start m d + nm_num m d) | None => (0, 0) end.
Definition all_ports_init (g : pg) (n : nat) : nat * nat :=
  match nmeta g n with Some m => (nm_first m, nm_first m + (nm_inc m + nm_out m)) | None => (0, 0) end.

(** iter.rs:58-87, 319-375: [NodePortOffsets]: two ranges *)
Definition offs_state : Type := (nat * nat) * (nat * nat).
Definition port_offsets_init (g : pg) (n : nat) (d : dir) : offs_state :=
  match d with
  | Incoming => ((0, num_ports g n Incoming), (0, 0))
  | Outgoing => ((0, 0), (0, num_ports g n Outgoing))
  end.
Definition all_port_offsets_init (g : pg) (n : nat) : offs_state :=
  ((0, num_ports g n Incoming), (0, num_ports g n Outgoing)).
Definition offs_next (w : N) (s : offs_state) : res (option N * offs_state) :=
  match rng_next s.1 with
  | (Some i, r) => x ← po_new w Incoming (N.of_nat i); Ok (Some x, (r, s.2))
  | (None, r) =>
      match rng_next s.2 with
      | (Some i, r') => x ← po_new w Outgoing (N.of_nat i); Ok (Some x, (r, r'))
      | (None, r') => Ok (None, (r, r'))
      end
  end.
Definition offs_next_back (w : N) (s : offs_state) : res (option N * offs_state) :=
  match rng_next_back s.2 with
  | (Some i, r) => x ← po_new w Outgoing (N.of_nat i); Ok (Some x, (s.1, r))
  | (None, r) =>
      match rng_next_back s.1 with
      | (Some i, r') => x ← po_new w Incoming (N.of_nat i); Ok (Some x, (r', r))
      | (None, r') => Ok (None, (r', r))
      end
  end.
Definition offs_len (s : offs_state) : nat := rng_len s.1 + rng_len s.2.

(** [slice.iter().enumerate()] *)
Definition enumerate {A} (l : list A) : list (nat * A) := imap pair l.

(** iter.rs:89-96, 212-266: [Nodes]: the remaining enumerated entries and the
    number of nodes left *)
Definition nodes_state : Type := list (nat * node_entry) * nat.
Definition nodes_init (g : pg) : nodes_state := (enumerate (pg_nodes g), pg_ncount g).
Fixpoint nodes_scan (l : list (nat * node_entry)) (len : nat) : res (option nat * nodes_state) :=
  match l with
  | [] => Ok (None, ([], len))
  | (_, NFree _ _) :: l' => nodes_scan l' len
  | (i, NNode _) :: l' => len' ← usub len 1; Ok (Some i, (l', len'))
  end.
Definition nodes_next (s : nodes_state) : res (option nat * nodes_state) := nodes_scan s.1 s.2.
(** [next_back] scans from the end: the same scan on the reversed list *)
Definition nodes_next_back (s : nodes_state) : res (option nat * nodes_state) :=
  if decide (s.2 = 0) then Ok (None, s)
  else '(o, s') ← nodes_scan (rev s.1) s.2; Ok (o, (rev s'.1, s'.2)).

(** iter.rs:98-105, 269-316: [Ports] *)
Definition ports_state : Type := list (nat * port_entry) * nat.
Definition ports_iter_init (g : pg) : ports_state := (enumerate (pg_pmeta g), pg_pcount g).
Fixpoint ports_scan (l : list (nat * port_entry)) (len : nat) : res (option nat * ports_state) :=
  match l with
  | [] => Ok (None, ([], len))
  | (_, PFree) :: l' => ports_scan l' len
  | (i, PPort _ _) :: l' => len' ← usub len 1; Ok (Some i, (l', len'))
  end.
Definition ports_next (s : ports_state) : res (option nat * ports_state) := ports_scan s.1 s.2.
Definition ports_next_back (s : ports_state) : res (option nat * ports_state) :=
  '(o, s') ← ports_scan (rev s.1) s.2; Ok (o, (rev s'.1, s'.2)).

(** iter.rs:118-142, 383-437: [NodeLinks]: pairs of a port and its link entry,
    and the range of ignored targets *)
Definition links_state : Type := list (nat * option nat) * (nat * nat).
Definition links_init (g : pg) (n : nat) (d : dir) : res links_state :=
  match nmeta g n with
  | None => Ok ([], (0, 0))
  | Some m =>
      l ← vslice (pg_link g) (nm_start m d) (nm_num m d);
      Ok (zip (nm_ports m d) l, (0, 0))
  end.
Definition all_links_init (g : pg) (n : nat) : res links_state :=
  match nmeta g n with
  | None => Ok ([], (0, 0))
  | Some m =>
      l ← vslice (pg_link g) (nm_first m) (nm_inc m + nm_out m);
      Ok (zip (nm_all_ports m) l, (nm_start m Outgoing, nm_start m Outgoing + nm_out m))
  end.
Fixpoint links_scan (l : list (nat * option nat)) (ig : nat * nat) : option (nat * nat) * links_state :=
  match l with
  | [] => (None, ([], ig))
  | (_, None) :: l' => links_scan l' ig
  | (p, Some q) :: l' =>
      if decide (ig.1 <= q < ig.2) then links_scan l' ig else (Some (p, q), (l', ig))
  end.
Definition links_next (s : links_state) : option (nat * nat) * links_state := links_scan s.1 s.2.
(** [next_back] does not look at the ignored range *)
Fixpoint links_scan_back (l : list (nat * option nat)) : option (nat * nat) * list (nat * option nat) :=
  match l with
  | [] => (None, [])
  | (_, None) :: l' => links_scan_back l'
  | (p, Some q) :: l' => (Some (p, q), l')
  end.
Definition links_next_back (s : links_state) : option (nat * nat) * links_state :=
  let '(o, l) := links_scan_back (rev s.1) in (o, (rev l, s.2)).

(** iter.rs:447-487 [Neighbours] *)
Definition neigh_next (g : pg) (s : links_state) : res (option nat * links_state) :=
  match links_next s with
  | (Some (_, q), s') => n ← unwrap (port_node g q); Ok (Some n, s')
  | (None, s') => Ok (None, s')
  end.

(** iter.rs:521-533 [NodeConnections::next] on the remaining links; the fuel is
    the number of remaining entries, each round consumes one *)
Fixpoint conn_scan (g : pg) (target : nat) (fuel : nat) (s : links_state)
    : option (nat * nat) * links_state :=
  match links_next s with
  | (None, s') => (None, s')
  | (Some (p, q), s') =>
      if decide (port_node g q = Some target) then (Some (p, q), s')
      else match fuel with 0 => (None, s') | S f => conn_scan g target f s' end
  end.
Definition conn_next (g : pg) (target : nat) (s : links_state) : option (nat * nat) * links_state :=
  conn_scan g target (length s.1) s.

(** ** The sequences produced by exhausting the iterators with [next] *)

Definition ports (g : pg) (n : nat) (d : dir) : list nat :=
  match nmeta g n with Some m => nm_ports m d | None => [] end.
Definition all_ports (g : pg) (n : nat) : list nat :=
  match nmeta g n with Some m => nm_all_ports m | None => [] end.
Definition nodes_iter (g : pg) : list nat :=
  omap (fun x => match x with (i, NNode _) => Some i | _ => None end) (enumerate (pg_nodes g)).
Definition ports_iter (g : pg) : list nat :=
  omap (fun x => match x with (i, PPort _ _) => Some i | _ => None end) (enumerate (pg_pmeta g)).
Definition links_list (s : links_state) : list (nat * nat) :=
  omap (fun x => match x with
                 | (p, Some q) => if decide (s.2.1 <= q < s.2.2) then None else Some (p, q)
                 | (_, None) => None end) s.1.
Definition links (g : pg) (n : nat) (d : dir) : res (list (nat * nat)) :=
  s ← links_init g n d; Ok (links_list s).
Definition all_links (g : pg) (n : nat) : res (list (nat * nat)) :=
  s ← all_links_init g n; Ok (links_list s).

(** Map a fallible function over a list. *)
Fixpoint rmap {A B} (f : A -> res B) (l : list A) : res (list B) :=
  match l with
  | [] => Ok []
  | a :: l' => b ← f a; bs ← rmap f l'; Ok (b :: bs)
  end.
Definition neighbours (g : pg) (n : nat) (d : dir) : res (list nat) :=
  l ← links g n d; rmap (fun x => unwrap (port_node g x.2)) l.
Definition all_neighbours (g : pg) (n : nat) : res (list nat) :=
  l ← all_links g n; rmap (fun x => unwrap (port_node g x.2)) l.
Definition get_connections (g : pg) (a b : nat) : res (list (nat * nat)) :=
  l ← links g a Outgoing; Ok (filter (fun x => port_node g x.2 = Some b) l).
(** view.rs:345-375 *)
Definition get_connection (g : pg) (a b : nat) : res (option (nat * nat)) :=
  l ← get_connections g a b; Ok (head l).
Definition connected (g : pg) (a b : nat) : res bool :=
  o ← get_connection g a b; Ok (bool_decide (is_Some o)).

(** ** Default methods of [LinkMut] *)

(** view.rs:553-575 [link_offsets]; offsets are encoded. The error carries the
    decoded offset (the source stores the encoded one). *)
Definition link_offsets (w : N) (g : pg) (na : nat) (oa : N) (nb : nat) (ob : N)
    : res (pg * (link_error + nat * nat)) :=
  pa ← port_index w g na oa;
  match pa with
  | None => d ← po_direction w oa; i ← po_index w oa; Ok (g, inl (UnknownOffset na d (N.to_nat i)))
  | Some a =>
      pb ← port_index w g nb ob;
      match pb with
      | None => d ← po_direction w ob; i ← po_index w ob; Ok (g, inl (UnknownOffset nb d (N.to_nat i)))
      | Some b => link_ports g a b
      end
  end.
(** view.rs:530-543 [link_nodes] *)
Definition link_nodes (w : N) (g : pg) (from : nat) (i : N) (to : nat) (j : N)
    : res (pg * (link_error + nat * nat)) :=
  oi ← po_new w Outgoing i;
  oj ← po_new w Incoming j;
  link_offsets w g from oi to oj.

(** view.rs:601-613: the inner loop of [insert_graph] over the links of one
    node; stops at the first error *)
Fixpoint insert_links (w : N) (other : pg) (rekeys : list (nat * nat)) (new : nat)
    (ls : list (nat * nat)) (g : pg) : res (pg * option link_error) :=
  match ls with
  | [] => Ok (g, None)
  | (from, to) :: ls' =>
      nt ← unwrap (port_node other to);
      match snd <$> list_find (fun x => x.1 = nt) rekeys with
      | None => insert_links w other rekeys new ls' g
      | Some (_, other_node) =>
          ofrom ← port_offset w other from; ofrom ← unwrap ofrom;
          oto ← port_offset w other to; oto ← unwrap oto;
          '(g, r) ← link_offsets w g new ofrom other_node oto;
          match r with
          | inl e => Ok (g, Some e)
          | inr _ => insert_links w other rekeys new ls' g
          end
      end
  end.
(** view.rs:583-614 [insert_graph] with [other] a PortGraph; [rekeys] (a
    [HashMap]) is the list of its entries in insertion order *)
Fixpoint insert_nodes (w : N) (other : pg) (ns : list nat) (rekeys : list (nat * nat)) (g : pg)
    : res (pg * (link_error + list (nat * nat))) :=
  match ns with
  | [] => Ok (g, inr rekeys)
  | old :: ns' =>
      '(g, new) ← add_node (po_max_offset w) g (num_ports other old Incoming) (num_ports other old Outgoing);
      let rekeys := rekeys ++ [(old, new)] in
      ls ← all_links other old;
      '(g, e) ← insert_links w other rekeys new ls g;
      match e with
      | Some e => Ok (g, inl e)
      | None => insert_nodes w other ns' rekeys g
      end
  end.
Definition insert_graph (w : N) (g other : pg) : res (pg * (link_error + list (nat * nat))) :=
  insert_nodes w other (nodes_iter other) [] (reserve g (node_count other) (port_count other)).
