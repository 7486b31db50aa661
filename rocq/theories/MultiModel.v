(** [MultiPortGraph] (multiportgraph.rs, multiportgraph/iter.rs). [w] is the bit
    width of the offset type [PO]. Iterators are the lists of their items.
    [debug_assert!]s are not modelled; capacities are not modelled. *)
From Verif Require Export PGViewModel MapModel.

(** multiportgraph.rs:33-44; [BitVec]s as in MapModel.v *)
Record mpg := MPG {
  m_graph : pg;
  m_multi : list bool;     (* multiport *)
  m_copy : list bool;      (* copy_node *)
  m_ccount : nat;          (* copy_node_count *)
  m_scount : nat;          (* subport_count *)
}.
Definition m_with_graph (m : mpg) g := MPG g (m_multi m) (m_copy m) (m_ccount m) (m_scount m).
Definition m_with_multi (m : mpg) x := MPG (m_graph m) x (m_copy m) (m_ccount m) (m_scount m).
Definition m_with_copy (m : mpg) x := MPG (m_graph m) (m_multi m) x (m_ccount m) (m_scount m).
Definition m_with_counts (m : mpg) c s := MPG (m_graph m) (m_multi m) (m_copy m) c s.

(** multiportgraph.rs:59-69 [SubportIndex]: port and offset *)
Definition subport : Type := nat * nat.
(** multiportgraph.rs:619-624 [new_unique] *)
Definition sp_unique (p : nat) : subport := (p, 0).
(** multiportgraph.rs:632-641 [new_multi] *)
Definition sp_multi (p : nat) (off : N) : res subport :=
  _ ← assert (off <? 65535)%N; Ok (p, N.to_nat off).

(** multiportgraph.rs:73-92 [new], [with_capacity] *)
Definition m_new : mpg := MPG pg_new [] [] 0 0.
(** multiportgraph.rs:596-606 [From<PortGraph>] *)
Definition m_from (g : pg) : mpg := MPG g [] [] 0 0.
(** multiportgraph.rs:97-100 [as_portgraph], 610-613 *)
Definition m_as_portgraph (m : mpg) : pg := m_graph m.

(** multiportgraph.rs:549-557 *)
Definition is_multi (m : mpg) (p : nat) : bool := bv_get (m_multi m) p.
Definition is_copy (m : mpg) (n : nat) : bool := bv_get (m_copy m) n.

(** ** Reading *)

(** multiportgraph.rs:509-543 [copy_node_main_port] *)
Definition copy_main_port (m : mpg) (c : nat) : res (option nat) :=
  let inc := ports (m_graph m) c Incoming in
  let out := ports (m_graph m) c Outgoing in
  p ← match inc, out with
      | [i], [o] => Ok (if is_multi m i then i else o)
      | [i], _ => Ok i
      | _, [o] => Ok o
      | _, _ => Panic
      end;
  port_link (m_graph m) p.
(** multiportgraph.rs:105-111 [pg_main_node] *)
Definition m_main_node (m : mpg) (n : nat) : res nat :=
  if negb (is_copy m n) then Ok n
  else o ← copy_main_port m n; p ← unwrap o; unwrap (port_node (m_graph m) p).

(** multiportgraph.rs:561-564 [get_copy_node] *)
Definition get_copy_node (m : mpg) (p : nat) : res (option nat) :=
  l ← port_link (m_graph m) p;
  Ok (match l with Some q => port_node (m_graph m) q | None => None end).
(** multiportgraph.rs:569-579 [get_subport_index] *)
Definition sub_to_port (w : N) (m : mpg) (s : subport) : res (option nat) :=
  if is_multi m s.1 then
    c ← get_copy_node m s.1;
    match c, port_direction (m_graph m) s.1 with
    | Some c, Some d => o ← po_new w d (N.of_nat s.2); port_index w (m_graph m) c o
    | _, _ => Ok None
    end
  else Ok (Some s.1).
(** multiportgraph.rs:583-592 [get_subport_from_index] *)
Definition port_to_sub (w : N) (m : mpg) (i : nat) : res (option subport) :=
  n ← unwrap (port_node (m_graph m) i);
  if is_copy m n then
    p ← copy_main_port m n;
    match p with
    | None => Ok None
    | Some p =>
        o ← port_offset w (m_graph m) i;
        match o with
        | None => Ok None
        | Some o => k ← po_index w o; s ← sp_multi p k; Ok (Some s)
        end
    end
  else Ok (Some (sp_unique i)).

(** multiportgraph.rs:114-188: [PortView]; the delegated methods are those of
    [m_graph m] *)
Definition m_contains_node (m : mpg) (n : nat) : bool := contains_node (m_graph m) n && negb (is_copy m n).
Definition m_contains_port (m : mpg) (p : nat) : bool :=
  match port_node (m_graph m) p with Some n => negb (is_copy m n) | None => false end.
Definition m_node_count (m : mpg) : res nat := usub (node_count (m_graph m)) (m_ccount m).
Definition m_is_empty (m : mpg) : res bool := c ← m_node_count m; Ok (bool_decide (c = 0)).
Definition m_port_count (m : mpg) : res nat :=
  x ← usub (port_count (m_graph m)) (m_scount m); usub x (m_ccount m).
(** multiportgraph.rs:280-283 *)
Definition m_link_count (m : mpg) : res nat := usub (link_count (m_graph m)) (m_ccount m).
(** multiportgraph.rs:148-159, iter.rs:81-131 [Nodes], 500-547 [Ports] *)
Definition m_nodes_iter (m : mpg) : list nat :=
  filter (fun n => is_copy m n = false) (nodes_iter (m_graph m)).
Definition m_ports_iter (m : mpg) : res (list nat) :=
  l ← rmap (fun p => mbind (M := res) (fun n => Ok (p, is_copy m n)) (unwrap (port_node (m_graph m) p)))
        (ports_iter (m_graph m));
  Ok (map fst (filter (fun x : nat * bool => x.2 = false) l)).

(** [Iterator::flatten] on options *)
Fixpoint somes {A} (l : list (option A)) : list A :=
  match l with [] => [] | Some a :: l => a :: somes l | None :: l => somes l end.

(** iter.rs:388-455 [PortLinks]; [port_links_single], [port_links_multiport] *)
Definition m_link_item (w : N) (m : mpg) (s : subport) (raw : nat) : res (option (subport * subport)) :=
  l ← port_link (m_graph m) raw;
  match l with
  | None => Ok None
  | Some q => t ← port_to_sub w m q; Ok (match t with Some t => Some (s, t) | None => None end)
  end.
Definition m_port_links (w : N) (m : mpg) (p : nat) : res (list (subport * subport)) :=
  if is_multi m p then
    c ← get_copy_node m p; c ← unwrap c;
    d ← unwrap (port_direction (m_graph m) p);
    l ← rmap (fun x : nat * nat => s ← sp_multi p (N.of_nat x.1); m_link_item w m s x.2)
          (enumerate (ports (m_graph m) c d));
    Ok (somes l)
  else
    o ← m_link_item w m (sp_unique p) p; Ok (option_list o).
(** iter.rs:289-328 [NodeLinks], over the ports [ps]; [ignore] tells the ignored targets *)
Definition m_node_links (w : N) (m : mpg) (ps : list nat) (ignore : nat -> bool) : res (list (subport * subport)) :=
  l ← rmap (m_port_links w m) ps;
  Ok (filter (fun x : subport * subport => ignore x.2.1 = false) (concat l)).
(** iter.rs:36-45 *)
Definition m_links (w : N) (m : mpg) (n : nat) (d : dir) : res (list (subport * subport)) :=
  m_node_links w m (ports (m_graph m) n d) (fun _ => false).
Definition m_all_links (w : N) (m : mpg) (n : nat) : res (list (subport * subport)) :=
  m_node_links w m (all_ports (m_graph m) n) (fun p => bool_decide (p ∈ ports (m_graph m) n Outgoing)).
(** iter.rs:156-193 [NodeSubports] *)
Definition m_port_subports (m : mpg) (p : nat) : res (list subport) :=
  if is_multi m p then
    d ← unwrap (port_direction (m_graph m) p);
    c ← get_copy_node m p; c ← unwrap c;
    rmap (fun i => sp_multi p (N.of_nat i)) (seq 0 (num_ports (m_graph m) c d))
  else Ok [sp_unique p].
(** iter.rs:70-78 *)
Definition m_subports (m : mpg) (n : nat) (d : dir) : res (list subport) :=
  l ← rmap (m_port_subports m) (ports (m_graph m) n d); Ok (concat l).
Definition m_all_subports (m : mpg) (n : nat) : res (list subport) :=
  l ← rmap (m_port_subports m) (all_ports (m_graph m) n); Ok (concat l).
(** iter.rs:229-270 [Neighbours::next] for one subport. [current_copy_node] was
    set at offset 0 of the same port to its copy node. *)
Definition m_neigh_item (w : N) (m : mpg) (node : nat) (ignore : bool) (s : subport) : res (option nat) :=
  l ← (if is_multi m s.1 then
         c ← get_copy_node m s.1; c ← unwrap c;
         d ← unwrap (port_direction (m_graph m) s.1);
         o ← po_new w d (N.of_nat s.2);
         i ← port_index w (m_graph m) c o; i ← unwrap i;
         port_link (m_graph m) i
       else port_link (m_graph m) s.1);
  match l with
  | None => Ok None
  | Some q =>
      t ← port_to_sub w m q; t ← unwrap t;
      n ← unwrap (port_node (m_graph m) t.1);
      d ← unwrap (port_direction (m_graph m) t.1);
      Ok (if decide (ignore = true /\ n = node /\ d = Outgoing) then None else Some n)
  end.
(** iter.rs:58-66 *)
Definition m_neighbours (w : N) (m : mpg) (n : nat) (d : dir) : res (list nat) :=
  l ← m_subports m n d; r ← rmap (m_neigh_item w m n false) l; Ok (somes r).
Definition m_all_neighbours (w : N) (m : mpg) (n : nat) : res (list nat) :=
  l ← m_all_subports m n; r ← rmap (m_neigh_item w m n true) l; Ok (somes r).
(** iter.rs:19-25, 353-366 [NodeConnections] *)
Definition m_get_connections (w : N) (m : mpg) (a b : nat) : res (list (subport * subport)) :=
  l ← m_links w m a Outgoing;
  Ok (filter (fun x : subport * subport => port_node (m_graph m) x.2.1 = Some b) l).
(** multiportgraph.rs:329-333 [subport_link] *)
Definition m_subport_link (w : N) (m : mpg) (s : subport) : res (option subport) :=
  i ← sub_to_port w m s;
  match i with
  | None => Ok None
  | Some i =>
      l ← port_link (m_graph m) i;
      match l with None => Ok None | Some q => port_to_sub w m q end
  end.

(** ** Mutation *)

(** multiportgraph.rs:375-397 [remove_copy_node] *)
Definition m_remove_copy (w : N) (m : mpg) (main copy_port : nat) : res (mpg * option subport) :=
  c ← unwrap (port_node (m_graph m) copy_port);
  d ← unwrap (port_direction (m_graph m) copy_port);
  ls ← links (m_graph m) c d;
  link ← match head ls with
         | None => Ok None
         | Some (_, tgt) => t ← port_to_sub w m tgt; t ← unwrap t; Ok (Some t)
         end;
  let subports := ports (m_graph m) c (rev_dir d) in
  fl ← bv_set (m_multi m) copy_port false;
  fl ← bv_set fl main false;
  cp ← bv_set (m_copy m) c false;
  g ← remove_node (m_graph m) c;
  cc ← usub (m_ccount m) 1;
  sc ← usub (m_scount m) (length subports);
  Ok (MPG g fl cp cc sc, link).

(** multiportgraph.rs:315-325 [unlink_port] *)
Definition m_unlink_port (w : N) (m : mpg) (p : nat) : res (mpg * option subport) :=
  if is_multi m p then
    l ← port_link (m_graph m) p; l ← unwrap l;
    m_remove_copy w m p l
  else
    '(g, r) ← unlink_port (m_graph m) p;
    Ok (m_with_graph m g, option_map sp_unique r).

(** multiportgraph.rs:192-194 [add_node] *)
Definition m_add_node (w : N) (m : mpg) (i j : nat) : res (mpg * nat) :=
  '(g, n) ← add_node (po_max_offset w) (m_graph m) i j; Ok (m_with_graph m g, n).
(** multiportgraph.rs:196-204 [remove_node] *)
Definition m_remove_node (w : N) (m : mpg) (n : nat) : res mpg :=
  m ← rfold (fun m p => if is_multi m p then '(m, _) ← m_unlink_port w m p; Ok m else Ok m)
        (all_ports (m_graph m) n) m;
  g ← remove_node (m_graph m) n;
  Ok (m_with_graph m g).
(** multiportgraph.rs:206-212 [clear] *)
Definition m_clear (m : mpg) : mpg := MPG (clear (m_graph m)) [] [] 0 0.
(** multiportgraph.rs:226-236: the callback wrapper, on the flags and
    [dropped_ports]. The graph does not depend on them, so the calls are
    replayed after it has changed. *)
Definition m_rekey_step (s : list bool * list (nat * nat)) (x : nat * port_op) : res (list bool * list (nat * nat)) :=
  match x.2 with
  | Removed old_link =>
      if bv_get s.1 x.1 then l ← unwrap old_link; Ok (s.1, s.2 ++ [(x.1, l)]) else Ok s
  | Moved new => fl ← bv_swap s.1 x.1 new; Ok (fl, s.2)
  end.
(** multiportgraph.rs:221-242 [set_num_ports], with the calls of [rekey] *)
Definition m_set_num_ports (w : N) (m : mpg) (n i j : nat) : res (mpg * list (nat * port_op)) :=
  '(g, log) ← set_num_ports (m_graph m) n i j;
  '(fl, dropped) ← rfold m_rekey_step log (m_multi m, []);
  m ← rfold (fun m x => '(m, _) ← m_remove_copy w m x.1 x.2; Ok m) dropped (m_with_multi (m_with_graph m g) fl);
  Ok (m, log).
(** multiportgraph.rs:244-252 [compact_nodes] *)
Definition m_compact_nodes (m : mpg) : res (mpg * list (nat * nat)) :=
  '(g, log) ← compact_nodes (m_graph m);
  cp ← rfold (fun cp x => bv_swap cp x.1 x.2) log (m_copy m);
  Ok (m_with_copy (m_with_graph m g) cp, log).
(** multiportgraph.rs:254-257 [swap_nodes] *)
Definition m_swap_nodes (m : mpg) (a b : nat) : res mpg :=
  g ← swap_nodes (m_graph m) a b;
  cp ← bv_swap (m_copy m) a b;
  Ok (m_with_copy (m_with_graph m g) cp).
(** multiportgraph.rs:259-267 [compact_ports] *)
Definition m_compact_ports (m : mpg) : res (mpg * list (nat * nat)) :=
  '(g, log) ← compact_ports (m_graph m);
  fl ← rfold (fun fl x => bv_swap fl x.1 x.2) log (m_multi m);
  Ok (m_with_multi (m_with_graph m g) fl, log).

(** multiportgraph.rs:472-489 [add_port] *)
Definition m_add_port (w : N) (m : mpg) (n : nat) (d : dir) : res (mpg * nat) :=
  let inc := num_ports (m_graph m) n Incoming in
  let out := num_ports (m_graph m) n Outgoing in
  let off := match d with Incoming => inc | Outgoing => out end in
  '(m, _) ← m_set_num_ports w m n (match d with Incoming => inc + 1 | Outgoing => inc end)
                                  (match d with Incoming => out | Outgoing => out + 1 end);
  o ← po_new w d (N.of_nat off);
  p ← port_index w (m_graph m) n o;
  p ← unwrap p;
  Ok (m, p).
(** multiportgraph.rs:495-506 [link_ports_directed] *)
Definition m_link_directed (m : mpg) (p1 p2 : nat) (d : dir) : res (mpg * option link_error) :=
  '(g, r) ← match d with
            | Incoming => link_ports (m_graph m) p2 p1
            | Outgoing => link_ports (m_graph m) p1 p2
            end;
  Ok (m_with_graph m g, match r with inl e => Some e | inr _ => None end).
(** multiportgraph.rs:450-455: the first free subport, with its offset *)
Fixpoint first_free (g : pg) (off : nat) (ps : list nat) : res (option (nat * nat)) :=
  match ps with
  | [] => Ok None
  | p :: ps => l ← port_link g p; match l with None => Ok (Some (off, p)) | Some _ => first_free g (S off) ps end
  end.
(** multiportgraph.rs:402-468 [get_free_multiport] *)
Definition m_get_free (w : N) (m : mpg) (p : nat) : res (mpg * (link_error + subport * nat)) :=
  match port_direction (m_graph m) p with
  | None => Ok (m, inl (UnknownPort p))
  | Some d =>
      l ← port_link (m_graph m) p;
      match is_multi m p, l with
      | false, None => Ok (m, inr (sp_unique p, p))
      | false, Some link =>
          '(g, c) ← match d with
                    | Incoming => add_node (po_max_offset w) (m_graph m) 2 1
                    | Outgoing => add_node (po_max_offset w) (m_graph m) 1 2
                    end;
          cp ← bv_set (m_copy m) c true;
          let m := MPG g (m_multi m) cp (m_ccount m + 1) (m_scount m + 2) in
          copy_port ← unwrap (head (ports g c (rev_dir d)));
          o0 ← po_new w d 0; old_link ← port_index w g c o0; old_link ← unwrap old_link;
          o1 ← po_new w d 1; sub ← port_index w g c o1; sub ← unwrap sub;
          '(g, _) ← unlink_port g p;
          '(m, e) ← m_link_directed (m_with_graph m g) p copy_port d;
          match e with
          | Some e => Ok (m, inl e)
          | None =>
              '(m, e) ← m_link_directed m old_link link d;
              match e with
              | Some e => Ok (m, inl e)
              | None =>
                  fl ← bv_set (m_multi m) copy_port true;
                  fl ← bv_set fl p true;
                  s ← sp_multi p 1;
                  Ok (m_with_multi m fl, inr (s, sub))
              end
          end
      | true, Some link =>
          c ← unwrap (port_node (m_graph m) link);
          f ← first_free (m_graph m) 0 (ports (m_graph m) c d);
          match f with
          | Some (off, sub) => s ← sp_multi p (N.of_nat off); Ok (m, inr (s, sub))
          | None =>
              let off := num_ports (m_graph m) c d in
              '(m, sub) ← m_add_port w m c d;
              let m := m_with_counts m (m_ccount m) (m_scount m + 1) in
              s ← sp_multi p (N.of_nat off);
              Ok (m, inr (s, sub))
          end
      | true, None => Panic
      end
  end.
(** multiportgraph.rs:304-313 [link_ports] *)
Definition m_link_ports (w : N) (m : mpg) (a b : nat) : res (mpg * (link_error + subport * subport)) :=
  '(m, ra) ← m_get_free w m a;
  match ra with
  | inl e => Ok (m, inl e)
  | inr (sa, ia) =>
      '(m, rb) ← m_get_free w m b;
      match rb with
      | inl e => Ok (m, inl e)
      | inr (sb, ib) =>
          '(g, r) ← link_ports (m_graph m) ia ib;
          Ok (m_with_graph m g, match r with inl e => inl e | inr _ => inr (sa, sb) end)
      end
  end.

(** multiportgraph.rs:346-360 [link_subports] *)
Definition m_link_subports (w : N) (m : mpg) (a b : subport) : res (mpg * option link_error) :=
  ia ← sub_to_port w m a; ia ← unwrap ia;
  ib ← sub_to_port w m b; ib ← unwrap ib;
  '(g, r) ← link_ports (m_graph m) ia ib;
  Ok (m_with_graph m g, match r with inl e => Some e | inr _ => None end).
(** multiportgraph.rs:362-367 [unlink_subport] *)
Definition m_unlink_subport (w : N) (m : mpg) (s : subport) : res (mpg * option subport) :=
  i ← sub_to_port w m s;
  match i with
  | None => Ok (m, None)
  | Some i =>
      '(g, r) ← unlink_port (m_graph m) i;
      let m := m_with_graph m g in
      match r with
      | None => Ok (m, None)
      | Some q => t ← port_to_sub w m q; Ok (m, t)
      end
  end.
