(** Iterators of [PortGraph] and [MultiPortGraph] step by step
    (portgraph/iter.rs and multiportgraph/iter.rs): their states, [next],
    [next_back] and [size_hint]. PGViewModel.v has the states and the forward
    steps of the [PortGraph] iterators; MultiModel.v has the [MultiPortGraph]
    iterators as lists. [std] iterators ([Range] of port indices, [Zip],
    [Enumerate]) are the lists of their remaining items. A [loop] that is not
    structural in such a list takes fuel; running out of it is [Panic]. *)
From Verif Require Export MultiModel.

(** A size hint: lower bound and optional upper bound. *)
Definition hint : Type := nat * option nat.

(** ** portgraph/iter.rs *)

(** portgraph/iter.rs:421-424, 473-476, 530-533: [size_hint] of [NodeLinks],
    [Neighbours] and [NodeConnections] *)
Definition links_hint (s : links_state) : hint := (0, Some (length s.1)).
(** portgraph/iter.rs:479-486 [Neighbours::next_back] *)
Definition neigh_next_back (g : pg) (s : links_state) : res (option nat * links_state) :=
  match links_next_back s with
  | (Some (_, q), s') => n ← unwrap (port_node g q); Ok (Some n, s')
  | (None, s') => Ok (None, s')
  end.
(** portgraph/iter.rs:536-545 [NodeConnections::next_back]; fuel as in [conn_scan] *)
Fixpoint conn_scan_back (g : pg) (target : nat) (fuel : nat) (s : links_state)
    : option (nat * nat) * links_state :=
  match links_next_back s with
  | (None, s') => (None, s')
  | (Some (p, q), s') =>
      if decide (port_node g q = Some target) then (Some (p, q), s')
      else match fuel with 0 => (None, s') | S f => conn_scan_back g target f s' end
  end.
Definition conn_next_back (g : pg) (target : nat) (s : links_state) : option (nat * nat) * links_state :=
  conn_scan_back g target (length s.1) s.

(** ** multiportgraph/iter.rs *)

(** multiportgraph/iter.rs:81-88 and multiportgraph.rs:148-154: [Nodes] *)
Definition mn_state : Type := nodes_state * nat.
Definition mn_init (m : mpg) : res mn_state := c ← m_node_count m; Ok (nodes_init (m_graph m), c).
(** multiportgraph/iter.rs:93-100, 119-129: the loop of [next] and [next_back]
    over the steps [step] of the wrapped iterator *)
Fixpoint mn_loop (m : mpg) (step : nodes_state -> res (option nat * nodes_state)) (fuel : nat) (s : mn_state)
    : res (option nat * mn_state) :=
  match fuel with
  | 0 => Panic
  | S f =>
      '(o, i) ← step s.1;
      match o with
      | None => Ok (None, (i, s.2))
      | Some n => if is_copy m n then mn_loop m step f (i, s.2)
                  else len ← usub s.2 1; Ok (Some n, (i, len))
      end
  end.
Definition mn_next (m : mpg) (s : mn_state) := mn_loop m nodes_next (S (length s.1.1)) s.
Definition mn_next_back (m : mpg) (s : mn_state) := mn_loop m nodes_next_back (S (length s.1.1)) s.
(** multiportgraph/iter.rs:102-117: [count], [size_hint], [len] *)
Definition mn_hint (s : mn_state) : hint := (s.2, Some s.2).

(** multiportgraph/iter.rs:500-545 [Ports] *)
Fixpoint mp_loop (m : mpg) (step : ports_state -> res (option nat * ports_state)) (fuel : nat) (s : ports_state)
    : res (option nat * ports_state) :=
  match fuel with
  | 0 => Panic
  | S f =>
      '(o, i) ← step s;
      match o with
      | None => Ok (None, i)
      | Some p => n ← unwrap (port_node (m_graph m) p);
                  if is_copy m n then mp_loop m step f i else Ok (Some p, i)
      end
  end.
Definition mp_next (m : mpg) (s : ports_state) := mp_loop m ports_next (S (length s.1)) s.
Definition mp_next_back (m : mpg) (s : ports_state) := mp_loop m ports_next_back (S (length s.1)) s.
(** multiportgraph/iter.rs:530-532 *)
Definition mp_hint (s : ports_state) : hint := (0, Some s.2).

(** multiportgraph/iter.rs:371-387 [PortLinks]; [Enumerate<NodePorts>] is the list
    of the remaining pairs *)
Inductive pl_state :=
  | PLSingle (p : nat) (empty : bool)
  | PLMulti (p : nat) (rest : list (nat * nat)).
(** multiportgraph/iter.rs:389-408 *)
Definition pl_new (m : mpg) (p : nat) : res pl_state :=
  if is_multi m p then
    c ← get_copy_node m p; c ← unwrap c;
    d ← unwrap (port_direction (m_graph m) p);
    Ok (PLMulti p (enumerate (ports (m_graph m) c d)))
  else Ok (PLSingle p false).
(** multiportgraph/iter.rs:421-431, 452-453, 488-493: [find_map] over the subports *)
Fixpoint pl_scan (w : N) (m : mpg) (p : nat) (rest : list (nat * nat))
    : res (option (subport * subport) * list (nat * nat)) :=
  match rest with
  | [] => Ok (None, [])
  | (off, i) :: rest' =>
      o ← (l ← port_link (m_graph m) i;
           match l with
           | None => Ok None
           | Some q =>
               t ← port_to_sub w m q;
               match t with
               | None => Ok None
               | Some t => s ← sp_multi p (N.of_nat off); Ok (Some (s, t))
               end
           end);
      match o with
      | Some x => Ok (Some x, rest')
      | None => pl_scan w m p rest'
      end
  end.
(** multiportgraph/iter.rs:410-455 *)
Definition pl_next (w : N) (m : mpg) (s : pl_state) : res (option (subport * subport) * pl_state) :=
  match s with
  | PLSingle p false => o ← m_link_item w m (sp_unique p) p; Ok (o, PLSingle p true)
  | PLSingle p true => Ok (None, s)
  | PLMulti p rest => '(o, r) ← pl_scan w m p rest; Ok (o, PLMulti p r)
  end.
(** multiportgraph/iter.rs:471-496 *)
Definition pl_next_back (w : N) (m : mpg) (s : pl_state) : res (option (subport * subport) * pl_state) :=
  match s with
  | PLSingle p false => o ← m_link_item w m (sp_unique p) p; Ok (o, PLSingle p true)
  | PLSingle p true => Ok (None, s)
  | PLMulti p rest => '(o, r) ← pl_scan w m p (rev rest); Ok (o, PLMulti p (rev r))
  end.
(** multiportgraph/iter.rs:457-468 *)
Definition pl_hint (s : pl_state) : hint :=
  match s with
  | PLSingle _ true => (0, Some 0)
  | PLSingle _ false => (1, Some 1)
  | PLMulti _ rest => (0, Some (length rest))
  end.

(** multiportgraph/iter.rs:133-154 [NodeSubports]: remaining ports, current port,
    remaining offsets of its subports *)
Record ns_state := NS { ns_ports : list nat; ns_cur : option nat; ns_offs : nat * nat }.
Definition ns_init (ps : list nat) : ns_state := NS ps None (0, 0).
(** multiportgraph/iter.rs:156-189; the recursion is over the remaining ports *)
Fixpoint ns_loop (m : mpg) (ps : list nat) (cur : option nat) (offs : nat * nat)
    : res (option subport * ns_state) :=
  match rng_next offs with
  | (Some off, r) => c ← unwrap cur; s ← sp_multi c (N.of_nat off); Ok (Some s, NS ps cur r)
  | (None, r) =>
      match ps with
      | [] => Ok (None, NS [] cur r)
      | p :: ps' =>
          if is_multi m p then
            d ← unwrap (port_direction (m_graph m) p);
            c ← get_copy_node m p; c ← unwrap c;
            let o := port_offsets_init (m_graph m) c d in
            ns_loop m ps' (Some p) (match d with Incoming => o.1 | Outgoing => o.2 end)
          else Ok (Some (sp_unique p), NS ps' (Some p) r)
      end
  end.
Definition ns_next (m : mpg) (s : ns_state) : res (option subport * ns_state) :=
  ns_loop m (ns_ports s) (ns_cur s) (ns_offs s).
(** multiportgraph/iter.rs:191-193 *)
Definition ns_hint (s : ns_state) : hint := (length (ns_ports s) + rng_len (ns_offs s), None).

(** multiportgraph/iter.rs:198-227 [Neighbours]: the subports and the current copy
    node *)
Definition nb_state : Type := ns_state * option nat.
(** multiportgraph/iter.rs:229-269: one round of the loop per subport *)
Fixpoint nb_next (w : N) (m : mpg) (node : nat) (ignore : bool) (fuel : nat) (s : nb_state)
    : res (option nat * nb_state) :=
  match fuel with
  | 0 => Panic
  | S f =>
      '(o, n) ← ns_next m s.1;
      match o with
      | None => Ok (None, (n, s.2))
      | Some x =>
          '(l, cc) ← (if negb (is_multi m x.1) then l ← port_link (m_graph m) x.1; Ok (l, s.2)
                      else
                        cc ← (if decide (x.2 = 0) then get_copy_node m x.1 else Ok s.2);
                        c ← unwrap cc;
                        d ← unwrap (port_direction (m_graph m) x.1);
                        off ← po_new w d (N.of_nat x.2);
                        i ← port_index w (m_graph m) c off; i ← unwrap i;
                        l ← port_link (m_graph m) i; Ok (l, cc));
          match l with
          | None => nb_next w m node ignore f (n, cc)
          | Some q =>
              t ← port_to_sub w m q; t ← unwrap t;
              k ← unwrap (port_node (m_graph m) t.1);
              skip ← (if ignore && bool_decide (k = node) then
                        d ← unwrap (port_direction (m_graph m) t.1); Ok (bool_decide (d = Outgoing))
                      else Ok false);
              if skip : bool then nb_next w m node ignore f (n, cc) else Ok (Some k, (n, cc))
          end
      end
  end.

(** multiportgraph/iter.rs:278-303 [NodeLinks]: remaining ports, links of the
    current port, range of the ignored targets *)
Record nl_state := NL { nl_ports : list nat; nl_cur : option pl_state; nl_ignore : nat * nat }.
(** multiportgraph/iter.rs:37-45 and portgraph.rs:324-330 [node_outgoing_ports] *)
Definition nl_links (m : mpg) (n : nat) (d : dir) : nl_state := NL (ports (m_graph m) n d) None (0, 0).
Definition nl_all_links (m : mpg) (n : nat) : nl_state :=
  NL (all_ports (m_graph m) n) None (ports_init (m_graph m) n Outgoing).
(** multiportgraph/iter.rs:305-326 *)
Fixpoint nl_next (w : N) (m : mpg) (fuel : nat) (s : nl_state) : res (option (subport * subport) * nl_state) :=
  match fuel with
  | 0 => Panic
  | S f =>
      match nl_cur s with
      | None =>
          match nl_ports s with
          | [] => Ok (None, s)
          | p :: ps => c ← pl_new m p; nl_next w m f (NL ps (Some c) (nl_ignore s))
          end
      | Some c =>
          '(o, c') ← pl_next w m c;
          match o with
          | None => nl_next w m f (NL (nl_ports s) None (nl_ignore s))
          | Some x =>
              if decide ((nl_ignore s).1 <= x.2.1 < (nl_ignore s).2)
              then nl_next w m f (NL (nl_ports s) (Some c') (nl_ignore s))
              else Ok (Some x, NL (nl_ports s) (Some c') (nl_ignore s))
          end
      end
  end.
(** multiportgraph/iter.rs:353-366 [NodeConnections::next]; [k] is the fuel of the
    wrapped [NodeLinks::next] *)
Fixpoint nc_next (w : N) (m : mpg) (target : nat) (k fuel : nat) (s : nl_state)
    : res (option (subport * subport) * nl_state) :=
  match fuel with
  | 0 => Panic
  | S f =>
      '(o, s') ← nl_next w m k s;
      match o with
      | None => Ok (None, s')
      | Some x =>
          match port_node (m_graph m) x.2.1 with
          | None => Ok (None, s')
          | Some n => if decide (n = target) then Ok (Some x, s') else nc_next w m target k f s'
          end
      end
  end.
