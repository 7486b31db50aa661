(** Convexity checkers (algorithms/convex/*.rs). [u32] line numbers and
    positions are [nat]. *)
From Verif Require Export AlgModel.

(** [BTreeSet<usize>]: the elements in increasing order. *)
Fixpoint bt_insert (x : nat) (l : list nat) : list nat :=
  match l with
  | [] => [x]
  | y :: l' => if decide (x < y) then x :: l else if decide (x = y) then l else y :: bt_insert x l'
  end.
Definition bt_of (l : list nat) : list nat := foldl (fun s x => bt_insert x s) [] l.

(** [filter] with a fallible predicate *)
Fixpoint rfilter {A} (f : A -> res bool) (l : list A) : res (list A) :=
  match l with
  | [] => Ok []
  | a :: l => b ← f a; r ← rfilter f l; Ok (if b : bool then a :: r else r)
  end.

Section checkers.
  (** the graph, with [neighbours(node, direction)] (view.rs:436-490) *)
  Context (v : gview) (nb : nat -> dir -> res (list nat)).

  (** topo_convex_checker.rs:20-23, line_convex_checker.rs:146-149 *)
  Definition cc_topsort (fuel : nat) : hres (list nat) :=
    inputs ← lift (rfilter (fun n => l ← nb n Incoming; Ok (bool_decide (length l = 0))) (gv_nodes v));
    topo_collect v Outgoing (fun _ => true) (fun _ _ => true) fuel (topo_new v Outgoing (fun _ => true) inputs).

  (** topo_convex_checker.rs:127-132, line_convex_checker.rs:638-643 *)
  Definition cc_boundary_clash (inputs outputs : list nat) : res bool :=
    pre ← rmap (gv_link v) outputs;
    let pre_outputs := omap (M := list) (A := option nat) id pre in
    Ok (existsb (fun p => bool_decide (p ∈ pre_outputs)) inputs).

  (** ** topo_convex_checker.rs *)

  (** topo_convex_checker.rs:9-15; the graph is a parameter *)
  Record tcc := TCC { tcc_nodes : list nat; tcc_ind : umap nat }.
  (** topo_convex_checker.rs:19-34 [new] *)
  Definition tcc_new (fuel : nat) : hres tcc :=
    nodes ← cc_topsort fuel;
    ind ← lift (rfold (fun m x => um_set m x.2 x.1) (enumerate nodes) (um_with_default 0));
    HOk (TCC nodes ind).

  Section query.
    Context (c : tcc).
    (** topo_convex_checker.rs:90-95, 104-108 *)
    Definition tcc_succs (lo hi current : nat) : res (list nat) :=
      current_node ← vget (tcc_nodes c) current;
      l ← nb current_node Outgoing;
      Ok (filter (fun i => lo <= i <= hi) (map (um_get (tcc_ind c)) l)).
    (** topo_convex_checker.rs:109-116; [None] is [return false] *)
    Fixpoint tcc_others (nodes l other : list nat) : option (list nat) :=
      match l with
      | [] => Some other
      | i :: l => if decide (i ∈ nodes) then None else tcc_others nodes l (bt_insert i other)
      end.
    (** topo_convex_checker.rs:84-118; [iter] is what [node_iter] has left *)
    Fixpoint tcc_loop (fuel : nat) (nodes : list nat) (lo hi : nat) (iter other : list nat) : hres bool :=
      match fuel with
      | 0 => HLoop
      | S fuel =>
          match iter with
          | [] => HOk true
          | current :: iter' =>
              match other with
              | o :: other' =>
                  if decide (current < o) then
                    l ← lift (tcc_succs lo hi current);
                    tcc_loop fuel nodes lo hi iter' (foldl (fun s i => if decide (i ∈ nodes) then s else bt_insert i s) other l)
                  else
                    l ← lift (tcc_succs lo hi o);
                    match tcc_others nodes l other' with
                    | None => HOk false
                    | Some other => tcc_loop fuel nodes lo hi iter other
                    end
              | [] =>
                  l ← lift (tcc_succs lo hi current);
                  tcc_loop fuel nodes lo hi iter' (foldl (fun s i => if decide (i ∈ nodes) then s else bt_insert i s) other l)
              end
          end
      end.
    (** topo_convex_checker.rs:65-120 [is_node_convex] *)
    Definition tcc_is_node_convex (fuel : nat) (s : list nat) : hres bool :=
      let nodes := bt_of (map (um_get (tcc_ind c)) s) in
      match nodes, last nodes with
      | min_ind :: _ :: _, Some max_ind => tcc_loop fuel nodes min_ind max_ind nodes []
      | _, _ => HOk true
      end.
    (** topo_convex_checker.rs:124-137 [is_convex] *)
    Definition tcc_is_convex (fuel : nat) (s inputs outputs : list nat) : hres bool :=
      b ← lift (cc_boundary_clash inputs outputs);
      if b : bool then HOk false else tcc_is_node_convex fuel s.
  End query.

  (** ** line_convex_checker.rs *)

  (** line_convex_checker.rs:54-63 [LinePositions] *)
  Record lpos := LP { lp_lines : list nat; lp_pos : nat }.
  Definition lp_default : lpos := LP [] 0.
  (** The variables of the closure, 539-571: [frontier] and [n_lines] *)
  Definition frontier : Type := gmap nat lpos * nat.

  (** line_convex_checker.rs:547-557 [pop_frontier]; the last element of the
      vector is the last one of the list *)
  Definition pop_frontier (f : gmap nat lpos) (port : nat) : option (nat * nat * gmap nat lpos) :=
    match f !! port with
    | None => None
    | Some ps =>
        match last (lp_lines ps) with
        | None => None (* the entry is removed; the caller panics *)
        | Some l => Some (l, lp_pos ps, <[port := LP (removelast (lp_lines ps)) (lp_pos ps)]> f)
        end
    end.
  (** line_convex_checker.rs:560-569 [push_frontier] *)
  Definition push_frontier (f : gmap nat lpos) (port line position : nat) : gmap nat lpos :=
    let entry := default lp_default (f !! port) in
    <[port := LP (lp_lines entry ++ [line]) position]> f.

  (** line_convex_checker.rs:590-595, for one outgoing port *)
  Definition lcc_in_step (s : gmap nat lpos * list nat * option nat) (out_port : nat)
      : res (gmap nat lpos * list nat * option nat) :=
    let '(f, lines, max_pos) := s in
    '(line, position, f) ← unwrap (pop_frontier f out_port);
    Ok (f, lines ++ [line], Some (match max_pos with Some p => p `max` position | None => position end)).
  (** line_convex_checker.rs:602-613, once for each link of [out_port];
      [n_in] is [n_in_lines], [free] is [free_line] *)
  Definition lcc_out_step (n_in position out_port : nat) (s : gmap nat lpos * nat * list nat * nat)
      : res (gmap nat lpos * nat * list nat * nat) :=
    let '(f, n_lines, lines, free) := s in
    if decide (free < n_in) then
      line ← vget lines free;
      Ok (push_frontier f out_port line position, n_lines, lines, free + 1)
    else Ok (push_frontier f out_port n_lines position, n_lines + 1, lines ++ [n_lines], free).
  (** line_convex_checker.rs:601-614, for one port *)
  Definition lcc_out_port (n_in position : nat) (s : gmap nat lpos * nat * list nat * nat) (out_port : nat)
      : res (gmap nat lpos * nat * list nat * nat) :=
    l ← gv_links v out_port;
    rfold (fun s _ => lcc_out_step n_in position out_port s) l s.
  (** line_convex_checker.rs:580-627, the closure applied to [node] *)
  Definition lcc_extend (s : frontier) (node : nat) : res (lpos * frontier) :=
    let '(f, n_lines) := s in
    prev ← rmap (gv_links v) (gv_ports v node Incoming);
    '(f, lines, max_pos) ← rfold lcc_in_step (mjoin prev) (f, [], None);
    let position := match max_pos with Some p => p + 1 | None => 0 end in
    '(f, n_lines, lines, _) ← rfold (lcc_out_port (length lines) position) (gv_ports v node Outgoing) (f, n_lines, lines, 0);
    Ok (if decide (lines = []) then (LP [n_lines] position, (f, n_lines + 1))
        else (LP lines position, (f, n_lines))).

  (** line_convex_checker.rs:36-48; the scratch space is cleared by its only user *)
  Record lcc := LCC { lc_pos : umap lpos; lc_lines : list (list nat) }.
  (** line_convex_checker.rs:159-164 *)
  Definition lcc_push_line (node : nat) (lines : list (list nat)) (line : nat) : res (list (list nat)) :=
    let lines := if decide (length lines <= line) then lines ++ replicate (line - length lines + 1) [] else lines in
    l ← vget lines line;
    vset lines line (l ++ [node]).
  (** line_convex_checker.rs:157-166 *)
  Definition lcc_add (s : frontier * umap lpos * list (list nat)) (node : nat)
      : res (frontier * umap lpos * list (list nat)) :=
    let '(f, pos, lines) := s in
    '(new_pos, f) ← lcc_extend f node;
    lines ← rfold (lcc_push_line node) (lp_lines new_pos) lines;
    pos ← um_set pos node new_pos;
    Ok (f, pos, lines).
  (** line_convex_checker.rs:145-176 [new] *)
  Definition lcc_new (fuel : nat) : hres lcc :=
    topsort ← cc_topsort fuel;
    '(_, pos, lines) ← lift (rfold lcc_add topsort ((∅, 0), um_with_default lp_default, []));
    HOk (LCC pos lines).

  (** line_convex_checker.rs:126-131 [LineInterval]; [LineIntervals] (91-92) is a
      list of lines with intervals *)
  Definition interval : Type := nat * nat.
  Definition intervals : Type := list (nat * interval).
  (** line_convex_checker.rs:96-99 [get] *)
  Definition iv_get (ivs : intervals) (line : nat) : option interval :=
    snd <$> head (filter (fun x => x.1 = line) ivs).

  (** line_convex_checker.rs:502-532 [small_map_add] *)
  Fixpoint small_map_add (m : list (nat * (interval * nat))) (key value : nat) : list (nat * (interval * nat)) :=
    match m with
    | [] => [(key, ((value, value), 1))]
    | (l, ((mn, mx), count)) :: m' =>
        if decide (l = key)
        then (l, ((if decide (value < mn) then value else mn, if decide (mx < value) then value else mx), count + 1)) :: m'
        else (l, ((mn, mx), count)) :: small_map_add m' key value
    end.

  Section lquery.
    (** [rnd low high low_pos high_pos pos] is the result of the floating-point
        interpolation, line_convex_checker.rs:479-480. It is a parameter of the
        model: [alpha] is between 0 and 1, so the result lies in [low, high]. *)
    Context (rnd : nat -> nat -> nat -> nat -> nat -> nat) (c : lcc).

    (** line_convex_checker.rs:295-305 [get_lines], [get_position] *)
    Definition get_lines (n : nat) : list nat := lp_lines (um_get (lc_pos c) n).
    Definition get_position (n : nat) : nat := lp_pos (um_get (lc_pos c) n).

    (** line_convex_checker.rs:473-496, the loop of [find_index] *)
    Fixpoint find_index_loop (fuel : nat) (line : list nat) (pos low high : nat) : hres (option nat) :=
      match fuel with
      | 0 => HLoop
      | S fuel =>
          low_n ← lift (vget line low);
          high_n ← lift (vget line high);
          let guess := rnd low high (get_position low_n) (get_position high_n) pos in
          guess ← lift (if decide (guess = low) then Ok (guess + 1)
                        else if decide (guess = high) then usub guess 1 else Ok guess);
          guess_n ← lift (vget line guess);
          if decide (get_position guess_n = pos) then HOk (Some guess)
          else if decide (get_position guess_n < pos) then find_index_loop fuel line pos guess high
          else find_index_loop fuel line pos low guess
      end.
    (** line_convex_checker.rs:455-497 [find_index] *)
    Definition find_index (fuel : nat) (line pos : nat) : hres (option nat) :=
      line ← lift (vget (lc_lines c) line);
      match line with
      | [] => HOk None
      | low_n :: _ =>
          let high := length line - 1 in
          high_n ← lift (vget line high);
          let low_pos := get_position low_n in
          let high_pos := get_position high_n in
          if decide (low_pos = pos) then HOk (Some 0)
          else if decide (high_pos = pos) then HOk (Some high)
          else if decide (pos < low_pos \/ high_pos < pos) then HOk None
          else find_index_loop fuel line pos 0 high
      end.

    (** line_convex_checker.rs:338-349; [None] is [return None] *)
    Fixpoint lcc_intervals (fuel : nat) (m : list (nat * (interval * nat))) : hres (option intervals) :=
      match m with
      | [] => HOk (Some [])
      | (l, (iv, count)) :: m =>
          i ← find_index fuel l iv.1;
          min_index ← lift (unwrap i);
          max_index ← lift (usub (min_index + count) 1);
          line ← lift (vget (lc_lines c) l);
          max_node ← lift (vget line max_index);
          if decide (get_position max_node = iv.2) then
            r ← lcc_intervals fuel m;
            HOk (match r with Some r => Some ((l, iv) :: r) | None => None end)
          else HOk None
      end.
    (** line_convex_checker.rs:326-331 *)
    Definition lcc_line_to_pos (nodes : list nat) : list (nat * (interval * nat)) :=
      foldl (fun m node => foldl (fun m l => small_map_add m l (get_position node)) m (get_lines node)) [] nodes.
    (** line_convex_checker.rs:314-352 [get_intervals_from_nodes] *)
    Definition lcc_get_intervals (fuel : nat) (nodes : list nat) : hres (option intervals) :=
      lcc_intervals fuel (lcc_line_to_pos nodes).

    (** line_convex_checker.rs:215-220 *)
    Fixpoint lcc_future (fuel : nat) (ivs : intervals) : hres (list nat) :=
      match ivs with
      | [] => HOk []
      | (line, (_, mx)) :: ivs =>
          i ← find_index fuel line mx;
          ind ← lift (unwrap i);
          l ← lift (vget (lc_lines c) line);
          r ← lcc_future fuel ivs;
          HOk (match l !! (ind + 1) with Some n => n :: r | None => r end)
      end.
    (** line_convex_checker.rs:233-247; [true] if [return false] is reached. The
        [debug_assert!] is a panic. *)
    Fixpoint lcc_check (ivs : intervals) (pos : nat) (lines : list nat) : res bool :=
      match lines with
      | [] => Ok false
      | line :: lines =>
          match iv_get ivs line with
          | Some (mn, mx) =>
              if decide (pos < mn) then Ok true
              else if decide (mx < pos) then lcc_check ivs pos lines
              else Panic
          | None => lcc_check ivs pos lines
          end
      end.
    (** line_convex_checker.rs:223-250 *)
    Fixpoint lcc_bfs (fuel : nat) (ivs : intervals) (max_start_pos : nat) (visited : gset nat) (queue : list nat) : hres bool :=
      match fuel with
      | 0 => HLoop
      | S fuel =>
          match queue with
          | [] => HOk true
          | node :: queue =>
              if decide (max_start_pos < get_position node) then lcc_bfs fuel ivs max_start_pos visited queue
              else if decide (node ∈ visited) then lcc_bfs fuel ivs max_start_pos visited queue
              else
                b ← lift (lcc_check ivs (get_position node) (get_lines node));
                if b : bool then HOk false
                else
                  l ← lift (nb node Outgoing);
                  lcc_bfs fuel ivs max_start_pos ({[node]} ∪ visited) (queue ++ l)
          end
      end.
    (** line_convex_checker.rs:209-253 [is_convex_by_intervals] *)
    Definition lcc_is_convex_by_intervals (fuel : nat) (ivs : intervals) : hres bool :=
      match ivs with
      | [] => HPanic (* max().unwrap() *)
      | x :: ivs' =>
          let max_start_pos := foldl (fun m y => m `max` y.2.1) x.2.1 ivs' in
          future ← lcc_future fuel ivs;
          lcc_bfs fuel ivs max_start_pos ∅ future
      end.
    (** line_convex_checker.rs:197-203 [is_node_convex] *)
    Definition lcc_is_node_convex (fuel : nat) (nodes : list nat) : hres bool :=
      o ← lcc_get_intervals fuel nodes;
      match o with
      | None => HOk false
      | Some ivs => lcc_is_convex_by_intervals fuel ivs
      end.
    (** line_convex_checker.rs:631-645 [is_convex] *)
    Definition lcc_is_convex (fuel : nat) (s inputs outputs : list nat) : hres bool :=
      b ← lift (cc_boundary_clash inputs outputs);
      if b : bool then HOk false else lcc_is_node_convex fuel s.
  End lquery.
End checkers.
