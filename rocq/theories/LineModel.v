(** The rest of the line convexity checker: extending intervals, the nodes in
    intervals, and the lines at a port. *)
From Verif Require Export ConvexModel.

(** [map] with a function that may panic or not return *)
Fixpoint hmapM {A B} (f : A -> hres B) (l : list A) : hres (list B) :=
  match l with
  | [] => HOk []
  | a :: l => b ← f a; r ← hmapM f l; HOk (b :: r)
  end.

(** itertools [dedup]: drop repetitions of the element before *)
Fixpoint dedup (l : list nat) : list nat :=
  match l with
  | x :: (y :: _) as l' => if decide (x = y) then dedup l' else x :: dedup l'
  | _ => l
  end.

(** itertools [kmerge_by]: the next element is a head that is not preceded by
    another head; exhausted lists are dropped. Which of several such heads is taken
    does not matter for [nodes_in_intervals], as they are equal. *)
Section kmerge.
  Context (less : nat -> nat -> bool).
  Fixpoint kpick (ls : list (list nat)) : option (nat * list (list nat)) :=
    match ls with
    | [] => None
    | [] :: ls => kpick ls
    | (x :: t) :: ls =>
        match kpick ls with
        | None => Some (x, [t])
        | Some (y, rest) => if less y x then Some (y, (x :: t) :: rest) else Some (x, t :: ls)
        end
    end.
  Fixpoint kmerge_n (n : nat) (ls : list (list nat)) : list nat :=
    match n with
    | 0 => []
    | S n => match kpick ls with None => [] | Some (x, ls) => x :: kmerge_n n ls end
    end.
  Definition kmerge (ls : list (list nat)) : list nat := kmerge_n (length (concat ls)) ls.
End kmerge.

(** line_convex_checker.rs:102-105 [get_mut], followed by an assignment *)
Fixpoint iv_set (ivs : intervals) (line : nat) (iv : interval) : intervals :=
  match ivs with
  | [] => []
  | (l, i) :: ivs => if decide (l = line) then (l, iv) :: ivs else (l, i) :: iv_set ivs line iv
  end.

Section lines.
  Context (rnd : nat -> nat -> nat -> nat -> nat -> nat) (c : lcc).
  Notation ps := (get_position c).

  (** line_convex_checker.rs:416-426 [line_nodes_from] *)
  Definition line_nodes_from (fuel start_pos line : nat) : hres (list nat) :=
    i ← find_index rnd c fuel line start_pos;
    start ← lift (unwrap i);
    l ← lift (vget (lc_lines c) line);
    HOk (drop start l).
  (** [take_while(|&n| self.get_position(n) <= max)] *)
  Fixpoint take_upto (mx : nat) (l : list nat) : list nat :=
    match l with
    | [] => []
    | n :: l => if decide (ps n <= mx) then n :: take_upto mx l else []
    end.
  (** line_convex_checker.rs:432-439 [line_nodes_between] *)
  Definition line_nodes_between (fuel : nat) (x : nat * interval) : hres (list nat) :=
    l ← line_nodes_from fuel x.2.1 x.1;
    HOk (take_upto x.2.2 l).
  (** line_convex_checker.rs:443-450 [line_positions_from] *)
  Definition line_positions_from (fuel start_pos line : nat) : hres (list nat) :=
    l ← line_nodes_from fuel start_pos line;
    HOk (map ps l).

  (** the comparison of line_convex_checker.rs:383 *)
  Definition node_less (n1 n2 : nat) : bool :=
    bool_decide (ps n1 < ps n2) || (bool_decide (ps n1 = ps n2) && bool_decide (n1 < n2)).
  (** line_convex_checker.rs:376-385 [nodes_in_intervals] *)
  Definition nodes_in_intervals (fuel : nat) (ivs : intervals) : hres (list nat) :=
    ls ← hmapM (line_nodes_between fuel) ivs;
    HOk (dedup (kmerge node_less ls)).

  (** line_convex_checker.rs:270-290; [None] is [return false] *)
  Fixpoint lcc_extend_lines (fuel pos : nat) (lines : list nat) (ivs : intervals) : hres (option intervals) :=
    match lines with
    | [] => HOk (Some ivs)
    | line :: lines =>
        match iv_get ivs line with
        | Some (mn, mx) =>
            if decide (pos < mn) then
              l ← line_positions_from fuel pos line;
              if decide (l !! 1 = Some mn) then lcc_extend_lines fuel pos lines (iv_set ivs line (pos, mx)) else HOk None
            else if decide (mx < pos) then
              l ← line_positions_from fuel mx line;
              if decide (l !! 1 = Some pos) then lcc_extend_lines fuel pos lines (iv_set ivs line (mn, pos)) else HOk None
            else lcc_extend_lines fuel pos lines ivs
        | None => lcc_extend_lines fuel pos lines (ivs ++ [(line, (pos, pos))])
        end
    end.
  (** line_convex_checker.rs:263-293 [try_extend_intervals] *)
  Definition try_extend_intervals (fuel : nat) (ivs : intervals) (node : nat) : hres (bool * intervals) :=
    o ← lcc_extend_lines fuel (ps node) (get_lines c node) ivs;
    HOk (match o with Some ivs' => (true, ivs') | None => (false, ivs) end).

  (** line_convex_checker.rs:396-412 [lines_at_port] of a PortGraph *)
  Definition lines_at_port (w : N) (g : pg) (port : nat) : res (list nat) :=
    node ← unwrap (port_node g port);
    d ← unwrap (port_direction g port);
    o ← port_offset w g port;
    o ← unwrap o;
    off ← po_index w o;
    counts ← rmap (fun p => l ← port_links g p; Ok (length l)) (ports g node d);
    let start_pos := sum_list (take (N.to_nat off) counts) in
    n ← unwrap (counts !! N.to_nat off);
    let lines := get_lines c node in
    if decide (start_pos + n <= length lines) then Ok (take n (drop start_pos lines)) else Panic.
End lines.
