(** The membership cache of [Region] (view/region.rs) and its use by several
    threads. The hash map is a finite map. The views themselves are in
    ViewModel.v. *)
From Verif Require Export ViewModel.

(** region.rs:26 *)
Notation rcache := (gmap nat bool).
(** region.rs:35-37 [new] *)
Definition rg_new (root : nat) : rcache := {[root := false]}.

(** region.rs:67-74: the successors, which end before a parent in the cache *)
Fixpoint rg_climb (fuel : nat) (h : hier) (c : rcache) (n : nat) : hres (list nat) :=
  match fuel with
  | 0 => HLoop
  | S fuel =>
      match h_parent h n with
      | None => HOk [n]
      | Some p => match c !! p with
                  | Some _ => HOk [n]
                  | None => l ← rg_climb fuel h c p; HOk (n :: l)
                  end
      end
  end.
(** region.rs:49-84: the part that holds the read lock. [inl b] is an early return. *)
Definition rg_read (h : hier) (root : nat) (c : rcache) (n : nat) : hres (bool + list nat * bool) :=
  match c !! n with
  | Some b => HOk (inl b)
  | None =>
      l ← rg_climb (h_fuel h) h c n;
      x ← lift (unwrap (last l));
      b ← (match h_parent h x with
           | None => HOk false
           | Some a => if decide (a = root) then HOk true else lift (unwrap (c !! a))
           end);
      HOk (inr (l, b))
  end.
(** region.rs:91-93: the part that holds the write lock *)
Definition rg_write (c : rcache) (l : list nat) (b : bool) : rcache := foldl (fun c n => <[n := b]> c) c l.
(** region.rs:49-95 [is_descendant], by one thread *)
Definition rg_is_descendant (h : hier) (root : nat) (c : rcache) (n : nat) : hres (bool * rcache) :=
  if decide (n = root) then HOk (true, c)
  else
    r ← rg_read h root c n;
    match r with
    | inl b => HOk (b, c)
    | inr (l, b) => HOk (b, rg_write c l b)
    end.

(** ** Threads *)
(** What a thread is doing: nothing; it has left the read section for the query
    of [n] and waits for the write lock; it holds the write lock and has still
    to insert [l]. *)
Inductive rphase :=
| RIdle
| RWait (n : nat) (l : list nat) (b : bool)
| RWrite (n : nat) (l : list nat) (b : bool).
Record rstate := RS { rs_cache : rcache; rs_phase : nat -> rphase }.
Definition rs_free (s : rstate) : Prop := forall t n l b, rs_phase s t <> RWrite n l b.
Definition rs_set (s : rstate) (c : rcache) (t : nat) (p : rphase) : rstate :=
  RS c (fun u => if decide (u = t) then p else rs_phase s u).
(** What can be observed: [t] gets the answer [b] to its query of [n]; [t] gets a
    clone with the given cache. *)
Inductive revent := EAnswer (t n : nat) (b : bool) | EClone (t : nat) (c : rcache).
(** One step of one thread. The lock excludes writers during a read section, so
    a read section sees one state of the cache and is one step. The insertions
    are separate steps. [try_read] in [clone] (region.rs:132-135) may fail only if
    a thread holds the write lock or waits for it. *)
Inductive rstep (h : hier) (root : nat) : rstate -> option revent -> rstate -> Prop :=
| rs_root s t : rs_phase s t = RIdle -> rstep h root s (Some (EAnswer t root true)) s
| rs_hit s t n b : rs_phase s t = RIdle -> n <> root -> rs_free s -> rg_read h root (rs_cache s) n = HOk (inl b) ->
    rstep h root s (Some (EAnswer t n b)) s
| rs_miss s t n l b : rs_phase s t = RIdle -> n <> root -> rs_free s -> rg_read h root (rs_cache s) n = HOk (inr (l, b)) ->
    rstep h root s None (rs_set s (rs_cache s) t (RWait n l b))
| rs_lock s t n l b : rs_phase s t = RWait n l b -> rs_free s -> rstep h root s None (rs_set s (rs_cache s) t (RWrite n l b))
| rs_insert s t n x l b : rs_phase s t = RWrite n (x :: l) b ->
    rstep h root s None (rs_set s (<[x := b]> (rs_cache s)) t (RWrite n l b))
| rs_done s t n b : rs_phase s t = RWrite n [] b -> rstep h root s (Some (EAnswer t n b)) (rs_set s (rs_cache s) t RIdle)
| rs_clone s t : rs_phase s t = RIdle -> rs_free s -> rstep h root s (Some (EClone t (rs_cache s))) s
| rs_clone_busy s t u n l b : rs_phase s t = RIdle -> (rs_phase s u = RWait n l b \/ rs_phase s u = RWrite n l b) ->
    rstep h root s (Some (EClone t ∅)) s.
(** Executions, with the events in order. *)
Inductive rexec (h : hier) (root : nat) : rstate -> list revent -> rstate -> Prop :=
| re_refl s : rexec h root s [] s
| re_step s1 o s2 tr s3 : rstep h root s1 o s2 -> rexec h root s2 tr s3 -> rexec h root s1 (option_list o ++ tr) s3.
(** A region with the given cache and idle threads. *)
Definition rs_start (c : rcache) : rstate := RS c (fun _ => RIdle).
