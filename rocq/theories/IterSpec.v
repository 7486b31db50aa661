(** What it means for an iterator to list a sequence from both ends and to report
    sound size hints, independently of the iterators. *)
From Verif Require Export IterModel MultiSpec.

(** [h] brackets the number of items in [l]. *)
Definition hint_ok {A} (h : hint) (l : list A) : Prop :=
  h.1 <= length l /\ forall u, h.2 = Some u -> length l <= u.
(** The answers of a double-ended queue with items [l] to a schedule of calls
    ([true] is [next], [false] is [next_back]), each with what is left after it. *)
Fixpoint deque_rest {A} (sched : list bool) (l : list A) : list (option A * list A) :=
  match sched with
  | [] => []
  | true :: s => (head l, tail l) :: deque_rest s (tail l)
  | false :: s => (last l, removelast l) :: deque_rest s (removelast l)
  end.
(** The answers of an iterator to a schedule, each with the size hint after it. *)
Fixpoint run_hint {S A} (next next_back : S -> res (option A * S)) (h : S -> hint) (sched : list bool) (s : S)
    : res (list (option A * hint)) :=
  match sched with
  | [] => Ok []
  | b :: sched' =>
      '(x, s') ← (if b : bool then next s else next_back s);
      r ← run_hint next next_back h sched' s';
      Ok ((x, h s') :: r)
  end.
(** The iterator in state [s] lists [l] from both ends, in any interleaving, keeps
    answering [None] once exhausted, and its hints bracket what is left. *)
Definition iter_ok {S A} (next next_back : S -> res (option A * S)) (h : S -> hint) (s : S) (l : list A) : Prop :=
  hint_ok (h s) l /\
  forall sched, exists r, run_hint next next_back h sched s = Ok r /\
    Forall2 (fun a b => a.1 = b.1 /\ hint_ok a.2 b.2) r (deque_rest sched l).
(** The same with [next] only. *)
Definition fwd_ok {S A} (next : S -> res (option A * S)) (h : S -> hint) (s : S) (l : list A) : Prop :=
  hint_ok (h s) l /\
  forall k, exists r, run_hint next next h (replicate k true) s = Ok r /\
    Forall2 (fun a b => a.1 = b.1 /\ hint_ok a.2 b.2) r (deque_rest (replicate k true) l).
(** The default [size_hint] of the trait [Iterator]. *)
Definition no_hint {S} (s : S) : hint := (0, None).
