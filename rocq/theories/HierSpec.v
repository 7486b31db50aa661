(** Vocabulary of the hierarchy properties: ordered children lists, histories. *)
From Verif Require Export HierModel.

(** The five pointers and the counter of every node describe, together, one
    ordered list of children [ch p] per node [p]. *)
Definition forestv (v : nat -> nd) (ch : nat -> list nat) : Prop :=
  (forall p, NoDup (ch p)
     /\ nd_first (v p) = head (ch p) /\ nd_last (v p) = last (ch p) /\ nd_count (v p) = length (ch p))
  /\ (forall p c, c ∈ ch p <-> nd_parent (v c) = Some p)
  /\ (forall p i c, ch p !! i = Some c ->
       nd_next (v c) = ch p !! S i /\ nd_prev (v c) = match i with 0 => None | S j => ch p !! j end)
  /\ (forall c, nd_parent (v c) = None -> nd_prev (v c) = None /\ nd_next (v c) = None).
Definition forest (h : hier) (ch : nat -> list nat) : Prop := forestv (h_get h) ch.

(** [child_of v c p]: the parent of [c] is [p]; [rtc (child_of v) c a] reads
    "[a] is [c] or an ancestor of [c]". *)
Definition child_of (v : nat -> nd) (c p : nat) : Prop := nd_parent (v c) = Some p.
Definition anc (h : hier) (a c : nat) : Prop := rtc (child_of (h_get h)) c a.
Definition acyclicv (v : nat -> nd) : Prop := forall n, ~ tc (child_of v) n n.
Definition acyclic (h : hier) : Prop := acyclicv (h_get h).

(** Histories *)
Inductive hop :=
| HPush (n p : nat) | HPushFront (n p : nat) | HBefore (n s : nat) | HAfter (n s : nat)
| HDetach (n : nat) | HDetachChildren (n : nat) | HRemove (n : nat)
| HSwap (a b : nat) | HRekey (old new : nat)
| HEnsure (extra c : nat) | HShrink (extra c : nat).
Definition hfst {A B} (r : hres (A * B)) : hres A := x ← r; HOk x.1.
Definition h_step (h : hier) (o : hop) : hres hier :=
  match o with
  | HPush n p => hfst (h_push_child h n p)
  | HPushFront n p => hfst (h_push_front_child h n p)
  | HBefore n s => hfst (h_insert_before h n s)
  | HAfter n s => hfst (h_insert_after h n s)
  | HDetach n => hfst (h_detach h n)
  | HDetachChildren n => h_detach_children h n
  | HRemove n => h_remove h n
  | HSwap a b => h_swap_nodes h a b
  | HRekey o n => h_rekey h o n
  | HEnsure e c => HOk (h_ensure_capacity e h c)
  | HShrink e c => h_shrink_to e h c
  end.
(** Every history, with every choice of arguments. *)
Inductive hhist : hier -> Prop :=
| hh_new : hhist h_new
| hh_step h o h' : hhist h -> h_step h o = HOk h' -> hhist h'.
(** Pushing a childless root below itself: the one call whose cycle the library
    does not notice (C38_refuted). *)
Definition self_push (h : hier) (o : hop) : Prop :=
  match o with
  | HPush n p | HPushFront n p => n = p /\ h_parent h n = None /\ h_first h n = None
  | _ => False
  end.
(** The histories without such a call. *)
Inductive hreach : hier -> Prop :=
| hr_new : hreach h_new
| hr_step h o h' : hreach h -> ~ self_push h o -> h_step h o = HOk h' -> hreach h'.

(** Updating the children list of one node. *)
Definition setch (p : nat) (l : list nat) (ch : nat -> list nat) (x : nat) : list nat :=
  if decide (x = p) then l else ch x.
(** [l] with [n] inserted at position [i]. *)
Definition ins_list (i n : nat) (l : list nat) : list nat := take i l ++ n :: drop i l.

(** Exchanging two node indices. *)
Definition exch (a b x : nat) : nat := if decide (x = a) then b else if decide (x = b) then a else x.
(** All the pointers of a node, renamed. *)
Definition ren_nd (f : nat -> nat) (d : nd) : nd :=
  mkND (f <$> nd_first d) (f <$> nd_last d) (nd_count d) (f <$> nd_parent d) (f <$> nd_prev d) (f <$> nd_next d).

(** A list of calls, stopping at the first that does not return. *)
Fixpoint h_run (h : hier) (l : list hop) : hres hier :=
  match l with [] => HOk h | o :: l => h' ← h_step h o; h_run h' l end.
