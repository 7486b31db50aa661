(** Shared vocabulary of the model: results with panics, checked vector
    accesses, machine-integer truncations. *)
From Coq Require Export ZifyBool ZifyNat ZifyN.
From stdpp Require Export prelude numbers list.
Ltac Zify.zify_post_hook ::= Z.div_mod_to_equations.

(** The outcome of a Rust call: a value, or a panic (failed [assert!],
    [unwrap] on [None], slice index out of range, arithmetic underflow). *)
Inductive res (A : Type) : Type :=
| Ok (a : A)
| Panic.
Arguments Ok {A} a.
Arguments Panic {A}.

Global Instance res_ret : MRet res := fun A a => Ok a.
Global Instance res_bind : MBind res := fun A B f m =>
  match m with Ok a => f a | Panic => Panic end.

(** [assert!(b)] *)
Definition assert (b : bool) : res unit := if b then Ok tt else Panic.

(** [o.unwrap()] / [o.expect(..)] *)
Definition unwrap {A} (o : option A) : res A :=
  match o with Some a => Ok a | None => Panic end.

(** [vec[i]] (read) *)
Definition vget {A} (l : list A) (i : nat) : res A := unwrap (l !! i).

(** [vec[i] = x] *)
Definition vset {A} (l : list A) (i : nat) (x : A) : res (list A) :=
  if decide (i < length l) then Ok (<[i := x]> l) else Panic.

(** [vec[start..start+len].fill(x)] *)
Definition vfill {A} (l : list A) (start len : nat) (x : A) : res (list A) :=
  if decide (start + len <= length l)
  then Ok (list_inserts start (replicate len x) l) else Panic.

(** [a - b] on [usize], panicking on underflow (debug profile). *)
Definition usub (a b : nat) : res nat :=
  if decide (b <= a) then Ok (a - b) else Panic.

(** [x as u16] *)
Definition trunc16 (n : nat) : nat := N.to_nat (N.of_nat n mod 65536)%N.

(** [n.next_power_of_two()] *)
Definition next_pow2 (n : nat) : nat :=
  N.to_nat (2 ^ N.log2_up (N.of_nat n))%N.

(** Run a fallible step over a list, threading a state. *)
Fixpoint rfold {A S} (f : S -> A -> res S) (l : list A) (s : S) : res S :=
  match l with
  | [] => Ok s
  | a :: l' => s' ← f s a; rfold f l' s'
  end.

Inductive dir := Incoming | Outgoing.
Global Instance dir_eq_dec : EqDecision dir.
Proof. solve_decision. Defined.

(** lib.rs: [Direction::reverse] *)
Definition rev_dir (d : dir) : dir :=
  match d with Incoming => Outgoing | Outgoing => Incoming end.

(** [card P n]: exactly [n] numbers satisfy [P]. *)
Definition card {A} (P : A -> Prop) (n : nat) : Prop :=
  exists L, NoDup L /\ (forall x, x ∈ L <-> P x) /\ length L = n.
