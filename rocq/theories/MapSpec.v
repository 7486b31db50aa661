(** The specification of secondary maps: total functions. *)
From Verif Require Export MapModel PGSpec.

(** Calls on a map; [MWrite] is [get_mut] followed by a write, [MTouch] is
    [get_mut] without one, [MEnsure extra c] is [ensure_capacity(c)] when the
    vector's capacity exceeds its length by [extra], [MDisjoint ks] is [get_disjoint_mut]. *)
Inductive mop (V : Type) :=
| MGet (k : nat) | MSet (k : nat) (v : V) | MWrite (k : nat) (v : V) | MTouch (k : nat)
| MTake (k : nat) | MRemove (k : nat) | MSwap (a b : nat) | MRekey (old : nat) (new : option nat)
| MEnsure (extra c : nat) | MDisjoint (ks : list nat) | MClone.
Arguments MGet {V}. Arguments MSet {V}. Arguments MWrite {V}. Arguments MTouch {V}. Arguments MTake {V}.
Arguments MRemove {V}. Arguments MSwap {V}. Arguments MRekey {V}. Arguments MEnsure {V}. Arguments MDisjoint {V}. Arguments MClone {V}.

(** Answers: a list of values ([None]: [get_disjoint_mut] refused). *)
Definition mout (V : Type) : Type := option (list V).

Definition um_step {V} (vdef : V) (m : umap V) (o : mop V) : res (umap V * mout V) :=
  match o with
  | MGet k => Ok (m, Some [um_get m k])
  | MSet k v => m ← um_set m k v; Ok (m, Some [])
  | MWrite k v => m ← um_write (um_get_mut m k) k v; Ok (m, Some [])
  | MTouch k => let m := um_get_mut m k in v ← vget (um_data m) k; Ok (m, Some [v])
  | MTake k => '(m, v) ← um_take m k; Ok (m, Some [v])
  | MRemove k => m ← um_remove m k; Ok (m, Some [])
  | MSwap a b => m ← um_swap m a b; Ok (m, Some [])
  | MRekey old new => m ← um_rekey vdef m old new; Ok (m, Some [])
  | MEnsure extra c => Ok (um_ensure_capacity (length (um_data m) + extra) m c, Some [])
  | MDisjoint ks => Ok (um_get_disjoint_mut m ks)
  | MClone => Ok (m, Some [])
  end.

(** The total map. *)
Definition tset {V} (f : nat -> V) (k : nat) (v : V) : nat -> V := fun x => if decide (x = k) then v else f x.
Definition spec_step {V} (d : V) (f : nat -> V) (o : mop V) : (nat -> V) * mout V :=
  match o with
  | MGet k | MTouch k => (f, Some [f k])
  | MSet k v | MWrite k v => (tset f k v, Some [])
  | MTake k => (tset f k d, Some [f k])
  | MRemove k => (tset f k d, Some [])
  | MSwap a b => (tswap f a b, Some [])
  | MRekey old (Some new) => (trekey d f old new, Some [])
  | MRekey old None => (tset f old d, Some [])
  | MEnsure _ _ | MClone => (f, Some [])
  | MDisjoint ks => (f, if decide (NoDup ks) then Some (f <$> ks) else None)
  end.

(** A sequence of calls with the answers. *)
Fixpoint um_run {V} (vdef : V) (m : umap V) (ops : list (mop V)) : res (umap V * list (mout V)) :=
  match ops with
  | [] => Ok (m, [])
  | o :: ops' => '(m, r) ← um_step vdef m o; '(m, rs) ← um_run vdef m ops'; Ok (m, r :: rs)
  end.
Fixpoint spec_run {V} (d : V) (f : nat -> V) (ops : list (mop V)) : (nat -> V) * list (mout V) :=
  match ops with
  | [] => (f, [])
  | o :: ops' => let '(f, r) := spec_step d f o in let '(f, rs) := spec_run d f ops' in (f, r :: rs)
  end.

(** Boolean maps. *)
Inductive bop := BGet (k : nat) | BSet (k : nat) (v : bool) | BTake (k : nat) | BRemove (k : nat)
  | BRekey (old : nat) (new : option nat) | BSwap (a b : nat).
Definition bv_step (b : list bool) (o : bop) : res (list bool * option bool) :=
  match o with
  | BGet k => Ok (b, Some (bv_get b k))
  | BSet k v => b ← bv_set b k v; Ok (b, None)
  | BTake k => '(b, v) ← bv_take b k; Ok (b, Some v)
  | BRemove k => b ← bv_remove b k; Ok (b, None)
  | BRekey old new => b ← bv_rekey b old new; Ok (b, None)
  | BSwap x y => b ← bv_swap b x y; Ok (b, None)
  end.
Definition hs_step (s : gset nat) (o : bop) : gset nat * option bool :=
  match o with
  | BGet k => (s, Some (hs_get s k))
  | BSet k v => (hs_set s k v, None)
  | BTake k => let '(s, v) := hs_take s k in (s, Some v)
  | BRemove k => (hs_remove s k, None)
  | BRekey old new => (hs_rekey s old new, None)
  | BSwap x y => (hs_swap s x y, None)
  end.
Definition bspec_step (f : nat -> bool) (o : bop) : (nat -> bool) * option bool :=
  match o with
  | BGet k => (f, Some (f k))
  | BSet k v => (tset f k v, None)
  | BTake k => (tset f k false, Some (f k))
  | BRemove k => (tset f k false, None)
  | BRekey old None => (tset f old false, None)
  | BRekey old (Some new) => (trekey false f old new, None)
  | BSwap a b => (tswap f a b, None)
  end.
Fixpoint bv_run (b : list bool) (ops : list bop) : res (list bool * list (option bool)) :=
  match ops with
  | [] => Ok (b, [])
  | o :: ops' => '(b, r) ← bv_step b o; '(b, rs) ← bv_run b ops'; Ok (b, r :: rs)
  end.
Fixpoint hs_run (s : gset nat) (ops : list bop) : gset nat * list (option bool) :=
  match ops with
  | [] => (s, [])
  | o :: ops' => let '(s, r) := hs_step s o in let '(s, rs) := hs_run s ops' in (s, r :: rs)
  end.
Fixpoint bspec_run (f : nat -> bool) (ops : list bop) : (nat -> bool) * list (option bool) :=
  match ops with
  | [] => (f, [])
  | o :: ops' => let '(f, r) := bspec_step f o in let '(f, rs) := bspec_run f ops' in (f, r :: rs)
  end.
