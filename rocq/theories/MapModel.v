(** Secondary maps: [UnmanagedDenseMap] (unmanaged.rs), and the [BitVec] and
    [HashSet] implementations of [SecondaryMap] (secondary.rs). Keys are their
    [usize] values. *)
From stdpp Require Export gmap.
From Verif Require Export BaseLemmas.

(** ** UnmanagedDenseMap *)
Section unmanaged.
  Context {V : Type} (vdef : V).   (* [V::default()] *)

  (** unmanaged.rs:65-69; the capacity of the vector is not part of the state *)
  Record umap := mkUM { um_data : list V; um_default : V }.

  (** Vec::resize *)
  Definition vresize (l : list V) (n : nat) (x : V) : list V := take n l ++ replicate (n - length l) x.

  (** unmanaged.rs:103-109 [with_default], 122-128 [with_capacity_and_default] *)
  Definition um_with_default (d : V) : umap := mkUM [] d.
  (** unmanaged.rs:92-97 [new], 113-118 [with_capacity] *)
  Definition um_new : umap := um_with_default vdef.
  (** unmanaged.rs:133-138 [ensure_capacity]; [cap] is the current capacity of
      the vector, whatever the allocator made it *)
  Definition um_ensure_capacity (cap : nat) (m : umap) (c : nat) : umap :=
    if decide (cap < c) then mkUM (vresize (um_data m) c (um_default m)) (um_default m) else m.
  (** unmanaged.rs:144-147 [shrink_to] *)
  Definition um_shrink_to (m : umap) (c : nat) : umap := mkUM (take c (um_data m)) (um_default m).
  (** unmanaged.rs:185-187 [get], 289-299 [Index] *)
  Definition um_get (m : umap) (k : nat) : V := default (um_default m) (um_data m !! k).
  (** unmanaged.rs:258-260 [resize_for_get_mut] *)
  Definition um_resize (m : umap) (n : nat) : umap := mkUM (vresize (um_data m) n (um_default m)) (um_default m).
  (** unmanaged.rs:195-203 [get_mut]: the map after growing; the reference
      points at slot [k] *)
  Definition um_get_mut (m : umap) (k : nat) : umap :=
    if decide (length (um_data m) <= k) then um_resize m (k + 1) else m.
  (** Writing through a reference to slot [k] *)
  Definition um_write (m : umap) (k : nat) (v : V) : res umap :=
    l ← vset (um_data m) k v; Ok (mkUM l (um_default m)).
  (** unmanaged.rs:209-211 [try_get_mut] (the value seen, [None] out of range) *)
  Definition um_try_get_mut (m : umap) (k : nat) : option V := um_data m !! k.
  (** unmanaged.rs:362-364 [set], 301-309 [IndexMut] *)
  Definition um_set (m : umap) (k : nat) (v : V) : res umap := um_write (um_get_mut m k) k v.
  (** unmanaged.rs:371-377 [take] *)
  Definition um_take (m : umap) (k : nat) : res (umap * V) :=
    match um_data m !! k with
    | Some v => m' ← um_write m k (um_default m); Ok (m', v)
    | None => Ok (m, um_default m)
    end.
  (** secondary.rs:51-54 [remove] (trait default) *)
  Definition um_remove (m : umap) (k : nat) : res umap := '(m, _) ← um_take m k; Ok m.
  (** unmanaged.rs:162-179 [rekey] *)
  Definition um_rekey (m : umap) (old : nat) (new : option nat) : res umap :=
    if decide (old < length (um_data m)) then
      let m1 := um_get_mut m old in
      val ← vget (um_data m1) old;
      m1 ← um_write m1 old vdef;
      match new with
      | None => Ok m1
      | Some k =>
          let m2 := if decide (length (um_data m1) <= k) then um_resize m1 (k + 1) else m1 in
          um_write m2 k val
      end
    else
      match new with
      | None => Ok m
      | Some k => if decide (k < length (um_data m)) then um_write m k vdef else Ok m
      end.
  (** unmanaged.rs:266-276 [swap] *)
  Definition um_swap (m : umap) (a b : nat) : res umap :=
    let mx := Nat.max a b in
    let m := if decide (length (um_data m) <= mx) then um_resize m (mx + 1) else m in
    x ← vget (um_data m) a; y ← vget (um_data m) b;
    m ← um_write m a y; um_write m b x.
  (** unmanaged.rs:216-254 [get_disjoint_mut]: the grown map and the values seen
      through the references (slot [keys !! i] for the [i]-th) *)
  Fixpoint um_disjoint_ptrs (m : umap) (keys : list nat) : option (list V) :=
    match keys with
    | [] => Some []
    | k :: ks =>
        if decide (k ∈ ks) then None
        else match um_data m !! k with
             | None => None
             | Some v => match um_disjoint_ptrs m ks with None => None | Some vs => Some (v :: vs) end
             end
    end.
  Definition um_get_disjoint_mut (m : umap) (keys : list nat) : umap * option (list V) :=
    let m' := match keys with
              | [] => m
              | _ => let mx := max_list keys in if decide (length (um_data m) <= mx) then um_resize m (mx + 1) else m
              end in
    (m', um_disjoint_ptrs m' keys).

  (** unmanaged.rs:71-81 [PartialEq], with the element equality [veq] *)
  Fixpoint list_eqb (veq : V -> V -> bool) (l l' : list V) : bool :=
    match l, l' with
    | [], [] => true
    | x :: l, y :: l' => veq x y && list_eqb veq l l'
    | _, _ => false
    end.
  Definition um_eqb (veq : V -> V -> bool) (m m' : umap) : bool :=
    if negb (veq (um_default m) (um_default m')) then false
    else
      let c := Nat.min (length (um_data m)) (length (um_data m')) in
      list_eqb veq (take c (um_data m)) (take c (um_data m')) &&
      forallb (fun v => veq v (um_default m)) (drop c (um_data m)) &&
      forallb (fun v => veq v (um_default m')) (drop c (um_data m')).

  (** unmanaged.rs:389-398 [iter], 403-449 [UnmanagedIter] over
      [Enumerate<slice::Iter>]: the index of the next item and the items left *)
  Definition um_iter_init (m : umap) : nat * list V := (0, um_data m).
  Definition um_iter_next (s : nat * list V) : option (nat * V) * (nat * list V) :=
    match s.2 with [] => (None, s) | v :: l => (Some (s.1, v), (S s.1, l)) end.
  Definition um_iter_next_back (s : nat * list V) : option (nat * V) * (nat * list V) :=
    match last s.2 with
    | None => (None, s)
    | Some v => (Some (s.1 + (length s.2 - 1), v), (s.1, removelast s.2))
    end.
  Definition um_iter_nth (n : nat) (s : nat * list V) : option (nat * V) * (nat * list V) :=
    um_iter_next (s.1 + Nat.min n (length s.2), drop n s.2).
  (** [count] and [size_hint] *)
  Definition um_iter_len (s : nat * list V) : nat := length s.2.
End unmanaged.
Arguments umap : clear implicits.

(** ** BitVec (the vector of its bits) *)
(** secondary.rs:127-135 *)
Definition bv_get (b : list bool) (k : nat) : bool := default false (b !! k).
(** secondary.rs:138-148 *)
Definition bv_set (b : list bool) (k : nat) (v : bool) : res (list bool) :=
  if decide (length b <= k) then
    if v then vset (vresize b (k + 1) false) k true else Ok b
  else vset b k v.
(** secondary.rs:151-158 *)
Definition bv_take (b : list bool) (k : nat) : res (list bool * bool) :=
  if decide (k < length b) then x ← vget b k; b' ← vset b k false; Ok (b', x) else Ok (b, false).
(** secondary.rs:51-54 *)
Definition bv_remove (b : list bool) (k : nat) : res (list bool) := '(b, _) ← bv_take b k; Ok b.
(** secondary.rs:161-166 *)
Definition bv_rekey (b : list bool) (old : nat) (new : option nat) : res (list bool) :=
  '(b, v) ← bv_take b old; match new with Some k => bv_set b k v | None => Ok b end.
(** secondary.rs:169-178 *)
Definition bv_swap (b : list bool) (k0 k1 : nat) : res (list bool) :=
  let v0 := bv_get b k0 in let v1 := bv_get b k1 in
  if negb (Bool.eqb v0 v1) then b ← bv_set b k0 v1; bv_set b k1 v0 else Ok b.
(** secondary.rs:181-189, 194-242: [iter_ones] yields the positions of the set bits *)
Fixpoint bv_ones (i : nat) (b : list bool) : list nat :=
  match b with [] => [] | x :: b' => (if x : bool then [i] else []) ++ bv_ones (S i) b' end.
Definition bv_iter (b : list bool) : list (nat * bool) := (fun i => (i, true)) <$> bv_ones 0 b.

(** ** HashSet *)
(** secondary.rs:280-286, 289-294, 297-299; trait defaults 51-54, 64-69, 72-82 *)
Definition hs_get (s : gset nat) (k : nat) : bool := bool_decide (k ∈ s).
Definition hs_set (s : gset nat) (k : nat) (v : bool) : gset nat := if v then {[k]} ∪ s else s ∖ {[k]}.
Definition hs_take (s : gset nat) (k : nat) : gset nat * bool := (s ∖ {[k]}, bool_decide (k ∈ s)).
Definition hs_remove (s : gset nat) (k : nat) : gset nat := (hs_take s k).1.
Definition hs_rekey (s : gset nat) (old : nat) (new : option nat) : gset nat :=
  let '(s, v) := hs_take s old in match new with Some k => hs_set s k v | None => s end.
Definition hs_swap (s : gset nat) (k0 k1 : nat) : gset nat :=
  let v0 := hs_get s k0 in let v1 := hs_get s k1 in hs_set (hs_set s k0 v1) k1 v0.
(** secondary.rs:302-343: the hash iteration order is unspecified, any listing of the set *)
Definition hs_iter (s : gset nat) (l : list (nat * bool)) : Prop :=
  exists ks, ks ≡ₚ elements s /\ l = (fun k => (k, true)) <$> ks.
