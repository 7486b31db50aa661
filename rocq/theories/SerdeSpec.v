(** Vocabulary of the properties about serialization. *)
From Coq Require Import String.
From Verif Require Export SerdeModel.

(** Two documents that differ at most in the order of the members of objects, at
    any depth. *)
Inductive same_doc : jval -> jval -> Prop :=
| sd_refl v : same_doc v v
| sd_arr l l' : Forall2 same_doc l l' -> same_doc (JArr l) (JArr l')
| sd_obj l l' l'' :
    Forall2 (fun x y => x.1 = y.1 /\ same_doc x.2 y.2) l l' -> l' ≡ₚ l'' -> same_doc (JObj l) (JObj l'').

(** All numbers of a document are at most [k]. *)
Inductive nums_le (k : N) : jval -> Prop :=
| nl_null : nums_le k JNull
| nl_bool b : nums_le k (JBool b)
| nl_num n : (n <= k)%N -> nums_le k (JNum n)
| nl_str s : nums_le k (JStr s)
| nl_arr l : Forall (nums_le k) l -> nums_le k (JArr l)
| nl_obj l : Forall (fun x => nums_le k x.2) l -> nums_le k (JObj l)
| nl_other : nums_le k JOther.

(** [s] and [d] serialize and read back the values in [P], whatever the order of
    the members in the document. *)
Definition round_trip {A} (P : A -> Prop) (s : A -> jval) (d : jval -> dres A) : Prop :=
  forall a v, P a -> same_doc (s a) v -> d v = DOk a.

(** The indices stored in a hierarchy are node indices, its counters fit 32 bits. *)
Definition opt_fits (o : option nat) : Prop := forall i, o = Some i -> (N.of_nat i <= max_index)%N.
Definition nd_fits (d : nd) : Prop :=
  opt_fits (nd_first d) /\ opt_fits (nd_last d) /\ opt_fits (nd_parent d) /\
  opt_fits (nd_prev d) /\ opt_fits (nd_next d) /\ (N.of_nat (nd_count d) < 2 ^ 32)%N.
Definition h_fits (h : hier) : Prop := Forall nd_fits (um_data h) /\ nd_fits (um_default h).
