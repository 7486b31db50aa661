(** Vocabulary of the properties of equal hierarchies and regions. *)
From Verif Require Export HEqModel RegionSpec.

(** What a call returns besides the changed hierarchy: the error of an insertion, the
    former parent of a detached node. *)
Definition hsnd {A B} (r : hres (A * B)) : hres B := x ← r; HOk x.2.
Definition h_answer (h : hier) (o : hop) : hres (option attach_error * option nat) :=
  match o with
  | HPush n p => e ← hsnd (h_push_child h n p); HOk (e, None)
  | HPushFront n p => e ← hsnd (h_push_front_child h n p); HOk (e, None)
  | HBefore n s => e ← hsnd (h_insert_before h n s); HOk (e, None)
  | HAfter n s => e ← hsnd (h_insert_after h n s); HOk (e, None)
  | HDetach n => p ← hsnd (h_detach h n); HOk (None, p)
  | _ => HOk (None, None)
  end.
(** Two calls that end in the same way, with hierarchies related by [R]. *)
Definition alike (R : hier -> hier -> Prop) (r r' : hres hier) : Prop :=
  match r, r' with
  | HOk a, HOk b => R a b
  | HPanic, HPanic => True
  | _, _ => False
  end.
