(** [Hierarchy] (hierarchy.rs), on top of [UnmanagedDenseMap] (MapModel.v).
    [u32] counters are [nat]: a node is listed at most once (C36) and there are
    fewer than 2^32 node indices, so they cannot overflow. *)
From Verif Require Export MapModel.

(** Results of calls whose loops might panic or never return. *)
Inductive hres (A : Type) := HOk (a : A) | HPanic | HLoop.
Arguments HOk {A} _. Arguments HPanic {A}. Arguments HLoop {A}.
Global Instance hres_bind : MBind hres := fun A B f x =>
  match x with HOk a => f a | HPanic => HPanic | HLoop => HLoop end.

(** hierarchy.rs:553-564 [NodeData] *)
Record nd := mkND {
  nd_first : option nat; nd_last : option nat;   (* children *)
  nd_count : nat;                                (* children_count *)
  nd_parent : option nat;
  nd_prev : option nat; nd_next : option nat;    (* siblings *)
}.
(** hierarchy.rs:566-581 *)
Definition nd_new : nd := mkND None None 0 None None None.
Global Instance nd_eq_dec : EqDecision nd.
Proof. solve_decision. Defined.

Definition nd_set_first (x : option nat) (d : nd) := mkND x (nd_last d) (nd_count d) (nd_parent d) (nd_prev d) (nd_next d).
Definition nd_set_last (x : option nat) (d : nd) := mkND (nd_first d) x (nd_count d) (nd_parent d) (nd_prev d) (nd_next d).
Definition nd_set_count (x : nat) (d : nd) := mkND (nd_first d) (nd_last d) x (nd_parent d) (nd_prev d) (nd_next d).
Definition nd_set_parent (x : option nat) (d : nd) := mkND (nd_first d) (nd_last d) (nd_count d) x (nd_prev d) (nd_next d).
Definition nd_set_prev (x : option nat) (d : nd) := mkND (nd_first d) (nd_last d) (nd_count d) (nd_parent d) x (nd_next d).
Definition nd_set_next (x : option nat) (d : nd) := mkND (nd_first d) (nd_last d) (nd_count d) (nd_parent d) (nd_prev d) x.

(** hierarchy.rs:71-74 *)
Definition hier : Type := umap nd.
(** hierarchy.rs:78-82 [new], 85-89 [with_capacity] *)
Definition h_new : hier := um_with_default nd_new.
(** hierarchy.rs:110-112 [get] *)
Definition h_get (h : hier) (n : nat) : nd := um_get h n.
(** hierarchy.rs:100-102 [get_mut], followed by the mutation [f] of the slot,
    which exists after [UnmanagedDenseMap::get_mut] *)
Definition h_mod (h : hier) (n : nat) (f : nd -> nd) : hier :=
  let h1 := um_get_mut h n in mkUM (alter f n (um_data h1)) (um_default h1).
(** [data.set] *)
Definition h_put (h : hier) (n : nat) (d : nd) : hier := h_mod h n (fun _ => d).
(** The number of stored entries. A chain of parents or siblings longer than
    this repeats a node, so a loop that follows it never ends. *)
Definition h_fuel (h : hier) : nat := S (length (um_data h)).

(** hierarchy.rs:349-385 *)
Definition h_parent (h : hier) (n : nat) : option nat := nd_parent (h_get h n).
Definition h_is_root (h : hier) (n : nat) : bool := bool_decide (h_parent h n = None).
Definition h_first (h : hier) (n : nat) : option nat := nd_first (h_get h n).
Definition h_last (h : hier) (n : nat) : option nat := nd_last (h_get h n).
Definition h_next (h : hier) (n : nat) : option nat := nd_next (h_get h n).
Definition h_prev (h : hier) (n : nat) : option nat := nd_prev (h_get h n).
(** hierarchy.rs:414-422 *)
Definition h_child_count (h : hier) (n : nat) : nat := nd_count (h_get h n).
Definition h_has_children (h : hier) (n : nat) : bool := bool_decide (0 < h_child_count h n).

(** hierarchy.rs:731-741 *)
Inductive attach_error :=
| AlreadyAttached (node : nat) | RootSibling (root : nat) | Cycle (node parent : nat).

(** hierarchy.rs:275-291 [cycle_check] *)
Fixpoint h_climb (fuel : nat) (h : hier) (node parent : nat) : hres bool :=
  match fuel with
  | 0 => HLoop
  | S fuel =>
      if decide (parent = node) then HOk false
      else match h_parent h parent with
           | Some next => h_climb fuel h node next
           | None => HOk true
           end
  end.
Definition h_cycle_check (h : hier) (node parent : nat) : hres bool :=
  match h_first h node with
  | None => HOk true
  | Some _ => h_climb (h_fuel h) h node parent
  end.

(** hierarchy.rs:124-149 [push_child] *)
Definition h_push_child (h : hier) (node parent : nat) : hres (hier * option attach_error) :=
  ok ← h_cycle_check h node parent;
  if negb ok then HOk (h, Some (Cycle node parent))
  else match h_parent h node with
       | Some _ => HOk (h, Some (AlreadyAttached node))
       | None =>
           let h := h_mod h node (nd_set_parent (Some parent)) in
           let h := h_mod h parent (fun d => nd_set_count (nd_count d + 1) d) in
           match h_last h parent with
           | Some prev =>
               let h := h_mod h parent (nd_set_last (Some node)) in
               let h := h_mod h node (nd_set_prev (Some prev)) in
               let h := h_mod h prev (nd_set_next (Some node)) in
               HOk (h, None)
           | None =>
               let h := h_mod h parent (fun d => nd_set_first (Some node) (nd_set_last (Some node) d)) in
               HOk (h, None)
           end
       end.
(** hierarchy.rs:161-190 [push_front_child] *)
Definition h_push_front_child (h : hier) (node parent : nat) : hres (hier * option attach_error) :=
  ok ← h_cycle_check h node parent;
  if negb ok then HOk (h, Some (Cycle node parent))
  else match h_parent h node with
       | Some _ => HOk (h, Some (AlreadyAttached node))
       | None =>
           let h := h_mod h node (nd_set_parent (Some parent)) in
           let h := h_mod h parent (fun d => nd_set_count (nd_count d + 1) d) in
           match h_first h parent with
           | Some next =>
               let h := h_mod h parent (nd_set_first (Some node)) in
               let h := h_mod h node (nd_set_next (Some next)) in
               let h := h_mod h next (nd_set_prev (Some node)) in
               HOk (h, None)
           | None =>
               let h := h_mod h parent (fun d => nd_set_first (Some node) (nd_set_last (Some node) d)) in
               HOk (h, None)
           end
       end.
(** hierarchy.rs:203-231 [insert_before] *)
Definition h_insert_before (h : hier) (node before : nat) : hres (hier * option attach_error) :=
  match h_parent h node with
  | Some _ => HOk (h, Some (AlreadyAttached node))
  | None =>
      match h_parent h before with
      | None => HOk (h, Some (RootSibling before))
      | Some parent =>
          ok ← h_cycle_check h node parent;
          if negb ok then HOk (h, Some (Cycle node parent))
          else
            let h := h_mod h parent (fun d => nd_set_count (nd_count d + 1) d) in
            let before_prev := h_prev h before in
            let h := h_mod h before (nd_set_prev (Some node)) in
            let h := h_mod h node (fun d => nd_set_parent (Some parent) (nd_set_prev before_prev (nd_set_next (Some before) d))) in
            match before_prev with
            | Some prev => HOk (h_mod h prev (nd_set_next (Some node)), None)
            | None => HOk (h_mod h parent (nd_set_first (Some node)), None)
            end
      end
  end.
(** hierarchy.rs:244-272 [insert_after] *)
Definition h_insert_after (h : hier) (node after : nat) : hres (hier * option attach_error) :=
  match h_parent h node with
  | Some _ => HOk (h, Some (AlreadyAttached node))
  | None =>
      match h_parent h after with
      | None => HOk (h, Some (RootSibling after))
      | Some parent =>
          ok ← h_cycle_check h node parent;
          if negb ok then HOk (h, Some (Cycle node parent))
          else
            let h := h_mod h parent (fun d => nd_set_count (nd_count d + 1) d) in
            let after_next := h_next h after in
            let h := h_mod h after (nd_set_next (Some node)) in
            let h := h_mod h node (fun d => nd_set_parent (Some parent) (nd_set_prev (Some after) (nd_set_next after_next d))) in
            match after_next with
            | Some next => HOk (h_mod h next (nd_set_prev (Some node)), None)
            | None => HOk (h_mod h parent (nd_set_last (Some node)), None)
            end
      end
  end.

(** hierarchy.rs:296-320 [detach] *)
Definition h_detach (h : hier) (node : nat) : hres (hier * option nat) :=
  match um_try_get_mut h node with
  | None => HOk (h, None)
  | Some d =>
      let h := h_mod h node (fun d => nd_set_parent None (nd_set_prev None (nd_set_next None d))) in
      match nd_parent d with
      | None => HOk (h, None)
      | Some parent =>
          if decide (h_child_count h parent = 0) then HPanic
          else
            let h := h_mod h parent (fun x => nd_set_count (nd_count x - 1) x) in
            let h := match nd_prev d with Some prev => h_mod h prev (nd_set_next (nd_next d)) | None => h end in
            let h := match nd_next d with Some next => h_mod h next (nd_set_prev (nd_prev d)) | None => h end in
            let h := match nd_prev d, nd_next d with
                     | None, None => h_mod h parent (fun x => nd_set_first None (nd_set_last None x))
                     | Some p, None => h_mod h parent (nd_set_last (Some p))
                     | None, Some n => h_mod h parent (nd_set_first (Some n))
                     | Some _, Some _ => h
                     end in
            HOk (h, Some parent)
      end
  end.
(** hierarchy.rs:323-338 [detach_children] *)
Fixpoint h_detach_list (fuel : nat) (h : hier) (next : option nat) : hres hier :=
  match next with
  | None => HOk h
  | Some child =>
      match fuel with
      | 0 => HLoop
      | S fuel =>
          let child_next := h_next h child in
          let h := h_mod h child (fun d => nd_set_parent None (nd_set_prev None (nd_set_next None d))) in
          h_detach_list fuel h child_next
      end
  end.
Definition h_detach_children (h : hier) (node : nat) : hres hier :=
  match um_try_get_mut h node with
  | None => HOk h
  | Some d =>
      let child_next := nd_first d in
      let h' := h_mod h node (fun d => nd_set_count 0 (nd_set_first None (nd_set_last None d))) in
      h_detach_list (h_fuel h) h' child_next
  end.
(** hierarchy.rs:342-345 [remove] *)
Definition h_remove (h : hier) (node : nat) : hres hier :=
  h ← h_detach_children h node; '(h, _) ← h_detach h node; HOk h.

(** hierarchy.rs:488-497 [rekey_in_parent] *)
Definition h_rekey_in_parent (h : hier) (d : nd) (new : nat) : hier :=
  match nd_parent d with
  | None => h
  | Some parent =>
      let h := if decide (nd_prev d = None) then h_mod h parent (nd_set_first (Some new)) else h in
      if decide (nd_next d = None) then h_mod h parent (nd_set_last (Some new)) else h
  end.
(** hierarchy.rs:501-508 [rekey_in_siblings] *)
Definition h_rekey_in_siblings (h : hier) (d : nd) (new : nat) : hier :=
  let h := match nd_prev d with Some prev => h_mod h prev (nd_set_next (Some new)) | None => h end in
  match nd_next d with Some next => h_mod h next (nd_set_prev (Some new)) | None => h end.
(** hierarchy.rs:512-519 [rekey_in_children] *)
Fixpoint h_rekey_list (fuel : nat) (h : hier) (next : option nat) (new : nat) : hres hier :=
  match next with
  | None => HOk h
  | Some child =>
      match fuel with
      | 0 => HLoop
      | S fuel =>
          let h := h_mod h child (nd_set_parent (Some new)) in
          h_rekey_list fuel h (h_next h child) new
      end
  end.
Definition h_rekey_in_children (h : hier) (d : nd) (new : nat) : hres hier :=
  h_rekey_list (h_fuel h) h (nd_first d) new.

(** hierarchy.rs:446-457, the closures [rekey_in_value] and [rekey_in_data] *)
Definition rekey_in_value (v : option nat) (old new : nat) : option nat :=
  match v with Some x => if decide (x = old) then Some new else v | None => None end.
Definition rekey_in_data (d : nd) (old new : nat) : nd :=
  mkND (rekey_in_value (nd_first d) old new) (rekey_in_value (nd_last d) old new) (nd_count d)
       (rekey_in_value (nd_parent d) old new) (rekey_in_value (nd_prev d) old new) (rekey_in_value (nd_next d) old new).
(** hierarchy.rs:425-463 [swap_nodes] *)
Definition h_swap_nodes (h : hier) (a b : nat) : hres hier :=
  if decide (a = b) then HOk h
  else
    let a_data := h_get h a in
    let b_data := h_get h b in
    h ← h_rekey_in_children h a_data b;
    h ← h_rekey_in_children h b_data a;
    let h := h_rekey_in_parent h a_data b in
    let h := h_rekey_in_parent h b_data a in
    let h := h_rekey_in_siblings h a_data b in
    let h := h_rekey_in_siblings h b_data a in
    let h := h_put h a (rekey_in_data b_data a b) in
    HOk (h_put h b (rekey_in_data a_data b a)).
(** hierarchy.rs:470-484 [rekey] *)
Definition h_rekey (h : hier) (old new : nat) : hres hier :=
  if decide (h_get h new = nd_new) then
    if decide (old = new) then HOk h
    else
      let node_data := h_get h old in
      let h := h_put h old nd_new in
      h ← h_rekey_in_children h node_data new;
      let h := h_rekey_in_parent h node_data new in
      let h := h_rekey_in_siblings h node_data new in
      HOk (h_put h new node_data)
  else HPanic.

(** hierarchy.rs:523-525 [ensure_capacity]; [extra]: spare capacity of the vector *)
Definition h_ensure_capacity (extra : nat) (h : hier) (c : nat) : hier :=
  um_ensure_capacity (length (um_data h) + extra) h c.
(** hierarchy.rs:531-536 [shrink_to] *)
Fixpoint h_remove_all (h : hier) (nodes : list nat) : hres hier :=
  match nodes with [] => HOk h | n :: ns => h ← h_remove h n; h_remove_all h ns end.
Definition h_shrink_to (extra : nat) (h : hier) (c : nat) : hres hier :=
  h ← h_remove_all h (rev (seq c (length (um_data h) + extra - c)));
  HOk (um_shrink_to h c).

(** hierarchy.rs:389-398 [children], 585-644 [Children]: next, prev, len *)
Definition children_st : Type := option nat * option nat * nat.
Definition h_children (h : hier) (n : nat) : children_st :=
  let d := h_get h n in (nd_first d, nd_last d, nd_count d).
Definition children_next (h : hier) (s : children_st) : res (option nat * children_st) :=
  let '(nx, pv, len) := s in
  if decide (len = 0) then Ok (None, s)
  else current ← unwrap nx; Ok (Some current, (h_next h current, pv, len - 1)).
Definition children_next_back (h : hier) (s : children_st) : res (option nat * children_st) :=
  let '(nx, pv, len) := s in
  if decide (len = 0) then Ok (None, s)
  else current ← unwrap pv; Ok (Some current, (nx, h_prev h current, len - 1)).
Definition children_len (s : children_st) : nat := s.2.

(** hierarchy.rs:405-410 [descendants], 650-726 [Descendants]: [inl root] before
    the first call, then the queue *)
Definition desc_st : Type := nat + list nat.
Definition h_descendants (n : nat) : desc_st := inl n.
Definition desc_next (h : hier) (s : desc_st) : option nat * desc_st :=
  match s with
  | inl root => (Some root, inr (option_list (h_first h root)))
  | inr [] => (None, s)
  | inr (next :: queue) =>
      let queue := option_list (h_next h next) ++ queue in
      (Some next, inr (queue ++ option_list (h_first h next)))
  end.
(** size_hint *)
Definition desc_len (s : desc_st) : nat := match s with inl _ => 1 | inr q => length q end.
