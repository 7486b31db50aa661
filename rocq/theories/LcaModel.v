(** [LCA] (algorithms/lca.rs). Loops carry fuel; [HLoop] is running out of it,
    and the theorems show that some amount of fuel always suffices. The graph
    only provides the list of its nodes ([nodes_iter]); [node_capacity] is a
    capacity hint. *)
From Verif Require Export HierModel.

(** lca.rs:176-184 [DFSState] *)
Inductive dfs_state := DVisit (node : nat) (parent : option nat) | DFinish (node : nat).

(** lca.rs:21-30 *)
Record lca_t := mkLCA { l_first : umap nat; l_last : umap nat; l_climb : umap (list nat) }.

(** [map[k] = v] through [IndexMut] (unmanaged.rs:302-304, 193-201); the slot
    exists after [get_mut], so no panic *)
Definition um_store {V} (m : umap V) (k : nat) (v : V) : umap V :=
  let m1 := um_get_mut m k in mkUM (<[k := v]> (um_data m1)) (um_default m1).

(** The [Iterator] protocol of [hierarchy.children(node)], run to its end *)
Fixpoint h_children_list (fuel : nat) (h : hier) (s : children_st) : hres (list nat) :=
  match fuel with
  | 0 => HLoop
  | S fuel =>
      match children_next h s with
      | Panic => HPanic
      | Ok (None, _) => HOk []
      | Ok (Some c, s) => l ← h_children_list fuel h s; HOk (c :: l)
      end
  end.

(** lca.rs:67-74, the [scan] over [0..] that collects the climb nodes *)
Fixpoint lca_scan (fuel : nat) (cn : umap (list nat)) (prev : option nat) (i : nat) : hres (list nat) :=
  match fuel with
  | 0 => HLoop
  | S fuel =>
      match prev with
      | None => HOk []
      | Some ith_parent =>
          l ← lca_scan fuel cn (um_get cn ith_parent !! i) (i + 1);
          HOk (ith_parent :: l)
      end
  end.

(** lca.rs:59-92, the [while let] loop *)
Fixpoint lca_dfs (fuel : nat) (h : hier) (stack : list dfs_state) (l : lca_t) (ts : nat) : hres (lca_t * nat) :=
  match fuel with
  | 0 => HLoop
  | S fuel =>
      match stack with
      | [] => HOk (l, ts)
      | DVisit node parent :: stack =>
          let first := um_store (l_first l) node ts in
          climb ← lca_scan fuel (l_climb l) parent 0;
          let cn := match climb with [] => l_climb l | _ => um_store (l_climb l) node climb end in
          ch ← h_children_list fuel h (h_children h node);
          lca_dfs fuel h (rev ((fun c => DVisit c (Some node)) <$> ch) ++ DFinish node :: stack)
            (mkLCA first (l_last l) cn) (ts + 1)
      | DFinish node :: stack =>
          lca_dfs fuel h stack (mkLCA (l_first l) (um_store (l_last l) node ts) (l_climb l)) (ts + 1)
      end
  end.
(** lca.rs:48-93 *)
Fixpoint lca_roots (fuel : nat) (h : hier) (nodes : list nat) (l : lca_t) (ts : nat) : hres lca_t :=
  match nodes with
  | [] => HOk l
  | root :: nodes =>
      if h_is_root h root then
        '(l, ts) ← lca_dfs fuel h [DVisit root None] l ts;
        lca_roots fuel h nodes l ts
      else lca_roots fuel h nodes l ts
  end.
(** lca.rs:36-96 [new] *)
Definition lca_new (fuel : nat) (nodes : list nat) (h : hier) : hres lca_t :=
  lca_roots fuel h nodes (mkLCA (um_with_default 0) (um_with_default 0) (um_with_default [])) 0.

(** lca.rs:103-105 [is_ancestor] *)
Definition lca_is_ancestor (l : lca_t) (a b : nat) : bool :=
  bool_decide (um_get (l_first l) a <= um_get (l_first l) b)
  && bool_decide (um_get (l_last l) b <= um_get (l_last l) a).
(** lca.rs:110-116 [root] *)
Fixpoint lca_root (fuel : nat) (l : lca_t) (u : nat) : hres nat :=
  match fuel with
  | 0 => HLoop
  | S fuel =>
      match last (um_get (l_climb l) u) with
      | Some v => lca_root fuel l v
      | None => HOk u
      end
  end.
(** lca.rs:144-148: the last element of the climbing sequence from [u] before
    the first that is missing or an ancestor of [b]; [seen] is the last one met *)
Fixpoint lca_find (fuel : nat) (l : lca_t) (b : nat) (u : option nat) (seen : option nat) : hres (option nat) :=
  match fuel with
  | 0 => HLoop
  | S fuel =>
      match u with
      | None => HOk seen
      | Some u =>
          if lca_is_ancestor l u b then HOk seen
          else lca_find fuel l b (last (um_get (l_climb l) u)) (Some u)
      end
  end.
Definition h_index (l : list nat) (i : nat) : hres nat := match l !! i with Some x => HOk x | None => HPanic end.
Definition h_sub (a b : nat) : hres nat := if decide (b <= a) then HOk (a - b) else HPanic.
(** lca.rs:155-167 *)
Fixpoint lca_search (fuel : nat) (l : lca_t) (b u i : nat) : hres nat :=
  match fuel with
  | 0 => HLoop
  | S fuel =>
      if decide (0 < i) then
        let i := i - 1 in
        v ← h_index (um_get (l_climb l) u) i;
        if lca_is_ancestor l v b then lca_search fuel l b u i
        else
          k ← h_sub (length (um_get (l_climb l) v)) 1;
          lca_search fuel l b v (Nat.max i k)
      else HOk u
  end.
(** lca.rs:123-170 [lca] *)
Definition lca_lca (fuel : nat) (l : lca_t) (a b : nat) : hres (option nat) :=
  if lca_is_ancestor l a b then HOk (Some a)
  else if lca_is_ancestor l b a then HOk (Some b)
  else
    ra ← lca_root fuel l a; rb ← lca_root fuel l b;
    if decide (ra <> rb) then HOk None
    else
      u ← lca_find fuel l b (Some a) None;
      match u with
      | None => HOk None
      | Some u =>
          i ← h_sub (length (um_get (l_climb l) u)) 1;
          u ← lca_search fuel l b u i;
          v ← h_index (um_get (l_climb l) u) 0;
          HOk (Some v)
      end.
