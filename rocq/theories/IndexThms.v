(** Proofs of the theorems stated in IndexProps.v. *)
From Verif Require Export IndexProofs.
Local Open Scope N_scope.


Lemma C25_index_faithful_pf :
  forall w, 1 < w ->
    ix_max_index w = 2 ^ (w - 1) - 2 /\
    (forall i, i <= ix_max_index w ->
       exists x, ix_new w i = Ok x /\ ix_index w x = i /\ ix_into_usize w x = Ok i /\
                 ix_try_from w i = Ok (Some x)) /\
    (forall i, ix_max_index w < i -> ix_try_from w i = Ok None) /\
    (forall i j x, i <= ix_max_index w -> j <= ix_max_index w ->
       ix_new w i = Ok x -> ix_new w j = Ok x -> i = j).
Proof.
  intros w Hw. split_and!.
  - by apply max_index_eq.
  - intros i Hi. exists (pack w i false). unfold ix_new. rewrite bf_new_pack by done.
    split_and!; [done|by apply pack_index_unchecked| |].
    + unfold ix_into_usize, bf_into_usize. by rewrite pack_index.
    + unfold ix_try_from. rewrite try_from_eq by done. unfold ix_max_index in Hi.
      by rewrite (proj2 (N.ltb_ge _ _)) by done.
  - intros i Hi. unfold ix_try_from, ix_max_index in *. rewrite try_from_eq by done.
    by rewrite (proj2 (N.ltb_lt _ _)) by done.
  - intros i j x Hi Hj. unfold ix_new. rewrite !bf_new_pack by done. intros [= <-] [= E]. done.
Qed.

Lemma C26_new_above_max_refuted_pf :
  forall w, 1 < w ->
    exists i, ix_max_index w < i /\ ix_new w i = Ok i /\ ix_index w i = 2 ^ (w - 1) - 1 /\
    exists j, ix_max_index w < j /\ ix_new w j = Ok j /\ ix_index w j = 0 /\
    exists k, ix_max_index w < k /\ ix_new w k = Ok k /\ mi_to_option w (mi_from_index k) = None.
Proof.
  intros w Hw. pose proof (h_ge w Hw) as Hh.
  exists (2 ^ (w - 1) - 1). rewrite (ix_new_eq _ Hw). unfold ix_max_index. rewrite max_index_eq by done. rewrite umax_eq by done.
  split; [lia|]. split; [by rewrite (proj2 (N.ltb_ge _ _)) by lia|].
  split. { unfold ix_index, bf_index_unchecked. rewrite land_low by done. apply N.mod_small. lia. }
  exists (2 ^ (w - 1)). rewrite (ix_new_eq _ Hw). rewrite umax_eq by done.
  split; [lia|]. split; [by rewrite (proj2 (N.ltb_ge _ _)) by lia|].
  split. { unfold ix_index, bf_index_unchecked. rewrite land_low by done. apply N.mod_same. lia. }
  exists (umax w). rewrite (ix_new_eq _ Hw). rewrite umax_eq by done.
  split; [lia|]. split; [by rewrite (proj2 (N.ltb_ge _ _)) by lia|].
  unfold mi_to_option, mi_from_index, bf_is_none, bf_none. rewrite umax_eq by done. by rewrite N.eqb_refl.
Qed.

Lemma C26_new_panics_partial_pf :
  forall w i, 1 < w -> (ix_new w i = Panic <-> 2 ^ w - 1 < i).
Proof.
  intros w i Hw. rewrite (ix_new_eq _ Hw). change (2 ^ w - 1) with (umax w).
  destruct (N.ltb_spec (umax w) i); split; try done; lia.
Qed.

Lemma C27_maybe_index_pf :
  forall w, 1 < w ->
    (forall o, (forall x, o = Some x -> exists i, i <= ix_max_index w /\ ix_new w i = Ok x) ->
       exists m, mi_new w o = Ok m /\ mi_to_option w m = o /\
                 mi_is_some w m = bool_decide (is_Some o) /\ mi_is_none w m = bool_decide (o = None) /\
                 mi_unwrap w m = unwrap o /\
                 (exists n, mi_take w m = Ok (n, m) /\ mi_to_option w n = None)) /\
    (forall i x, i <= ix_max_index w -> ix_new w i = Ok x ->
       x <> mi_default w /\ mi_to_option w (mi_from_index x) = Some x /\
       forall m, mi_replace m x = (mi_from_index x, m)) /\
    mi_to_option w (mi_default w) = None.
Proof.
  intros w Hw.
  assert (Hnn : forall i x, i <= ix_max_index w -> ix_new w i = Ok x -> bf_is_none w x = false).
  { intros i x Hi. unfold ix_new. rewrite bf_new_pack by done. intros [= <-]. by apply (pack_not_none w Hw i false). }
  assert (Hdef : bf_is_none w (bf_none w) = true) by apply N.eqb_refl.
  split_and!.
  - intros [x|] Ho.
    + destruct (Ho x eq_refl) as (i & Hi & Hx). pose proof (Hnn _ _ Hi Hx) as Hn.
      exists x. unfold mi_new, mi_to_option, mi_is_some, mi_is_none, mi_unwrap, mi_take, mi_is_none, mi_new.
      rewrite Hn. cbn. split_and!; try done. exists (bf_none w). by rewrite Hdef.
    + exists (bf_none w). unfold mi_new, mi_to_option, mi_is_some, mi_is_none, mi_unwrap, mi_take, mi_is_none, mi_new.
      rewrite Hdef. split_and!; try done. exists (bf_none w). by rewrite Hdef.
  - intros i x Hi Hx. pose proof (Hnn _ _ Hi Hx) as Hn. split_and!; [|unfold mi_to_option, mi_from_index; by rewrite Hn|done].
    intros ->. unfold mi_default in Hn. congruence.
  - unfold mi_to_option, mi_default. by rewrite Hdef.
Qed.

Lemma C28_port_offset_pf :
  forall w, 1 < w ->
    (forall d i, i <= po_max_offset w ->
       exists x, po_new w d i = Ok x /\ po_direction w x = Ok d /\ po_index w x = Ok i /\
                 po_new w (rev_dir d) i = Ok (po_opposite w x)) /\
    (forall d i d' i' x x', i <= po_max_offset w -> i' <= po_max_offset w ->
       po_new w d i = Ok x -> po_new w d' i' = Ok x' ->
       (x = x' <-> d = d' /\ i = i') /\
       (x < x' <-> (d = Incoming /\ d' = Outgoing) \/ (d = d' /\ i < i'))).
Proof.
  intros w Hw.
  assert (Hb : forall d : dir, exists b : bool, bool_decide (d = Outgoing) = b /\ d = (if b then Outgoing else Incoming) /\
            bool_decide (rev_dir d = Outgoing) = negb b).
  { intros []; [exists false|exists true]; done. }
  split.
  - intros d i Hi. destruct (Hb d) as (b & E & -> & E'). exists (pack w i b). unfold po_new, po_direction, po_index, po_opposite.
    rewrite E, E', !bf_new_pack, pack_flag, pack_index, pack_flip by done. by destruct b.
  - intros d i d' i' x x' Hi Hi'. destruct (Hb d) as (b & E & -> & _). destruct (Hb d') as (b' & E' & -> & _).
    unfold po_new. rewrite E, E', !bf_new_pack by done. intros [= <-] [= <-]. split.
    + split.
      * intros H%pack_inj; [|done|done|done]. destruct H as [-> ->]. done.
      * intros [H ->]. by destruct b, b'.
    + unfold po_max_offset in *. rewrite max_index_eq in Hi, Hi' by done. pose proof (h_ge w Hw). unfold pack.
      destruct b, b'; split; intros Hx; try (left; done); try (right; split; [done|]); try lia;
        destruct Hx as [[? ?]|[? ?]]; try done; try lia.
Qed.

Inductive bf_update := SetFlag | UnsetFlag | FlipFlag | SetIndex (j : N).
Definition bf_apply (w x : N) (u : bf_update) : res N :=
  match u with
  | SetFlag => bf_set_flag w x
  | UnsetFlag => bf_unset_flag w x
  | FlipFlag => Ok (bf_flip_flag w x)
  | SetIndex j => bf_set_index w x j
  end.
Definition up_index (i : N) (u : bf_update) : N := match u with SetIndex j => j | _ => i end.
Definition up_flag (b : bool) (u : bf_update) : bool :=
  match u with SetFlag => true | UnsetFlag => false | FlipFlag => negb b | SetIndex _ => b end.

Lemma C29_bitfield_setters_pf :
  forall w i b x us, 1 < w -> i <= bf_max_index w -> bf_new w i b = Ok x ->
    (forall j, SetIndex j ∈ us -> j <= bf_max_index w) ->
    exists y, rfold (bf_apply w) us x = Ok y /\
      bf_index w y = Some (foldl up_index i us) /\
      bf_flag w y = Some (foldl up_flag b us) /\
      bf_is_none w y = false.
Proof.
  intros w i b x us Hw. revert i b x. induction us as [|u us IH]; intros i b x Hi Hx Hus.
  - rewrite bf_new_pack in Hx by done. injection Hx as <-. exists (pack w i b). cbn.
    by rewrite pack_index, pack_flag, pack_not_none.
  - rewrite bf_new_pack in Hx by done. injection Hx as <-.
    assert (Hu : bf_apply w (pack w i b) u = Ok (pack w (up_index i u) (up_flag b u)) /\ up_index i u <= bf_max_index w).
    { destruct u as [| | |j]; cbn.
      - by rewrite pack_set_flag.
      - by rewrite pack_unset_flag.
      - by rewrite pack_flip.
      - assert (j <= bf_max_index w) by (apply Hus; by left). by rewrite pack_set_index. }
    destruct Hu as [Hu Hi']. cbn [rfold foldl]. rewrite Hu, bind_Ok. apply IH; [done|by apply bf_new_pack|].
    intros j Hj. apply Hus. by right.
Qed.

Lemma C29_portmeta_faithful_pf :
  forall n d, n <= ix_max_index 32 ->
    0 < pmeta_new n d < 2 ^ 32 /\ pmeta_node (pmeta_new n d) = Ok n /\ pmeta_direction (pmeta_new n d) = d.
Proof.
  intros n d Hn. split_and!; [by apply pmeta_new_nonzero|by apply pmeta_new_nonzero|by apply pmeta_node_new|by apply pmeta_direction_new].
Qed.
