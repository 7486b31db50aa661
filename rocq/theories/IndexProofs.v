(** Arithmetic reading of the bit operations of IndexModel.v. *)
From Verif Require Export BaseLemmas IndexModel.
Local Open Scope N_scope.

Section width.
  Context (w : N) (Hw : 1 < w).
  Let h : N := 2 ^ (w - 1).

  Lemma pow_w : 2 ^ w = 2 * h.
  Proof. unfold h. rewrite <- N.pow_succ_r' . f_equal. lia. Qed.
  Lemma h_ge : 2 <= h.
  Proof. unfold h. replace 2 with (2 ^ 1) at 1 by done. apply N.pow_le_mono_r; lia. Qed.
  Lemma umax_eq : umax w = 2 * h - 1.
  Proof. unfold umax. by rewrite pow_w. Qed.
  Lemma shr_umax : N.shiftr (umax w) 1 = h - 1.
  Proof. rewrite N.shiftr_div_pow2, umax_eq. pose proof h_ge. change (2 ^ 1) with 2. lia. Qed.
  Lemma msb_eq : msb_mask w = h.
  Proof. unfold msb_mask. rewrite shr_umax, umax_eq. pose proof h_ge. lia. Qed.
  Lemma max_index_eq : bf_max_index w = h - 2.
  Proof. unfold bf_max_index. rewrite shr_umax. pose proof h_ge. lia. Qed.

  Lemma bnot_msb : bnot w (msb_mask w) = N.ones (w - 1).
  Proof.
    unfold bnot. rewrite msb_eq. unfold umax. rewrite <- N.pred_sub, <- N.ones_equiv.
    apply N.bits_inj. intros n. unfold h. rewrite N.lxor_spec.
    rewrite N.pow2_bits_eqb.
    destruct (N.lt_ge_cases n (w - 1)).
    - rewrite !N.ones_spec_low by lia. by rewrite (proj2 (N.eqb_neq (w - 1) n)) by lia.
    - rewrite (N.ones_spec_high (w - 1)) by lia. destruct (N.eqb_spec (w - 1) n) as [<-|].
      + by rewrite N.ones_spec_low by lia.
      + by rewrite N.ones_spec_high by lia.
  Qed.
  Lemma land_low x : N.land x (bnot w (msb_mask w)) = x mod h.
  Proof. rewrite bnot_msb. apply N.land_ones. Qed.

  Lemma testbit_top x : x < 2 * h -> N.testbit x (w - 1) = (h <=? x).
  Proof.
    intros Hx. rewrite N.testbit_odd, N.shiftr_div_pow2. fold h. pose proof h_ge.
    destruct (N.leb_spec h x).
    - assert (x / h = 1) as ->; [|done]. symmetry. apply (N.div_unique x h 1 (x - h)); lia.
    - rewrite N.div_small by lia. done.
  Qed.
  Lemma land_msb x : x < 2 * h -> N.land x h = if h <=? x then h else 0.
  Proof.
    intros Hx. apply N.bits_inj. intros n. rewrite N.land_spec. unfold h at 1.
    rewrite N.pow2_bits_eqb. destruct (N.eqb_spec (w - 1) n) as [<-|Hne].
    - rewrite andb_true_r, testbit_top by done. destruct (h <=? x).
      + unfold h. by rewrite N.pow2_bits_true.
      + by rewrite N.bits_0.
    - rewrite andb_false_r. destruct (h <=? x); [|by rewrite N.bits_0].
      unfold h. by rewrite N.pow2_bits_false.
  Qed.
  Lemma lor_msb_low u : u < h -> N.lor u h = u + h.
  Proof.
    intros Hu. rewrite <- N.lxor_lor, <- N.add_nocarry_lxor; [done| |];
      rewrite land_msb by lia; by destruct (N.leb_spec h u); [lia|].
  Qed.
  Lemma lxor_msb x : x < 2 * h -> N.lxor x h = if h <=? x then x - h else x + h.
  Proof.
    intros Hx. destruct (N.leb_spec h x).
    - replace x with ((x - h) + h) at 1 by lia. rewrite <- (lor_msb_low (x - h)) by lia.
      rewrite <- N.lxor_lor by (rewrite land_msb by lia; by destruct (N.leb_spec h (x - h)); [lia|]).
      rewrite N.lxor_assoc, N.lxor_nilpotent, N.lxor_0_r. done.
    - rewrite <- N.add_nocarry_lxor; [done|]. rewrite land_msb by lia.
      by destruct (N.leb_spec h x); [lia|].
  Qed.
  Lemma lor_msb_high x : h <= x < 2 * h -> N.lor x h = x.
  Proof.
    intros Hx. replace x with ((x - h) + h) by lia. rewrite <- (lor_msb_low (x - h)) by lia.
    rewrite <- N.lor_assoc. by rewrite N.lor_diag.
  Qed.
  Lemma mod_h x : x < 2 * h -> x mod h = if h <=? x then x - h else x.
  Proof.
    intros Hx. destruct (N.leb_spec h x); [|by apply N.mod_small].
    symmetry. apply (N.mod_unique x h 1); lia.
  Qed.

  Lemma is_none_eq x : bf_is_none w x = (x =? 2 * h - 1).
  Proof. unfold bf_is_none, bf_none. by rewrite umax_eq. Qed.

  (** The packing of index [i] and flag [b]. *)
  Definition pack (i : N) (b : bool) : N := if b then i + h else i.

  Lemma bf_new_pack i b : i <= bf_max_index w -> bf_new w i b = Ok (pack i b).
  Proof.
    rewrite max_index_eq. intros Hi. pose proof h_ge. unfold bf_new, from_usize.
    rewrite (proj2 (N.leb_le i (umax w))) by (rewrite umax_eq; lia). cbn.
    destruct b; [|done]. unfold bf_set_flag. rewrite is_none_eq.
    rewrite (proj2 (N.eqb_neq _ _)) by lia. cbn. rewrite msb_eq, lor_msb_low by lia. done.
  Qed.
  Lemma pack_lt i b : i <= bf_max_index w -> pack i b < 2 * h - 1.
  Proof. rewrite max_index_eq. pose proof h_ge. unfold pack. destruct b; lia. Qed.
  Lemma pack_not_none i b : i <= bf_max_index w -> bf_is_none w (pack i b) = false.
  Proof. intros Hi. rewrite is_none_eq. pose proof (pack_lt i b Hi). lia. Qed.
  Lemma pack_index_unchecked i b : i <= bf_max_index w -> bf_index_unchecked w (pack i b) = i.
  Proof.
    intros Hi. unfold bf_index_unchecked. rewrite land_low. pose proof (pack_lt i b Hi). pose proof h_ge.
    rewrite mod_h by lia. rewrite max_index_eq in Hi. unfold pack in *.
    destruct b, (N.leb_spec h (i + h)), (N.leb_spec h i); lia.
  Qed.
  Lemma pack_index i b : i <= bf_max_index w -> bf_index w (pack i b) = Some i.
  Proof. intros Hi. unfold bf_index. by rewrite pack_not_none, pack_index_unchecked. Qed.
  Lemma pack_flag i b : i <= bf_max_index w -> bf_flag w (pack i b) = Some b.
  Proof.
    intros Hi. unfold bf_flag. rewrite pack_not_none by done. rewrite msb_eq.
    pose proof (pack_lt i b Hi). pose proof h_ge. rewrite land_msb by lia. rewrite max_index_eq in Hi.
    unfold pack in *. f_equal. destruct b.
    - destruct (N.leb_spec h (i + h)); [|lia]. by destruct (N.eqb_spec h 0); [lia|].
    - destruct (N.leb_spec h i); [lia|]. done.
  Qed.
  Lemma pack_inj i b i' b' : i <= bf_max_index w -> i' <= bf_max_index w ->
    pack i b = pack i' b' -> i = i' /\ b = b'.
  Proof.
    intros Hi Hi' E. split.
    - rewrite <- (pack_index_unchecked i b Hi), E. by apply pack_index_unchecked.
    - pose proof (pack_flag i b Hi) as F. rewrite E, pack_flag in F by done. congruence.
  Qed.
  Lemma pack_set_flag i b : i <= bf_max_index w -> bf_set_flag w (pack i b) = Ok (pack i true).
  Proof.
    intros Hi. unfold bf_set_flag. rewrite pack_not_none by done. cbn. rewrite msb_eq.
    rewrite max_index_eq in Hi. pose proof h_ge. destruct b; cbn; [rewrite lor_msb_high by lia|rewrite lor_msb_low by lia]; done.
  Qed.
  Lemma pack_unset_flag i b : i <= bf_max_index w -> bf_unset_flag w (pack i b) = Ok (pack i false).
  Proof.
    intros Hi. unfold bf_unset_flag. rewrite pack_not_none by done. cbn. f_equal.
    by apply pack_index_unchecked.
  Qed.
  Lemma pack_flip i b : i <= bf_max_index w -> bf_flip_flag w (pack i b) = pack i (negb b).
  Proof.
    intros Hi. unfold bf_flip_flag. rewrite msb_eq. pose proof (pack_lt i b Hi). pose proof h_ge.
    rewrite lxor_msb by lia. rewrite max_index_eq in Hi. unfold pack. destruct b; cbn.
    - destruct (N.leb_spec h (i + h)); lia.
    - destruct (N.leb_spec h i); lia.
  Qed.
  Lemma pack_set_index i b j : i <= bf_max_index w -> j <= bf_max_index w ->
    bf_set_index w (pack i b) j = Ok (pack j b).
  Proof.
    intros Hi Hj. unfold bf_set_index, from_usize. pose proof h_ge. pose proof (pack_lt i b Hi).
    rewrite (proj2 (N.leb_le j (umax w))) by (rewrite umax_eq; rewrite max_index_eq in Hj; lia). cbn.
    rewrite pack_not_none by done. rewrite msb_eq, land_msb by lia.
    rewrite max_index_eq in Hi, Hj. unfold pack in *. destruct b.
    - destruct (N.leb_spec h (i + h)); [|lia]. by rewrite lor_msb_low by lia.
    - destruct (N.leb_spec h i); [lia|]. by rewrite N.lor_0_r.
  Qed.
  Lemma none_set_index j : j <= bf_max_index w -> bf_set_index w (bf_none w) j = Ok (pack j false).
  Proof.
    intros Hj. unfold bf_set_index, from_usize. pose proof h_ge.
    rewrite (proj2 (N.leb_le j (umax w))) by (rewrite umax_eq; rewrite max_index_eq in Hj; lia). cbn.
    unfold bf_is_none. rewrite N.eqb_refl, N.lor_0_r. done.
  Qed.
  Lemma try_from_eq i : bf_try_from w i = Ok (if bf_max_index w <? i then None else Some i).
  Proof.
    unfold bf_try_from. destruct (N.ltb_spec (bf_max_index w) i); [done|].
    rewrite bf_new_pack by done. done.
  Qed.
  Lemma ix_new_eq i : ix_new w i = if umax w <? i then Panic else Ok i.
  Proof.
    unfold ix_new, bf_new, from_usize. destruct (N.leb_spec i (umax w)), (N.ltb_spec (umax w) i); try lia; done.
  Qed.
End width.

(** ** PortMeta *)
Lemma pmeta_new_eq node d : node <= bf_max_index 32 ->
  pmeta_new node d = node + 1 + (match d with Incoming => 0 | Outgoing => 2 ^ 31 end).
Proof.
  intros Hn. change (bf_max_index 32) with 2147483646 in Hn. unfold pmeta_new. change (2 ^ 32) with 4294967296.
  rewrite N.mod_small by lia. destruct d; cbn match.
  - change (N.shiftl 0 31) with 0. rewrite N.lor_0_r. lia.
  - change (N.shiftl 1 31) with (2 ^ (32 - 1)). apply (lor_msb_low 32); [lia|]. change (2 ^ (32 - 1)) with 2147483648. lia.
Qed.
Lemma pmeta_new_nonzero node d : node <= bf_max_index 32 -> 0 < pmeta_new node d < 2 ^ 32.
Proof.
  intros Hn. rewrite pmeta_new_eq by done. change (bf_max_index 32) with 2147483646 in Hn.
  change (2 ^ 32) with 4294967296. change (2 ^ 31) with 2147483648. destruct d; lia.
Qed.
Lemma pmeta_node_new node d : node <= bf_max_index 32 -> pmeta_node (pmeta_new node d) = Ok node.
Proof.
  intros Hn. unfold pmeta_node. assert (E : N.land (pmeta_new node d) pmeta_mask = node + 1).
  { unfold pmeta_mask. change (N.shiftl 1 31) with (msb_mask 32). rewrite land_low by lia.
    rewrite pmeta_new_eq by done. change (bf_max_index 32) with 2147483646 in Hn.
    change (2 ^ (32 - 1)) with 2147483648. change (2 ^ 31) with 2147483648. destruct d.
    - rewrite N.mod_small by lia. lia.
    - symmetry. apply (N.mod_unique _ _ 1); lia. }
  rewrite E. rewrite (proj2 (N.leb_le _ _)) by lia. rewrite ix_new_eq by lia.
  change (bf_max_index 32) with 2147483646 in Hn. change (umax 32) with 4294967295.
  replace (node + 1 - 1) with node by lia. by rewrite (proj2 (N.ltb_ge _ _)) by lia.
Qed.
Lemma pmeta_direction_new node d : node <= bf_max_index 32 -> pmeta_direction (pmeta_new node d) = d.
Proof.
  intros Hn. unfold pmeta_direction. rewrite pmeta_new_eq, N.shiftr_div_pow2 by done.
  change (bf_max_index 32) with 2147483646 in Hn. change (2 ^ 31) with 2147483648. destruct d.
  - rewrite N.div_small by lia. done.
  - assert ((node + 1 + 2147483648) / 2147483648 = 1) as ->; [|done]. symmetry. apply (N.div_unique _ _ 1 (node + 1)); lia.
Qed.
