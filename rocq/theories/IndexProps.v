(** Properties C25-C29 of properties.jsonl: indices, optional indices, port
    offsets and the packed bit fields of src/index.rs. [w] is the number of
    bits of the base type (8, 16, 32 or 64; the theorems hold for every width
    of at least two bits). *)
From Verif Require Export IndexThms.
Local Open Scope N_scope.


(** C25. Every [i] up to the maximum is accepted by [new], is given back by
    [index] and by the conversion to [usize]; different [i] give different
    indices; [try_from] accepts exactly these [i] and agrees with [new]; the
    maximum is [2^(w-1) - 2]. *)
Theorem C25_index_faithful :
  forall w, 1 < w ->
    ix_max_index w = 2 ^ (w - 1) - 2 /\
    (forall i, i <= ix_max_index w ->
       exists x, ix_new w i = Ok x /\ ix_index w x = i /\ ix_into_usize w x = Ok i /\
                 ix_try_from w i = Ok (Some x)) /\
    (forall i, ix_max_index w < i -> ix_try_from w i = Ok None) /\
    (forall i j x, i <= ix_max_index w -> j <= ix_max_index w ->
       ix_new w i = Ok x -> ix_new w j = Ok x -> i = j).
Proof. exact C25_index_faithful_pf. Qed.
Print Assumptions C25_index_faithful.

Example C25_index_faithful_nonvacuous :
  1 < 32 /\ 2147483646 <= ix_max_index 32 /\ ix_new 32 2147483646 = Ok 2147483646 /\
  ix_try_from 32 2147483647 = Ok None.
Proof. vm_compute. split_and!; congruence. Qed.

(** C26, as documented ("panics if the index is greater than Self::MAX"), is
    false: for every width, the two smallest values above [max_index] are
    accepted; the first is kept (but [try_from] rejects it), the second
    becomes index 0, and [U::MAX] becomes the reserved none value. *)
Theorem C26_new_above_max_refuted :
  forall w, 1 < w ->
    exists i, ix_max_index w < i /\ ix_new w i = Ok i /\ ix_index w i = 2 ^ (w - 1) - 1 /\
    exists j, ix_max_index w < j /\ ix_new w j = Ok j /\ ix_index w j = 0 /\
    exists k, ix_max_index w < k /\ ix_new w k = Ok k /\ mi_to_option w (mi_from_index k) = None.
Proof. exact C26_new_above_max_refuted_pf. Qed.
Print Assumptions C26_new_above_max_refuted.

(** C26, what does hold: [new] panics exactly above [U::MAX], not above
    [max_index]. Missing from the full property: the values between the two. *)
Theorem C26_new_panics_partial :
  forall w i, 1 < w -> (ix_new w i = Panic <-> 2 ^ w - 1 < i).
Proof. exact C26_new_panics_partial_pf. Qed.
Print Assumptions C26_new_panics_partial.

Example C26_new_panics_partial_nonvacuous : ix_new 8 256 = Panic /\ ix_new 8 255 = Ok 255.
Proof. done. Qed.

(** C27. Optional indices: converting an option to the packed form and back is
    the identity on valid indices; the packed none differs from every valid
    index; [take] leaves none and returns the old value, [replace] stores the
    new value and returns the old one; [unwrap] succeeds exactly on a value. *)
Theorem C27_maybe_index :
  forall w, 1 < w ->
    (forall o, (forall x, o = Some x -> exists i, i <= ix_max_index w /\ ix_new w i = Ok x) ->
       exists m, mi_new w o = Ok m /\ mi_to_option w m = o /\
                 mi_is_some w m = bool_decide (is_Some o) /\ mi_is_none w m = bool_decide (o = None) /\
                 mi_unwrap w m = unwrap o /\
                 (exists n, mi_take w m = Ok (n, m) /\ mi_to_option w n = None)) /\
    (forall i x, i <= ix_max_index w -> ix_new w i = Ok x ->
       x <> mi_default w /\ mi_to_option w (mi_from_index x) = Some x /\
       forall m, mi_replace m x = (mi_from_index x, m)) /\
    mi_to_option w (mi_default w) = None.
Proof. exact C27_maybe_index_pf. Qed.
Print Assumptions C27_maybe_index.

Example C27_maybe_index_nonvacuous :
  (exists i, i <= ix_max_index 16 /\ ix_new 16 i = Ok 32766) /\ mi_new 16 (Some 32766) = Ok 32766 /\
  mi_to_option 16 (mi_default 16) = None.
Proof. split_and!; [exists 32766; by vm_compute|done|done]. Qed.

(** C28. Port offsets carry a direction and a position independently, equality
    and [opposite] act componentwise, and the derived order on the packed
    value compares directions first (incoming before outgoing), then offsets. *)
Theorem C28_port_offset :
  forall w, 1 < w ->
    (forall d i, i <= po_max_offset w ->
       exists x, po_new w d i = Ok x /\ po_direction w x = Ok d /\ po_index w x = Ok i /\
                 po_new w (rev_dir d) i = Ok (po_opposite w x)) /\
    (forall d i d' i' x x', i <= po_max_offset w -> i' <= po_max_offset w ->
       po_new w d i = Ok x -> po_new w d' i' = Ok x' ->
       (x = x' <-> d = d' /\ i = i') /\
       (x < x' <-> (d = Incoming /\ d' = Outgoing) \/ (d = d' /\ i < i'))).
Proof. exact C28_port_offset_pf. Qed.
Print Assumptions C28_port_offset.

Example C28_port_offset_nonvacuous :
  32766 <= po_max_offset 16 /\ po_new 16 Outgoing 32766 = Ok 65534 /\ po_direction 16 65534 = Ok Outgoing /\
  po_index 16 65534 = Ok 32766 /\ po_opposite 16 65534 = 32766.
Proof. vm_compute. split_and!; congruence. Qed.

(** C29. On a field that decodes to index [i] and flag [b], each setter changes
    its own part only, and the result is never the none value. The setters are
    applied in any order: [us] is an arbitrary list of updates. *)
Theorem C29_bitfield_setters :
  forall w i b x us, 1 < w -> i <= bf_max_index w -> bf_new w i b = Ok x ->
    (forall j, SetIndex j ∈ us -> j <= bf_max_index w) ->
    exists y, rfold (bf_apply w) us x = Ok y /\
      bf_index w y = Some (foldl up_index i us) /\
      bf_flag w y = Some (foldl up_flag b us) /\
      bf_is_none w y = false.
Proof. exact C29_bitfield_setters_pf. Qed.
Print Assumptions C29_bitfield_setters.

Example C29_bitfield_setters_nonvacuous :
  5 <= bf_max_index 8 /\ bf_new 8 5 true = Ok 133 /\
  rfold (bf_apply 8) [FlipFlag; SetIndex 126; SetFlag] 133 = Ok 254.
Proof. vm_compute. split_and!; congruence. Qed.

(** The packed node-and-direction word stored per port (portgraph.rs
    [PortMeta]) decodes to exactly what was stored and is never zero, so the
    port-graph model may use pairs. *)
Theorem C29_portmeta_faithful :
  forall n d, n <= ix_max_index 32 ->
    0 < pmeta_new n d < 2 ^ 32 /\ pmeta_node (pmeta_new n d) = Ok n /\ pmeta_direction (pmeta_new n d) = d.
Proof. exact C29_portmeta_faithful_pf. Qed.
Print Assumptions C29_portmeta_faithful.

Example C29_portmeta_faithful_nonvacuous :
  2147483646 <= ix_max_index 32 /\ pmeta_new 2147483646 Outgoing = 4294967295.
Proof. vm_compute. split; congruence. Qed.
