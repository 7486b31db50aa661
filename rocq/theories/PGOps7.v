(** [set_num_ports]: complete specification. *)
From Verif Require Export PGOps6.

Record move_pairs (g : pg) (m m' : node_meta) (ps : list (nat * nat)) : Prop := {
  mp_sound : forall o w, (o, w) ∈ ps -> (exists d, in_range m d o) /\ kept m m' o /\ w = nm_ren m m' o;
  mp_complete : forall o d, in_range m d o -> kept m m' o -> nm_ren m m' o <> o -> (o, nm_ren m m' o) ∈ ps;
  mp_nd1 : NoDup ps.*1;
  mp_nd2 : NoDup ps.*2;
  mp_order : forall i j o w o' w', i < j -> ps !! i = Some (o, w) -> ps !! j = Some (o', w') -> w <> o';
}.

Record resize_post (g : pg) (n : nat) (m : node_meta) (inc out : nat) (g' : pg) (m' : node_meta)
    (log : list (nat * port_op)) : Prop := {
  rz_nmeta : forall x, nmeta g' x = if decide (x = n) then Some m' else nmeta g x;
  rz_inc : nm_inc m' = inc;
  rz_out : nm_out m' = out;
  rz_link : forall p, is_Some (pmeta g p) -> kept m m' p -> plink g' (nm_ren m m' p) =
      match plink g p with
      | Some q => if decide (kept m m' q) then Some (nm_ren m m' q) else None
      | None => None
      end;
  rz_new : forall d p, in_range m' d p -> nm_num m d <= p - nm_start m' d -> plink g' p = None;
  rz_nc : pg_ncount g' = pg_ncount g;
  rz_pc : pg_pcount g' + (nm_inc m + nm_out m) = pg_pcount g + (inc + out);
  rz_log : exists rl ps, log = rl ++ moved_log ps /\
      removed_log (dropped_ports m inc out) (plink g) rl /\ move_pairs g m m' ps;
}.

Lemma resize_post_intro g fnl F n m m' g1 g' F' rl ps :
  InvG g fnl F -> nmeta g n = Some m ->
  InvG g1 fnl F -> same_but_links g g1 ->
  (forall x, is_Some (pmeta g x) -> plink g1 x = cut_kept m m' (plink g) x) ->
  removed_log (dropped_ports m (nm_inc m') (nm_out m')) (plink g) rl ->
  resize_core g1 n m m' g' F' -> move_pairs g m m' ps ->
  resize_post g n m (nm_inc m') (nm_out m') g' m' (rl ++ moved_log ps).
Proof.
  intros I Hm I1 Hsb Hpl Hrl R Hmp.
  pose proof (nmeta_lt _ _ _ Hm) as Hlt.
  split; try done.
  - intros x. rewrite !nmeta_eq, (rc_nodes _ _ _ _ _ _ R), (sb_nodes _ _ Hsb). rewrite lookup_insert_if by done. by case_decide.
  - intros p Hp Hk. rewrite (rc_keep _ _ _ _ _ _ R); [|by rewrite (sb_pmeta' _ _ _ Hsb)|done].
    rewrite Hpl by done. unfold cut_kept. rewrite decide_True by done.
    destruct (plink g p) as [q|]; [|done]. by case_decide.
  - apply R.
  - rewrite (rc_nc _ _ _ _ _ _ R). by apply sb_nc.
  - rewrite (rc_pc _ _ _ _ _ _ R), (sb_pc _ _ Hsb).
    destruct (i_counts _ _ _ I) as (_ & C2 & _).
    edestruct (card_minus (fun p => pmeta g p <> None) (fun p => nm_first m <= p < nm_first m + (nm_inc m + nm_out m)))
      as [Hle Hc]; [|exact C2|apply card_seq|lia].
    intros p Hp. assert (exists d, in_range m d p) as [d Hr].
    { unfold in_range. destruct (decide (p < nm_first m + nm_inc m));
      [exists Incoming|exists Outgoing]; cbn; lia. }
    by rewrite (inv_pmeta_range _ _ _ I _ _ _ _ Hm Hr).
  - exists rl, ps. done.
Qed.

Lemma realloc_move_pairs g m m' : (forall p, in_slab m p -> ~ in_slab m' p) ->
  (forall d p, in_range m d p -> in_slab m p) -> (forall d p, in_range m' d p -> in_slab m' p) ->
  move_pairs g m m' (realloc_pairs m m').
Proof.
  intros Hsl H1 H2. split.
  - intros o w (d & i & Hi & Hi' & -> & ->)%realloc_pairs_elem.
    assert (Hr : in_range m d (nm_start m d + i)) by (unfold in_range; lia).
    split_and!.
    + eauto.
    + eapply kept_off; [done|]. lia.
    + rewrite (nm_ren_in _ _ d) by done. lia.
  - intros o d Hr Hk _. apply realloc_pairs_elem. exists d, (o - nm_start m d).
    rewrite (nm_ren_in _ _ d) by done. destruct Hk as [K1 K2].
    assert (o - nm_start m d < nm_num m' d) by (destruct d; auto). unfold in_range in *. lia.
  - apply realloc_pairs_nd1.
  - apply realloc_pairs_nd2.
  - intros i j o w o' w' _ Hi Hj ->.
    apply elem_of_list_lookup_2 in Hi, Hj.
    apply elem_of_snd, realloc_pairs_snd in Hi as (d & Hr & _).
    apply elem_of_fst, realloc_pairs_fst in Hj as (d' & Hr' & _).
    eapply Hsl; eauto.
Qed.

Lemma inplace_move_pairs g m m' : nm_first m' = nm_first m -> move_pairs g m m' (inplace_pairs m m').
Proof.
  intros Hf. split.
  - intros o w (i & Hi & Hi' & -> & ->)%inplace_pairs_elem.
    assert (Hr : in_range m Outgoing (nm_start m Outgoing + i)) by (unfold in_range; cbn in *; lia).
    split_and!.
    + eauto.
    + eapply kept_off; [done|]. cbn. lia.
    + rewrite (nm_ren_in _ _ Outgoing) by done. lia.
  - intros o d Hr Hk Hne. rewrite (nm_ren_in _ _ d) in Hne by done. destruct d.
    { exfalso. unfold in_range in Hr. cbn in *. lia. }
    apply inplace_pairs_elem. exists (o - nm_start m Outgoing).
    rewrite (nm_ren_in _ _ Outgoing) by done. destruct Hk as [_ K2]. specialize (K2 Hr). unfold in_range in *. cbn in *. lia.
  - apply inplace_pairs_nd1.
  - apply inplace_pairs_nd2.
  - intros i j o w o' w'. by apply inplace_pairs_order.
Qed.

(** A slab request of 65536 or more slots panics: the capacity truncates to 0. *)
Lemma alloc_ports_big g n inc out extra :
  (N.of_nat inc <= 65534)%N -> (N.of_nat out <= 65535)%N -> 0 < inc + out ->
  trunc16 (inc + out + extra) = 0 ->
  alloc_ports g n inc out extra = Panic.
Proof.
  intros H1 H2 H3 H4. unfold alloc_ports. rewrite decide_False by lia. rewrite H4, !trunc16_id by lia.
  assert (Hnew : forall s, nm_new s inc out 0 = Panic).
  { intros s. unfold nm_new. rewrite (assert_ok (N.of_nat inc <=? 65534)%N) by lia. rewrite bind_Ok.
    rewrite (assert_ok (N.of_nat out <=? 65535)%N) by lia. rewrite bind_Ok.
    destruct (N.min (N.of_nat inc + N.of_nat out) 65535 <=? N.of_nat 0)%N eqn:E; [exfalso; lia|]. done. }
  destruct (pg_pfree g !! _) as [[s|]|].
  - destruct (vget (pg_link g) s) as [x|]; [|done]. rewrite bind_Ok.
    destruct (vset (pg_link g) s None) as [y|]; [|done]. rewrite bind_Ok.
    destruct (vset (pg_pfree g) _ x) as [z|]; [|done]. rewrite bind_Ok. by rewrite Hnew.
  - destruct (idx_new _) as [x|]; [|done]. rewrite bind_Ok. by rewrite Hnew.
  - destruct (idx_new _) as [x|]; [|done]. rewrite bind_Ok. by rewrite Hnew.
Qed.

Lemma next_pow2_big n : (32768 < N.of_nat n <= 131072)%N -> trunc16 (next_pow2 n) = 0.
Proof.
  intros H. unfold trunc16, next_pow2. rewrite N2Nat.id.
  assert (N.log2_up (N.of_nat n) = 16 \/ N.log2_up (N.of_nat n) = 17)%N as Hl.
  { pose proof (N.log2_up_le_mono (N.of_nat n) 131072 ltac:(lia)) as U.
    change (N.log2_up 131072) with 17%N in U.
    pose proof (N.log2_up_lt_pow2 (N.of_nat n) 15 ltac:(lia)) as L.
    change (2 ^ 15)%N with 32768%N in L. lia. }
  destruct Hl as [-> | ->]; reflexivity.
Qed.

Lemma set_num_ports_spec g fnl F n inc out :
  InvG g fnl F ->
  match set_num_ports g n inc out with
  | Panic => (65534 < N.of_nat inc)%N \/ (65535 < N.of_nat out)%N \/
      (exists m, nmeta g n = Some m /\ (nm_cap m <= inc + out) /\ (32768 < N.of_nat (inc + out))%N) \/
      (exists m, nmeta g n = Some m /\ (nm_cap m <= inc + out \/ inc + out = 0) /\
         (max_index + 1 < N.of_nat (length (pg_pmeta g) + next_pow2 (inc + out)))%N)
  | Ok (g', log) =>
      (N.of_nat inc <= 65534)%N /\ (N.of_nat out <= 65535)%N /\
      match nmeta g n with
      | None => g' = g /\ log = []
      | Some m =>
          if decide (nm_inc m = inc /\ nm_out m = out) then g' = g /\ log = []
          else Inv g' /\ exists m', resize_post g n m inc out g' m' log
      end
  end.
Proof.
  intros I. unfold set_num_ports.
  destruct (N.of_nat inc <=? 65534)%N eqn:E1; [|cbn; left; lia].
  destruct (N.of_nat out <=? 65535)%N eqn:E2; [|cbn; right; left; lia].
  cbn [assert]. rewrite !bind_Ok.
  assert (Hinc : (N.of_nat inc <= 65534)%N) by lia. assert (Hout : (N.of_nat out <= 65535)%N) by lia. clear E1 E2.
  destruct (nmeta g n) as [m|] eqn:Hm; [|done].
  destruct (decide (nm_inc m = inc /\ nm_out m = out)) as [|Hneq]; [done|].
  pose proof (inv_meta_ok _ _ _ I _ _ Hm) as Hmo. pose proof (nmeta_lt _ _ _ Hm) as Hnlt.
  assert (Hpcle : nm_inc m + nm_out m <= pg_pcount g).
  { destruct (i_counts _ _ _ I) as (_ & C2 & _).
    edestruct (card_minus (fun p => pmeta g p <> None) (fun p => nm_first m <= p < nm_first m + (nm_inc m + nm_out m)))
      as [Hle Hc]; [|exact C2|apply card_seq|lia].
    intros p Hp. assert (exists d, in_range m d p) as [d Hr].
    { unfold in_range. destruct (decide (p < nm_first m + nm_inc m));
      [exists Incoming|exists Outgoing]; cbn; lia. }
    by rewrite (inv_pmeta_range _ _ _ I _ _ _ _ Hm Hr). }
  case_decide as Hin.
  - (* in place *)
    unfold resize_inplace. rewrite Hm. cbn [unwrap]. rewrite bind_Ok.
    assert (Hcap : (N.of_nat (nm_cap m) <= 65535)%N) by (unfold meta_ok in Hmo; lia).
    rewrite !trunc16_id by lia.
    rewrite nm_new_ok by lia. rewrite bind_Ok.
    set (m' := NM (nm_first m) inc out (nm_cap m)).
    destruct (drop_resize_spec g fnl F n m m' I Hm) as (g1 & rl & Hf1 & I1 & Hsb & Hpl & Hrl).
    change (nm_inc m') with inc in Hf1, Hrl. change (nm_out m') with out in Hf1, Hrl.
    rewrite Hf1, bind_Ok.
    assert (Hm1 : nmeta g1 n = Some m) by (by rewrite (sb_nmeta _ _ _ Hsb)).
    assert (Hdrop : forall p, is_Some (pmeta g1 p) -> ~ kept m m' p -> plink g1 p = None).
    { intros p Hp Hk. rewrite (sb_pmeta' _ _ _ Hsb) in Hp. rewrite Hpl by done. unfold cut_kept. by rewrite decide_False. }
    destruct (inplace_spec g1 fnl F n m inc out I1 Hm1 ltac:(lia) Hdrop) as (g2 & g3 & g4 & g5 & Q2 & Q3 & Q4 & Q5 & Qn & Qp & R).
    fold m' in Q2, Q3, Q4, Q5, R.
    change (if decide (inc < nm_inc m) then zip (nm_ports m Outgoing) (nm_ports m' Outgoing)
            else rev (zip (nm_ports m Outgoing) (nm_ports m' Outgoing))) with (inplace_pairs m m').
    rewrite Q2, bind_Ok, Q3, bind_Ok, Q4, bind_Ok, Q5, bind_Ok.
    rewrite b_vset by (rewrite Qn, (sb_nodes _ _ Hsb); done).
    rewrite b_usub by (cbn; rewrite Qp, (sb_pc _ _ Hsb); done).
    cbn [with_nodes pg_pcount]. rewrite Qp.
    split_and!; [done|done| |].
    + exists fnl, F. eapply resize_core_inv; eauto.
    + exists m'. change inc with (nm_inc m') at 1. change out with (nm_out m') at 1.
      eapply resize_post_intro; eauto. by apply inplace_move_pairs.
  - (* new slab *)
    assert (Hbr : nm_cap m <= inc + out \/ inc + out = 0) by lia.
    pose proof (next_pow2_ge (inc + out)) as Hp2.
    assert (Hr2 : inc + out + (next_pow2 (inc + out) - (inc + out)) = next_pow2 (inc + out)) by lia.
    (* the drop loop does not depend on the new slab *)
    set (mx := NM 0 inc out 0).
    assert (Hkx : forall m0, nm_inc m0 = inc -> nm_out m0 = out -> forall p, kept m mx p <-> kept m m0 p).
    { intros m0 X1 X2 p. unfold kept. cbn. by rewrite X1, X2. }
    destruct (drop_resize_spec g fnl F n m mx I Hm) as (g1 & rl & Hf1 & I1 & Hsb & Hpl & Hrl).
    change (nm_inc mx) with inc in Hf1, Hrl. change (nm_out mx) with out in Hf1, Hrl.
    rewrite Hf1, bind_Ok.
    assert (Hm1 : nmeta g1 n = Some m) by (by rewrite (sb_nmeta _ _ _ Hsb)).
    destruct (decide (32768 < N.of_nat (inc + out))%N) as [Hbig|Hsmall].
    { rewrite alloc_ports_big; [cbn; right; right; left|lia|lia|lia|].
      - exists m. split_and!; try done. lia.
      - rewrite Hr2. apply next_pow2_big. lia. }
    pose proof (next_pow2_le (inc + out) ltac:(lia)) as Hle2.
    pose proof (alloc_ports_spec g1 F n inc out (next_pow2 (inc + out) - (inc + out)) (i_len _ _ _ I1) (i_slabs _ _ _ I1)) as HA.
    specialize (HA ltac:(intros n1 m1 X; apply (inv_meta_ok _ _ _ I1) in X; unfold meta_ok in X; lia) (i_chains _ _ _ I1) Hinc ltac:(lia)).
    destruct (alloc_ports g1 n inc out _) as [[g2 m0]|].
    2:{ cbn. right. right. right. exists m. split_and!; [done|done|]. rewrite (sb_pmeta _ _ Hsb), Hr2 in HA. done. }
    destruct HA as [F2 A]. cbn [mbind]. rewrite bind_Ok.
    pose proof (ap_inc _ _ _ _ _ _ _ _ _ A) as Ai. pose proof (ap_out _ _ _ _ _ _ _ _ _ A) as Ao.
    assert (Hpl0 : forall x, is_Some (pmeta g x) -> plink g1 x = cut_kept m m0 (plink g) x).
    { intros x Hx. rewrite Hpl by done. unfold cut_kept.
      destruct (decide (kept m m0 x)) as [K|K].
      - rewrite decide_True by (by apply (Hkx m0)). destruct (plink g x) as [q|]; [|done].
        destruct (decide (kept m m0 q)) as [K'|K'].
        + by rewrite decide_True by (by apply (Hkx m0)).
        + rewrite decide_False; [done|]. intros X. apply K'. by apply (Hkx m0).
      - rewrite decide_False; [done|]. intros X. apply K. by apply (Hkx m0). }
    assert (Hdrop : forall p, is_Some (pmeta g1 p) -> ~ kept m m0 p -> plink g1 p = None).
    { intros p Hp Hk. rewrite (sb_pmeta' _ _ _ Hsb) in Hp. rewrite Hpl0 by done. unfold cut_kept. by rewrite decide_False. }
    destruct (realloc_spec g1 fnl F n m inc out _ m0 g2 F2 I1 Hm1 Hdrop A) as (g3 & g4 & F' & Q1 & Q2 & Q3 & Q4 & R).
    specialize (Q1 rl). unfold realloc_pairs in Q1 at 1. rewrite rfold_app in Q1.
    apply bind_inv in Q1 as ([ga la] & Q1a & Q1b). rewrite Q1a, bind_Ok, Q1b, bind_Ok.
    rewrite b_vset by (rewrite Q2, (sb_nodes _ _ Hsb); done).
    rewrite Q3, bind_Ok. rewrite b_usub by (rewrite Q4, (sb_pc _ _ Hsb); lia). rewrite Q4.
    split_and!; [done|done| |].
    + exists fnl, F'. eapply resize_core_inv; eauto.
    + exists m0. rewrite <- Ai at 1. rewrite <- Ao at 1.
      eapply resize_post_intro; eauto.
      * by rewrite Ai, Ao.
      * pose proof (ap_dl _ _ _ _ _ _ _ _ _ A _ _ Hm1). pose proof (ap_ok _ _ _ _ _ _ _ _ _ A).
        apply realloc_move_pairs.
        -- intros p. unfold in_slab, disj in *. lia.
        -- intros d p. by apply (in_range_slab _ _ _ _ Hmo).
        -- intros d p. by eapply in_range_slab.
Qed.
