(** [set_num_ports]: resizing inside the slab, and the whole function. *)
From Verif Require Export PGOps5.

Definition inplace_pairs (m m' : node_meta) : list (nat * nat) :=
  let pairs := zip (nm_ports m Outgoing) (nm_ports m' Outgoing) in
  if decide (nm_inc m' < nm_inc m) then pairs else rev pairs.

Lemma rev_reverse {A} (l : list A) : rev l = reverse l.
Proof. apply rev_alt. Qed.
Lemma rev_elem {A} (l : list A) x : x ∈ rev l <-> x ∈ l.
Proof. rewrite !elem_of_list_In. symmetry. apply in_rev. Qed.
Lemma rev_nodup {A} (l : list A) : NoDup l -> NoDup (rev l).
Proof. intros. rewrite <- (Permutation_rev l). done. Qed.
Lemma reverse_nodup {A} (l : list A) : NoDup l -> NoDup (reverse l).
Proof. rewrite <- rev_reverse. apply rev_nodup. Qed.

Lemma inplace_pairs_elem m m' o w : (o, w) ∈ inplace_pairs m m' <->
  exists i, i < nm_out m /\ i < nm_out m' /\ o = nm_start m Outgoing + i /\ w = nm_start m' Outgoing + i.
Proof. unfold inplace_pairs, nm_ports. case_decide; rewrite ?rev_elem; by rewrite zip_seq_elem. Qed.
Lemma inplace_pairs_fst m m' o : o ∈ (inplace_pairs m m').*1 <->
  in_range m Outgoing o /\ o - nm_start m Outgoing < nm_out m'.
Proof.
  split.
  - intros (w & (i & H1 & H2 & -> & ->)%inplace_pairs_elem)%fst_elem_of. unfold in_range. cbn. lia.
  - intros (Hr & Hlt). eapply (elem_of_fst _ _ (nm_start m' Outgoing + (o - nm_start m Outgoing))).
    apply inplace_pairs_elem. exists (o - nm_start m Outgoing). unfold in_range in *. cbn in *. lia.
Qed.
Lemma inplace_pairs_snd m m' w : w ∈ (inplace_pairs m m').*2 <->
  in_range m' Outgoing w /\ w - nm_start m' Outgoing < nm_out m.
Proof.
  split.
  - intros (o & (i & H1 & H2 & -> & ->)%inplace_pairs_elem)%snd_elem_of. unfold in_range. cbn. lia.
  - intros (Hr & Hlt). eapply (elem_of_snd _ (nm_start m Outgoing + (w - nm_start m' Outgoing))).
    apply inplace_pairs_elem. exists (w - nm_start m' Outgoing). unfold in_range in *. cbn in *. lia.
Qed.
Lemma inplace_pairs_nd1 m m' : NoDup (inplace_pairs m m').*1.
Proof.
  unfold inplace_pairs, nm_ports. case_decide.
  - rewrite zip_seq_fst. apply NoDup_seq.
  - rewrite rev_reverse, fmap_reverse, zip_seq_fst. apply reverse_nodup, NoDup_seq.
Qed.
Lemma inplace_pairs_nd2 m m' : NoDup (inplace_pairs m m').*2.
Proof.
  unfold inplace_pairs, nm_ports. case_decide.
  - rewrite zip_seq_snd. apply NoDup_seq.
  - rewrite rev_reverse, fmap_reverse, zip_seq_snd. apply reverse_nodup, NoDup_seq.
Qed.
Lemma inplace_pairs_order m m' i j o w o' w' : nm_first m' = nm_first m ->
  i < j -> inplace_pairs m m' !! i = Some (o, w) -> inplace_pairs m m' !! j = Some (o', w') -> w <> o'.
Proof.
  intros Hf Hij. unfold inplace_pairs, nm_ports. case_decide as Hc.
  - intros (H1 & H2 & -> & ->)%zip_seq_lookup (H3 & H4 & -> & ->)%zip_seq_lookup. cbn. lia.
  - rewrite rev_reverse. intros Hi Hj.
    pose proof (lookup_lt_Some _ _ _ Hi) as Li. pose proof (lookup_lt_Some _ _ _ Hj) as Lj.
    rewrite reverse_length in Li, Lj. rewrite reverse_lookup in Hi by done. rewrite reverse_lookup in Hj by done.
    apply zip_seq_lookup in Hi as (H1 & H2 & -> & ->), Hj as (H3 & H4 & -> & ->). cbn.
    set (len := length _) in *. clearbody len. lia.
Qed.
Lemma inplace_pairs_rn m m' p : nm_first m' = nm_first m -> kept m m' p -> rn (inplace_pairs m m') p = nm_ren m m' p.
Proof.
  intros Hf Hk. destruct (decide (in_range m Incoming p)) as [H1|H1]; [|destruct (decide (in_range m Outgoing p)) as [H2|H2]].
  - rewrite (nm_ren_in _ _ Incoming) by done. rewrite rn_out.
    + unfold in_range in H1. cbn in *. lia.
    + rewrite inplace_pairs_fst. intros [X _]. by pose proof (in_range_dir _ _ _ _ H1 X).
  - apply rn_in; [apply inplace_pairs_nd1|]. apply inplace_pairs_elem. exists (p - nm_start m Outgoing).
    rewrite (nm_ren_in _ _ Outgoing) by done. destruct Hk as [_ Hk]. specialize (Hk H2). unfold in_range in *. cbn in *. lia.
  - rewrite nm_ren_out by (by intros []). apply rn_out. rewrite inplace_pairs_fst. by intros (? & _).
Qed.

Lemma inplace_spec g1 fnl F n m inc out :
  InvG g1 fnl F -> nmeta g1 n = Some m ->
  inc + out < nm_cap m ->
  let m' := NM (nm_first m) inc out (nm_cap m) in
  (forall p, is_Some (pmeta g1 p) -> ~ kept m m' p -> plink g1 p = None) ->
  exists g2 g3 g4 g5,
    (forall log0, rfold move_step (inplace_pairs m m') (g1, log0) = Ok (g2, log0 ++ moved_log (inplace_pairs m m'))) /\
    rfold (init_step n Incoming) (drop (nm_inc m) (nm_ports m' Incoming)) g2 = Ok g3 /\
    rfold (init_step n Outgoing) (drop (nm_out m) (nm_ports m' Outgoing)) g3 = Ok g4 /\
    rfold empty_step (seq (nm_first m' + nm_total m') (nm_total m - nm_total m')) g4 = Ok g5 /\
    pg_nodes g5 = pg_nodes g1 /\ pg_pcount g5 = pg_pcount g1 /\
    resize_core g1 n m m' (with_pcount (with_nodes g5 (<[n:=NNode m']> (pg_nodes g5)))
         (pg_pcount g1 - (nm_inc m + nm_out m) + (inc + out))) F.
Proof.
  intros I Hm Hcap m' Hdrop.
  pose proof (inv_meta_ok _ _ _ I _ _ Hm) as Hmo.
  pose proof (nmeta_lt _ _ _ Hm) as Hnlt.
  pose proof (i_len _ _ _ I) as Hlen.
  assert (Hmo' : meta_ok (length (pg_pmeta g1)) m') by (unfold meta_ok, m' in *; cbn in *; lia).
  assert (Hcase : forall p x, pmeta g1 p = Some x -> (x.1 = n /\ in_range m x.2 p) \/ ~ in_slab m p).
  { intros p x Hp. destruct (decide (in_slab m p)) as [Hs|Hs]; [left|by right].
    by apply (inv_slab_owner _ _ _ I n m p x). }
  assert (Hpart : forall p q, is_Some (pmeta g1 p) -> plink g1 p = Some q -> kept m m' q /\ plink g1 q = Some p).
  { intros p q [[x d] Hp] Hl. destruct (inv_link _ _ _ I _ _ _ _ Hp Hl) as [Hq [n' Hpq]]. split; [|done].
    destruct (decide (kept m m' q)); [done|]. rewrite Hdrop in Hq; [done|by eauto|done]. }
  (* partners of outgoing ports *)
  assert (Hpart_out : forall o q, in_range m Outgoing o -> plink g1 o = Some q ->
      ~ in_range m Outgoing q /\ ~ in_range m' Outgoing q /\ nm_ren m m' q = q).
  { intros o q Hr Hl. pose proof (inv_pmeta_range _ _ _ I _ _ _ _ Hm Hr) as Hp.
    destruct (inv_link _ _ _ I _ _ _ _ Hp Hl) as [Hq [n' Hpq]]. cbn in Hpq.
    destruct (Hpart o q (ltac:(eauto)) Hl) as [Hk _].
    destruct (Hcase _ _ Hpq) as [[_ Hrq]|Hs].
    - cbn in Hrq. split_and!.
      + intros X. by pose proof (in_range_dir _ _ _ _ Hrq X).
      + destruct Hk as [Hk _]. specialize (Hk Hrq). unfold in_range in *. cbn in *. lia.
      + rewrite (nm_ren_in _ _ Incoming) by done. unfold in_range in *. cbn in *. lia.
    - split_and!.
      + intros X. apply Hs. by eapply in_range_slab.
      + intros X. apply Hs. pose proof (in_range_slab _ _ _ _ Hmo' X) as Y. done.
      + apply nm_ren_out. intros d X. apply Hs. by eapply in_range_slab. }
  (* moving *)
  assert (Hloop : forall log0, exists g' log, rfold move_step (inplace_pairs m m') (g1, log0) = Ok (g', log) /\
     move_post (inplace_pairs m m') g1 g' /\ log = log0 ++ moved_log (inplace_pairs m m')).
  { intros log0. apply move_loop.
    - done.
    - apply inplace_pairs_nd1.
    - apply inplace_pairs_nd2.
    - intros o w (i & H1 & H2 & -> & ->)%inplace_pairs_elem. rewrite Hlen. unfold meta_ok in *. cbn in *. lia.
    - intros i j o w o' w'. by apply inplace_pairs_order.
    - intros o q (Hr & Hlt)%inplace_pairs_fst Hl.
      destruct (Hpart_out _ _ Hr Hl) as (X1 & X2 & _). split_and!.
      + apply (Hpart o q); [|done]. eexists. by eapply inv_pmeta_range.
      + intros [? _]%inplace_pairs_fst. done.
      + intros [? _]%inplace_pairs_snd. done. }
  destruct (Hloop []) as (g2 & log2 & Hf2 & M & _).
  assert (Hloop' : forall log0, rfold move_step (inplace_pairs m m') (g1, log0) = Ok (g2, log0 ++ moved_log (inplace_pairs m m'))).
  { assert (Hlog : forall l g lg lg' r, rfold move_step l (g, lg) = Ok r ->
       exists lr, r.2 = lg ++ lr /\ rfold move_step l (g, lg') = Ok (r.1, lg' ++ lr)).
    { clear. induction l as [|[o w] l IH]; intros g lg lg' r; cbn [rfold].
      - intros [= <-]. exists []. cbn. by rewrite !app_nil_r.
      - intros ([g' lg1] & H1 & H2)%bind_inv. unfold move_step in *. cbn [fst snd] in *.
        apply bind_inv in H1 as (x1 & H1a & H1). rewrite H1a, bind_Ok.
        apply bind_inv in H1 as (x2 & H1b & H1). rewrite H1b, bind_Ok.
        apply bind_inv in H1 as (x3 & H1c & H1). rewrite H1c, bind_Ok.
        apply bind_inv in H1 as (x4 & H1d & H1). rewrite H1d, bind_Ok.
        apply bind_inv in H1 as (x5 & H1e & H1). rewrite H1e, bind_Ok.
        injection H1 as <- <-. rewrite bind_Ok.
        destruct (IH _ _ (lg' ++ [(o, Moved w)]) _ H2) as (lr & E1 & E2).
        exists ((o, Moved w) :: lr). rewrite E1, E2. by rewrite <- !app_assoc. }
    intros log0. destruct (Hloop log0) as (g2' & log2' & Hf2' & _ & ->).
    destruct (Hlog _ _ _ log0 _ Hf2) as (lr & _ & E2). rewrite E2 in Hf2'. injection Hf2' as <- E.
    rewrite E2. cbn. by rewrite E. }
  clear Hloop Hf2 log2.
  destruct M as [M1 M2 M3 M4 M5 M6 M7 M8 M9 M10 M11 M12].
  destruct (init_loop n Incoming g2 (drop (nm_inc m) (nm_ports m' Incoming))) as (g3 & Hf3 & [A1 A2 A3 A4 A5 A6 A7 A8 A9 A10]).
  { intros p. unfold nm_ports. rewrite drop_seq, elem_of_seq. rewrite M7, M8, Hlen. unfold meta_ok in *. cbn in *. lia. }
  destruct (init_loop n Outgoing g3 (drop (nm_out m) (nm_ports m' Outgoing))) as (g4 & Hf4 & [B1 B2 B3 B4 B5 B6 B7 B8 B9 B10]).
  { intros p. unfold nm_ports. rewrite drop_seq, elem_of_seq. rewrite A7, A8, M7, M8, Hlen. unfold meta_ok in *. cbn in *. lia. }
  destruct (empty_loop g4 (seq (nm_first m' + nm_total m') (nm_total m - nm_total m'))) as (g5 & Hf5 & [D1 D2 D3 D4 D5 D6 D7 D8 D9 D10]).
  { intros p. rewrite elem_of_seq. rewrite B7, B8, A7, A8, M7, M8, Hlen. unfold meta_ok, nm_total in *. cbn in *. lia. }
  set (inI := fun p => nm_first m + nm_inc m <= p < nm_first m + inc).
  set (inO := fun p => nm_first m + inc + nm_out m <= p < nm_first m + inc + out).
  set (inE := fun p => nm_first m + (inc + out) <= p < nm_first m + (nm_inc m + nm_out m)).
  assert (EI : forall p, p ∈ drop (nm_inc m) (nm_ports m' Incoming) <-> inI p).
  { intros p. unfold nm_ports, inI. rewrite drop_seq, elem_of_seq. cbn. lia. }
  assert (EO : forall p, p ∈ drop (nm_out m) (nm_ports m' Outgoing) <-> inO p).
  { intros p. unfold nm_ports, inO. rewrite drop_seq, elem_of_seq. cbn. lia. }
  assert (EE : forall p, p ∈ seq (nm_first m' + nm_total m') (nm_total m - nm_total m') <-> inE p).
  { intros p. unfold inE, nm_total. rewrite elem_of_seq. cbn. lia. }
  assert (Hno : forall p, ~ inI p -> ~ inO p -> ~ inE p -> pmeta g5 p = pmeta g2 p /\ plink g5 p = plink g2 p).
  { intros p H1 H2 H3. rewrite D9, D10. rewrite !decide_False by (by rewrite EE).
    rewrite B9, B10. rewrite !decide_False by (by rewrite EO).
    rewrite A9, A10. rewrite !decide_False by (by rewrite EI). done. }
  assert (HE : forall p, inE p -> pmeta g5 p = None /\ plink g5 p = None).
  { intros p H1. rewrite D9, D10. rewrite !decide_True by (by rewrite EE). done. }
  assert (HO : forall p, inO p -> ~ inE p -> pmeta g5 p = Some (n, Outgoing) /\ plink g5 p = None).
  { intros p H1 H2. rewrite D9, D10. rewrite !decide_False by (by rewrite EE).
    rewrite B9, B10. rewrite !decide_True by (by rewrite EO). done. }
  assert (HI : forall p, inI p -> ~ inO p -> ~ inE p -> pmeta g5 p = Some (n, Incoming) /\ plink g5 p = None).
  { intros p H1 H2 H3. rewrite D9, D10. rewrite !decide_False by (by rewrite EE).
    rewrite B9, B10. rewrite !decide_False by (by rewrite EO).
    rewrite A9, A10. rewrite !decide_True by (by rewrite EI). done. }
  assert (Hslab : forall p, ~ in_slab m p -> ~ inI p /\ ~ inO p /\ ~ inE p /\ p ∉ (inplace_pairs m m').*2).
  { intros p Hs. rewrite inplace_pairs_snd. unfold in_slab, inI, inO, inE, in_range, meta_ok in *. cbn in *. lia. }
  (* links of ports that stay in place *)
  assert (Hstay : forall p, is_Some (pmeta g1 p) -> p ∉ (inplace_pairs m m').*2 -> ~ in_range m Outgoing p ->
     plink g2 p = nm_ren m m' <$> plink g1 p).
  { intros p Hp Hni Hno'. rewrite M11 by done. destruct (plink g1 p) as [r|] eqn:E; [|done]. cbn.
    destruct (Hpart p r Hp E) as [Hk Hr].
    case_decide as X.
    - f_equal. by apply inplace_pairs_rn.
    - f_equal. symmetry. destruct (decide (in_range m Outgoing r)) as [Y|Y].
      + exfalso. apply X. split; [|done]. apply inplace_pairs_fst. split; [done|]. by apply Hk.
      + destruct (decide (in_range m Incoming r)) as [Z|Z].
        * rewrite (nm_ren_in _ _ Incoming) by done. unfold in_range in *. cbn in *. lia.
        * apply nm_ren_out. by intros []. }
  assert (Eq1 : pg_nodes g5 = pg_nodes g1) by congruence.
  assert (El : length (pg_pmeta g5) = length (pg_pmeta g1)) by congruence.
  exists g2, g3, g4, g5. split_and!; try done.
  { congruence. }
  set (gf := with_pcount _ _).
  assert (Epm : forall p, pmeta gf p = pmeta g5 p) by done.
  assert (Epl : forall p, plink gf p = plink g5 p) by done.
  assert (Hnm : forall x, nmeta gf x = if decide (x = n) then Some m' else nmeta g1 x).
  { intros x. rewrite !nmeta_eq. cbn. rewrite Eq1. rewrite lookup_insert_if by done. by case_decide. }
  split; try done.
  - cbn. by rewrite Eq1.
  - cbn. congruence.
  - cbn. congruence.
  - cbn. congruence.
  - cbn. rewrite El. done.
  - cbn. congruence.
  - cbn. rewrite El. apply I.
  - cbn [gf with_pcount with_nodes pg_pmeta]. by rewrite El.
  - cbn [gf with_pcount with_nodes pg_pmeta]. rewrite El. destruct (i_slabs _ _ _ I) as [S1 S2 S3 S4 S5]. split; try done.
    + intros n1 m1 n2 m2 Hne. rewrite !Hnm. destruct (decide (n1 = n)) as [->|], (decide (n2 = n)) as [->|].
      * done.
      * intros [= <-] H2. by apply (S1 n m n2 m2).
      * intros H1 [= <-]. by apply (S1 n1 m1 n m).
      * by apply S1.
    + intros n1 m1 k p. rewrite Hnm. destruct (decide (n1 = n)) as [->|]; [|by apply S2].
      intros [= <-]. by apply (S2 n m).
  - cbn [gf with_pcount with_nodes pg_pfree]. replace (pg_pfree g5) with (pg_pfree g1) by congruence.
    destruct (i_chains _ _ _ I) as [X1 X2]. split; [done|]. intros k i p Hp.
    assert (HpF : p ∈ F k) by (by eapply elem_of_list_lookup_2).
    assert (Hs : ~ in_slab m p) by (intros X; by eapply inv_slab_not_head).
    destruct (Hslab p Hs) as (Y1 & Y2 & Y3 & Y4). rewrite Epl. destruct (Hno p Y1 Y2 Y3) as [_ ->].
    rewrite M11 by done. rewrite <- (X2 _ _ _ Hp). destruct (plink g1 p) as [r|] eqn:E; [|done].
    rewrite decide_False; [done|]. intros [(Hr & _)%inplace_pairs_fst Hl].
    pose proof (inv_pmeta_range _ _ _ I _ _ _ _ Hm Hr) as Hpr.
    destruct (inv_link _ _ _ I _ _ _ _ Hpr Hl) as [_ [n' Hpp]].
    by eapply inv_port_not_head.
  - intros d p Hr. rewrite Epm. destruct d.
    + destruct (decide (inI p)) as [Hi|Hi].
      * apply HI; [done| |]; unfold inI, inO, inE, in_range in *; cbn in *; lia.
      * assert (Y : ~ inO p /\ ~ inE p /\ p ∉ (inplace_pairs m m').*2 /\ in_range m Incoming p).
        { rewrite inplace_pairs_snd. unfold inI, inO, inE, in_range in *; cbn in *; lia. }
        destruct Y as (Y1 & Y2 & Y3 & Y4). destruct (Hno p Hi Y1 Y2) as [-> _].
        rewrite M12 by done. by eapply inv_pmeta_range.
    + destruct (decide (inO p)) as [Hi|Hi].
      * apply HO; [done|]. unfold inI, inO, inE, in_range in *; cbn in *; lia.
      * assert (Y : ~ inI p /\ ~ inE p /\ p - nm_start m' Outgoing < nm_out m).
        { unfold inI, inO, inE, in_range in *; cbn in *; lia. }
        destruct Y as (Y1 & Y2 & Y3). destruct (Hno p Y1 Hi Y2) as [-> _].
        assert (Hpair : (nm_start m Outgoing + (p - nm_start m' Outgoing), p) ∈ inplace_pairs m m').
        { apply inplace_pairs_elem. exists (p - nm_start m' Outgoing). unfold in_range in *; cbn in *; lia. }
        rewrite (M10 _ _ Hpair). apply (inv_pmeta_range _ _ _ I n m); [done|]. unfold in_range in *; cbn in *; lia.
  - intros p Hs Hnr. rewrite Epm. destruct (decide (inE p)) as [He|He]; [by apply HE|].
    pose proof (Hnr Incoming) as N1. pose proof (Hnr Outgoing) as N2.
    assert (Y : ~ inI p /\ ~ inO p /\ p ∉ (inplace_pairs m m').*2 /\ nm_first m + nm_inc m + nm_out m <= p < nm_first m + nm_cap m).
    { rewrite inplace_pairs_snd. unfold inI, inO, inE, in_slab, in_range in *; cbn in *; lia. }
    destruct Y as (Y1 & Y2 & Y3 & Y4). destruct (Hno p Y1 Y2 He) as [-> _]. rewrite M12 by done.
    by eapply inv_unused.
  - intros p Hs _. rewrite Epm. destruct (Hslab p Hs) as (Y1 & Y2 & Y3 & Y4).
    destruct (Hno p Y1 Y2 Y3) as [-> _]. by apply M12.
  - intros p Hp Hk. rewrite Epl.
    destruct (decide (in_range m Outgoing p)) as [Hr|Hr].
    + destruct Hk as [_ Hk]. specialize (Hk Hr). rewrite (nm_ren_in _ _ Outgoing) by done.
      assert (Hpair : (p, nm_start m' Outgoing + (p - nm_start m Outgoing)) ∈ inplace_pairs m m').
      { apply inplace_pairs_elem. exists (p - nm_start m Outgoing). unfold in_range in *; cbn in *; lia. }
      edestruct (Hno (nm_start m' Outgoing + (p - nm_start m Outgoing))) as [_ E];
        [..|rewrite E, (M9 _ _ Hpair)].
      1,2,3: unfold inI, inO, inE, in_range in *; cbn in *; lia.
      destruct (plink g1 p) as [q|] eqn:El'; [|done]. cbn. f_equal. symmetry. by apply (Hpart_out p).
    + destruct Hp as [x Hp]. destruct (Hcase _ _ Hp) as [[_ Hri]|Hs].
      * assert (x.2 = Incoming) as Hx by (by destruct (x.2)). rewrite Hx in Hri.
        destruct Hk as [Hk _]. specialize (Hk Hri).
        assert (nm_ren m m' p = p) as ->.
        { rewrite (nm_ren_in _ _ Incoming) by done. unfold in_range in *; cbn in *; lia. }
        assert (Y : ~ inI p /\ ~ inO p /\ ~ inE p /\ p ∉ (inplace_pairs m m').*2).
        { rewrite inplace_pairs_snd. unfold inI, inO, inE, in_range in *; cbn in *; lia. }
        destruct Y as (Y1 & Y2 & Y3 & Y4). destruct (Hno p Y1 Y2 Y3) as [_ ->]. apply Hstay; eauto.
      * rewrite nm_ren_out.
        2:{ intros d X. apply Hs. by eapply in_range_slab. }
        destruct (Hslab p Hs) as (Y1 & Y2 & Y3 & Y4). destruct (Hno p Y1 Y2 Y3) as [_ ->]. apply Hstay; eauto.
  - intros d p Hr Hge. rewrite Epl. destruct d.
    + apply HI; unfold inI, inO, inE, in_range in *; cbn in *; lia.
    + apply HO; unfold inI, inO, inE, in_range in *; cbn in *; lia.
  - intros p Hp HF. rewrite Epm in Hp. rewrite Epl.
    destruct (decide (inE p)) as [He|He]; [by apply HE|].
    destruct (decide (inO p)) as [Ho|Ho]; [by apply HO|].
    destruct (decide (inI p)) as [Hi|Hi]; [by apply HI|].
    destruct (Hno p Hi Ho He) as [Ep2 ->]. rewrite Ep2 in Hp.
    destruct (decide (p ∈ (inplace_pairs m m').*2)) as [[o Hpair]%snd_elem_of|Hni].
    + exfalso. rewrite (M10 _ _ Hpair) in Hp. apply inplace_pairs_elem in Hpair as (i & H1 & H2 & -> & ->).
      rewrite (inv_pmeta_range _ _ _ I n m Outgoing) in Hp; [done|done|]. unfold in_range. cbn. lia.
    + rewrite M12 in Hp by done. rewrite M11 by done.
      destruct (plink g1 p) as [r|] eqn:E; [|done]. exfalso.
      destruct (i_links _ _ _ I) as [_ Hn]. rewrite Hn in E; [done|done|done].
Qed.
