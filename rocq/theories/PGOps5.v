(** [set_num_ports]: the two branches of the code. *)
From Verif Require Export PGOps4.

(** ** Zipped ranges *)
Lemma drop_seq k s n : drop k (seq s n) = seq (s + k) (n - k).
Proof.
  revert s n. induction k as [|k IH]; intros s n; [by rewrite Nat.add_0_r, Nat.sub_0_r|].
  destruct n as [|n]; [done|]. cbn. rewrite IH. f_equal. lia.
Qed.
Lemma zip_seq_fst s n s' n' : (zip (seq s n) (seq s' n')).*1 = seq s (n `min` n').
Proof.
  revert s n' s'. induction n as [|n IH]; intros s n' s'; [done|]. destruct n' as [|n']; [done|].
  cbn. f_equal. apply IH.
Qed.
Lemma zip_seq_snd s n s' n' : (zip (seq s n) (seq s' n')).*2 = seq s' (n `min` n').
Proof.
  revert s n' s'. induction n as [|n IH]; intros s n' s'; [done|]. destruct n' as [|n']; [done|].
  cbn. f_equal. apply IH.
Qed.
Lemma zip_seq_lookup s n s' n' i o w : zip (seq s n) (seq s' n') !! i = Some (o, w) <->
  i < n /\ i < n' /\ o = s + i /\ w = s' + i.
Proof.
  split.
  - intros (x & y & E & H1 & H2)%lookup_zip_with_Some. injection E as -> ->.
    apply lookup_seq in H1 as [-> ?]. apply lookup_seq in H2 as [-> ?]. done.
  - intros (H1 & H2 & -> & ->). apply lookup_zip_with_Some. eexists _, _. split; [done|].
    split; by apply lookup_seq.
Qed.
Lemma zip_seq_elem s n s' n' o w : (o, w) ∈ zip (seq s n) (seq s' n') <->
  exists i, i < n /\ i < n' /\ o = s + i /\ w = s' + i.
Proof.
  rewrite elem_of_list_lookup. split; intros [i Hi]; exists i; by apply zip_seq_lookup in Hi || apply zip_seq_lookup.
Qed.

(** ** The ports to drop *)
Lemma dropped_elem m inc out p : p ∈ dropped_ports m inc out <->
  (in_range m Incoming p /\ inc <= p - nm_start m Incoming) \/
  (in_range m Outgoing p /\ out <= p - nm_start m Outgoing).
Proof.
  unfold dropped_ports, nm_ports. rewrite elem_of_app, !drop_seq, !elem_of_seq.
  unfold in_range. lia.
Qed.
Lemma dropped_kept m m' p : p ∈ dropped_ports m (nm_inc m') (nm_out m') <-> ~ kept m m' p.
Proof.
  rewrite dropped_elem. split.
  - intros [[H1 H2]|[H1 H2]] [K1 K2]; [specialize (K1 H1)|specialize (K2 H1)]; cbn in *; lia.
  - intros Hk.
    destruct (decide (in_range m Incoming p /\ nm_inc m' <= p - nm_start m Incoming)) as [?|H1]; [by left|].
    destruct (decide (in_range m Outgoing p /\ nm_out m' <= p - nm_start m Outgoing)) as [?|H2]; [by right|].
    exfalso. apply Hk. split; intros Hr; cbn in *; apply not_le; intros Hx; tauto.
Qed.
Lemma dropped_nodup m inc out : NoDup (dropped_ports m inc out).
Proof.
  unfold dropped_ports, nm_ports. rewrite !drop_seq. apply NoDup_app. split_and!.
  - apply NoDup_seq.
  - intros x. rewrite !elem_of_seq. cbn. lia.
  - apply NoDup_seq.
Qed.

Definition cut_kept (m m' : node_meta) (pl : nat -> option nat) (p : nat) : option nat :=
  if decide (kept m m' p) then
    match pl p with Some q => if decide (kept m m' q) then Some q else None | None => None end
  else None.

(** The calls [Removed] made while dropping [l], given the links before. *)
Definition removed_log (l : list nat) (pl : nat -> option nat) (log : list (nat * port_op)) : Prop :=
  length log = length l /\
  forall i p, l !! i = Some p -> exists o, log !! i = Some (p, Removed o) /\
    o = match pl p with Some q => if decide (q ∈ take i l) then None else Some q | None => None end.

Lemma drop_resize_spec g fnl F n m m' :
  InvG g fnl F -> nmeta g n = Some m ->
  exists g1 log, rfold drop_step (dropped_ports m (nm_inc m') (nm_out m')) (g, []) = Ok (g1, log) /\
    InvG g1 fnl F /\ same_but_links g g1 /\
    (forall x, is_Some (pmeta g x) -> plink g1 x = cut_kept m m' (plink g) x) /\
    removed_log (dropped_ports m (nm_inc m') (nm_out m')) (plink g) log.
Proof.
  intros I Hm.
  destruct (drop_loop_spec g fnl F (dropped_ports m (nm_inc m') (nm_out m')) I) as (g1 & log & Hf & I1 & Hsb & Hpl & _ & Hl1 & Hl2).
  - intros p [[Hr _]|[Hr _]]%dropped_elem; eexists; by eapply inv_pmeta_range.
  - apply dropped_nodup.
  - exists g1, log. split_and!; try done.
    intros x Hx. rewrite Hpl by done. unfold cut_in, cut_kept.
    destruct (decide (kept m m' x)) as [Hk|Hk].
    + rewrite decide_False by (rewrite dropped_kept; tauto).
      destruct (plink g x) as [q|]; [|done].
      destruct (decide (kept m m' q)) as [Hkq|Hkq].
      * by rewrite decide_False by (rewrite dropped_kept; tauto).
      * by rewrite decide_True by (by rewrite dropped_kept).
    + by rewrite decide_True by (by rewrite dropped_kept).
Qed.

(** ** Moving to a new slab *)
Definition realloc_pairs (m m' : node_meta) : list (nat * nat) :=
  zip (nm_ports m Incoming) (nm_ports m' Incoming) ++ zip (nm_ports m Outgoing) (nm_ports m' Outgoing).

Lemma realloc_pairs_elem m m' o w : (o, w) ∈ realloc_pairs m m' <->
  exists d i, i < nm_num m d /\ i < nm_num m' d /\ o = nm_start m d + i /\ w = nm_start m' d + i.
Proof.
  unfold realloc_pairs, nm_ports. rewrite elem_of_app, !zip_seq_elem. split.
  - intros [(i & Hi)|(i & Hi)]; eauto.
  - intros ([] & i & Hi); eauto.
Qed.
Lemma realloc_pairs_fst m m' o : o ∈ (realloc_pairs m m').*1 <->
  exists d, in_range m d o /\ o - nm_start m d < nm_num m' d.
Proof.
  split.
  - intros (w & (d & i & H1 & H2 & -> & ->)%realloc_pairs_elem)%fst_elem_of. exists d. unfold in_range. lia.
  - intros (d & Hr & Hlt). eapply (elem_of_fst _ _ (nm_start m' d + (o - nm_start m d))).
    apply realloc_pairs_elem. exists d, (o - nm_start m d). unfold in_range in *. lia.
Qed.
Lemma realloc_pairs_snd m m' w : w ∈ (realloc_pairs m m').*2 <->
  exists d, in_range m' d w /\ w - nm_start m' d < nm_num m d.
Proof.
  split.
  - intros (o & (d & i & H1 & H2 & -> & ->)%realloc_pairs_elem)%snd_elem_of. exists d. unfold in_range. lia.
  - intros (d & Hr & Hlt). eapply (elem_of_snd _ (nm_start m d + (w - nm_start m' d))).
    apply realloc_pairs_elem. exists d, (w - nm_start m' d). unfold in_range in *. lia.
Qed.
Lemma realloc_pairs_nd1 m m' : NoDup (realloc_pairs m m').*1.
Proof.
  unfold realloc_pairs, nm_ports. rewrite fst_app, !zip_seq_fst. apply NoDup_app. split_and!.
  - apply NoDup_seq.
  - intros x. rewrite !elem_of_seq. cbn. lia.
  - apply NoDup_seq.
Qed.
Lemma realloc_pairs_nd2 m m' : NoDup (realloc_pairs m m').*2.
Proof.
  unfold realloc_pairs, nm_ports. rewrite snd_app, !zip_seq_snd. apply NoDup_app. split_and!.
  - apply NoDup_seq.
  - intros x. rewrite !elem_of_seq. cbn. lia.
  - apply NoDup_seq.
Qed.
Lemma realloc_pairs_rn m m' p : kept m m' p -> rn (realloc_pairs m m') p = nm_ren m m' p.
Proof.
  intros Hk. destruct (decide (in_range m Incoming p)) as [H1|H1]; [|destruct (decide (in_range m Outgoing p)) as [H2|H2]].
  - apply rn_in; [apply realloc_pairs_nd1|]. apply realloc_pairs_elem. exists Incoming, (p - nm_start m Incoming).
    rewrite (nm_ren_in _ _ Incoming) by done. destruct Hk as [Hk _]. specialize (Hk H1). unfold in_range in *. lia.
  - apply rn_in; [apply realloc_pairs_nd1|]. apply realloc_pairs_elem. exists Outgoing, (p - nm_start m Outgoing).
    rewrite (nm_ren_in _ _ Outgoing) by done. destruct Hk as [_ Hk]. specialize (Hk H2). unfold in_range in *. lia.
  - rewrite nm_ren_out by (by intros []). apply rn_out. rewrite realloc_pairs_fst. by intros ([] & ? & _).
Qed.

Lemma realloc_spec g1 fnl F n m inc out extra m0 g2 F2 :
  InvG g1 fnl F -> nmeta g1 n = Some m ->
  (forall p, is_Some (pmeta g1 p) -> ~ kept m m0 p -> plink g1 p = None) ->
  alloc_post g1 F n inc out (inc + out + extra) g2 m0 F2 ->
  exists g3 g4 F', 
    (forall log0, rfold realloc_step (realloc_pairs m m0) (g2, log0) = Ok (g3, log0 ++ moved_log (realloc_pairs m m0))) /\
    length (pg_nodes g3) = length (pg_nodes g1) /\
    free_ports (with_nodes g3 (<[n:=NNode m0]> (pg_nodes g3))) (nm_first m) (nm_cap m) = Ok g4 /\
    pg_pcount g4 = pg_pcount g1 /\
    resize_core g1 n m m0 (with_pcount g4 (pg_pcount g1 - (nm_inc m + nm_out m) + (inc + out))) F'.
Proof.
  intros I Hm Hdrop A.
  pose proof (inv_meta_ok _ _ _ I _ _ Hm) as Hmo.
  pose proof (nmeta_lt _ _ _ Hm) as Hnlt.
  pose proof (ap_ok _ _ _ _ _ _ _ _ _ A) as Hmo'.
  pose proof (ap_dl _ _ _ _ _ _ _ _ _ A _ _ Hm) as Hdm.
  pose proof (ap_len _ _ _ _ _ _ _ _ _ A) as Hlen2.
  pose proof (ap_le _ _ _ _ _ _ _ _ _ A) as Hle2.
  assert (Hsl : forall p, in_slab m p -> ~ in_slab m0 p) by (unfold in_slab, disj in *; lia).
  (* live ports of g1 are not in the new slab *)
  assert (Hlive : forall p x, pmeta g1 p = Some x -> ~ in_slab m0 p).
  { intros p [n2 d] (m2 & Hm2 & Hr)%(inv_pmeta _ _ _ I) Hs.
    pose proof (in_range_slab _ _ _ _ (inv_meta_ok _ _ _ I _ _ Hm2) Hr) as Hs2.
    pose proof (ap_dl _ _ _ _ _ _ _ _ _ A _ _ Hm2). unfold disj, in_slab in *. lia. }
  assert (Hpl2 : forall p x, pmeta g1 p = Some x -> plink g2 p = plink g1 p).
  { intros p x Hp. rewrite (ap_plink _ _ _ _ _ _ _ _ _ A). rewrite decide_False; [done|by eapply Hlive]. }
  assert (Hpm2 : forall p, ~ in_slab m0 p -> pmeta g2 p = pmeta g1 p).
  { intros p Hp. rewrite (ap_pmeta _ _ _ _ _ _ _ _ _ A).
    rewrite !decide_False; [done|done|..]; intros Hr; apply Hp; by eapply in_range_slab. }
  assert (Hold : forall p, p ∈ (realloc_pairs m m0).*1 -> exists d, in_range m d p /\ in_slab m p /\ pmeta g1 p = Some (n, d)).
  { intros p (d & Hr & _)%realloc_pairs_fst. exists d. split; [done|]. split; [by eapply in_range_slab|].
    by eapply inv_pmeta_range. }
  assert (Hnew : forall p, p ∈ (realloc_pairs m m0).*2 -> in_slab m0 p).
  { intros p (d & Hr & _)%realloc_pairs_snd. by eapply in_range_slab. }
  (* the loop *)
  assert (Hloop : forall log0, exists g' log, rfold realloc_step (realloc_pairs m m0) (g2, log0) = Ok (g', log) /\
    links_only g2 g' /\ realloc_pl (realloc_pairs m m0) (plink g2) (plink g') /\ log = log0 ++ moved_log (realloc_pairs m m0)).
  { intros log0. apply realloc_loop.
    - apply realloc_pairs_nd1.
    - apply realloc_pairs_nd2.
    - intros o w Hin. pose proof (elem_of_fst _ _ _ Hin) as (d & _ & Hs & _)%Hold.
      pose proof (elem_of_snd _ _ _ Hin) as Hw%Hnew. rewrite Hlen2. unfold meta_ok, in_slab in *. lia.
    - intros o w Hin. exists (match pg_pmeta g2 !! o with Some e => e | None => PFree end).
      pose proof Hin as (d & i & H1 & H2 & Ho & Hw)%realloc_pairs_elem.
      assert (Hro : in_range m d o) by (unfold in_range; lia).
      assert (Hrw : in_range m0 d w) by (unfold in_range; lia).
      assert (Hpo : pmeta g2 o = Some (n, d)).
      { rewrite Hpm2; [by eapply inv_pmeta_range|]. apply Hsl. by eapply in_range_slab. }
      assert (Hpw : pmeta g2 w = Some (n, d)).
      { rewrite (ap_pmeta _ _ _ _ _ _ _ _ _ A). destruct d.
        - by rewrite decide_True.
        - rewrite decide_False; [by rewrite decide_True|]. intros X. by pose proof (in_range_dir _ _ _ _ Hrw X). }
      apply pmeta_Some in Hpo, Hpw. rewrite Hpo. done.
    - intros p Hp Hp'. apply Hold in Hp as (d & _ & Hs & _). by eapply Hsl, Hnew.
    - intros o q (d & Hr & Hs & Hp)%Hold Hl. rewrite (Hpl2 _ _ Hp) in Hl.
      destruct (inv_link _ _ _ I _ _ _ _ Hp Hl) as [Hq [n' Hpq]].
      split_and!.
      + by rewrite (Hpl2 _ _ Hpq).
      + apply not_eq_sym. eapply inv_link_ne; eauto.
      + intros X. by eapply Hlive, Hnew. }
  destruct (Hloop []) as (g3 & log3 & Hf3 & [L1 L2 L3 L4 L5 L6 L7 L8] & (R1 & R2 & R3) & _).
  assert (Hloop' : forall log0, rfold realloc_step (realloc_pairs m m0) (g2, log0) = Ok (g3, log0 ++ moved_log (realloc_pairs m m0))).
  { intros log0. destruct (Hloop log0) as (g3' & log3' & Hf3' & [M1 M2 M3 M4 M5 M6 M7 M8] & (S1 & S2 & S3) & ->).
    rewrite Hf3'. f_equal. f_equal.
    destruct g3, g3'; cbn in *. f_equal; try congruence. 
    apply list_eq. intros i.
    destruct (decide (i < length pg_link)) as [Hi|Hi].
    2:{ rewrite !lookup_ge_None_2; [done|lia|lia]. }
    pose proof (plink_lookup (PG pg_nodes pg_link pg_pmeta pg_nfree pg_pfree pg_ncount pg_pcount pg_lcount) i Hi) as E1.
    pose proof (plink_lookup (PG pg_nodes0 pg_link0 pg_pmeta0 pg_nfree0 pg_pfree0 pg_ncount0 pg_pcount0 pg_lcount0) i ltac:(cbn; lia)) as E2.
    cbn in E1, E2. rewrite E1, E2. f_equal.
    destruct (decide (i ∈ (realloc_pairs m m0).*1)) as [X|X]; [by rewrite R1, S1|].
    destruct (decide (i ∈ (realloc_pairs m m0).*2)) as [[o Y]%snd_elem_of|Y].
    - by rewrite (R2 _ _ Y), (S2 _ _ Y).
    - by rewrite R3, S3. }
  clear Hloop Hf3 log3.
  assert (Hpm3 : forall p, pmeta g3 p = pmeta g2 p) by (intros; unfold pmeta; by rewrite L2).
  (* links of g3 *)
  assert (Hg3_slab : forall p, in_slab m p -> plink g3 p = None).
  { intros p Hs. destruct (decide (p ∈ (realloc_pairs m m0).*1)) as [X|X]; [by apply R1|].
    rewrite R3; [|done|intros Y; by eapply Hsl, Hnew].
    enough (plink g2 p = None) as -> by done.
    rewrite (ap_plink _ _ _ _ _ _ _ _ _ A). rewrite decide_False by (by apply Hsl).
    destruct (pmeta g1 p) as [x|] eqn:Ep.
    - apply Hdrop; [by eauto|]. destruct (inv_slab_owner _ _ _ I _ _ _ _ Hm Hs Ep) as [_ Hr].
      intros Hk. apply X. apply realloc_pairs_fst. exists (x.2). split; [done|].
      destruct Hk as [K1 K2]. destruct (x.2); auto.
    - destruct (i_links _ _ _ I) as [_ Hn]. apply Hn; [done|]. intros k. by eapply inv_slab_not_head. }
  assert (Hg3_out : forall p, ~ in_slab m p -> ~ in_slab m0 p ->
     plink g3 p = match plink g1 p with
       | Some r => if decide (r ∈ (realloc_pairs m m0).*1 /\ plink g1 r = Some p) then Some (rn (realloc_pairs m m0) r) else Some r
       | None => None end).
  { intros p H1 H2. rewrite R3.
    2:{ intros (d & _ & ? & _)%Hold. done. }
    2:{ intros X. by apply H2, Hnew. }
    rewrite (ap_plink _ _ _ _ _ _ _ _ _ A p), decide_False by done.
    destruct (plink g1 p) as [r|]; [|done].
    destruct (decide (r ∈ (realloc_pairs m m0).*1)) as [X|X].
    - destruct (Hold _ X) as (d & _ & _ & Hp). by rewrite (Hpl2 _ _ Hp).
    - rewrite !decide_False by tauto. done. }
  assert (Hkeep : forall p, is_Some (pmeta g1 p) -> kept m m0 p -> plink g3 (nm_ren m m0 p) = nm_ren m m0 <$> plink g1 p).
  { intros p [[n2 d] Hp] Hk.
    assert (Hpart : forall q, plink g1 p = Some q -> kept m m0 q /\ plink g1 q = Some p).
    { intros q Hl. destruct (inv_link _ _ _ I _ _ _ _ Hp Hl) as [Hq [n' Hpq]]. split; [|done].
      destruct (decide (kept m m0 q)); [done|]. rewrite Hdrop in Hq; [done|by eauto|done]. }
    destruct (decide (in_slab m p)) as [Hs|Hs].
    - destruct (inv_slab_owner _ _ _ I _ _ _ _ Hm Hs Hp) as [Hn Hr]. cbn in Hn, Hr. subst n2.
      rewrite (R2 p).
      + rewrite (Hpl2 _ _ Hp). destruct (plink g1 p) as [q|] eqn:E; [|done]. cbn. f_equal.
        apply realloc_pairs_rn. by apply Hpart.
      + apply realloc_pairs_elem. exists d, (p - nm_start m d). rewrite (nm_ren_in _ _ d) by done.
        destruct Hk as [K1 K2]. unfold in_range in *. destruct d; cbn in *; lia.
    - rewrite nm_ren_out.
      2:{ intros d' X. apply Hs. by eapply in_range_slab. }
      rewrite Hg3_out; [|done|by eapply Hlive].
      destruct (plink g1 p) as [q|] eqn:E; [|done]. cbn. f_equal.
      destruct (Hpart q eq_refl) as [Hkq Hq].
      case_decide as X.
      + f_equal. by apply realloc_pairs_rn.
      + f_equal. symmetry. apply nm_ren_out. intros d' Hr. apply X. split; [|done].
        apply realloc_pairs_fst. exists d'. split; [done|]. destruct Hkq. destruct d'; auto. }
  assert (Hg3_new : forall d p, in_range m0 d p -> nm_num m d <= p - nm_start m0 d -> plink g3 p = None).
  { intros d p Hr Hge. pose proof (in_range_slab _ _ _ _ Hmo' Hr) as Hs.
    rewrite R3.
    - by rewrite (ap_plink _ _ _ _ _ _ _ _ _ A), decide_True.
    - intros (d' & _ & X & _)%Hold. by eapply Hsl.
    - intros (d' & Hr' & Hlt)%realloc_pairs_snd. pose proof (in_range_dir _ _ _ _ Hr Hr') as ->. lia. }
  assert (Hg3_unused : forall p, in_slab m0 p -> (forall d, ~ in_range m0 d p) -> plink g3 p = None).
  { intros p Hs Hnr. rewrite R3.
    - by rewrite (ap_plink _ _ _ _ _ _ _ _ _ A), decide_True.
    - intros (d' & _ & X & _)%Hold. by eapply Hsl.
    - intros (d' & Hr' & Hlt)%realloc_pairs_snd. by eapply Hnr. }
  assert (Hg3_free : forall k p, p ∈ F2 k -> plink g3 p = plink g2 p).
  { intros k p Hp.
    assert (H0 : ~ in_slab m0 p).
    { pose proof (ap_df _ _ _ _ _ _ _ _ _ A _ _ Hp). unfold disj, in_slab in *. lia. }
    assert (H1 : ~ in_slab m p).
    { pose proof (sl_mixed _ _ _ (ap_slabs _ _ _ _ _ _ _ _ _ A) _ _ _ _ Hm Hp). unfold disj, in_slab in *. lia. }
    rewrite Hg3_out by done. rewrite (ap_plink _ _ _ _ _ _ _ _ _ A), decide_False by done.
    destruct (plink g1 p) as [r|] eqn:E; [|done]. rewrite decide_False; [done|]. intros [(d & _ & _ & Hr)%Hold Hl].
    destruct (inv_link _ _ _ I _ _ _ _ Hr Hl) as [_ [n' Hpp]].
    eapply (inv_port_not_head _ _ _ I p); [done|]. by eapply ap_sub. }
  destruct (resize_links g1 fnl F n m m0 (length (pg_pmeta g3)) (pmeta g3) (plink g3)) as (Hsym & Hcard & Hcase); try done.
  { by rewrite L2. }
  { intros n2 m2 _ Hm2. pose proof (ap_dl _ _ _ _ _ _ _ _ _ A _ _ Hm2) as X. unfold disj in *. lia. }
  { intros d p Hr. rewrite Hpm3, (ap_pmeta _ _ _ _ _ _ _ _ _ A). destruct d; [by rewrite decide_True|].
    rewrite decide_False; [by rewrite decide_True|]. intros X. by pose proof (in_range_dir _ _ _ _ Hr X). }
  { intros p Hs Hnr. rewrite Hpm3, (ap_pmeta _ _ _ _ _ _ _ _ _ A).
    rewrite !(decide_False (P := in_range _ _ _)) by apply Hnr. by rewrite decide_True. }
  { intros p Hs _. right. by apply Hg3_slab. }
  { intros p H1 H2. by rewrite Hpm3, Hpm2. }
  set (g3' := with_nodes g3 (<[n:=NNode m0]> (pg_nodes g3))).
  assert (Epl : forall p, plink g3' p = plink g3 p) by done.
  assert (Epm : forall p, pmeta g3' p = pmeta g3 p) by done.
  destruct (free_ports_spec g3' F2 (fun p => exists x, pmeta g3 p = Some (x, Outgoing)) (nm_first m) (nm_cap m)) as (g4 & F' & Hf4 & FP).
  { cbn. rewrite L8, L2. done. }
  { cbn. rewrite L2. unfold meta_ok in *. lia. }
  { cbn. rewrite L4. destruct (ap_chains _ _ _ _ _ _ _ _ _ A) as [X1 X2]. split; [done|].
    intros k i p Hp. rewrite Epl, (Hg3_free k); [by apply X2|]. by eapply elem_of_list_lookup_2. }
  { intros k p Hp. by apply (sl_mixed _ _ _ (ap_slabs _ _ _ _ _ _ _ _ _ A) n). }
  { intros i q Hi. rewrite Epl, Hg3_slab by done. done. }
  { cbn. rewrite L7, (ap_lc _ _ _ _ _ _ _ _ _ A). exact Hcard. }
  assert (Hcut : forall p, cutr (nm_first m) (nm_first m + nm_cap m) (plink g3') p = plink g3 p).
  { intros p. unfold cutr. rewrite Epl. destruct (plink g3 p) as [q|] eqn:E; [|done].
    rewrite decide_False; [done|]. intros [X|[X Y]].
    - rewrite Hg3_slab in E by done. done.
    - rewrite Epl, Hg3_slab in Y by done. done. }
  destruct FP as [P1 P2 P3 P4 P5 P6 P7 P8 P9 P10 P11 P12 P13].
  cbn [g3' with_nodes pg_nodes pg_nfree pg_ncount pg_pcount pg_link pg_pmeta] in *.
  assert (Hpm4 : forall p, pmeta g4 p = if decide (in_slab m p) then None else pmeta g2 p).
  { intros p. rewrite P7, Epm, Hpm3. unfold in_slab. repeat case_decide; done || lia. }
  assert (Hpl4 : forall p, ~ in_slab m p -> plink g4 p = plink g3 p).
  { intros p Hp. rewrite P9 by done. apply Hcut. }
  assert (Hlc : pg_lcount g4 = pg_lcount g1).
  { eapply card_unique; [exact P10|]. eapply card_ext; [|exact Hcard]. intros p. cbn. by rewrite Hcut. }
  assert (Hnm4 : forall x, nmeta g4 x = if decide (x = n) then Some m0 else nmeta g1 x).
  { intros x. rewrite !nmeta_eq, P1, L1, (ap_nodes _ _ _ _ _ _ _ _ _ A).
    rewrite lookup_insert_if by done. by case_decide. }
  assert (Hren_slab : forall p, is_Some (pmeta g1 p) -> kept m m0 p -> ~ in_slab m (nm_ren m m0 p)).
  { intros p [x Hp] Hk Hs. destruct (Hcase _ _ Hp) as [[_ Hr]|(H1 & H2 & H3)].
    - eapply Hsl; [done|]. eapply in_range_slab; [done|]. by apply kept_in.
    - rewrite nm_ren_out in Hs by done. done. }
  exists g3, g4, F'. split_and!; try done.
  { by rewrite L1, (ap_nodes _ _ _ _ _ _ _ _ _ A). }
  { by rewrite P4, L6, (ap_pc _ _ _ _ _ _ _ _ _ A). }
  assert (Elen : length (pg_pmeta g4) = length (pg_pmeta g2)) by (by rewrite P6, L2).
  split; cbn; try done.
  - by rewrite P1, L1, (ap_nodes _ _ _ _ _ _ _ _ _ A).
  - by rewrite P2, L3, (ap_nfree _ _ _ _ _ _ _ _ _ A).
  - by rewrite P3, L5, (ap_nc _ _ _ _ _ _ _ _ _ A).
  - by rewrite (ap_inc _ _ _ _ _ _ _ _ _ A), (ap_out _ _ _ _ _ _ _ _ _ A).
  - lia.
  - lia.
  - rewrite Elen. apply (ap_sz _ _ _ _ _ _ _ _ _ A), I.
  - by rewrite Elen.
  - rewrite Elen. rewrite L2 in P13. apply P13.
    + destruct (ap_slabs _ _ _ _ _ _ _ _ _ A) as [S1 S2 S3 S4 S5]. split; try done.
      * intros n1 m1 n2 m2 Hne H1 H2. change (nmeta g4 n1 = Some m1) in H1. change (nmeta g4 n2 = Some m2) in H2.
        rewrite Hnm4 in H1, H2. destruct (decide (n1 = n)) as [E1|E1], (decide (n2 = n)) as [E2|E2].
        -- congruence.
        -- injection H1 as <-. by apply (ap_dl _ _ _ _ _ _ _ _ _ A n2).
        -- injection H2 as <-. pose proof (ap_dl _ _ _ _ _ _ _ _ _ A _ _ H1). unfold disj in *. lia.
        -- by apply (S1 n1 m1 n2 m2).
      * intros n1 m1 k p H1 Hp. change (nmeta g4 n1 = Some m1) in H1. rewrite Hnm4 in H1.
        case_decide; simplify_eq; [by apply (ap_df _ _ _ _ _ _ _ _ _ A)|by apply (S2 n1)].
    + intros n1 m1 H1. change (nmeta g4 n1 = Some m1) in H1. rewrite Hnm4 in H1.
      case_decide; simplify_eq.
      * unfold disj in *. lia.
      * by apply (sl_live _ _ _ (i_slabs _ _ _ I) n m n1 m1).
  - intros d p Hr. change (pmeta g4 p = Some (n, d)). rewrite Hpm4, decide_False.
    2:{ intros X. eapply Hsl; [done|]. by eapply in_range_slab. }
    rewrite (ap_pmeta _ _ _ _ _ _ _ _ _ A). destruct d; [by rewrite decide_True|].
    rewrite decide_False; [by rewrite decide_True|]. intros X. by pose proof (in_range_dir _ _ _ _ Hr X).
  - intros p Hs Hnr. change (pmeta g4 p = None). rewrite Hpm4. case_decide; [done|].
    rewrite (ap_pmeta _ _ _ _ _ _ _ _ _ A).
    rewrite !(decide_False (P := in_range _ _ _)) by apply Hnr. by rewrite decide_True.
  - intros p Hs _. change (pmeta g4 p = None). rewrite Hpm4. by rewrite decide_True.
  - intros p H1 H2. change (pmeta g4 p = pmeta g1 p). rewrite Hpm4. rewrite decide_False by done. by apply Hpm2.
  - intros p Hp Hk. change (plink g4 (nm_ren m m0 p) = nm_ren m m0 <$> plink g1 p).
    rewrite Hpl4 by (by apply Hren_slab). by apply Hkeep.
  - intros d p Hr Hge. change (plink g4 p = None). rewrite Hpl4; [by eapply Hg3_new|].
    intros X. eapply Hsl; [done|]. by eapply in_range_slab.
  - intros p Hp HF. change (pmeta g4 p = None) in Hp. change (plink g4 p = None).
    destruct (decide (in_slab m p)) as [Hs|Hs].
    + apply P8. unfold in_slab in Hs. destruct (decide (p = nm_first m)) as [->|]; [|lia]. exfalso.
      apply (HF (nm_cap m - 1)). apply P12. right. split; [lia|done].
    + rewrite Hpl4 by done. rewrite Hpm4, decide_False in Hp by done.
      destruct (decide (in_slab m0 p)) as [Hs0|Hs0].
      * apply Hg3_unused; [done|]. intros d Hr. rewrite (ap_pmeta _ _ _ _ _ _ _ _ _ A) in Hp.
        destruct d; [by rewrite decide_True in Hp|]. rewrite decide_False in Hp; [by rewrite decide_True in Hp|].
        intros X. by pose proof (in_range_dir _ _ _ _ Hr X).
      * rewrite Hpm2 in Hp by done. rewrite Hg3_out by done.
        enough (plink g1 p = None) as -> by done.
        destruct (i_links _ _ _ I) as [_ Hn]. apply Hn; [done|]. intros k Hk.
        destruct (ap_pop _ _ _ _ _ _ _ _ _ A _ _ Hk) as [Hk'|]; [|done].
        apply (HF k). apply P12. by left.
Qed.
