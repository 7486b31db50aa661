(** [add_node] and [remove_node]: effect and preservation of the invariant. *)
From Verif Require Export PGFree.

Lemma nmeta_set g n e x : n < length (pg_nodes g) ->
  nmeta (with_nodes g (<[n:=e]> (pg_nodes g))) x = if decide (x = n) then ne_meta (Some e) else nmeta g x.
Proof. intros. rewrite !nmeta_eq. cbn. rewrite lookup_insert_if by done. by case_decide. Qed.
Lemma nfree_set g n e x : n < length (pg_nodes g) ->
  nfree (with_nodes g (<[n:=e]> (pg_nodes g))) x = if decide (x = n) then ne_free (Some e) else nfree g x.
Proof. intros. rewrite !nfree_eq. cbn. rewrite lookup_insert_if by done. by case_decide. Qed.

Lemma nfree_ok_ext h nf nf' l : (forall x, nf x = nf' x) -> nfree_ok h nf l -> nfree_ok h nf' l.
Proof.
  intros E [H1 H2 H3 H4]. split; [done|done| |]; intros; rewrite <- E; eauto.
Qed.
Lemma slabs_ok_ext nm nm' F L : (forall x, nm x = nm' x) -> slabs_ok nm F L -> slabs_ok nm' F L.
Proof.
  intros E [H1 H2 H3 H4 H5]. split; try done.
  - intros ? ? ? ? ?. rewrite <- !E. eauto.
  - intros ? ? ? ?. rewrite <- !E. eauto.
Qed.

Record add_post (g : pg) (inc out : nat) (g' : pg) (n : nat) (m' : node_meta) : Prop := {
  ad_fresh : nmeta g n = None;
  ad_node : nmeta g' n = Some m';
  ad_inc : nm_inc m' = inc;
  ad_out : nm_out m' = out;
  ad_frame_n : forall x, x <> n -> nmeta g' x = nmeta g x;
  ad_slab_fresh : forall p, in_slab m' p -> pmeta g p = None;
  ad_pmeta : forall p, ~ in_slab m' p -> pmeta g' p = pmeta g p;
  ad_plink_new : forall p, in_slab m' p -> plink g' p = None;
  ad_plink : forall p, ~ in_slab m' p -> plink g' p = plink g p;
  ad_nc : pg_ncount g' = pg_ncount g + 1;
  ad_pc : pg_pcount g' = pg_pcount g + (inc + out);
  ad_lc : pg_lcount g' = pg_lcount g;
}.

Lemma add_node_spec po g fnl F inc out :
  InvG g fnl F ->
  (N.of_nat inc <= 65534)%N -> (N.of_nat (inc + out) <= 65535)%N ->
  match add_node po g inc out with
  | Panic => (po < N.of_nat inc)%N \/ (po < N.of_nat out)%N \/
             (fnl = [] /\ N.of_nat (length (pg_nodes g)) = (max_index + 1)%N) \/
             (max_index + 1 < N.of_nat (length (pg_pmeta g) + (inc + out)))%N
  | Ok (g', n) => Inv g' /\ exists m', add_post g inc out g' n m'
  end.
Proof.
  intros I Hinc Hio. unfold add_node.
  destruct (N.of_nat inc <=? po)%N eqn:E1; cbn; [|left; lia].
  destruct (N.of_nat out <=? po)%N eqn:E2; cbn; [|right; left; lia].
  pose proof (alloc_node_spec g fnl (i_nfree _ _ _ I) (i_nsize _ _ _ I)) as Han.
  destruct (alloc_node g) as [[g1 n]|]; cbn; [|tauto].
  destruct Han as (Hn & Hnm & Hlt & Hsz & Hle & El & Ep & Epf & Enc & Epc & Elc & _ & _ & Hnf).
  assert (Hpm1 : forall p, pmeta g1 p = pmeta g p) by (intros; unfold pmeta; by rewrite Ep).
  assert (Hpl1 : forall p, plink g1 p = plink g p) by (intros; unfold plink; by rewrite El).
  pose proof (alloc_ports_spec g1 F n inc out 0) as Hap.
  rewrite El, Ep, Epf in Hap.
  rewrite !Nat.add_0_r in Hap.
  destruct (i_chains _ _ _ I) as [Hch1 Hch2].
  specialize (Hap (i_len _ _ _ I)).
  specialize (Hap (slabs_ok_ext _ (nmeta g1) _ _ (fun x => eq_sym (Hnm x)) (i_slabs _ _ _ I))).
  feed specialize Hap.
  { intros x m Hm. rewrite Hnm in Hm. pose proof (inv_meta_ok _ _ _ I _ _ Hm). unfold meta_ok in *. lia. }
  { split; [done|]. intros. rewrite Hpl1. eauto. }
  { done. } { done. }
  destruct (alloc_ports g1 n inc out 0) as [[g2 m']|]; cbn; [|lia].
  destruct Hap as (F' & [A1 A2 A3 A4 A5 A6 A7 A8 A9 A10 A11 A12 A13 A14 A15 A16 A17 A18 A19 A20]).
  rewrite vset_ok by (by rewrite A4). cbn.
  rewrite Ep in *.
  set (g3 := with_pcount _ _).
  assert (Hnm3 : forall x, nmeta g3 x = if decide (x = n) then Some m' else nmeta g x).
  { intros x. change (nmeta g3 x) with (nmeta (with_nodes g2 (<[n:=NNode m']> (pg_nodes g2))) x).
    rewrite nmeta_set by (by rewrite A4). case_decide; [done|].
    unfold nmeta at 1. rewrite A4. apply Hnm. }
  assert (Hnf3 : forall x, nfree g3 x = if decide (x = n) then None else nfree g1 x).
  { intros x. change (nfree g3 x) with (nfree (with_nodes g2 (<[n:=NNode m']> (pg_nodes g2))) x).
    rewrite nfree_set by (by rewrite A4). case_decide; [done|]. unfold nfree. by rewrite A4. }
  assert (Hpm3 : forall p, pmeta g3 p = pmeta g2 p) by done.
  assert (Hpl3 : forall p, plink g3 p = plink g2 p) by done.
  assert (Hfresh : forall p, in_slab m' p -> pmeta g p = None).
  { intros p Hp. destruct (pmeta g p) as [[x d]|] eqn:E; [|done]. exfalso.
    apply (inv_pmeta _ _ _ I) in E as (mx & Hmx & Hr).
    pose proof (in_range_slab _ _ _ _ (inv_meta_ok _ _ _ I _ _ Hmx) Hr).
    rewrite <- Hnm in Hmx. pose proof (A17 _ _ Hmx). unfold disj, in_slab in *. lia. }
  assert (Hrs : forall d p, in_range m' d p -> in_slab m' p) by (intros; by eapply in_range_slab).
  assert (Hpm_out : forall p, ~ in_slab m' p -> pmeta g3 p = pmeta g p).
  { intros p Hp. rewrite Hpm3, A19, Hpm1. rewrite !decide_False by eauto. done. }
  assert (Hpm_in : forall d p, in_range m' d p -> pmeta g3 p = Some (n, d)).
  { intros d p Hp. rewrite Hpm3, A19. destruct d.
    - by rewrite decide_True.
    - rewrite decide_False; [by rewrite decide_True|]. intros ?.
      by pose proof (in_range_dir _ _ _ _ H Hp). }
  assert (Hpm_un : forall p, in_slab m' p -> (forall d, ~ in_range m' d p) -> pmeta g3 p = None).
  { intros p Hp Hd. rewrite Hpm3, A19. rewrite !(decide_False (P := in_range _ _ _)) by done.
    by rewrite decide_True. }
  assert (Hpost : add_post g inc out g3 n m').
  { split; cbn; try done.
    - rewrite Hnm3. by rewrite decide_True.
    - intros x Hx. rewrite Hnm3. by rewrite decide_False.
    - intros p Hp. rewrite Hpl3, A20. by rewrite decide_True.
    - intros p Hp. rewrite Hpl3, A20, Hpl1. by rewrite decide_False.
    - lia.
    - lia.
    - lia. }
  split; [|eauto].
  exists (tail fnl), F'. split.
  - done.
  - apply (ports_ok_change (nmeta g) (pmeta g) (length (pg_pmeta g)) _ _ _ n).
    + apply I.
    + done.
    + intros n1 m1 n2 m2 Hne H1 H2. by eapply (sl_live _ _ _ (i_slabs _ _ _ I)).
    + intros n2 m2 mx Hne Hmx H2. rewrite Hnm3, decide_True in Hmx by done. injection Hmx as <-.
      rewrite <- Hnm in H2. by apply A17 in H2.
    + apply Hpost.
    + intros mx Hmx. rewrite Hnm3, decide_True in Hmx by done. by injection Hmx as <-.
    + intros mx d p Hmx. rewrite Hnm3, decide_True in Hmx by done. injection Hmx as <-. eauto.
    + intros mx p Hmx. rewrite Hnm3, decide_True in Hmx by done. injection Hmx as <-. eauto.
    + intros m p Hm. congruence.
    + intros p _ Hp. apply Hpm_out. apply Hp. rewrite Hnm3. by rewrite decide_True.
  - split.
    + intros n1 m1 n2 m2 Hne. rewrite !Hnm3.
      case_decide as C1; case_decide as C2; subst; try done.
      * intros [= <-] H2. rewrite <- Hnm in H2. by apply A17 in H2.
      * intros H1 [= <-]. rewrite <- Hnm in H1. apply A17 in H1. unfold disj in *. lia.
      * apply (sl_live _ _ _ (i_slabs _ _ _ I)). done.
    + intros n1 m1 k p. rewrite Hnm3. case_decide.
      * intros [= <-]. apply A18.
      * intros H1. rewrite <- Hnm in H1. by apply (sl_mixed _ _ _ A13 n1).
    + apply A13.
    + apply A13.
    + apply A13.
  - apply A14.
  - split.
    + intros p q x d Hp Hl. rewrite Hpl3, A20 in Hl. case_decide as Hs; [done|].
      rewrite Hpm_out in Hp by done. rewrite Hpl1 in Hl.
      destruct (inv_link _ _ _ I _ _ _ _ Hp Hl) as [Hq [y Hy]].
      assert (Hqs : ~ in_slab m' q) by (intros ?%Hfresh; congruence).
      split; [|exists y; by rewrite Hpm_out].
      rewrite Hpl3, A20, Hpl1. by rewrite decide_False.
    + intros p Hp HF. rewrite Hpl3, A20. case_decide as Hs; [done|]. rewrite Hpl1.
      rewrite Hpm_out in Hp by done.
      apply (i_links _ _ _ I); [done|]. intros k Hk. destruct (A16 k p Hk); [by eapply HF|done].
  - cbn. rewrite A5. eapply nfree_ok_ext; [|exact Hnf]. intros x. by rewrite Hnf3.
  - destruct (i_counts _ _ _ I) as (C1 & C2 & C3). split_and!.
    + cbn. rewrite A6, Enc. rewrite Nat.add_1_r. eapply card_ext; [|eapply (card_add _ _ n); [|exact C1]].
      * intros x. cbn. rewrite Hnm3. case_decide as E; clear -E; split; [done|by left|intros [?|?]; done|by right].
      * intros X. by apply X.
    + cbn. rewrite A7, Epc. rewrite Nat.add_comm.
      eapply card_ext; [|eapply card_union; [|apply (card_seq (nm_first m') (inc + out))|exact C2]].
      * intros p. cbn. split.
        -- intros [Hp|Hp].
           ++ assert (exists d, in_range m' d p) as [d Hr].
              { unfold in_range. destruct (decide (p < nm_first m' + inc));
                  [exists Incoming|exists Outgoing]; cbn; lia. }
              by rewrite (Hpm_in _ _ Hr).
           ++ destruct (decide (in_slab m' p)) as [Hs|Hs]; [by rewrite Hfresh in Hp|].
              by rewrite Hpm_out.
        -- destruct (decide (in_slab m' p)) as [Hs|Hs].
           ++ intros Hp. left. destruct (pmeta g3 p) as [[x d]|] eqn:E; [|done].
              destruct (decide (nm_first m' <= p < nm_first m' + (inc + out))); [done|].
              rewrite Hpm_un in E; [done|done|]. intros []; unfold in_range; cbn; lia.
           ++ rewrite Hpm_out by done. by right.
      * intros p Hp Hp2. cbn in *. apply Hp2, Hfresh. unfold meta_ok, in_slab in *. lia.
    + cbn. rewrite A8, Elc. eapply card_ext; [|exact C3].
      intros p. cbn. destruct (decide (in_slab m' p)) as [Hs|Hs].
      * rewrite (ad_plink_new _ _ _ _ _ _ Hpost) by done. rewrite Hfresh by done. split; [intros [[? ?] _]; done|intros [_ X]; done].
      * rewrite (ad_plink _ _ _ _ _ _ Hpost) by done. by rewrite Hpm_out.
  - cbn. rewrite insert_length, A4. done.
  - cbn. apply A11, I.
Qed.

Record remove_post (g : pg) (n : nat) (m : node_meta) (g' : pg) : Prop := {
  rp_nmeta : forall x, nmeta g' x = if decide (x = n) then None else nmeta g x;
  rp_pmeta : forall p, pmeta g' p = if decide (in_slab m p) then None else pmeta g p;
  rp_plink : forall p, pmeta g' p <> None -> plink g' p =
     match plink g p with
     | Some q => if decide (in_slab m q) then None else Some q
     | None => None
     end;
  rp_nc : pg_ncount g' = pg_ncount g - 1 /\ 0 < pg_ncount g;
  rp_pc : pg_pcount g' = pg_pcount g - (nm_inc m + nm_out m) /\ nm_inc m + nm_out m <= pg_pcount g;
}.

Lemma remove_node_spec g fnl F n m :
  InvG g fnl F -> nmeta g n = Some m ->
  exists g', remove_node g n = Ok g' /\ Inv g' /\ remove_post g n m g'.
Proof.
  intros I Hm. unfold remove_node. rewrite (nmeta_Some _ _ _ Hm).
  destruct (free_node_spec g fnl n m (i_nfree _ _ _ I) Hm)
    as (g1 & -> & Hnm & Hnl & El & Ep & Epf & Enc & Epc & Elc & Hnf).
  rewrite bind_Ok.
  destruct (i_counts _ _ _ I) as (C1 & C2 & C3).
  destruct (card_del _ _ n (ltac:(congruence) : nmeta g n <> None) C1) as [Hpos C1'].
  rewrite b_usub by lia. rewrite Enc.
  pose proof (inv_meta_ok _ _ _ I _ _ Hm) as Hmo.
  assert (Hpm1 : forall p, pmeta g1 p = pmeta g p) by (intros; unfold pmeta; by rewrite Ep).
  assert (Hpl1 : forall p, plink g1 p = plink g p) by (intros; unfold plink; by rewrite El).
  assert (HCp : nm_inc m + nm_out m <= pg_pcount g /\
    card (fun p => pmeta g p <> None /\ ~ in_slab m p) (pg_pcount g - (nm_inc m + nm_out m))).
  { edestruct (card_minus (fun p => pmeta g p <> None) (fun p => nm_first m <= p < nm_first m + (nm_inc m + nm_out m)))
      as [Hle Hc]; [|exact C2|apply card_seq|].
    - intros p Hp. assert (exists d, in_range m d p) as [d Hr].
      { unfold in_range. destruct (decide (p < nm_first m + nm_inc m));
          [exists Incoming|exists Outgoing]; cbn; lia. }
      by rewrite (inv_pmeta_range _ _ _ I _ _ _ _ Hm Hr).
    - split; [done|]. eapply card_ext; [|exact Hc]. intros p. cbn. split.
      + intros [Hp Hni]. split; [done|]. intros Hs. apply Hni.
        destruct (pmeta g p) as [x|] eqn:E; [|done].
        destruct (inv_slab_owner _ _ _ I _ _ _ _ Hm Hs E) as [_ Hr].
        unfold in_range in Hr. destruct (x.2); cbn in *; lia.
      + intros [Hp Hni]. split; [done|]. unfold in_slab, meta_ok in *. lia. }
  destruct HCp as [Hpcle C2'].
  assert (Hslabs' : slabs_ok (nmeta g1) F (length (pg_pmeta g))).
  { destruct (i_slabs _ _ _ I) as [S1 S2 S3 S4 S5]. split; try done.
    - intros n1 m1 n2 m2 Hne. rewrite !Hnm. repeat case_decide; try done. by apply S1.
    - intros n1 m1 k p. rewrite !Hnm. case_decide; [done|]. by apply S2. }
  (* both branches of the code go through [free_ports] with the node's slab *)
  set (g2 := with_pcount (with_ncount g1 (pg_ncount g - 1)) (pg_pcount g - (nm_inc m + nm_out m))).
  set (O := fun p => exists x, pmeta g p = Some (x, Outgoing)).
  destruct (free_ports_spec g2 F O (nm_first m) (nm_cap m)) as (g3 & F' & Hf & FP).
  { cbn. rewrite El, Ep. apply I. }
  { cbn. rewrite Ep. unfold meta_ok in *. lia. }
  { cbn. rewrite Epf. destruct (i_chains _ _ _ I) as [X1 X2]. split; [done|].
    intros. change (plink g2 p) with (plink g1 p). rewrite Hpl1. eauto. }
  { intros k p Hp. by apply (sl_mixed _ _ _ (i_slabs _ _ _ I) n). }
  { intros i q Hi Hl. change (plink g2 i) with (plink g1 i) in Hl.
    change (plink g2 q) with (plink g1 q). rewrite Hpl1 in *.
    destruct (inv_slab_link _ _ _ I _ _ _ _ Hm Hi Hl) as (d & n' & Hpi & Hlq & Hpq).
    split; [done|]. split.
    - intros ->. rewrite Hpi in Hpq. destruct d; cbn in *; congruence.
    - unfold O. rewrite Hpi, Hpq. clear. destruct d; cbn; split; [intros [? ?] [? ?]; done|intros X; exfalso; apply X; eauto|intros _ [? ?]; done|intros _; eauto]. }
  { cbn. rewrite Elc. eapply card_ext; [|exact C3]. intros p.
    change (plink g2 p) with (plink g1 p). rewrite Hpl1. done. }
  assert (Hres : (if decide (0 < nm_cap m)
     then pc ← usub (pg_pcount (with_ncount g1 (pg_ncount g - 1))) (nm_total m);
        _ ← assert (bool_decide (nm_first m + nm_cap m <= length (pg_link (with_pcount (with_ncount g1 (pg_ncount g - 1)) pc))));
        _ ← assert (bool_decide (nm_first m + nm_cap m <= length (pg_pmeta (with_pcount (with_ncount g1 (pg_ncount g - 1)) pc))));
        free_ports (with_pcount (with_ncount g1 (pg_ncount g - 1)) pc) (nm_first m) (nm_cap m)
     else Ok (with_ncount g1 (pg_ncount g - 1))) = Ok (if decide (0 < nm_cap m) then g3 else with_ncount g1 (pg_ncount g - 1))).
  { case_decide; [|done]. rewrite b_usub by (cbn; unfold nm_total; lia). cbn.
    unfold meta_ok in Hmo. rewrite El, Ep, (i_len _ _ _ I). rewrite bool_decide_true by lia. cbn.
    rewrite Epc. replace (nm_total m) with (nm_inc m + nm_out m) by (unfold nm_total; lia). exact Hf. }
  destruct FP as [P1 P2 P3 P4 P5 P6 P7 P8 P9 P10 P11 P12 P13]. cbn in P1, P2, P3, P4, P5, P6.
  set (gr := if decide (0 < nm_cap m) then g3 else with_ncount g1 (pg_ncount g - 1)) in *.
  eexists. split; [exact Hres|].
  (* in the empty-slab case the result agrees with [g3] up to [pg_pfree] *)
  assert (Q1 : pg_nodes gr = pg_nodes g1) by (unfold gr; case_decide; done).
  assert (Q2 : pg_nfree gr = pg_nfree g1) by (unfold gr; case_decide; done).
  assert (Q3 : pg_ncount gr = pg_ncount g - 1) by (unfold gr; case_decide; done).
  assert (Q4 : pg_pcount gr = pg_pcount g - (nm_inc m + nm_out m)).
  { unfold gr; case_decide; [done|]. cbn. rewrite Epc. unfold meta_ok in Hmo. lia. }
  assert (Q5 : length (pg_link gr) = length (pg_link g)).
  { unfold gr; case_decide; cbn; [rewrite P5|]; by rewrite El. }
  assert (Q6 : length (pg_pmeta gr) = length (pg_pmeta g)).
  { unfold gr; case_decide; cbn; [rewrite P6|]; by rewrite Ep. }
  assert (Q7 : forall p, pmeta gr p = if decide (in_slab m p) then None else pmeta g p).
  { intros p. unfold gr. case_decide.
    - rewrite P7. change (pmeta g2 p) with (pmeta g1 p). rewrite Hpm1. unfold in_slab. repeat case_decide; done || lia.
    - rewrite decide_False by (unfold in_slab; lia). apply Hpm1. }
  assert (Q9 : forall p, ~ in_slab m p -> plink gr p = cutr (nm_first m) (nm_first m + nm_cap m) (plink g) p).
  { intros p Hp. unfold gr. case_decide as Hc0.
    - rewrite P9 by done. unfold cutr. change (plink g2 p) with (plink g1 p). rewrite Hpl1.
      destruct (plink g p) as [q|]; [|done]. change (plink g2 q) with (plink g1 q). by rewrite Hpl1.
    - change (plink g1 p = cutr (nm_first m) (nm_first m + nm_cap m) (plink g) p).
      replace (nm_cap m) with 0 by lia. rewrite cutr_empty. apply Hpl1. }
  assert (Q9' : forall p, pmeta gr p <> None -> plink gr p =
     match plink g p with Some q => if decide (in_slab m q) then None else Some q | None => None end).
  { intros p Hp. rewrite Q7 in Hp. case_decide as Hs; [done|]. rewrite Q9 by done.
    unfold cutr. destruct (plink g p) as [q|] eqn:El'; [|done].
    unfold in_slab in *. destruct (pmeta g p) as [[x d]|] eqn:E; [|done].
    destruct (inv_link _ _ _ I _ _ _ _ E El') as [Hq _].
    repeat case_decide; try done; tauto. }
  split.
  2:{ split; try done.
      - intros x. change (nmeta gr x) with (ne_meta (pg_nodes gr !! x)). rewrite Q1. apply Hnm. }
  exists (n :: fnl), (if decide (0 < nm_cap m) then F' else F).
  assert (Hnmr : forall x, nmeta gr x = nmeta g1 x) by (intros; unfold nmeta; by rewrite Q1).
  assert (Hsub : forall k p, p ∈ F k -> p ∈ (if decide (0 < nm_cap m) then F' else F) k).
  { intros k p Hp. case_decide; [|done]. apply P12. by left. }
  split.
  - rewrite Q5, Q6. apply I.
  - rewrite Q6. apply (ports_ok_change (nmeta g) (pmeta g) (length (pg_pmeta g)) _ _ _ n).
    + apply I.
    + done.
    + intros n1 m1 n2 m2 Hne H1 H2. by eapply (sl_live _ _ _ (i_slabs _ _ _ I)).
    + intros n2 m2 mx _. rewrite Hnmr, Hnm. by rewrite decide_True.
    + intros x Hx. rewrite Hnmr, Hnm. by rewrite decide_False.
    + intros mx. rewrite Hnmr, Hnm. by rewrite decide_True.
    + intros mx d p. rewrite Hnmr, Hnm. by rewrite decide_True.
    + intros mx p. rewrite Hnmr, Hnm. by rewrite decide_True.
    + intros m1 p Hm1 Hs _. rewrite Q7. rewrite decide_True; [done|]. congruence.
    + intros p Hp _. rewrite Q7. rewrite decide_False; [done|]. eauto.
  - rewrite Q6. eapply slabs_ok_ext; [intros x; symmetry; apply Hnmr|].
    case_decide; [|done]. pose proof (P13 (nmeta g1)) as P13'. cbn in P13'. rewrite Ep in P13'.
    apply P13'; [done|]. intros n1 m1. rewrite Hnm. case_decide; [done|].
    intros Hm1. by apply (sl_live _ _ _ (i_slabs _ _ _ I) n m n1 m1).
  - unfold gr. case_decide; [apply P11|]. cbn. rewrite Epf.
    destruct (i_chains _ _ _ I) as [X1 X2]. split; [done|].
    intros. change (plink g1 p = F k !! S i). rewrite Hpl1. eauto.
  - split.
    + intros p q x d Hp Hl. rewrite Q9' in Hl by congruence. rewrite Q7 in Hp.
      case_decide as Hs; [done|]. destruct (plink g p) as [q'|] eqn:El'; [|done].
      case_decide as Hsq; [done|]. injection Hl as ->.
      destruct (inv_link _ _ _ I _ _ _ _ Hp El') as [Hq [y Hy]].
      assert (Hpq : pmeta gr q = Some (y, rev_dir d)) by (rewrite Q7; by rewrite decide_False).
      split; [|eauto]. rewrite Q9' by congruence. rewrite Hq. by rewrite decide_False.
    + intros p Hp HF. destruct (decide (in_slab m p)) as [Hs|Hs].
      * unfold gr in *. rewrite decide_True by (unfold in_slab in *; lia).
        rewrite decide_True in HF by (unfold in_slab in *; lia).
        apply P8. unfold in_slab in Hs.
        destruct (decide (p = nm_first m)) as [->|]; [|lia]. exfalso.
        apply (HF (nm_cap m - 1)). apply P12. right. split; [lia|done].
      * rewrite Q7, decide_False in Hp by done. rewrite Q9 by done. unfold cutr.
        destruct (plink g p) as [q|] eqn:El'; [|done]. exfalso.
        destruct (i_links _ _ _ I) as [_ Hn]. rewrite Hn in El'; [done|done|].
        intros k Hk. by eapply HF, Hsub.
  - rewrite Q2. eapply nfree_ok_ext; [|exact Hnf]. intros x. unfold nfree. by rewrite Q1.
  - split_and!.
    + rewrite Q3. eapply card_ext; [|exact C1']. intros x. cbn. rewrite Hnmr, Hnm. destruct (decide (x = n)) as [E|E]; clear -E; [subst; split; [intros [_ X]; by destruct X|done]|split; [by intros [? _]|by intros ?; split]].
    + rewrite Q4. eapply card_ext; [|exact C2']. intros p. cbn. rewrite Q7. destruct (decide (in_slab m p)) as [E|E]; clear -E; [split; [intros [_ X]; by destruct X|done]|split; [by intros [? _]|by intros ?; split]].
    + assert (Q10 : card (fun p => O p /\ cutr (nm_first m) (nm_first m + nm_cap m) (plink g2) p <> None) (pg_lcount gr)).
      { unfold gr. case_decide as Hc0; [exact P10|]. cbn. rewrite Elc.
        eapply card_ext; [|exact C3]. intros p. cbn. replace (nm_cap m) with 0 by lia. rewrite cutr_empty.
        change (plink g2 p) with (plink g1 p). by rewrite Hpl1. }
      eapply card_ext; [|exact Q10]. intros p. cbn. rewrite Q7. unfold O.
      assert (Hc2 : cutr (nm_first m) (nm_first m + nm_cap m) (plink g2) p = cutr (nm_first m) (nm_first m + nm_cap m) (plink g) p).
      { unfold cutr. change (plink g2 p) with (plink g1 p). rewrite Hpl1.
        destruct (plink g p) as [q|]; [|done]. change (plink g2 q) with (plink g1 q). by rewrite Hpl1. }
      rewrite Hc2. destruct (decide (in_slab m p)) as [Hs|Hs].
      * split; [|intros [[? ?] _]; done]. intros [_ Hcut]. exfalso. apply Hcut. unfold cutr.
        destruct (plink g p); [|done]. rewrite decide_True; [done|]. left. exact Hs.
      * rewrite Q9 by done. done.
  - rewrite Q1, Hnl. apply I.
  - rewrite Q6. apply I.
Qed.

(** Removing a node that does not exist does nothing. *)
Lemma remove_node_none g n : nmeta g n = None -> remove_node g n = Ok g.
Proof. unfold remove_node, nmeta. by destruct (pg_nodes g !! n) as [[]|]. Qed.
