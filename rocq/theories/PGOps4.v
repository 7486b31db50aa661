(** [set_num_ports]: effect and preservation of the invariant. *)
From Verif Require Export PGOps3.

(** ** Renaming induced by resizing a node *)
Definition nm_ren (m m' : node_meta) (p : nat) : nat :=
  if decide (in_range m Incoming p) then nm_start m' Incoming + (p - nm_start m Incoming)
  else if decide (in_range m Outgoing p) then nm_start m' Outgoing + (p - nm_start m Outgoing)
  else p.
Definition kept (m m' : node_meta) (p : nat) : Prop :=
  (in_range m Incoming p -> p - nm_start m Incoming < nm_num m' Incoming) /\
  (in_range m Outgoing p -> p - nm_start m Outgoing < nm_num m' Outgoing).
Global Instance kept_dec m m' p : Decision (kept m m' p).
Proof. unfold kept. apply _. Defined.

Lemma nm_ren_in m m' d p : in_range m d p -> nm_ren m m' p = nm_start m' d + (p - nm_start m d).
Proof.
  intros H. unfold nm_ren. destruct d.
  - by rewrite decide_True.
  - rewrite decide_False; [by rewrite decide_True|]. intros H'. by pose proof (in_range_dir _ _ _ _ H H').
Qed.
Lemma nm_ren_out m m' p : (forall d, ~ in_range m d p) -> nm_ren m m' p = p.
Proof. intros H. unfold nm_ren. by rewrite !decide_False by apply H. Qed.
Lemma kept_in m m' d p : kept m m' p -> in_range m d p -> in_range m' d (nm_ren m m' p).
Proof.
  intros [H1 H2] H. rewrite (nm_ren_in _ _ d) by done. unfold in_range in *. destruct d; lia.
Qed.
Lemma kept_off m m' d p : in_range m d p -> p - nm_start m d < nm_num m' d -> kept m m' p.
Proof.
  intros H Hk. split; intros H'; pose proof (in_range_dir _ _ _ _ H H') as ->; done.
Qed.

(** Symmetry and number of links after a node's ports moved from the slab of
    [m] to the slab of [m']. *)
Lemma resize_links g1 fnl F n m m' L' (pm' : nat -> option (nat * dir)) (pl' : nat -> option nat) :
  InvG g1 fnl F -> nmeta g1 n = Some m -> meta_ok L' m' ->
  (forall n2 m2, n2 <> n -> nmeta g1 n2 = Some m2 -> disj (nm_first m2) (nm_cap m2) (nm_first m') (nm_cap m')) ->
  (forall d p, in_range m' d p -> pm' p = Some (n, d)) ->
  (forall p, in_slab m' p -> (forall d, ~ in_range m' d p) -> pm' p = None) ->
  (forall p, in_slab m p -> ~ in_slab m' p -> pm' p = None \/ pl' p = None) ->
  (forall p, ~ in_slab m p -> ~ in_slab m' p -> pm' p = pmeta g1 p) ->
  (forall p, is_Some (pmeta g1 p) -> ~ kept m m' p -> plink g1 p = None) ->
  (forall p, is_Some (pmeta g1 p) -> kept m m' p ->
      pl' (nm_ren m m' p) = nm_ren m m' <$> plink g1 p) ->
  (forall d p, in_range m' d p -> nm_num m d <= p - nm_start m' d -> pl' p = None) ->
  links_sym pm' pl' /\
  card (fun p => (exists n, pm' p = Some (n, Outgoing)) /\ pl' p <> None) (pg_lcount g1) /\
  (forall p x, pmeta g1 p = Some x -> (x.1 = n /\ in_range m x.2 p) \/
      (~ in_slab m p /\ ~ in_slab m' p /\ (forall d, ~ in_range m d p))).
Proof.
  intros I Hm Hmo' Hdj P1 P2 P3 P4 Hdrop Hkeep Hnew.
  pose proof (inv_meta_ok _ _ _ I _ _ Hm) as Hmo.
  assert (Hslab' : forall p x, pmeta g1 p = Some x -> ~ in_slab m p -> ~ in_slab m' p).
  { intros p [n2 d] Hp Hs Hs'. apply (inv_pmeta _ _ _ I) in Hp as (m2 & Hm2 & Hr).
    destruct (decide (n2 = n)) as [->|Hne].
    - assert (m2 = m) as -> by congruence. apply Hs. by eapply in_range_slab.
    - pose proof (in_range_slab _ _ _ _ (inv_meta_ok _ _ _ I _ _ Hm2) Hr) as Hs2.
      pose proof (Hdj _ _ Hne Hm2). unfold disj, in_slab in *. lia. }
  assert (Hcase : forall p x, pmeta g1 p = Some x -> (x.1 = n /\ in_range m x.2 p) \/
      (~ in_slab m p /\ ~ in_slab m' p /\ (forall d, ~ in_range m d p))).
  { intros p x Hp. destruct (decide (in_slab m p)) as [Hs|Hs].
    - left. by apply (inv_slab_owner _ _ _ I n m p x).
    - right. split_and!; [done|by eapply Hslab'|]. intros d Hr. apply Hs. by eapply in_range_slab. }
  destruct (links_rename (pmeta g1) (plink g1) pm' pl'
     (fun p => is_Some (pmeta g1 p) /\ kept m m' p) (nm_ren m m')) as [Hsym Hcard].
  - intros p x Hp. destruct (decide (kept m m' p)); [left; by eauto|right].
    apply Hdrop; eauto.
  - by intros p [? _].
  - intros p n2 d [_ Hk] Hp. destruct (Hcase _ _ Hp) as [[Hx Hr]|(Hs & Hs' & Hnr)]; [cbn in Hx, Hr; subst n2|].
    + exists n. apply P1. by apply kept_in.
    + exists n2. rewrite nm_ren_out by done. by rewrite P4.
  - intros p q [[x Hp] Kp] [[y Hq] Kq] E.
    destruct (Hcase _ _ Hp) as [[_ Hrp]|(Hsp & Hsp' & Hnrp)], (Hcase _ _ Hq) as [[_ Hrq]|(Hsq & Hsq' & Hnrq)].
    + pose proof (kept_in _ _ _ _ Kp Hrp) as Hr1. pose proof (kept_in _ _ _ _ Kq Hrq) as Hr2.
      rewrite E in Hr1. pose proof (in_range_dir _ _ _ _ Hr1 Hr2) as Hd. rewrite <- Hd in *.
      rewrite (nm_ren_in _ _ _ _ Hrp), (nm_ren_in _ _ _ _ Hrq) in E. unfold in_range in *. lia.
    + exfalso. apply Hsq'. rewrite <- (nm_ren_out m m' q), <- E by done.
      eapply in_range_slab; [done|]. by apply kept_in.
    + exfalso. apply Hsp'. rewrite <- (nm_ren_out m m' p), E by done.
      eapply in_range_slab; [done|]. by apply kept_in.
    + rewrite !nm_ren_out in E by done. done.
  - intros p' [[n2 d2] Hp'].
    destruct (decide (in_slab m' p')) as [Hs'|Hs'].
    + assert (exists d, in_range m' d p') as [d Hr2].
      { destruct (decide (in_range m' Incoming p')); [by exists Incoming|].
        destruct (decide (in_range m' Outgoing p')); [by exists Outgoing|].
        exfalso. rewrite P2 in Hp'; [done|done|]. by intros []. }
      destruct (decide (p' - nm_start m' d < nm_num m d)) as [Hlt'|Hge].
      * left. exists (nm_start m d + (p' - nm_start m' d)).
        assert (Hr : in_range m d (nm_start m d + (p' - nm_start m' d))) by (unfold in_range; lia).
        split; [split|].
        -- exists (n, d). by apply (inv_pmeta_range _ _ _ I n m).
        -- eapply kept_off; [done|]. unfold in_range in *. lia.
        -- rewrite (nm_ren_in _ _ d) by done. unfold in_range in *. lia.
      * right. apply (Hnew d); [done|lia].
    + destruct (decide (in_slab m p')) as [Hs|Hs].
      * destruct (P3 p'); [done|done|congruence|by right].
      * left. exists p'. rewrite P4 in Hp' by done.
        destruct (Hcase _ _ Hp') as [[_ Hr]|(_ & _ & Hnr)].
        { exfalso. apply Hs. by eapply in_range_slab. }
        split; [|by rewrite nm_ren_out]. split; [by eauto|].
        split; intros X; by apply Hnr in X.
  - intros p [Hp Hk]. by apply Hkeep.
  - apply I.
  - split_and!; [done| |done]. apply Hcard. apply I.
Qed.

Record resize_core (g1 : pg) (n : nat) (m m' : node_meta) (g' : pg) (F' : nat -> list nat) : Prop := {
  rc_nodes : pg_nodes g' = <[n:=NNode m']> (pg_nodes g1);
  rc_nfree : pg_nfree g' = pg_nfree g1;
  rc_nc : pg_ncount g' = pg_ncount g1;
  rc_pc : pg_pcount g' = pg_pcount g1 - (nm_inc m + nm_out m) + (nm_inc m' + nm_out m');
  rc_lc : pg_lcount g' = pg_lcount g1;
  rc_le : length (pg_pmeta g1) <= length (pg_pmeta g');
  rc_len : length (pg_link g') = length (pg_pmeta g');
  rc_sz : (N.of_nat (length (pg_pmeta g')) <= max_index + 1)%N;
  rc_ok : meta_ok (length (pg_pmeta g')) m';
  rc_slabs : slabs_ok (nmeta g') F' (length (pg_pmeta g'));
  rc_chains : chains_ok (pg_pfree g') (plink g') F';
  rc_pm1 : forall d p, in_range m' d p -> pmeta g' p = Some (n, d);
  rc_pm2 : forall p, in_slab m' p -> (forall d, ~ in_range m' d p) -> pmeta g' p = None;
  rc_pm3 : forall p, in_slab m p -> ~ in_slab m' p -> pmeta g' p = None;
  rc_pm4 : forall p, ~ in_slab m p -> ~ in_slab m' p -> pmeta g' p = pmeta g1 p;
  rc_drop : forall p, is_Some (pmeta g1 p) -> ~ kept m m' p -> plink g1 p = None;
  rc_keep : forall p, is_Some (pmeta g1 p) -> kept m m' p ->
      plink g' (nm_ren m m' p) = nm_ren m m' <$> plink g1 p;
  rc_new : forall d p, in_range m' d p -> nm_num m d <= p - nm_start m' d -> plink g' p = None;
  rc_dead : forall p, pmeta g' p = None -> (forall k, p ∉ F' k) -> plink g' p = None;
}.

Lemma resize_core_inv g1 fnl F n m m' g' F' :
  InvG g1 fnl F -> nmeta g1 n = Some m -> resize_core g1 n m m' g' F' -> InvG g' fnl F'.
Proof.
  intros I Hm R.
  pose proof (nmeta_lt _ _ _ Hm) as Hlt.
  assert (Hnm : forall x, nmeta g' x = if decide (x = n) then Some m' else nmeta g1 x).
  { intros x. rewrite !nmeta_eq, (rc_nodes _ _ _ _ _ _ R). rewrite lookup_insert_if by done. by case_decide. }
  pose proof (inv_meta_ok _ _ _ I _ _ Hm) as Hmo.
  pose proof (rc_ok _ _ _ _ _ _ R) as Hmo'.
  assert (Hports : ports_ok (nmeta g') (pmeta g') (length (pg_pmeta g'))).
  { apply (ports_ok_change (nmeta g1) (pmeta g1) (length (pg_pmeta g1)) _ _ _ n).
    - apply I.
    - apply R.
    - intros. by eapply (sl_live _ _ _ (i_slabs _ _ _ I)).
    - intros n2 m2 m2' Hne Hm2' Hm2. eapply (sl_live _ _ _ (rc_slabs _ _ _ _ _ _ R) n _ n2); [done|done|].
      rewrite Hnm. by rewrite decide_False.
    - intros n2 Hne. rewrite Hnm. by rewrite decide_False.
    - intros m2. rewrite Hnm, decide_True by done. by intros [= <-].
    - intros m2 d p. rewrite Hnm, decide_True by done. intros [= <-]. apply R.
    - intros m2 p. rewrite Hnm, decide_True by done. intros [= <-]. apply R.
    - intros m2 p Hm2 Hs Hs'. assert (m2 = m) as -> by congruence. apply (rc_pm3 _ _ _ _ _ _ R); [done|].
      apply Hs'. rewrite Hnm. by rewrite decide_True.
    - intros p H1 H2. apply (rc_pm4 _ _ _ _ _ _ R); [by apply H1|]. apply H2. rewrite Hnm. by rewrite decide_True. }
  destruct (resize_links g1 fnl F n m m' (length (pg_pmeta g')) (pmeta g') (plink g')) as (Hsym & Hcard & Hcase); try done; try apply R.
  { intros n2 m2 Hne Hm2. eapply (sl_live _ _ _ (rc_slabs _ _ _ _ _ _ R) n2 m2 n m'); [done| |].
    - rewrite Hnm. by rewrite decide_False.
    - rewrite Hnm. by rewrite decide_True. }
  { intros p Hs Hs'. left. by apply (rc_pm3 _ _ _ _ _ _ R). }
  destruct (i_counts _ _ _ I) as (C1 & C2 & C3).
  split.
  + apply R.
  + done.
  + apply R.
  + apply R.
  + split; [done|]. apply R.
  + rewrite (rc_nfree _ _ _ _ _ _ R). eapply nfree_ok_ext; [|apply I]. intros x.
    rewrite !nfree_eq, (rc_nodes _ _ _ _ _ _ R). rewrite lookup_insert_if by done. case_decide; [|done].
    subst. by rewrite (nmeta_Some _ _ _ Hm).
  + split_and!.
    * rewrite (rc_nc _ _ _ _ _ _ R). eapply card_ext; [|exact C1]. intros x. cbn. rewrite Hnm.
      destruct (decide (x = n)) as [->|]; [|done]. rewrite Hm. done.
    * rewrite (rc_pc _ _ _ _ _ _ R).
      edestruct (card_minus (fun p => pmeta g1 p <> None) (fun p => nm_first m <= p < nm_first m + (nm_inc m + nm_out m)))
        as [Hle Hc]; [|exact C2|apply card_seq|].
      { intros p Hp. assert (exists d, in_range m d p) as [d Hr].
        { unfold in_range. destruct (decide (p < nm_first m + nm_inc m));
          [exists Incoming|exists Outgoing]; cbn; lia. }
        by rewrite (inv_pmeta_range _ _ _ I _ _ _ _ Hm Hr). }
      eapply card_ext; [|eapply card_union; [|exact Hc|exact (card_seq (nm_first m') (nm_inc m' + nm_out m'))]].
      -- intros p. cbn. split.
         ++ intros [[Hp Hni]|Hr].
            ** destruct (pmeta g1 p) as [x|] eqn:E; [|done].
               destruct (Hcase _ _ E) as [[_ Hr]|(Hs & Hs' & Hnr)].
               { exfalso. apply Hni. unfold in_range in Hr. destruct (x.2); cbn in *; lia. }
               rewrite (rc_pm4 _ _ _ _ _ _ R) by done. congruence.
            ** assert (exists d, in_range m' d p) as [d Hr'].
               { unfold in_range. destruct (decide (p < nm_first m' + nm_inc m'));
                   [exists Incoming|exists Outgoing]; cbn; lia. }
               by rewrite (rc_pm1 _ _ _ _ _ _ R _ _ Hr').
         ++ intros Hp. destruct (pmeta g' p) as [[n2 d]|] eqn:E; [|done].
            apply Hports in E as (m2 & Hm2 & Hr2). rewrite Hnm in Hm2.
            destruct (decide (n2 = n)) as [->|Hne].
            ** injection Hm2 as <-. right. unfold in_range in Hr2. destruct d; cbn in *; lia.
            ** left. pose proof (inv_pmeta_range _ _ _ I _ _ _ _ Hm2 Hr2) as Hp1.
               split; [congruence|]. intros X. destruct (Hcase _ _ Hp1) as [[? _]|(Hs & _)]; [done|].
               apply Hs. unfold in_slab, meta_ok in *. lia.
      -- intros p [Hp Hni] Hr. cbn in *. destruct (pmeta g1 p) as [x|] eqn:E; [|done].
         destruct (Hcase _ _ E) as [[_ Hrr]|(Hs & Hs' & Hnr)].
         ++ apply Hni. unfold in_range in Hrr. destruct (x.2); cbn in *; lia.
         ++ apply Hs'. unfold in_slab, meta_ok in *. lia.
    * rewrite (rc_lc _ _ _ _ _ _ R). done.
  + rewrite (rc_nodes _ _ _ _ _ _ R), insert_length. apply I.
  + apply R.
Qed.
