(** [compact_ports]: effect and preservation of the invariant, for graphs in
    which every node with a port slab has a port. *)
From Verif Require Export PGOps8.

Definition is_pport (e : port_entry) : bool := match e with PPort _ _ => true | _ => false end.

(** ** The link loop *)
Section links.
  Context (pm : list port_entry) (pl : nat -> option nat).
  Let live p := exists e, pm !! p = Some e /\ is_pport e = true.
  Let rk := rank is_pport pm.
  Context (Hsym : forall p q, live p -> pl p = Some q -> live q /\ pl q = Some p /\ p <> q).

  Definition cur (old p : nat) : nat := if decide (p < old) then rank is_pport pm p else p.

  Lemma cur_inj old p q : live p -> live q -> cur old p = cur old q -> p = q.
  Proof.
    intros (e & He & Le) (e' & He' & Le'). unfold cur.
    pose proof (rank_le is_pport pm p). pose proof (rank_le is_pport pm q).
    destruct (decide (p < old)), (decide (q < old)); intros E.
    - by eapply rank_inj.
    - lia.
    - lia.
    - done.
  Qed.
  Lemma cur_S_dead old p : live p -> ~ live old -> cur (S old) p = cur old p.
  Proof.
    intros Hp Ho. unfold cur. assert (p <> old) by (intros ->; done).
    destruct (decide (p < old)); [by rewrite decide_True by lia|by rewrite decide_False by lia].
  Qed.
  Lemma cur_S_live old p : cur (S old) p = if decide (p = old) then rk old else cur old p.
  Proof.
    unfold cur. destruct (decide (p = old)) as [->|]; [by rewrite decide_True by lia|].
    destruct (decide (p < old)); [by rewrite decide_True by lia|by rewrite decide_False by lia].
  Qed.

  Lemma compact_links_spec n old lk :
    old + n = length pm -> length lk = length pm ->
    (forall p, live p -> lk !! cur old p = Some (cur old <$> pl p)) ->
    exists lk', compact_links_loop n old (rk old) pm lk = Ok (lk', rk (length pm)) /\
      length lk' = length pm /\
      (forall p, live p -> lk' !! rk p = Some (rk <$> pl p)).
  Proof.
    revert old lk. induction n as [|n IH]; intros old lk Hn Hlen Hlk.
    - exists lk. cbn. assert (old = length pm) as -> by lia. split_and!; [done|done|].
      intros p Hp. assert (Hc : forall x, live x -> cur (length pm) x = rk x).
      { intros x (e & Hx & _). apply lookup_lt_Some in Hx. unfold cur. by rewrite decide_True by lia. }
      rewrite <- (Hc p Hp). rewrite Hlk by done. destruct (pl p) as [q|] eqn:E; [|done]. cbn.
      do 2 f_equal. apply Hc. by eapply Hsym.
    - cbn [compact_links_loop].
      destruct (lookup_lt_is_Some_2 pm old) as [e He]; [lia|]. rewrite (b_vget _ _ _ _ He).
      destruct e as [|nd d].
      + (* unused *)
        assert (Hdead : ~ live old) by (intros (e' & He' & ?); assert (e' = PFree) as -> by congruence; done).
        assert (Er : rk old = rk (S old)). { unfold rk. rewrite rank_S, He. cbn. lia. }
        rewrite Er. apply IH; [lia|done|]. intros p Hp. rewrite cur_S_dead by done. rewrite Hlk by done.
        destruct (pl p) as [q|] eqn:E; [|done]. cbn. rewrite cur_S_dead; [done| |done]. by eapply Hsym.
      + assert (Hlive : live old) by (exists (PPort nd d); done).
        assert (Er : S (rk old) = rk (S old)). { unfold rk. rewrite rank_S, He. cbn. lia. }
        rewrite Er. pose proof (rank_le is_pport pm old) as Hle. fold rk in Hle. fold (rk old) in Hle.
        destruct (decide (rk old = old)) as [Eq|Hne].
        * apply IH; [lia|done|]. intros p Hp.
          assert (Hc : forall x, cur (S old) x = cur old x).
          { intros x. rewrite cur_S_live. destruct (decide (x = old)) as [->|]; [|done].
            unfold cur. by rewrite decide_False by lia. }
          rewrite Hc, Hlk by done. destruct (pl p); [|done]. cbn. by rewrite Hc.
        * assert (Hlt : rk old < old) by lia.
          assert (Hco : cur old old = old) by (unfold cur; by rewrite decide_False by lia).
          assert (Hold : lk !! old = Some (cur old <$> pl old)) by (rewrite <- Hco at 1; by apply Hlk).
          rewrite (b_vget _ _ _ _ Hold).
          assert (Hpos : forall p, live p -> p <> old -> cur old p <> old /\ cur old p <> rk old).
          { intros p Hp Hpo. split.
            - intros E. apply Hpo. apply (cur_inj old); [done|done|]. congruence.
            - unfold cur. destruct (decide (p < old)) as [Hpl|].
              + destruct Hp as (ep & Hep & Lep). pose proof (rank_lt is_pport pm p old ep Hep Lep Hpl). unfold rk. lia.
              + lia. }
          assert (Hq : exists lk1, match cur old <$> pl old with
                         | Some q => vset lk q (Some (rk old)) | None => Ok lk end = Ok lk1 /\
                       length lk1 = length lk /\ lk1 !! old = Some (cur old <$> pl old) /\
                       forall p, live p -> p <> old -> lk1 !! cur old p = Some (cur (S old) <$> pl p)).
          { destruct (pl old) as [q|] eqn:Eq; cbn.
            - destruct (Hsym _ _ Hlive Eq) as (Hqlive & Hqo & Hoq).
              assert (Hqlt : cur old q < length lk).
              { apply lookup_lt_is_Some. rewrite Hlk by done. eauto. }
              eexists. split; [by apply vset_ok|]. rewrite insert_length. split; [done|].
              destruct (Hpos q) as [Hp1 Hp2]; [done|done|].
              split; [by rewrite list_lookup_insert_ne|].
              intros p Hp Hpo. rewrite lookup_insert_if by done.
              destruct (decide (cur old p = cur old q)) as [E|E].
              + apply cur_inj in E; [|done|done]. subst p. rewrite Hqo. cbn. rewrite cur_S_live. by rewrite decide_True.
              + rewrite Hlk by done. destruct (pl p) as [q'|] eqn:E'; [|done]. cbn. rewrite cur_S_live.
                rewrite decide_False; [done|]. intros ->. destruct (Hsym _ _ Hp E') as (_ & ? & _). congruence.
            - exists lk. split_and!; [done|done|done|]. intros p Hp Hpo. rewrite Hlk by done.
              destruct (pl p) as [q'|] eqn:E'; [|done]. cbn. rewrite cur_S_live.
              rewrite decide_False; [done|]. intros ->. destruct (Hsym _ _ Hp E') as (_ & ? & _). congruence. }
          destruct Hq as (lk1 & -> & Hlen1 & Hold1 & Hlk1). rewrite bind_Ok.
          destruct (lookup_lt_is_Some_2 lk1 (rk old)) as [x Hx]; [lia|].
          rewrite (b_vget _ _ _ _ Hx), (b_vget _ _ _ _ Hold1).
          rewrite b_vset by lia. rewrite b_vset by (rewrite insert_length; lia).
          apply IH; [lia|by rewrite !insert_length, Hlen1|].
          intros p Hp. rewrite cur_S_live.
          rewrite !lookup_insert_if by (rewrite ?insert_length; lia).
          destruct (decide (p = old)) as [->|Hpo].
          -- rewrite decide_False by lia. rewrite decide_True by done.
             destruct (pl old) as [q|] eqn:Eq; [|done]. cbn. rewrite cur_S_live, decide_False; [done|].
             destruct (Hsym _ _ Hlive Eq) as (_ & _ & ?). congruence.
          -- destruct (Hpos p Hp Hpo). rewrite !decide_False by done. by apply Hlk1.
  Qed.
End links.

(** ** The metadata loop *)
Section metas.
  Context (pm : list port_entry) (ns0 : list node_entry).
  Let rk := rank is_pport pm.
  Context (Hown : forall p n d, pm !! p = Some (PPort n d) ->
    exists m, ns0 !! n = Some (NNode m) /\ nm_first m <= p /\ 0 < nm_inc m + nm_out m).
  Context (Hfirst : forall n m, ns0 !! n = Some (NNode m) -> 0 < nm_inc m + nm_out m ->
    exists d, pm !! nm_first m = Some (PPort n d)).
  Context (Hsz : forall n m, ns0 !! n = Some (NNode m) ->
    (N.of_nat (nm_inc m) <= 65534)%N /\ (N.of_nat (nm_inc m + nm_out m) <= 65535)%N).

  Definition cmeta (old : nat) (m : node_meta) : node_meta :=
    if decide (0 < nm_inc m + nm_out m /\ nm_first m < old)
    then NM (rank is_pport pm (nm_first m)) (nm_inc m) (nm_out m) (nm_inc m + nm_out m) else m.
  Definition centry (old : nat) (e : node_entry) : node_entry :=
    match e with NNode m => NNode (cmeta old m) | NFree _ _ => e end.

  Lemma centry_skip old e n : ns0 !! n = Some e -> (forall d, pm !! old <> Some (PPort n d)) ->
    centry (S old) e = centry old e.
  Proof.
    intros He Ho. destruct e as [|m]; [done|]. cbn. f_equal. unfold cmeta.
    destruct (decide (0 < nm_inc m + nm_out m /\ nm_first m < old)) as [H|H].
    - by rewrite decide_True by lia.
    - rewrite decide_False; [done|]. intros [H1 H2]. assert (nm_first m = old) by lia. subst old.
      destruct (Hfirst _ _ He H1) as [d Hd]. by apply (Ho d).
  Qed.

  Lemma compact_pmeta_spec es old ns :
    drop old pm = es -> old <= length pm ->
    (forall n, ns !! n = centry old <$> ns0 !! n) ->
    exists ns', compact_pmeta_loop es old (rk old) ns =
        Ok (filter (fun e => is_pport e = true) es, ns',
            zip (idxs is_pport es old) (seq (rk old) (length (idxs is_pport es old)))) /\
      (forall n, ns' !! n = centry (length pm) <$> ns0 !! n).
  Proof.
    revert old ns. induction es as [|e es IH]; intros old ns Hes Hle Hns.
    - exists ns. split; [done|]. assert (length pm <= old) by (apply (f_equal length) in Hes; rewrite drop_length in Hes; cbn in Hes; lia).
      by assert (old = length pm) as <- by lia.
    - assert (He : pm !! old = Some e).
      { rewrite <- (Nat.add_0_r old), <- lookup_drop, Hes. done. }
      assert (Hes' : drop (S old) pm = es).
      { replace (S old) with (old + 1) by lia. rewrite <- drop_drop, Hes. done. }
      pose proof (lookup_lt_Some _ _ _ He) as Hlt.
      destruct e as [|n d]; cbn [compact_pmeta_loop idxs is_pport].
      + assert (Er : rk old = rk (S old)). { unfold rk. rewrite rank_S, He. cbn. lia. }
        rewrite Er. rewrite filter_cons_False by done. apply IH; [done|lia|].
        intros n. rewrite Hns. destruct (ns0 !! n) as [e|] eqn:En; [|done]. cbn.
        rewrite (centry_skip old e n); [done|done|]. intros d. congruence.
      + assert (Er : S (rk old) = rk (S old)). { unfold rk. rewrite rank_S, He. cbn. lia. }
        rewrite Er.
        destruct (Hown _ _ _ He) as (m & Hm & Hmf & Hpos).
        assert (Hn : ns !! n = Some (NNode (cmeta old m))) by (by rewrite Hns, Hm).
        rewrite (b_vget _ _ _ _ Hn).
        assert (Hstep : exists ns1,
          (if decide (nm_first (cmeta old m) = old)
           then m' ← nm_new (rk old) (nm_inc (cmeta old m)) (nm_out (cmeta old m)) (trunc16 (nm_total (cmeta old m)));
                vset ns n (NNode m')
           else Ok ns) = Ok ns1 /\ (forall x, ns1 !! x = centry (S old) <$> ns0 !! x)).
        { destruct (decide (nm_first m = old)) as [Ef|Ef].
          - assert (Ec : cmeta old m = m) by (unfold cmeta; by rewrite decide_False by lia).
            rewrite Ec. rewrite decide_True by done. destruct (Hsz _ _ Hm) as [Hs1 Hs2].
            rewrite trunc16_id by (unfold nm_total; lia).
            unfold nm_new. rewrite !b_assert; [|unfold nm_total; rewrite !bool_decide_eq_true_2 by lia; done|unfold nm_total; lia|lia|lia].
            rewrite bind_Ok. eexists. split; [apply vset_ok; by eapply lookup_lt_Some|].
            intros x. rewrite lookup_insert_if by (by eapply lookup_lt_Some).
            destruct (decide (x = n)) as [->|Hx].
            + rewrite Hm. cbn. unfold cmeta. rewrite decide_True by lia. rewrite Ef. unfold nm_total.
              by rewrite (Nat.add_comm (nm_out m)).
            + rewrite Hns. destruct (ns0 !! x) as [e|] eqn:Ex; [|done]. cbn.
              rewrite (centry_skip old e x); [done|done|]. intros d'. congruence.
          - assert (Ec : cmeta old m = cmeta (S old) m).
            { unfold cmeta. by rewrite !decide_True by lia. }
            pose proof (rank_le is_pport pm (nm_first m)).
            rewrite decide_False.
            2:{ rewrite Ec. unfold cmeta. rewrite decide_True by lia. cbn. lia. }
            exists ns. split; [done|]. intros x. rewrite Hns.
            destruct (decide (x = n)) as [->|Hx]; [rewrite Hm; cbn; by rewrite Ec|].
            destruct (ns0 !! x) as [e|] eqn:Ex; [|done]. cbn.
            rewrite (centry_skip old e x); [done|done|]. intros d'. congruence. }
        destruct Hstep as (ns1 & -> & Hns1). rewrite bind_Ok.
        destruct (IH (S old) ns1) as (ns' & -> & Hns'); [done|lia|done|].
        rewrite bind_Ok. exists ns'. rewrite filter_cons_True by done. split; [|done].
        rewrite <- Er. done.
  Qed.
End metas.

Definition port_ids (g : pg) : list nat := idxs is_pport (pg_pmeta g) 0.
Definition port_rank (g : pg) (p : nat) : nat := rank is_pport (pg_pmeta g) p.

Lemma live_pmeta g p : (exists e, pg_pmeta g !! p = Some e /\ is_pport e = true) <-> is_Some (pmeta g p).
Proof.
  unfold pmeta. split.
  - intros (e & -> & He). destruct e; [done|]. eauto.
  - intros [m Hm]. destruct (pg_pmeta g !! p) as [[|n d]|]; [done| |done]. eexists; by split.
Qed.
Lemma port_ids_elem g n : n ∈ port_ids g <-> is_Some (pmeta g n).
Proof.
  unfold port_ids. rewrite elem_of_idxs, Nat.sub_0_r, live_pmeta. split; [tauto|]. split; [lia|done].
Qed.
Lemma port_ids_rank g n : is_Some (pmeta g n) -> port_ids g !! port_rank g n = Some n.
Proof.
  intros (e & He & Le)%live_pmeta. unfold port_ids, port_rank. by erewrite idxs_lookup_rank.
Qed.
Lemma port_ids_inv g k n : port_ids g !! k = Some n -> is_Some (pmeta g n) /\ k = port_rank g n.
Proof.
  intros Hk. split; [|by apply idxs_lookup_inv in Hk as [_ ?]]. apply port_ids_elem. by eapply elem_of_list_lookup_2.
Qed.

(** Every node that owns a slab of ports uses at least one of them. *)
Definition no_hollow (g : pg) : Prop :=
  forall n m, nmeta g n = Some m -> 0 < nm_cap m -> 0 < nm_inc m + nm_out m.

Record compact_ports_post (g : pg) (g' : pg) (log : list (nat * nat)) : Prop := {
  cp_log : log = zip (port_ids g) (seq 0 (length (port_ids g)));
  cp_nmeta : forall n, nmeta g' n =
    (fun m => NM (port_rank g (nm_first m)) (nm_inc m) (nm_out m) (nm_inc m + nm_out m)) <$> nmeta g n;
  cp_pmeta : forall k, pmeta g' k = port_ids g !! k ≫= pmeta g;
  cp_plink : forall k, plink g' k = port_rank g <$> (port_ids g !! k ≫= plink g);
  cp_nc : pg_ncount g' = pg_ncount g;
  cp_pc : pg_pcount g' = pg_pcount g;
  cp_lc : pg_lcount g' = pg_lcount g;
}.

Lemma compact_ports_spec g fnl F : InvG g fnl F -> no_hollow g ->
  exists g' log, compact_ports g = Ok (g', log) /\ InvG g' fnl (fun _ => []) /\ compact_ports_post g g' log.
Proof.
  intros I Hnh. unfold compact_ports.
  assert (Hlive : forall i m, pg_nodes g !! i = Some (NNode m) <-> nmeta g i = Some m).
  { intros i m. split; [|apply nmeta_Some]. unfold nmeta. by intros ->. }
  destruct (compact_links_spec (pg_pmeta g) (plink g)) with (n := length (pg_link g)) (old := 0) (lk := pg_link g)
    as (lk' & E1 & L1 & H1).
  { intros p q [[n d] Hp]%live_pmeta Hl. destruct (inv_link _ _ _ I _ _ _ _ Hp Hl) as [Hq [n' Hn']].
    split_and!; [apply live_pmeta; eauto|done|]. eapply inv_link_ne; eauto. }
  { rewrite (i_len _ _ _ I). done. }
  { apply I. }
  { assert (Hc : forall p, cur (pg_pmeta g) 0 p = p) by (intros p; unfold cur; by rewrite decide_False by lia).
    intros p [x Hx]%live_pmeta. rewrite Hc, (inv_plink_lookup _ _ _ I _ _ Hx).
    destruct (plink g p); [|done]. cbn. by rewrite Hc. }
  rewrite rank_0 in E1. rewrite E1, bind_Ok.
  destruct (compact_pmeta_spec (pg_pmeta g) (pg_nodes g)) with (es := pg_pmeta g) (old := 0) (ns := pg_nodes g)
    as (ns' & E2 & H2).
  { intros p n d Hp. assert (Hp' : pmeta g p = Some (n, d)) by (unfold pmeta; by rewrite Hp).
    apply (inv_pmeta _ _ _ I) in Hp' as (m & Hm & Hr). exists m. split; [by apply Hlive|].
    unfold in_range in Hr. destruct d; cbn in Hr; lia. }
  { intros n m Hm%Hlive Hpos. destruct (decide (0 < nm_inc m)).
    - exists Incoming. apply pmeta_Some. eapply (inv_pmeta_range _ _ _ I); [done|]. unfold in_range. cbn. lia.
    - exists Outgoing. apply pmeta_Some. eapply (inv_pmeta_range _ _ _ I); [done|]. unfold in_range. cbn. lia. }
  { intros n m Hm%Hlive. pose proof (inv_meta_ok _ _ _ I _ _ Hm) as Hok. unfold meta_ok in Hok. lia. }
  { done. } { lia. }
  { intros n. destruct (pg_nodes g !! n) as [[|m]|]; [done| |done]. cbn. unfold cmeta. by rewrite decide_False by lia. }
  rewrite rank_0 in E2. rewrite E2, bind_Ok. fold (port_ids g).
  set (g' := with_pfree _ _).
  assert (Htot : rank is_pport (pg_pmeta g) (length (pg_pmeta g)) = length (port_ids g)).
  { by apply rank_total. }
  assert (Hidlen : length (port_ids g) <= length (pg_pmeta g)) by apply idxs_length.
  assert (Llk : length (pg_link g') = length (port_ids g)).
  { cbn. rewrite take_length, Htot, L1. lia. }
  assert (Lpm : length (pg_pmeta g') = length (port_ids g)).
  { cbn. apply filter_length. }
  assert (Hnm : forall n, nmeta g' n =
    (fun m => NM (port_rank g (nm_first m)) (nm_inc m) (nm_out m) (nm_inc m + nm_out m)) <$> nmeta g n).
  { intros n. rewrite nmeta_eq. cbn. rewrite H2.
    destruct (pg_nodes g !! n) as [[|m]|] eqn:En; [by unfold nmeta; rewrite En| |by unfold nmeta; rewrite En].
    apply Hlive in En. rewrite En. cbn. f_equal. unfold cmeta.
    pose proof (inv_meta_ok _ _ _ I _ _ En) as Hok. unfold meta_ok in Hok.
    destruct (decide (0 < nm_inc m + nm_out m)).
    - by rewrite decide_True by lia.
    - rewrite decide_False by lia. destruct (decide (0 < nm_cap m)) as [Hc|Hc]; [apply (Hnh _ _ En) in Hc; lia|].
      destruct m as [f i o c]; cbn in *. assert (f = 0) as -> by lia. unfold port_rank. rewrite rank_0. f_equal; lia. }
  assert (Hpm : forall k, pmeta g' k = port_ids g !! k ≫= pmeta g).
  { intros k. rewrite pmeta_eq. cbn. rewrite (filter_idxs is_pport _ 0). unfold port_ids.
    destruct (idxs is_pport (pg_pmeta g) 0 !! k) as [i|]; [|done]. cbn. by rewrite Nat.sub_0_r. }
  assert (Hpl : forall k, plink g' k = port_rank g <$> (port_ids g !! k ≫= plink g)).
  { intros k. destruct (port_ids g !! k) as [p|] eqn:Ek; cbn.
    - pose proof (lookup_lt_Some _ _ _ Ek). apply port_ids_inv in Ek as [Hp ->].
      unfold plink at 1. cbn. rewrite lookup_take by lia. unfold port_rank at 1. rewrite H1 by (by apply live_pmeta).
      by destruct (plink g p).
    - apply plink_ge. rewrite Llk. by apply lookup_ge_None. }
  assert (Hrank : forall m, (exists n, nmeta g n = Some m) -> forall i, i <= nm_inc m + nm_out m ->
     port_rank g (nm_first m + i) = port_rank g (nm_first m) + i).
  { intros m [n Hm]. apply rank_run. intros i Hi. apply live_pmeta.
    destruct (decide (i < nm_first m + nm_inc m)).
    - eexists. eapply (inv_pmeta_range _ _ _ I n m Incoming); [done|]. unfold in_range; cbn; lia.
    - eexists. eapply (inv_pmeta_range _ _ _ I n m Outgoing); [done|]. unfold in_range; cbn; lia. }
  assert (Hrinj : forall x y, is_Some (pmeta g x) -> is_Some (pmeta g y) -> port_rank g x = port_rank g y -> x = y).
  { intros x y Hx%port_ids_rank Hy%port_ids_rank E. rewrite E in Hx. congruence. }
  eexists g', _. split; [done|]. split; [|by split].
  destruct (i_counts _ _ _ I) as (C1 & C2 & C3).
  destruct (i_links _ _ _ I) as [K1 K2].
  destruct (links_rename (pmeta g) (plink g) (pmeta g') (plink g') (fun p => is_Some (pmeta g p)) (port_rank g)) as [R1 R2].
  { intros p x Hp. left. eauto. }
  { done. }
  { intros p n d _ Hp. rewrite Hpm, port_ids_rank by eauto. cbn. eauto. }
  { intros p q Hp Hq E. by apply Hrinj. }
  { intros k [x Hk]. rewrite Hpm in Hk. apply bind_Some in Hk as (p & Hk & Hp). left. exists p.
    apply port_ids_inv in Hk. done. }
  { intros p Hp. rewrite Hpl, port_ids_rank by done. done. }
  { done. }
  split.
  - by rewrite Llk, Lpm.
  - rewrite Lpm. split.
    + intros n m' Hm'. rewrite Hnm in Hm'. apply fmap_Some in Hm' as (m & Hm & ->).
      pose proof (inv_meta_ok _ _ _ I _ _ Hm) as Hok. unfold meta_ok in *. cbn. split_and!; [lia| | |lia|lia].
      * intros Hz. destruct (decide (0 < nm_cap m)) as [Hc|Hc]; [apply (Hnh _ _ Hm) in Hc; lia|].
        assert (nm_first m = 0) as -> by lia. unfold port_rank. apply rank_0.
      * rewrite <- (Hrank m) by eauto. rewrite <- Htot. apply rank_mono. lia.
    + intros k n d. rewrite Hpm. split.
      * intros (p & Hk & Hp)%bind_Some. pose proof Hp as Hp'. apply (inv_pmeta _ _ _ I) in Hp as (m & Hm & Hr).
        rewrite Hnm, Hm. cbn. eexists. split; [done|]. apply port_ids_inv in Hk as [_ ->].
        unfold in_range in *.
        assert (Hd : port_rank g p = port_rank g (nm_first m) + (p - nm_first m)).
        { rewrite <- (Hrank m); [f_equal|eauto|]; destruct d; cbn in *; lia. }
        rewrite Hd. destruct d; cbn in *; lia.
      * intros (m' & Hm' & Hr). rewrite Hnm in Hm'. apply fmap_Some in Hm' as (m & Hm & ->).
        unfold in_range in Hr. cbn in Hr.
        set (i := k - port_rank g (nm_first m)).
        assert (Hi : k = port_rank g (nm_first m + i)).
        { rewrite (Hrank m); [|eauto|]; subst i; destruct d; cbn in *; lia. }
        assert (Hr' : in_range m d (nm_first m + i)).
        { unfold in_range. subst i. destruct d; cbn in *; lia. }
        pose proof (inv_pmeta_range _ _ _ I _ _ _ _ Hm Hr') as Hp.
        rewrite Hi, port_ids_rank by eauto. done.
  - split.
    + intros n1 m1 n2 m2 Hne Hm1 Hm2. rewrite Hnm in Hm1, Hm2.
      apply fmap_Some in Hm1 as (a & Ha & ->). apply fmap_Some in Hm2 as (b & Hb & ->).
      pose proof (sl_live _ _ _ (i_slabs _ _ _ I) _ _ _ _ Hne Ha Hb) as Hd. unfold disj in *. cbn.
      pose proof (inv_meta_ok _ _ _ I _ _ Ha) as Oa. pose proof (inv_meta_ok _ _ _ I _ _ Hb) as Ob.
      unfold meta_ok in *.
      rewrite <- (Hrank a) by eauto. rewrite <- (Hrank b) by eauto.
      destruct Hd as [?|[?|[?|?]]]; [left; lia|right; left; lia| |].
      * right; right; left. apply rank_mono. lia.
      * right; right; right. apply rank_mono. lia.
    + intros n m k p _ Hp. by apply elem_of_nil in Hp.
    + intros k p k' p' Hp. by apply elem_of_nil in Hp.
    + intros k p Hp. by apply elem_of_nil in Hp.
    + constructor.
  - split; [done|]. intros k i p Hp. by rewrite lookup_nil in Hp.
  - split; [done|]. intros k Hk _. rewrite Hpm in Hk. rewrite Hpl.
    destruct (port_ids g !! k) as [p|] eqn:E; [|done]. cbn in *.
    apply port_ids_inv in E as [[x Hx] _]. congruence.
  - eapply nfree_ok_ext; [|apply (i_nfree _ _ _ I)]. intros x. rewrite !nfree_eq. cbn. rewrite H2.
    by destruct (pg_nodes g !! x) as [[|]|].
  - split_and!.
    + eapply card_ext; [|exact C1]. intros n. cbn. rewrite Hnm. by destruct (nmeta g n).
    + apply (card_bij (fun n => pmeta g n <> None) _ (port_rank g)); [| |done].
      * intros x y Hx%not_eq_None_Some Hy%not_eq_None_Some. by apply Hrinj.
      * intros k. split.
        -- intros [m Hm]%not_eq_None_Some. rewrite Hpm in Hm. apply bind_Some in Hm as (n & Hk & Hm).
           exists n. apply port_ids_inv in Hk as [? ->]. split; [congruence|done].
        -- intros (n & Hn & ->). rewrite Hpm, port_ids_rank by (by apply not_eq_None_Some). done.
    + by apply R2.
  - pose proof (i_nsize _ _ _ I) as Hs. cbn.
    assert (length ns' = length (pg_nodes g)) as ->; [|done].
    assert (forall n, n < length ns' <-> n < length (pg_nodes g)) as Hlt.
    { intros n. rewrite <- !lookup_lt_is_Some, H2. destruct (pg_nodes g !! n); cbn; split; intros []; eauto. }
    pose proof (Hlt (length ns')). pose proof (Hlt (length (pg_nodes g))). lia.
  - pose proof (i_psize _ _ _ I). rewrite Lpm. lia.
Qed.
