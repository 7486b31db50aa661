(** [compact_nodes] and [swap_nodes] (two nodes in use). *)
From Verif Require Export PGOps7 Idx.

Lemma vset_run {A} (x : A) s n l : s + n <= length l ->
  exists l', rfold (fun l p => vset l p x) (seq s n) l = Ok l' /\ length l' = length l /\
    forall p, l' !! p = if decide (s <= p < s + n) then Some x else l !! p.
Proof.
  revert s l. induction n as [|n IH]; intros s l Hl.
  - exists l. split_and!; [done|done|]. intros p. by rewrite decide_False by lia.
  - cbn [seq rfold]. rewrite b_vset by lia.
    destruct (IH (S s) (<[s:=x]> l)) as (l' & -> & Hlen & Hp); [rewrite insert_length; lia|].
    exists l'. rewrite insert_length in Hlen. split_and!; [done|done|]. intros p. rewrite Hp.
    rewrite lookup_insert_if by lia.
    destruct (decide (S s <= p < S s + n)); [by rewrite decide_True by lia|].
    destruct (decide (p = s)); [by rewrite decide_True by lia|]. by rewrite decide_False by lia.
Qed.

Lemma relabel_spec pm n m : nm_first m + (nm_inc m + nm_out m) <= length pm ->
  exists pm', relabel_ports pm n m = Ok pm' /\ length pm' = length pm /\
    (forall d p, in_range m d p -> pm' !! p = Some (PPort n d)) /\
    (forall p, (forall d, ~ in_range m d p) -> pm' !! p = pm !! p).
Proof.
  intros Hl. unfold relabel_ports, nm_ports.
  destruct (vset_run (PPort n Incoming) (nm_start m Incoming) (nm_num m Incoming) pm) as (pm1 & -> & L1 & H1); [cbn; lia|].
  rewrite bind_Ok.
  destruct (vset_run (PPort n Outgoing) (nm_start m Outgoing) (nm_num m Outgoing) pm1) as (pm2 & -> & L2 & H2); [cbn; lia|].
  exists pm2. split_and!; [done|lia| |].
  - intros d p Hr. rewrite H2, H1. unfold in_range in *. destruct d; cbn in *.
    + rewrite decide_False by lia. by rewrite decide_True by lia.
    + by rewrite decide_True by lia.
  - intros p Hr. rewrite H2, H1. pose proof (Hr Incoming). pose proof (Hr Outgoing). unfold in_range in *.
    by rewrite !decide_False by done.
Qed.

Definition is_nnode (e : node_entry) : bool := match e with NNode _ => true | _ => false end.

Lemma is_nnode_Some e : is_nnode e = true -> exists m, e = NNode m.
Proof. destruct e; [done|eauto]. Qed.

Lemma compact_nodes_loop_spec es old new pm :
  (forall i m, es !! i = Some (NNode m) -> nm_first m + (nm_inc m + nm_out m) <= length pm) ->
  (forall i j m m' d d' p, i <> j -> es !! i = Some (NNode m) -> es !! j = Some (NNode m') ->
     in_range m d p -> in_range m' d' p -> False) ->
  exists pm', compact_nodes_loop es old new pm =
      Ok (filter (fun e => is_nnode e = true) es, pm',
          zip (idxs is_nnode es old) (seq new (length (idxs is_nnode es old)))) /\
    length pm' = length pm /\
    (forall i m d p, es !! i = Some (NNode m) -> in_range m d p ->
       pm' !! p = Some (PPort (new + rank is_nnode es i) d)) /\
    (forall p, (forall i m d, es !! i = Some (NNode m) -> ~ in_range m d p) -> pm' !! p = pm !! p).
Proof.
  revert old new pm. induction es as [|e es IH]; intros old new pm Hb Hd.
  - exists pm. done.
  - assert (Hd' : forall i j m m' d d' p, i <> j -> es !! i = Some (NNode m) -> es !! j = Some (NNode m') ->
     in_range m d p -> in_range m' d' p -> False).
    { intros i j m m' d d' p Hne. apply (Hd (S i) (S j)). lia. }
    destruct e as [a b|m].
    + destruct (IH (S old) new pm) as (pm' & E & L & H1 & H2); [intros i; apply (Hb (S i))|done|].
      exists pm'. cbn [compact_nodes_loop idxs is_nnode]. rewrite E.
      rewrite filter_cons_False by done. split_and!; [done|done| |].
      * intros [|i] m d p Hi Hr; [done|]. cbn in *. by apply H1 with m.
      * intros p Hp. apply H2. intros i. apply (Hp (S i)).
    + destruct (relabel_spec pm new m) as (pm1 & E1 & L1 & R1 & R2); [by apply (Hb 0)|].
      destruct (IH (S old) (S new) pm1) as (pm' & E & L & H1 & H2); [|done|].
      { intros i mi Hi. rewrite L1. by apply (Hb (S i)). }
      exists pm'. cbn [compact_nodes_loop idxs is_nnode]. rewrite E1, bind_Ok, E.
      rewrite filter_cons_True by done. split_and!; [done|lia| |].
      * intros [|i] m' d p Hi Hr.
        -- injection Hi as <-. rewrite rank_0, Nat.add_0_r. rewrite H2; [by apply R1|].
           intros i mi di Hi Hri. exact (Hd 0 (S i) _ _ _ _ _ ltac:(lia) eq_refl Hi Hr Hri).
        -- cbn in *. rewrite (H1 i m' d p Hi Hr). do 2 f_equal. lia.
      * intros p Hp. rewrite H2; [|intros i; apply (Hp (S i))]. apply R2. intros d. by apply (Hp 0).
Qed.

Definition node_ids (g : pg) : list nat := idxs is_nnode (pg_nodes g) 0.
Definition node_rank (g : pg) (n : nat) : nat := rank is_nnode (pg_nodes g) n.

Lemma node_ids_elem g n : n ∈ node_ids g <-> is_Some (nmeta g n).
Proof.
  unfold node_ids. rewrite elem_of_idxs, Nat.sub_0_r. unfold nmeta. split.
  - intros [_ (x & -> & Hx)]. destruct x; [done|]. eauto.
  - intros [m Hm]. split; [lia|]. destruct (pg_nodes g !! n) as [[|]|]; [done| |done]. eauto.
Qed.
Lemma node_ids_rank g n : is_Some (nmeta g n) -> node_ids g !! node_rank g n = Some n.
Proof.
  intros [m Hm%nmeta_Some]. unfold node_ids, node_rank. by erewrite idxs_lookup_rank.
Qed.
Lemma node_ids_inv g k n : node_ids g !! k = Some n -> is_Some (nmeta g n) /\ k = node_rank g n.
Proof.
  intros Hk. split; [|by apply idxs_lookup_inv in Hk as [_ ?]]. apply node_ids_elem. by eapply elem_of_list_lookup_2.
Qed.

Record compact_nodes_post (g : pg) (g' : pg) (log : list (nat * nat)) : Prop := {
  cn_log : log = zip (node_ids g) (seq 0 (length (node_ids g)));
  cn_nmeta : forall k, nmeta g' k = node_ids g !! k ≫= nmeta g;
  cn_pmeta : forall p, pmeta g' p = (fun x => (node_rank g x.1, x.2)) <$> pmeta g p;
  cn_link : pg_link g' = pg_link g;
  cn_nc : pg_ncount g' = pg_ncount g;
  cn_pc : pg_pcount g' = pg_pcount g;
  cn_lc : pg_lcount g' = pg_lcount g;
}.

Lemma compact_nodes_spec g fnl F : InvG g fnl F ->
  exists g' log, compact_nodes g = Ok (g', log) /\ InvG g' [] F /\ compact_nodes_post g g' log.
Proof.
  intros I. unfold compact_nodes.
  assert (Hlive : forall i m, pg_nodes g !! i = Some (NNode m) <-> nmeta g i = Some m).
  { intros i m. split; [|apply nmeta_Some]. unfold nmeta. by intros ->. }
  destruct (compact_nodes_loop_spec (pg_nodes g) 0 0 (pg_pmeta g)) as (pm' & -> & L & H1 & H2).
  { intros i m Hm%Hlive. pose proof (inv_meta_ok _ _ _ I _ _ Hm). unfold meta_ok in *. lia. }
  { intros i j m m' d d' p Hne Hi%Hlive Hj%Hlive Hr Hr'.
    pose proof (inv_pmeta_range _ _ _ I _ _ _ _ Hi Hr). pose proof (inv_pmeta_range _ _ _ I _ _ _ _ Hj Hr'). congruence. }
  rewrite bind_Ok. fold (node_ids g).
  set (g' := with_nfree _ _).
  assert (Hnm : forall k, nmeta g' k = node_ids g !! k ≫= nmeta g).
  { intros k. rewrite nmeta_eq. cbn. rewrite (filter_idxs is_nnode _ 0). unfold node_ids.
    destruct (idxs is_nnode (pg_nodes g) 0 !! k) as [i|]; [|done]. cbn. by rewrite Nat.sub_0_r. }
  assert (Hnf : forall k, nfree g' k = None).
  { intros k. rewrite nfree_eq. cbn. destruct (filter _ _ !! k) as [[|]|] eqn:E; [|done|done].
    apply elem_of_list_lookup_2, elem_of_list_filter in E as [E _]. done. }
  assert (Hpm : forall p, pmeta g' p = (fun x => (node_rank g x.1, x.2)) <$> pmeta g p).
  { intros p. rewrite (pmeta_eq g'). cbn. destruct (pmeta g p) as [[n d]|] eqn:E.
    - apply (inv_pmeta _ _ _ I) in E as (m & Hm & Hr). apply Hlive in Hm. rewrite (H1 _ _ _ _ Hm Hr). done.
    - rewrite H2; [by rewrite <- pmeta_eq|]. intros i m d Hm%Hlive Hr.
      by rewrite (inv_pmeta_range _ _ _ I _ _ _ _ Hm Hr) in E. }
  assert (Hpl : forall p, plink g' p = plink g p) by done.
  assert (Hinj : forall k k' n, node_ids g !! k = Some n -> node_ids g !! k' = Some n -> k = k').
  { intros k k' n [_ ->]%node_ids_inv [_ ->]%node_ids_inv. done. }
  eexists g', _. split; [done|]. split; [|split; done].
  destruct (i_counts _ _ _ I) as (C1 & C2 & C3).
  split.
  - cbn. rewrite L. apply I.
  - cbn. rewrite L. split.
    + intros k m Hm. rewrite Hnm in Hm. apply bind_Some in Hm as (n & _ & Hm). by eapply inv_meta_ok.
    + intros p k d. rewrite Hpm. split.
      * destruct (pmeta g p) as [[n d']|] eqn:E; [|done]. cbn. intros [= <- <-].
        apply (inv_pmeta _ _ _ I) in E as (m & Hm & Hr). exists m. split; [|done].
        rewrite Hnm, node_ids_rank by eauto. done.
      * intros (m & Hm & Hr). rewrite Hnm in Hm. apply bind_Some in Hm as (n & Hk & Hm).
        rewrite (inv_pmeta_range _ _ _ I _ _ _ _ Hm Hr). cbn. by apply node_ids_inv in Hk as [_ ->].
  - cbn. rewrite L. destruct (i_slabs _ _ _ I) as [S1 S2 S3 S4 S5]. split; [| |done|done|done].
    + intros k m k' m' Hne Hm Hm'. rewrite Hnm in Hm, Hm'.
      apply bind_Some in Hm as (n & Hk & Hm). apply bind_Some in Hm' as (n' & Hk' & Hm').
      apply (S1 n m n' m'); [|done|done]. intros ->. eauto.
    + intros k m c p Hm. rewrite Hnm in Hm. apply bind_Some in Hm as (n & Hk & Hm). eauto.
  - apply I.
  - destruct (i_links _ _ _ I) as [K1 K2]. split.
    + intros p q n d Hp. rewrite Hpm in Hp. apply fmap_Some in Hp as ([n0 d0] & Hp & [= -> ->]).
      rewrite !Hpl. intros Hl. destruct (K1 _ _ _ _ Hp Hl) as [Hq [n' Hn']]. split; [done|].
      rewrite Hpm, Hn'. cbn. eauto.
    + intros p Hp. rewrite Hpm in Hp. apply fmap_None in Hp. rewrite Hpl. by apply K2.
  - split; cbn; [done|constructor| |done]. intros n. rewrite Hnf, elem_of_nil.
    split; [done|]. by intros [? ?].
  - split_and!; cbn.
    + apply (card_bij (fun n => nmeta g n <> None) _ (node_rank g)); [| |done].
      * intros x y Hx Hy E. assert (node_ids g !! node_rank g x = Some x) as H3.
        { apply node_ids_rank. by apply not_eq_None_Some. }
        assert (node_ids g !! node_rank g y = Some y) as H4.
        { apply node_ids_rank. by apply not_eq_None_Some. }
        rewrite E in H3. congruence.
      * intros k. split.
        -- intros [m Hm]%not_eq_None_Some. rewrite Hnm in Hm. apply bind_Some in Hm as (n & Hk & Hm).
           exists n. apply node_ids_inv in Hk as [? ->]. split; [congruence|done].
        -- intros (n & Hn & ->). rewrite Hnm, node_ids_rank by (by apply not_eq_None_Some). done.
    + eapply card_ext; [|exact C2]. intros p. cbn. rewrite Hpm. by destruct (pmeta g p).
    + eapply card_ext; [|exact C3]. intros p. cbn. rewrite Hpm, Hpl. destruct (pmeta g p) as [[n d]|]; cbn.
      * split; (intros [[x Hx] Hl]; split; [|done]); [injection Hx as -> ->; eauto|].
        injection Hx as ? ->. eauto.
      * split; intros [[x Hx] Hl]; done.
  - cbn. rewrite (filter_length is_nnode _ 0). pose proof (idxs_length is_nnode (pg_nodes g) 0).
    pose proof (i_nsize _ _ _ I). lia.
  - cbn. rewrite L. apply I.
Qed.

(** ** swap_nodes *)
Definition swp (a b x : nat) : nat := if decide (x = a) then b else if decide (x = b) then a else x.
Lemma swp_swp a b x : swp a b (swp a b x) = x.
Proof. unfold swp. repeat case_decide; congruence. Qed.
Lemma swp_inj a b x y : swp a b x = swp a b y -> x = y.
Proof. intros E. by rewrite <- (swp_swp a b x), E, swp_swp. Qed.

Record swap_nodes_post (g : pg) (a b : nat) (g' : pg) : Prop := {
  sn_nmeta : forall n, nmeta g' n = nmeta g (swp a b n);
  sn_pmeta : forall p, pmeta g' p = (fun x => (swp a b x.1, x.2)) <$> pmeta g p;
  sn_link : pg_link g' = pg_link g;
  sn_nc : pg_ncount g' = pg_ncount g;
  sn_pc : pg_pcount g' = pg_pcount g;
  sn_lc : pg_lcount g' = pg_lcount g;
}.

(** Renaming the nodes by an involution keeps the invariant. *)
Lemma rename_nodes_inv g fnl F g' fnl' (sg : nat -> nat) :
  InvG g fnl F ->
  (forall n, sg (sg n) = n) ->
  (forall n, nmeta g' n = nmeta g (sg n)) ->
  (forall p, pmeta g' p = (fun x => (sg x.1, x.2)) <$> pmeta g p) ->
  length (pg_nodes g') = length (pg_nodes g) ->
  length (pg_pmeta g') = length (pg_pmeta g) ->
  pg_link g' = pg_link g ->
  pg_pfree g' = pg_pfree g ->
  pg_ncount g' = pg_ncount g -> pg_pcount g' = pg_pcount g -> pg_lcount g' = pg_lcount g ->
  nfree_ok (pg_nfree g') (nfree g') fnl' ->
  InvG g' fnl' F.
Proof.
  intros I Hsg Hnm Hpm L1 L2 Elk Epf Enc Epc Elc Hnf.
  assert (Hpl : forall p, plink g' p = plink g p) by (intros p; unfold plink; by rewrite Elk).
  assert (Hinj : forall x y, sg x = sg y -> x = y) by (intros x y E; by rewrite <- (Hsg x), E, Hsg).
  destruct (i_counts _ _ _ I) as (C1 & C2 & C3).
  split.
  - rewrite Elk, L2. apply I.
  - rewrite L2. split.
    + intros k m Hm. rewrite Hnm in Hm. by eapply inv_meta_ok.
    + intros p k d. rewrite Hpm. split.
      * destruct (pmeta g p) as [[n d']|] eqn:E; [|done]. cbn. intros [= <- <-].
        apply (inv_pmeta _ _ _ I) in E as (m & Hm & Hr). exists m. by rewrite Hnm, Hsg.
      * intros (m & Hm & Hr). rewrite Hnm in Hm.
        rewrite (inv_pmeta_range _ _ _ I _ _ _ _ Hm Hr). cbn. by rewrite Hsg.
  - rewrite L2. destruct (i_slabs _ _ _ I) as [S1 S2 S3 S4 S5]. split; [| |done|done|done].
    + intros k m k' m' Hne Hm Hm'. rewrite Hnm in Hm, Hm'. apply (S1 (sg k) m (sg k') m'); [|done|done].
      intros E. by apply Hne, Hinj.
    + intros k m c p Hm. rewrite Hnm in Hm. eauto.
  - destruct (i_chains _ _ _ I) as [K1 K2]. rewrite Epf. split; [done|].
    intros k i p. rewrite Hpl. eauto.
  - destruct (i_links _ _ _ I) as [K1 K2]. split.
    + intros p q n d Hp. rewrite Hpm in Hp. apply fmap_Some in Hp as ([n0 d0] & Hp & [= -> ->]).
      rewrite !Hpl. intros Hl. destruct (K1 _ _ _ _ Hp Hl) as [Hq [n' Hn']]. split; [done|].
      rewrite Hpm, Hn'. cbn. eauto.
    + intros p Hp. rewrite Hpm in Hp. apply fmap_None in Hp. rewrite Hpl. by apply K2.
  - done.
  - rewrite Enc, Epc, Elc. split_and!.
    + apply (card_bij (fun n => nmeta g n <> None) _ sg); [| |done].
      * intros x y _ _ E. by apply Hinj.
      * intros k. rewrite Hnm. split.
        -- intros Hk. exists (sg k). by rewrite Hsg.
        -- intros (n & Hn & ->). by rewrite Hsg.
    + eapply card_ext; [|exact C2]. intros p. cbn. rewrite Hpm. by destruct (pmeta g p).
    + eapply card_ext; [|exact C3]. intros p. cbn. rewrite Hpm, Hpl. destruct (pmeta g p) as [[n d]|]; cbn.
      * split; (intros [[x Hx] Hl]; split; [|done]); [injection Hx as -> ->; eauto|].
        injection Hx as ? ->. eauto.
      * split; intros [[x Hx] Hl]; done.
  - rewrite L1. apply I.
  - rewrite L2. apply I.
Qed.

Lemma swap_lookup {A} (ns : list A) a b x y n : ns !! a = Some x -> ns !! b = Some y ->
  <[b:=x]> (<[a:=y]> ns) !! n = ns !! swp a b n.
Proof.
  intros Ha Hb. pose proof (lookup_lt_Some _ _ _ Ha). pose proof (lookup_lt_Some _ _ _ Hb).
  rewrite !lookup_insert_if by (rewrite ?insert_length; done). unfold swp.
  destruct (decide (n = b)) as [->|Hb'].
  - destruct (decide (b = a)) as [->|]; [congruence|]. done.
  - by destruct (decide (n = a)).
Qed.

Lemma swap_nodes_live g fnl F a b : InvG g fnl F -> is_Some (nmeta g a) -> is_Some (nmeta g b) ->
  exists g', swap_nodes g a b = Ok g' /\ InvG g' fnl F /\ swap_nodes_post g a b g'.
Proof.
  intros I [ma Hma] [mb Hmb]. unfold swap_nodes.
  pose proof (nmeta_Some _ _ _ Hma) as La. pose proof (nmeta_Some _ _ _ Hmb) as Lb.
  pose proof (nmeta_lt _ _ _ Hma) as Lta. pose proof (nmeta_lt _ _ _ Hmb) as Ltb.
  pose proof (inv_meta_ok _ _ _ I _ _ Hma) as Oka. pose proof (inv_meta_ok _ _ _ I _ _ Hmb) as Okb.
  rewrite (b_vget _ _ _ _ La), (b_vget _ _ _ _ Lb).
  rewrite b_vset by done. rewrite b_vset by (by rewrite insert_length).
  destruct (relabel_spec (pg_pmeta g) a mb) as (pm1 & E1 & L1 & R1 & R2); [unfold meta_ok in *; lia|].
  rewrite E1, bind_Ok.
  destruct (relabel_spec pm1 b ma) as (pm2 & E2 & L2 & R3 & R4); [unfold meta_ok in *; lia|].
  rewrite E2, bind_Ok. rewrite bind_Ok.
  set (g' := with_pmeta _ _). exists g'. split; [done|].
  assert (Hnm : forall n, nmeta g' n = nmeta g (swp a b n)).
  { intros n. rewrite nmeta_eq. cbn. by rewrite (swap_lookup _ _ _ _ _ _ La Lb). }
  assert (Hnf : forall n, nfree g' n = nfree g n).
  { intros n. rewrite nfree_eq. cbn. rewrite (swap_lookup _ _ _ _ _ _ La Lb). unfold swp.
    rewrite nfree_eq. destruct (decide (n = a)) as [->|]; [by rewrite La, Lb|].
    destruct (decide (n = b)) as [->|]; [by rewrite La, Lb|]. done. }
  assert (Hpm : forall p, pmeta g' p = (fun x => (swp a b x.1, x.2)) <$> pmeta g p).
  { intros p. rewrite (pmeta_eq g'). cbn. unfold swp.
    destruct (pmeta g p) as [[n d]|] eqn:E; cbn.
    - pose proof E as E'. apply (inv_pmeta _ _ _ I) in E as (m & Hm & Hr).
      destruct (decide (n = a)) as [->|Hna].
      { assert (m = ma) as -> by congruence. by rewrite (R3 _ _ Hr). }
      assert (Ha' : forall d', ~ in_range ma d' p).
      { intros d' Hr'. rewrite (inv_pmeta_range _ _ _ I _ _ _ _ Hma Hr') in E'. congruence. }
      rewrite R4 by done.
      destruct (decide (n = b)) as [->|Hnb].
      { assert (m = mb) as -> by congruence. by rewrite (R1 _ _ Hr). }
      rewrite R2; [by rewrite <- pmeta_eq|].
      intros d' Hr'. rewrite (inv_pmeta_range _ _ _ I _ _ _ _ Hmb Hr') in E'. congruence.
    - rewrite R4, R2; [by rewrite <- pmeta_eq| |]; intros d Hr.
      + by rewrite (inv_pmeta_range _ _ _ I _ _ _ _ Hmb Hr) in E.
      + by rewrite (inv_pmeta_range _ _ _ I _ _ _ _ Hma Hr) in E. }
  split; [|by split].
  eapply (rename_nodes_inv g fnl F g' fnl (swp a b)); try done.
  - apply swp_swp.
  - cbn. by rewrite !insert_length.
  - cbn. lia.
  - eapply nfree_ok_ext; [|apply (i_nfree _ _ _ I)]. intros x. by rewrite Hnf.
Qed.

(** A node in use can also be swapped with a free slot that is not the head of
    the list of free slots. *)
Lemma swap_nodes_free g fnl F a b i : InvG g fnl F -> fnl !! S i = Some a -> is_Some (nmeta g b) ->
  exists g', swap_nodes g a b = Ok g' /\ InvG g' (swp a b <$> fnl) F /\ swap_nodes_post g a b g'.
Proof.
  intros I Hia [mb Hmb]. unfold swap_nodes.
  destruct (i_nfree _ _ _ I) as [N1 N2 N3 N4].
  pose proof (N4 _ _ Hia) as Hfa. cbn in Hfa.
  destruct (lookup_lt_is_Some_2 fnl i) as [p Hp]; [apply lookup_lt_Some in Hia; lia|].
  rewrite Hp in Hfa. pose proof (N4 _ _ Hp) as Hfp. rewrite Hia in Hfp.
  set (pp := match i with 0 => None | S j => fnl !! j end) in *.
  pose proof (nfree_Some _ _ _ _ Hfa) as La. pose proof (nmeta_Some _ _ _ Hmb) as Lb.
  pose proof (nfree_Some _ _ _ _ Hfp) as Lp.
  pose proof (lookup_lt_Some _ _ _ La) as Lta. pose proof (nmeta_lt _ _ _ Hmb) as Ltb.
  pose proof (lookup_lt_Some _ _ _ Lp) as Ltp.
  pose proof (inv_meta_ok _ _ _ I _ _ Hmb) as Okb.
  assert (Hbn : b ∉ fnl).
  { rewrite N3. rewrite (nmeta_nfree _ _ _ Hmb). by intros []. }
  assert (Hmem : forall j x, fnl !! j = Some x -> x <> b).
  { intros j x Hj ->. apply Hbn. by eapply elem_of_list_lookup_2. }
  pose proof (Hmem _ _ Hia) as Hab. pose proof (Hmem _ _ Hp) as Hpb.
  assert (Hpa : p <> a). { intros ->. pose proof (NoDup_lookup _ _ _ _ N2 Hp Hia). lia. }
  rewrite (b_vget _ _ _ _ La), (b_vget _ _ _ _ Lb).
  rewrite b_vset by done. rewrite b_vset by (by rewrite insert_length).
  destruct (relabel_spec (pg_pmeta g) a mb) as (pm1 & E1 & L1 & R1 & R2); [unfold meta_ok in *; lia|].
  rewrite E1, bind_Ok, bind_Ok.
  set (ns1 := <[b:=_]> _).
  assert (Hns1 : forall n, ns1 !! n = pg_nodes g !! swp a b n) by (intros; by apply swap_lookup).
  assert (Len1 : length ns1 = length (pg_nodes g)) by (subst ns1; by rewrite !insert_length).
  assert (Hsw : forall j x, fnl !! j = Some x -> x <> a -> swp a b x = x).
  { intros j x Hj Hx. pose proof (Hmem _ _ Hj). unfold swp. by rewrite !decide_False. }
  assert (Hupd : exists ns2, update_free_list ns1 b (Some p) (fnl !! S (S i)) = Ok ns2 /\
    length ns2 = length ns1 /\
    forall n, ns2 !! n = if decide (fnl !! i = Some n) then Some (NFree pp (Some b))
                        else if decide (fnl !! S (S i) = Some n) then Some (NFree (Some b) (fnl !! S (S (S i))))
                        else ns1 !! n).
  { unfold update_free_list.
    rewrite (b_vget _ _ (NFree pp (Some a))) by (rewrite Hns1, (Hsw i p); done).
    rewrite b_vset by lia.
    destruct (fnl !! S (S i)) as [x|] eqn:Hx.
    - pose proof (N4 _ _ Hx) as Hfx. cbn in Hfx. rewrite Hia in Hfx. apply nfree_Some in Hfx.
      assert (Hxa : x <> a). { intros ->. pose proof (NoDup_lookup _ _ _ _ N2 Hx Hia). lia. }
      assert (Hxp : x <> p). { intros ->. pose proof (NoDup_lookup _ _ _ _ N2 Hx Hp). lia. }
      rewrite (b_vget _ _ (NFree (Some a) (fnl !! S (S (S i))))).
      2:{ rewrite lookup_insert_if by lia. rewrite decide_False by done. rewrite Hns1, (Hsw _ _ Hx Hxa). done. }
      pose proof (lookup_lt_Some _ _ _ Hfx).
      eexists. split; [apply vset_ok; rewrite insert_length; lia|]. rewrite !insert_length. split; [done|].
      intros n. rewrite !lookup_insert_if by (rewrite ?insert_length; lia). rewrite Hp.
      destruct (decide (n = x)) as [->|].
      + rewrite decide_False by congruence. by rewrite decide_True.
      + rewrite (decide_False (P := Some x = Some n)) by congruence.
        destruct (decide (n = p)) as [->|]; [by rewrite decide_True|]. by rewrite decide_False by congruence.
    - eexists. split; [done|]. rewrite insert_length. split; [done|]. intros n.
      rewrite lookup_insert_if by lia. rewrite Hp.
      destruct (decide (n = p)) as [->|]; [by rewrite decide_True|].
      rewrite decide_False by congruence. by rewrite decide_False by done. }
  destruct Hupd as (ns2 & E2 & Len2 & Hns2). rewrite E2, bind_Ok.
  set (g' := with_pmeta _ _). exists g'. split; [done|].
  assert (Hlive : forall n m, ns2 !! n = Some (NNode m) <-> ns1 !! n = Some (NNode m)).
  { intros n m. rewrite Hns2.
    destruct (decide (fnl !! i = Some n)) as [E|].
    { assert (n = p) as -> by congruence. split; [done|]. rewrite Hns1, (Hsw _ _ Hp Hpa), Lp. done. }
    destruct (decide (fnl !! S (S i) = Some n)) as [E|]; [|done].
    split; [done|]. assert (n <> a). { intros ->. pose proof (NoDup_lookup _ _ _ _ N2 E Hia). lia. }
    pose proof (N4 _ _ E) as Hfx%nfree_Some. by rewrite Hns1, (Hsw _ _ E), Hfx. }
  assert (Hnm : forall n, nmeta g' n = nmeta g (swp a b n)).
  { intros n. unfold nmeta at 2. rewrite <- Hns1. rewrite nmeta_eq. cbn.
    destruct (ns1 !! n) as [[x y|m]|] eqn:E.
    - destruct (ns2 !! n) as [[|m]|] eqn:E'; [done| |done]. apply Hlive in E'. congruence.
    - apply Hlive in E. by rewrite E.
    - destruct (ns2 !! n) as [[|m]|] eqn:E'; [done| |done]. apply Hlive in E'. congruence. }
  assert (Hpm : forall q, pmeta g' q = (fun x => (swp a b x.1, x.2)) <$> pmeta g q).
  { intros q. rewrite (pmeta_eq g'). cbn. unfold swp.
    destruct (pmeta g q) as [[n d]|] eqn:E; cbn.
    - pose proof E as E'. apply (inv_pmeta _ _ _ I) in E as (m & Hm & Hr).
      destruct (decide (n = a)) as [->|Hna].
      { apply nmeta_nfree in Hm. congruence. }
      destruct (decide (n = b)) as [->|Hnb].
      { assert (m = mb) as -> by congruence. by rewrite (R1 _ _ Hr). }
      rewrite R2; [by rewrite <- pmeta_eq|].
      intros d' Hr'. rewrite (inv_pmeta_range _ _ _ I _ _ _ _ Hmb Hr') in E'. congruence.
    - rewrite R2; [by rewrite <- pmeta_eq|]; intros d Hr.
      by rewrite (inv_pmeta_range _ _ _ I _ _ _ _ Hmb Hr) in E. }
  split; [|by split].
  eapply (rename_nodes_inv g fnl F g' _ (swp a b)); try done.
  - apply swp_swp.
  - cbn. lia.
  - assert (Hlk : forall j, (swp a b <$> fnl) !! j = swp a b <$> fnl !! j) by (intros; apply list_lookup_fmap).
    assert (Hchain : forall j n, (swp a b <$> fnl) !! j = Some n ->
      nfree g' n = Some (match j with 0 => None | S j => (swp a b <$> fnl) !! j end, (swp a b <$> fnl) !! S j)).
    { intros j n Hj. rewrite Hlk in Hj. apply fmap_Some in Hj as (n0 & Hj & ->).
      rewrite nfree_eq. cbn. rewrite Hns2.
      pose proof (N4 _ _ Hj) as Hf%nfree_Some. rewrite !Hlk.
      destruct (decide (n0 = a)) as [->|Hn0].
      { pose proof (NoDup_lookup _ _ _ _ N2 Hj Hia) as ->.
        assert (swp a b a = b) as -> by (unfold swp; by rewrite decide_True).
        rewrite Hp. rewrite decide_False by congruence.
        rewrite decide_False by (intros E; by apply Hmem in E).
        rewrite Hns1. assert (swp a b b = a) as ->.
        { unfold swp. rewrite decide_False by done. by rewrite decide_True. }
        rewrite La. cbn. rewrite Hlk, Hp. cbn. rewrite (Hsw _ _ Hp Hpa).
        destruct (fnl !! S (S i)) as [x|] eqn:Hx; [|done]. cbn. rewrite (Hsw _ _ Hx); [done|].
        intros ->. pose proof (NoDup_lookup _ _ _ _ N2 Hx Hia). lia. }
      rewrite (Hsw _ _ Hj Hn0).
      assert (Hab' : swp a b a = b) by (unfold swp; by rewrite decide_True).
      destruct (decide (fnl !! i = Some n0)) as [E|E].
      { pose proof (NoDup_lookup _ _ _ _ N2 Hj E) as ->. rewrite Hia. cbn. rewrite Hab'.
        subst pp. destruct i as [|i']; [done|]. rewrite Hlk.
        destruct (fnl !! i') as [x|] eqn:Hx; [|done]. cbn. rewrite (Hsw _ _ Hx); [done|].
        intros ->. pose proof (NoDup_lookup _ _ _ _ N2 Hx Hia). lia. }
      destruct (decide (fnl !! S (S i) = Some n0)) as [E'|E'].
      { pose proof (NoDup_lookup _ _ _ _ N2 Hj E') as ->. cbn. rewrite Hlk, Hia. cbn. rewrite Hab'.
        destruct (fnl !! S (S (S i))) as [x|] eqn:Hx; [|done]. cbn. rewrite (Hsw _ _ Hx); [done|].
        intros ->. pose proof (NoDup_lookup _ _ _ _ N2 Hx Hia). lia. }
      rewrite Hns1, (Hsw _ _ Hj Hn0), Hf. cbn. f_equal. f_equal.
      - destruct j as [|j']; [done|]. rewrite Hlk. destruct (fnl !! j') as [x|] eqn:Hx; [|done]. cbn.
        rewrite (Hsw _ _ Hx); [done|]. intros ->. pose proof (NoDup_lookup _ _ _ _ N2 Hx Hia). by subst.
      - destruct (fnl !! S j) as [x|] eqn:Hx; [|done]. cbn.
        rewrite (Hsw _ _ Hx); [done|]. intros ->. pose proof (NoDup_lookup _ _ _ _ N2 Hx Hia) as [= ->]. by subst. }
    split.
    + cbn. rewrite Hlk, N1. destruct (fnl !! 0) as [x|] eqn:Hx; [|done]. cbn.
      rewrite (Hsw _ _ Hx); [done|]. intros ->. pose proof (NoDup_lookup _ _ _ _ N2 Hx Hia). lia.
    + apply NoDup_fmap; [|done]. intros x y. apply swp_inj.
    + intros n. split.
      * intros (j & Hj)%elem_of_list_lookup. rewrite (Hchain _ _ Hj). eauto.
      * intros Hn. apply elem_of_list_fmap. exists (swp a b n). split; [by rewrite swp_swp|].
        apply N3. revert Hn. unfold nfree. cbn. rewrite <- Hns1, Hns2.
        intros Hn. destruct (decide (fnl !! i = Some n)) as [E|].
        { assert (n = p) as -> by congruence. rewrite Hns1, (Hsw _ _ Hp Hpa), Lp. eauto. }
        destruct (decide (fnl !! S (S i) = Some n)) as [E|]; [|done].
        assert (n <> a). { intros ->. pose proof (NoDup_lookup _ _ _ _ N2 E Hia). lia. }
        pose proof (N4 _ _ E) as Hfx%nfree_Some. rewrite Hns1, (Hsw _ _ E), Hfx by done. eauto.
    + exact Hchain.
Qed.
