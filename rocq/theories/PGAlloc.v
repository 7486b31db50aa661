(** Effect of the allocation helpers of [PortGraph]. *)
From Verif Require Export PGInv.

Lemma seq_app_inv s n dn x rest :
  seq s n = dn ++ x :: rest -> x = s + length dn /\ length dn < n.
Proof.
  intros H.
  assert (Hl : seq s n !! length dn = Some x) by (rewrite H; by apply list_lookup_middle).
  apply lookup_seq in Hl. lia.
Qed.

Ltac mstep :=
  lazymatch goal with
  | |- context [mbind _ (vget ?l ?i)] => erewrite (vget_ok l i) by (eauto; fail); rewrite bind_Ok
  | |- context [mbind _ (vset ?l ?i ?x)] => rewrite (vset_ok l i x) by (cbn; rewrite ?insert_length; lia); rewrite bind_Ok
  | |- context [mbind _ (usub ?a ?b)] => rewrite (usub_ok a b) by lia; rewrite bind_Ok
  end.

(** ** Nodes *)
Lemma alloc_node_spec g fnl :
  nfree_ok (pg_nfree g) (nfree g) fnl ->
  (N.of_nat (length (pg_nodes g)) <= max_index + 1)%N ->
  match alloc_node g with
  | Panic => fnl = [] /\ N.of_nat (length (pg_nodes g)) = (max_index + 1)%N
  | Ok (g', n) =>
      nmeta g n = None /\ (forall x, nmeta g' x = nmeta g x) /\
      n < length (pg_nodes g') /\ (N.of_nat (length (pg_nodes g')) <= max_index + 1)%N /\
      length (pg_nodes g) <= length (pg_nodes g') /\
      pg_link g' = pg_link g /\ pg_pmeta g' = pg_pmeta g /\ pg_pfree g' = pg_pfree g /\
      pg_ncount g' = pg_ncount g /\ pg_pcount g' = pg_pcount g /\ pg_lcount g' = pg_lcount g /\
      (fnl = [] -> n = length (pg_nodes g)) /\
      (forall h, fnl !! 0 = Some h -> n = h) /\
      nfree_ok (pg_nfree g') (fun x => if decide (x = n) then None else nfree g' x) (tail fnl)
  end.
Proof.
  intros Hnf Hsz. unfold alloc_node.
  destruct fnl as [|n fnl].
  - rewrite (nf_head _ _ _ Hnf). cbn. unfold idx_new.
    destruct (N.of_nat (length (pg_nodes g)) <=? max_index)%N eqn:E; cbn; [|split; [done|lia]].
    split_and!; try done; rewrite ?app_length; cbn; try lia.
    + apply nmeta_ge. lia.
    + intros x. rewrite !nmeta_eq. cbn. destruct (decide (x < length (pg_nodes g))).
      * by rewrite lookup_app_l.
      * rewrite (lookup_ge_None_2 (pg_nodes g)) by lia.
        destruct (decide (x = length (pg_nodes g))) as [->|].
        -- by rewrite list_lookup_middle.
        -- rewrite lookup_ge_None_2; [done|]. rewrite app_length. cbn. lia.
    + rewrite (nf_head _ _ _ Hnf). cbn. split; [done|constructor| |by intros ? ? ?].
      intros x. split; [by intros ?%elem_of_nil|]. case_decide as Hx; [by intros []|].
      intros Hs. exfalso. apply (not_elem_of_nil x). apply (nf_mem _ _ _ Hnf). revert Hs.
      rewrite !nfree_eq. cbn.
      destruct (decide (x < length (pg_nodes g))).
      * by rewrite lookup_app_l.
      * rewrite lookup_ge_None_2; [by intros []|]. rewrite app_length. cbn. lia.
  - pose proof (nf_chain _ _ _ Hnf 0 n eq_refl) as Hn. cbn in Hn.
    pose proof (nfree_Some _ _ _ _ Hn) as Hn'.
    assert (Hnm : nmeta g n = None) by (by rewrite nmeta_eq, Hn').
    pose proof (lookup_lt_Some _ _ _ Hn') as Hlt.
    rewrite (nf_head _ _ _ Hnf). cbn. rewrite (vget_ok _ _ _ Hn'). cbn.
    pose proof (nf_nodup _ _ _ Hnf) as Hnd. apply NoDup_cons in Hnd as [Hnin Hnd].
    destruct fnl as [|x fnl]; cbn.
    + split_and!; try done; [congruence|].
      split; [done|done| |by intros ? ? ?].
      intros y. split; [by intros ?%elem_of_nil|]. case_decide as Hx; [by intros []|].
      intros Hs%(nf_mem _ _ _ Hnf). apply elem_of_list_singleton in Hs. done.
    + pose proof (nf_chain _ _ _ Hnf 1 x eq_refl) as Hx. cbn in Hx.
      pose proof (nfree_Some _ _ _ _ Hx) as Hx'.
      pose proof (lookup_lt_Some _ _ _ Hx') as Hltx.
      rewrite (vget_ok _ _ _ Hx'). cbn. rewrite vset_ok by done. cbn.
      assert (Hnx : n <> x) by (intros ->; apply Hnin; constructor).
      split_and!; try done; rewrite ?insert_length; try done.
      * intros y. rewrite !nmeta_eq. cbn. rewrite lookup_insert_if by done.
        case_decide as E; [|done]. by rewrite E, Hx'.
      * congruence.
      * cbn. split; [done|done| |].
        -- intros y. rewrite nfree_eq. cbn. rewrite lookup_insert_if by done.
           case_decide as E1.
           ++ subst. split; [|by intros []]. done.
           ++ case_decide as E2.
              ** subst. split; [by eexists|]. intros _. constructor.
              ** rewrite <- nfree_eq, <- (nf_mem _ _ _ Hnf), !elem_of_cons. tauto.
        -- intros i y Hy. rewrite nfree_eq. cbn. rewrite lookup_insert_if by done.
           assert (y <> n) by (intros ->; apply Hnin; by eapply elem_of_list_lookup_2).
           rewrite decide_False by done.
           destruct i as [|i].
           ++ cbn in Hy. injection Hy as ->. by rewrite decide_True.
           ++ rewrite decide_False.
              ** rewrite <- nfree_eq. by rewrite (nf_chain _ _ _ Hnf (S (S i)) y Hy).
              ** intros ->. cbn in Hy. apply NoDup_cons in Hnd as [Hnin' _]. apply Hnin'.
                 by eapply elem_of_list_lookup_2.
Qed.

Lemma free_node_spec g fnl n m :
  nfree_ok (pg_nfree g) (nfree g) fnl ->
  nmeta g n = Some m ->
  exists g', free_node g n = Ok g' /\
    (forall x, nmeta g' x = if decide (x = n) then None else nmeta g x) /\
    length (pg_nodes g') = length (pg_nodes g) /\
    pg_link g' = pg_link g /\ pg_pmeta g' = pg_pmeta g /\ pg_pfree g' = pg_pfree g /\
    pg_ncount g' = pg_ncount g /\ pg_pcount g' = pg_pcount g /\ pg_lcount g' = pg_lcount g /\
    nfree_ok (pg_nfree g') (nfree g') (n :: fnl).
Proof.
  intros Hnf Hm. pose proof (nmeta_lt _ _ _ Hm) as Hlt.
  pose proof (nmeta_Some _ _ _ Hm) as Hm'.
  assert (Hnin : n ∉ fnl).
  { rewrite (nf_mem _ _ _ Hnf), (nmeta_nfree _ _ _ Hm). by intros []. }
  unfold free_node. rewrite (nf_head _ _ _ Hnf). destruct fnl as [|h fnl].
  - cbn. rewrite vset_ok by done. cbn. eexists. split; [done|].
    split_and!; try done; cbn; rewrite ?insert_length; try done.
    + intros x. rewrite !nmeta_eq. cbn. rewrite lookup_insert_if by done. by case_decide.
    + split; [done|by apply NoDup_singleton| |].
      * intros x. rewrite nfree_eq. cbn. rewrite lookup_insert_if by done.
        rewrite elem_of_list_singleton. case_decide as E; [naive_solver|].
        split; [done|]. intros Hs%(nf_mem _ _ _ Hnf). by apply elem_of_nil in Hs.
      * intros i x Hi. destruct i; [|done]. cbn in Hi. injection Hi as ->.
        rewrite nfree_eq. cbn. by rewrite lookup_insert_if, decide_True.
  - pose proof (nf_chain _ _ _ Hnf 0 h eq_refl) as Hh. cbn in Hh.
    pose proof (nfree_Some _ _ _ _ Hh) as Hh'.
    pose proof (lookup_lt_Some _ _ _ Hh') as Hlth.
    cbn. rewrite (vget_ok _ _ _ Hh'). cbn. rewrite vset_ok by done. cbn.
    rewrite vset_ok by (by rewrite insert_length). cbn. eexists. split; [done|].
    assert (Hnh : n <> h) by (intros ->; apply Hnin; constructor).
    pose proof (nf_nodup _ _ _ Hnf) as Hnd.
    split_and!; try done; cbn; rewrite ?insert_length; try done.
    + intros x. rewrite !nmeta_eq. cbn. rewrite lookup_insert_if by (by rewrite insert_length).
      case_decide as E; [done|]. rewrite lookup_insert_if by done.
      case_decide as E2; [|done]. by rewrite E2, Hh'.
    + split; [done|by apply NoDup_cons| |].
      * intros x. rewrite nfree_eq. cbn. rewrite lookup_insert_if by (by rewrite insert_length).
        rewrite lookup_insert_if by done.
        rewrite elem_of_cons. case_decide as E; [naive_solver|].
        case_decide as E2.
        -- subst. split; [by eexists|]. intros _. right. constructor.
        -- rewrite <- nfree_eq, <- (nf_mem _ _ _ Hnf). naive_solver.
      * intros i x Hi. rewrite nfree_eq. cbn. rewrite lookup_insert_if by (by rewrite insert_length).
        rewrite lookup_insert_if by done. destruct i as [|i].
        -- cbn in Hi. injection Hi as ->. by rewrite decide_True.
        -- cbn in Hi. rewrite decide_False.
           2:{ intros ->. apply Hnin. by eapply elem_of_list_lookup_2. }
           destruct i as [|i].
           ++ cbn in Hi. injection Hi as ->. by rewrite decide_True.
           ++ rewrite decide_False.
              ** rewrite <- nfree_eq. by rewrite (nf_chain _ _ _ Hnf (S i) x Hi).
              ** intros ->. cbn in Hi. apply NoDup_cons in Hnd as [Hnin' _]. apply Hnin'.
                 by eapply elem_of_list_lookup_2.
Qed.

(** ** Ports *)
Record alloc_post (g : pg) (F : nat -> list nat) (n inc out r : nat)
    (g' : pg) (m' : node_meta) (F' : nat -> list nat) : Prop := {
  ap_inc : nm_inc m' = inc;
  ap_out : nm_out m' = out;
  ap_cap : nm_cap m' = r;
  ap_nodes : pg_nodes g' = pg_nodes g;
  ap_nfree : pg_nfree g' = pg_nfree g;
  ap_nc : pg_ncount g' = pg_ncount g;
  ap_pc : pg_pcount g' = pg_pcount g;
  ap_lc : pg_lcount g' = pg_lcount g;
  ap_len : length (pg_link g') = length (pg_pmeta g');
  ap_le : length (pg_pmeta g) <= length (pg_pmeta g');
  ap_sz : (N.of_nat (length (pg_pmeta g)) <= max_index + 1 -> N.of_nat (length (pg_pmeta g')) <= max_index + 1)%N;
  ap_ok : meta_ok (length (pg_pmeta g')) m';
  ap_slabs : slabs_ok (nmeta g) F' (length (pg_pmeta g'));
  ap_chains : chains_ok (pg_pfree g') (plink g') F';
  ap_sub : forall k p, p ∈ F' k -> p ∈ F k;
  ap_pop : forall k p, p ∈ F k -> p ∈ F' k \/ in_slab m' p;
  ap_dl : forall n1 m1, nmeta g n1 = Some m1 -> disj (nm_first m') (nm_cap m') (nm_first m1) (nm_cap m1);
  ap_df : forall k p, p ∈ F' k -> disj (nm_first m') (nm_cap m') p (S k);
  ap_pmeta : forall p, pmeta g' p =
      if decide (in_range m' Incoming p) then Some (n, Incoming)
      else if decide (in_range m' Outgoing p) then Some (n, Outgoing)
      else if decide (in_slab m' p) then None else pmeta g p;
  ap_plink : forall p, plink g' p = if decide (in_slab m' p) then None else plink g p;
}.

Lemma nm_new_ok s inc out cap :
  (N.of_nat inc <= 65534)%N -> (N.of_nat out <= 65535)%N -> inc + out <= cap -> 0 < cap ->
  nm_new s inc out cap = Ok (NM s inc out cap).
Proof.
  intros. unfold nm_new.
  rewrite (assert_ok (N.of_nat inc <=? 65534)%N) by lia. rewrite bind_Ok.
  rewrite (assert_ok (N.of_nat out <=? 65535)%N) by lia. rewrite bind_Ok.
  rewrite (assert_ok (_ <=? N.of_nat cap)%N) by lia. rewrite bind_Ok.
  rewrite bool_decide_true by done. done.
Qed.

Lemma alloc_ports_spec g F n inc out extra :
  length (pg_link g) = length (pg_pmeta g) ->
  slabs_ok (nmeta g) F (length (pg_pmeta g)) ->
  (forall n m, nmeta g n = Some m -> nm_first m + nm_cap m <= length (pg_pmeta g)) ->
  chains_ok (pg_pfree g) (plink g) F ->
  (N.of_nat inc <= 65534)%N -> (N.of_nat (inc + out + extra) <= 65535)%N ->
  match alloc_ports g n inc out extra with
  | Panic => (max_index + 1 < N.of_nat (length (pg_pmeta g) + (inc + out + extra)))%N
  | Ok (g', m') => exists F', alloc_post g F n inc out (inc + out + extra) g' m' F'
  end.
Proof.
  intros Hlen Hsl Hmo [Hch1 Hch2] Hinc Hr. unfold alloc_ports.
  set (r := inc + out + extra) in *.
  assert (Hrdef : r = inc + out + extra) by done. clearbody r.
  case_decide as Hr0.
  { exists F. assert (inc = 0 /\ out = 0) as [-> ->] by lia.
    split; cbn; rewrite ?Hr0; try done; try (by left); try (by intros; left).
    unfold meta_ok; cbn; lia. }
  rewrite !trunc16_id by lia.
  destruct (pg_pfree g !! (r - 1)) as [[s|]|] eqn:Epf.
  - (* reuse a free slab *)
    set (k := r - 1) in *. assert (HSk : S k = r) by (unfold k; lia). clearbody k.
    pose proof (Hch1 k) as Hk. rewrite Epf in Hk. cbn in Hk.
    destruct (F k) as [|s' Fk] eqn:EFk; [done|]. cbn in Hk. injection Hk as ->.
    assert (HsF : s ∈ F k) by (rewrite EFk; constructor).
    pose proof (sl_bound _ _ _ Hsl _ _ HsF) as Hb.
    assert (Hsr : s + r <= length (pg_pmeta g)) by lia.
    pose proof (Hch2 k 0 s) as Hnx. rewrite EFk in Hnx. specialize (Hnx eq_refl). cbn in Hnx.
    rewrite (b_vget _ _ (plink g s)) by (apply plink_lookup; lia).
    rewrite b_vset by lia.
    rewrite b_vset by (by eapply lookup_lt_Some).
    rewrite nm_new_ok by lia. rewrite bind_Ok. cbn [nm_first nm_inc nm_out nm_cap nm_total].
    unfold nm_total. cbn [nm_first nm_inc nm_out nm_cap].
    rewrite b_vfill by lia.
    rewrite b_vfill by (rewrite inserts_length; lia).
    rewrite bool_decide_true by lia. rewrite b_assert by done.
    rewrite b_vfill by (rewrite !inserts_length; lia).
    rewrite b_vfill by (rewrite insert_length; lia).
    set (F' := fun k' => if decide (k' = k) then Fk else F k').
    assert (Hsub : forall k p, p ∈ F' k -> p ∈ F k).
    { intros k' p. unfold F'. case_decide as E; [|done]. rewrite E, EFk. by right. }
    assert (HnF' : forall k', s ∉ F' k').
    { intros k' Hin. unfold F' in Hin. case_decide as E.
      - pose proof (sl_nodup _ _ _ Hsl k) as Hnd. rewrite EFk in Hnd.
        apply NoDup_cons in Hnd as [? _]. done.
      - assert (Hd : disj s (S k) s (S k')).
        { apply (sl_free _ _ _ Hsl); [done|done|]. congruence. }
        unfold disj in Hd. lia. }
    assert (Hdf : forall k' p, p ∈ F' k' -> disj s r p (S k')).
    { intros k' p Hp. assert (Hd : disj s (S k) p (S k')).
      { apply (sl_free _ _ _ Hsl); [done|by apply Hsub|]. intros [= <- <-]. by apply (HnF' k). }
      unfold disj in *. lia. }
    exists F'. split; cbn; rewrite ?inserts_length, ?insert_length; try done.
    + unfold meta_ok. cbn. lia.
    + split.
      * apply (sl_live _ _ _ Hsl).
      * intros. eapply (sl_mixed _ _ _ Hsl); eauto.
      * intros. eapply (sl_free _ _ _ Hsl); eauto.
      * intros. eapply (sl_bound _ _ _ Hsl); eauto.
      * intros k'. unfold F'. case_decide; [|apply (sl_nodup _ _ _ Hsl)].
        pose proof (sl_nodup _ _ _ Hsl k) as Hnd. rewrite EFk in Hnd.
        by apply NoDup_cons in Hnd as [_ ?].
    + assert (Hpl' : forall p, mjoin (list_inserts s (replicate r None) (<[s:=None]> (pg_link g)) !! p)
              = if decide (s <= p < s + r) then None else plink g p).
      { intros p. rewrite lookup_fill by (rewrite insert_length; lia).
        case_decide; [done|]. rewrite lookup_insert_if by lia. rewrite decide_False by lia.
        by rewrite plink_eq. }
      split.
      * intros k'. rewrite lookup_insert_if by (by eapply lookup_lt_Some).
        unfold F'. case_decide as E; [subst; cbn; by rewrite Hnx|]. apply Hch1.
      * intros k' i p Hp. rewrite plink_eq. cbn. rewrite Hpl'.
        assert (HpF : p ∈ F' k') by (by eapply elem_of_list_lookup_2).
        pose proof (Hdf _ _ HpF) as Hd. unfold disj in Hd.
        rewrite decide_False by lia.
        unfold F' in *. case_decide as E.
        -- subst k'. pose proof (Hch2 k (S i) p) as Hc. rewrite EFk in Hc. by apply Hc.
        -- by apply Hch2.
    + intros k' p Hp. unfold F'. case_decide as E; [|by left]. subst k'.
      rewrite EFk in Hp. apply elem_of_cons in Hp as [->|?]; [|by left].
      right. unfold in_slab. cbn. lia.
    + intros n1 m1 Hm1. pose proof (sl_mixed _ _ _ Hsl _ _ _ _ Hm1 HsF) as Hd.
      unfold disj in *. lia.
    + intros p. rewrite pmeta_eq. cbn.
      rewrite lookup_fill by (rewrite !inserts_length; lia).
      rewrite lookup_fill by (rewrite !inserts_length; lia).
      rewrite lookup_fill by lia.
      rewrite pmeta_eq. unfold in_range, in_slab. cbn.
      destruct (decide (s <= p < s + inc)).
      { rewrite (decide_False (P := s + (out + inc) <= p < _)) by lia.
        rewrite (decide_False (P := s + inc <= p < _)) by lia. done. }
      destruct (decide (s + inc <= p < s + inc + out)).
      { rewrite (decide_False (P := s + (out + inc) <= p < _)) by lia. done. }
      destruct (decide (s <= p < s + r)).
      { rewrite decide_True by lia. done. }
      rewrite decide_False by lia. done.
    + intros p. rewrite plink_eq. cbn. rewrite lookup_fill by (rewrite insert_length; lia).
      unfold in_slab. cbn.
      case_decide; [rewrite decide_True by lia; done|].
      rewrite lookup_insert_if by lia. rewrite !decide_False by lia.
      by rewrite plink_eq.
  - (* empty list for this size *)
    assert (HFk : F (r - 1) = []).
    { pose proof (Hch1 (r - 1)) as Hk. rewrite Epf in Hk. by destruct (F (r - 1)). }
    clear HFk.
    unfold idx_new. destruct (_ <=? max_index)%N eqn:Esz; cbn; [|lia].
    rewrite nm_new_ok by lia. cbn.
    exists F. split; cbn; rewrite ?resize_length; try done; try lia.
    + unfold meta_ok. cbn. lia.
    + split; try apply Hsl. intros k p Hp. pose proof (sl_bound _ _ _ Hsl _ _ Hp). lia.
    + split; [done|]. intros k i p Hp. rewrite plink_eq. cbn.
      rewrite lookup_resize_if by lia.
      assert (HpF : p ∈ F k) by (by eapply elem_of_list_lookup_2).
      pose proof (sl_bound _ _ _ Hsl _ _ HpF). rewrite decide_True by lia.
      rewrite <- plink_eq. by apply Hch2.
    + by left.
    + intros n1 m1 Hm1. apply Hmo in Hm1. unfold disj. lia.
    + intros k p Hp. pose proof (sl_bound _ _ _ Hsl _ _ Hp). unfold disj. lia.
    + intros p. rewrite pmeta_eq. cbn.
      rewrite lookup_resize_if by (rewrite !resize_length; lia).
      rewrite lookup_resize_if by (rewrite !resize_length; lia).
      rewrite lookup_resize_if by lia.
      rewrite !resize_length, pmeta_eq. unfold in_range, in_slab. cbn.
      set (L := length (pg_pmeta g)) in *.
      destruct (decide (p < L)).
      { rewrite !(decide_True (P := p < _)) by lia. repeat (rewrite decide_False by lia). done. }
      rewrite (lookup_ge_None_2 (pg_pmeta g)) by (fold L; lia).
      destruct (decide (L <= p < L + inc)).
      { rewrite !(decide_True (P := p < _)) by lia. done. }
      destruct (decide (L + inc <= p < L + inc + out)).
      { rewrite (decide_True (P := p < L + inc + out)) by lia. rewrite decide_False by lia.
        rewrite decide_True by lia. done. }
      rewrite (decide_False (P := p < L + inc + out)) by lia.
      repeat case_decide; done.
    + intros p. rewrite plink_eq. cbn. rewrite lookup_resize_if by lia.
      unfold in_slab. cbn. rewrite Hlen.
      destruct (decide (p < length (pg_pmeta g))).
      { rewrite decide_False by lia. by rewrite plink_eq. }
      rewrite plink_ge by lia. repeat case_decide; done.
  - unfold idx_new. destruct (_ <=? max_index)%N eqn:Esz; cbn; [|lia].
    rewrite nm_new_ok by lia. cbn.
    exists F. split; cbn; rewrite ?resize_length; try done; try lia.
    + unfold meta_ok. cbn. lia.
    + split; try apply Hsl. intros k p Hp. pose proof (sl_bound _ _ _ Hsl _ _ Hp). lia.
    + split; [done|]. intros k i p Hp. rewrite plink_eq. cbn.
      rewrite lookup_resize_if by lia.
      assert (HpF : p ∈ F k) by (by eapply elem_of_list_lookup_2).
      pose proof (sl_bound _ _ _ Hsl _ _ HpF). rewrite decide_True by lia.
      rewrite <- plink_eq. by apply Hch2.
    + by left.
    + intros n1 m1 Hm1. apply Hmo in Hm1. unfold disj. lia.
    + intros k p Hp. pose proof (sl_bound _ _ _ Hsl _ _ Hp). unfold disj. lia.
    + intros p. rewrite pmeta_eq. cbn.
      rewrite lookup_resize_if by (rewrite !resize_length; lia).
      rewrite lookup_resize_if by (rewrite !resize_length; lia).
      rewrite lookup_resize_if by lia.
      rewrite !resize_length, pmeta_eq. unfold in_range, in_slab. cbn.
      set (L := length (pg_pmeta g)) in *.
      destruct (decide (p < L)).
      { rewrite !(decide_True (P := p < _)) by lia. repeat (rewrite decide_False by lia). done. }
      rewrite (lookup_ge_None_2 (pg_pmeta g)) by (fold L; lia).
      destruct (decide (L <= p < L + inc)).
      { rewrite !(decide_True (P := p < _)) by lia. done. }
      destruct (decide (L + inc <= p < L + inc + out)).
      { rewrite (decide_True (P := p < L + inc + out)) by lia. rewrite decide_False by lia.
        rewrite decide_True by lia. done. }
      rewrite (decide_False (P := p < L + inc + out)) by lia.
      repeat case_decide; done.
    + intros p. rewrite plink_eq. cbn. rewrite lookup_resize_if by lia.
      unfold in_slab. cbn. rewrite Hlen.
      destruct (decide (p < length (pg_pmeta g))).
      { rewrite decide_False by lia. by rewrite plink_eq. }
      rewrite plink_ge by lia. repeat case_decide; done.
Qed.
