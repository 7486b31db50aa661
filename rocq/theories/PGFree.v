(** Effect of [free_ports] and [unlink_port]. *)
From Verif Require Export PGAlloc.

(** [pl] with every link touching the interval [s, e) removed. *)
Definition cutr (s e : nat) (pl : nat -> option nat) (p : nat) : option nat :=
  match pl p with
  | Some q => if decide (s <= p < e \/ (s <= q < e /\ pl q = Some p)) then None else Some q
  | None => None
  end.

Record free_loop (g : pg) (O : nat -> Prop) (s e : nat) (g' : pg) : Prop := {
  fl_nodes : pg_nodes g' = pg_nodes g;
  fl_nfree : pg_nfree g' = pg_nfree g;
  fl_nc : pg_ncount g' = pg_ncount g;
  fl_pc : pg_pcount g' = pg_pcount g;
  fl_pf : pg_pfree g' = pg_pfree g;
  fl_len1 : length (pg_link g') = length (pg_link g);
  fl_len2 : length (pg_pmeta g') = length (pg_pmeta g);
  fl_pmeta : forall p, pmeta g' p = if decide (s <= p < e) then None else pmeta g p;
  fl_plink : forall p, plink g' p = cutr s e (plink g) p;
  fl_card : card (fun p => O p /\ plink g' p <> None) (pg_lcount g');
}.

Lemma free_loop_spec g (O : nat -> Prop) s size :
  length (pg_link g) = length (pg_pmeta g) ->
  s + size <= length (pg_pmeta g) ->
  (forall i q, s <= i < s + size -> plink g i = Some q ->
     plink g q = Some i /\ q <> i /\ (O i <-> ~ O q)) ->
  card (fun p => O p /\ plink g p <> None) (pg_lcount g) ->
  exists g', rfold free_port_step (seq s size) g = Ok g' /\ free_loop g O s (s + size) g'.
Proof.
  intros Hlen Hb Hsym Hcard.
  destruct (rfold_ok free_port_step (fun dn g' => free_loop g O s (s + length dn) g') (seq s size) g)
    as (g' & Hf & HP).
  - cbn. rewrite Nat.add_0_r. split; try done.
    + intros p. by rewrite decide_False by lia.
    + intros p. unfold cutr. destruct (plink g p); [|done]. by rewrite decide_False by lia.
  - intros dn i rest g1 Hsq FL. apply seq_app_inv in Hsq as [Hi Hdn].
    rewrite <- Hi in FL. rewrite app_length. cbn. replace (s + (length dn + 1)) with (S i) by lia.
    destruct FL as [E1 E2 E3 E4 E5 L1 L2 Hpm Hpl Hc].
    unfold free_port_step. rewrite b_vset by lia.
    rewrite (b_vget _ _ (plink g1 i)) by (apply plink_lookup; lia).
    rewrite b_vset by lia.
    destruct (plink g1 i) as [q|] eqn:Ei.
    + pose proof Ei as Ei'. rewrite Hpl in Ei'. unfold cutr in Ei'.
      destruct (plink g i) as [q'|] eqn:Egi; [|done]. case_decide as Hcut; [done|].
      injection Ei' as ->.
      destruct (Hsym i q) as (Hq & Hne & HO); [lia|done|].
      assert (Hqlt : q < length (pg_link g1)) by (rewrite L1; by eapply plink_lt).
      rewrite b_vset by (by rewrite insert_length).
      assert (Hnew : forall p, mjoin (<[q:=None]> (<[i:=None]> (pg_link g1)) !! p)
                = if decide (p = q \/ p = i) then None else plink g1 p).
      { intros p. rewrite lookup_insert_if by (rewrite insert_length; lia).
        rewrite lookup_insert_if by lia. rewrite plink_eq.
        repeat case_decide; try done; tauto. }
      assert (Hq1 : plink g1 q = Some i).
      { rewrite Hpl. unfold cutr. rewrite Hq. rewrite decide_False; [done|]. intros [?|[? _]]; [|lia].
        apply Hcut. right. split; [lia|done]. }
      assert (exists y, O y /\ (y = i \/ y = q) /\ forall z, (z = i \/ z = q) -> O z -> z = y) as (y & Oy & Hy & Huy).
      { assert (O i \/ ~ O i) as [Hoi|Hoi].
        { destruct Hc as (Lc & _ & Hmem & _). destruct (decide (i ∈ Lc)) as [Hin|Hin].
          - left. by apply Hmem in Hin as [? _].
          - right. intros ?. apply Hin, Hmem. split; [done|]. by rewrite Ei. }
        - exists i. split_and!; [done|by left|]. intros z [->| ->]; [done|]. tauto.
        - exists q.
          assert (O q \/ ~ O q) as [Hoq|Hoq].
          { destruct Hc as (Lc & _ & Hmem & _). destruct (decide (q ∈ Lc)) as [Hin|Hin].
            - left. by apply Hmem in Hin as [? _].
            - right. intros ?. apply Hin, Hmem. split; [done|]. by rewrite Hq1. }
          + split_and!; [done|by right|]. intros z [->| ->]; [tauto|done].
          + tauto. }
      destruct (card_del _ _ y (conj Oy (ltac:(destruct Hy as [-> | ->]; congruence) : plink g1 y <> None)) Hc) as [Hpos Hc'].
      rewrite b_usub by lia. eexists. split; [done|].
      split; cbn; rewrite ?insert_length; try done.
      * intros p. rewrite pmeta_eq. cbn. rewrite lookup_insert_if by lia.
        case_decide as E; [rewrite decide_True by lia; done|].
        rewrite <- pmeta_eq, Hpm. repeat case_decide; done || lia.
      * intros p. rewrite plink_eq. cbn. rewrite Hnew.
        case_decide as E.
        -- unfold cutr. destruct E as [-> | ->].
           ++ rewrite Hq. rewrite decide_True; [done|]. right. split; [lia|done].
           ++ rewrite Egi. rewrite decide_True by lia. done.
        -- rewrite Hpl. unfold cutr. destruct (plink g p) as [r|] eqn:Ep; [|done].
           case_decide as C1; case_decide as C2; try done; exfalso.
           ++ apply C2. destruct C1 as [?|[? ?]]; [left; lia|right; split; [lia|done]].
           ++ apply C1. destruct C2 as [?|[? Hr]]; [left; lia|].
              destruct (decide (r = i)) as [->|]; [|right; split; [lia|done]].
              rewrite Egi in Hr. injection Hr as ->. tauto.
      * eapply card_ext; [|exact Hc']. intros p. cbn.
        rewrite (plink_eq (with_lcount _ _)). cbn. rewrite Hnew.
        case_decide as E.
        -- split; [|naive_solver]. intros [[Op _] Hpy]. exfalso. apply Hpy. apply Huy; [tauto|done].
        -- split; [naive_solver|]. intros [? ?]. split; [done|]. intros ->. tauto.
    + eexists. split; [done|].
      assert (Hnew : forall p, mjoin (<[i:=None]> (pg_link g1) !! p) = plink g1 p).
      { intros p. rewrite lookup_insert_if by lia. rewrite plink_eq.
        case_decide as E; [|done]. rewrite E, <- plink_eq. by rewrite Ei. }
      split; cbn; rewrite ?insert_length; try done.
      * intros p. rewrite pmeta_eq. cbn. rewrite lookup_insert_if by lia.
        case_decide as E; [rewrite decide_True by lia; done|].
        rewrite <- pmeta_eq, Hpm. repeat case_decide; done || lia.
      * intros p. rewrite plink_eq. cbn. rewrite Hnew, Hpl.
        assert (Hni : forall q, plink g i = Some q -> s <= q < i).
        { intros q Hq. rewrite Hpl in Ei. unfold cutr in Ei. rewrite Hq in Ei.
          case_decide as C; [|done]. lia. }
        clear Ei. unfold cutr.
        destruct (plink g p) as [r|] eqn:Ep; [|done].
        case_decide as C1; case_decide as C2; try done; exfalso.
        -- apply C2. destruct C1 as [?|[? ?]]; [left; lia|right; split; [lia|done]].
        -- apply C1. destruct C2 as [?|[? Hr]].
           ++ destruct (decide (p = i)) as [->|]; [|left; lia].
              pose proof (Hni _ Ep). right. split; [done|]. by apply (Hsym i r); [lia|].
           ++ destruct (decide (r = i)) as [->|]; [|right; split; [lia|done]].
              pose proof (Hni _ Hr). left. done.
      * eapply card_ext; [|exact Hc]. intros p. cbn. rewrite (plink_eq (with_link _ _)). cbn. by rewrite Hnew.
  - exists g'. split; [done|]. by rewrite seq_length in HP.
Qed.

Record free_post (g : pg) (F : nat -> list nat) (O : nat -> Prop) (s size : nat)
    (g' : pg) (F' : nat -> list nat) : Prop := {
  fp_nodes : pg_nodes g' = pg_nodes g;
  fp_nfree : pg_nfree g' = pg_nfree g;
  fp_nc : pg_ncount g' = pg_ncount g;
  fp_pc : pg_pcount g' = pg_pcount g;
  fp_len1 : length (pg_link g') = length (pg_link g);
  fp_len2 : length (pg_pmeta g') = length (pg_pmeta g);
  fp_pmeta : forall p, pmeta g' p = if decide (s <= p < s + size) then None else pmeta g p;
  fp_plink_in : forall p, s < p < s + size -> plink g' p = None;
  fp_plink : forall p, ~ (s <= p < s + size) -> plink g' p = cutr s (s + size) (plink g) p;
  fp_card : card (fun p => O p /\ cutr s (s + size) (plink g) p <> None) (pg_lcount g');
  fp_chains : chains_ok (pg_pfree g') (plink g') F';
  fp_new : forall k p, p ∈ F' k <-> p ∈ F k \/ (S k = size /\ p = s);
  fp_slabs : forall nm, slabs_ok nm F (length (pg_pmeta g)) ->
      (forall n m, nm n = Some m -> disj s size (nm_first m) (nm_cap m)) ->
      slabs_ok nm F' (length (pg_pmeta g));
}.

Lemma cutr_empty s pl p : cutr s (s + 0) pl p = pl p.
Proof. unfold cutr. destruct (pl p); [|done]. by rewrite decide_False by lia. Qed.

Lemma free_ports_spec g F (O : nat -> Prop) s size :
  length (pg_link g) = length (pg_pmeta g) ->
  s + size <= length (pg_pmeta g) ->
  chains_ok (pg_pfree g) (plink g) F ->
  (forall k p, p ∈ F k -> disj s size p (S k)) ->
  (forall i q, s <= i < s + size -> plink g i = Some q ->
     plink g q = Some i /\ q <> i /\ (O i <-> ~ O q)) ->
  card (fun p => O p /\ plink g p <> None) (pg_lcount g) ->
  exists g' F', free_ports g s size = Ok g' /\ free_post g F O s size g' F'.
Proof.
  intros Hlen Hb [Hch1 Hch2] Hdf Hsym Hcard. unfold free_ports.
  set (g0 := if decide (length (pg_pfree g) < size) then _ else g).
  assert (Hg0 : exists pf, g0 = with_pfree g pf /\ (forall k, mjoin (pf !! k) = mjoin (pg_pfree g !! k)) /\ size <= length pf).
  { unfold g0. case_decide as Hs.
    - eexists. split; [done|]. rewrite resize_length. split; [|lia]. intros k.
      rewrite lookup_resize_if by lia. case_decide as Hk; [done|].
      rewrite (lookup_ge_None_2 (pg_pfree g)) by lia. by case_decide.
    - exists (pg_pfree g). split; [by destruct g|]. split; [done|lia]. }
  destruct Hg0 as (pf & -> & Hpf & Hpfl).
  case_decide as Hsz.
  { subst size. exists (with_pfree g pf), F. split; [done|]. split; cbn; try done.
    - intros p. by rewrite decide_False by lia.
    - lia.
    - intros p _. by rewrite cutr_empty.
    - eapply card_ext; [|exact Hcard]. intros p. cbn. by rewrite cutr_empty.
    - split; [|done]. intros k. by rewrite Hpf.
    - intros k p. split; [by left|]. by intros [?|[? _]]. }
  destruct (free_loop_spec (with_pfree g pf) O s size) as (g1 & Hf & FL); [done..|].
  rewrite Hf, bind_Ok. destruct FL as [E1 E2 E3 E4 E5 L1 L2 Hpm Hpl Hc]. cbn in *.
  assert (exists k, size = S k) as [k Hk] by (exists (size - 1); lia).
  replace (size - 1) with k by lia.
  assert (Hkl : k < length pf) by lia.
  apply lookup_lt_is_Some in Hkl as [old Hold].
  rewrite (b_vget _ _ old) by (by rewrite E5).
  rewrite b_vset by (rewrite E5; lia).
  rewrite b_vset by lia.
  assert (Hold' : F k !! 0 = old).
  { rewrite Hch1, <- Hpf, Hold. by destruct old. }
  assert (HFout : forall k' p, p ∈ F k' -> ~ (s <= p < s + size)).
  { intros k' p Hp. apply Hdf in Hp. unfold disj in Hp. lia. }
  assert (HFpl : forall k' i p, F k' !! i = Some p -> plink g1 p = F k' !! S i).
  { intros k' i p Hp. rewrite Hpl. unfold cutr. change (plink (with_pfree g pf) p) with (plink g p).
    rewrite (Hch2 _ _ _ Hp). destruct (F k' !! S i) as [q|] eqn:Eq; [|done].
    apply elem_of_list_lookup_2 in Hp, Eq. apply HFout in Hp, Eq.
    rewrite decide_False; [done|]. intros [?|[? _]]; lia. }
  assert (Hnew : forall p, mjoin (<[s:=old]> (pg_link g1) !! p) = if decide (p = s) then old else plink g1 p).
  { intros p. rewrite lookup_insert_if by lia. rewrite plink_eq. case_decide; [by destruct old|done]. }
  eexists _, (fun k' => if decide (k' = k) then s :: F k' else F k'). split; [done|].
  assert (Hmem : forall k' p, p ∈ (if decide (k' = k) then s :: F k' else F k') <-> p ∈ F k' \/ (S k' = size /\ p = s)).
  { intros k' p. case_decide as E; [rewrite elem_of_cons|].
    - split; [|naive_solver]. intros [->|?]; [right; split; [lia|done]|by left].
    - split; [by left|]. intros [?|[? _]]; [done|lia]. }
  split; cbn; rewrite ?insert_length; try done.
  - intros p Hp. rewrite plink_eq. cbn. rewrite Hnew. rewrite decide_False by lia.
    rewrite Hpl. unfold cutr. destruct (plink _ p); [|done]. by rewrite decide_True by lia.
  - intros p Hp. rewrite plink_eq. cbn. rewrite Hnew. rewrite decide_False by lia.
    by rewrite Hpl.
  - eapply card_ext; [|exact Hc]. intros p. cbn. by rewrite Hpl.
  - split.
    + intros k'. rewrite E5. rewrite lookup_insert_if by lia.
      case_decide as E; [subst; done|]. by rewrite Hpf.
    + intros k' i p Hp. rewrite plink_eq. cbn. rewrite Hnew.
      case_decide as E.
      * subst k'. destruct i as [|i].
        -- cbn in Hp. injection Hp as ->. rewrite decide_True by done. done.
        -- cbn in Hp. rewrite decide_False.
           ++ by apply HFpl.
           ++ intros ->. apply elem_of_list_lookup_2, HFout in Hp. lia.
      * rewrite decide_False; [by apply HFpl|].
        intros ->. apply elem_of_list_lookup_2, HFout in Hp. lia.
  - intros nm Hsl Hdl. split.
    + apply Hsl.
    + intros n m k' p Hm [Hp|[Hk' ->]]%Hmem; [by eapply (sl_mixed _ _ _ Hsl)|].
      apply Hdl in Hm. rewrite Hk'. unfold disj in *. lia.
    + intros k1 p1 k2 p2 [H1|[H1 ->]]%Hmem [H2|[H2 ->]]%Hmem Hne.
      * by eapply (sl_free _ _ _ Hsl).
      * apply Hdf in H1. rewrite H2. unfold disj in *. lia.
      * apply Hdf in H2. rewrite H1. done.
      * exfalso. apply Hne. f_equal. lia.
    + intros k' p [Hp|[Hk' ->]]%Hmem; [by eapply (sl_bound _ _ _ Hsl)|]. lia.
    + intros k'. case_decide as E; [|apply Hsl]. apply NoDup_cons. split; [|apply Hsl].
      intros Hin%HFout. lia.
Qed.
