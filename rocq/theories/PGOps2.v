(** [link_ports], [unlink_port] and the loop dropping ports: effect and
    preservation of the invariant. *)
From Verif Require Export PGOps1.

(** Changing only the links of live ports. *)
Lemma inv_links_change g fnl F g' :
  InvG g fnl F ->
  pg_nodes g' = pg_nodes g -> pg_nfree g' = pg_nfree g -> pg_pmeta g' = pg_pmeta g ->
  pg_pfree g' = pg_pfree g -> pg_ncount g' = pg_ncount g -> pg_pcount g' = pg_pcount g ->
  length (pg_link g') = length (pg_link g) ->
  (forall p, pmeta g p = None -> plink g' p = plink g p) ->
  links_sym (pmeta g) (plink g') ->
  card (fun p => (exists n, pmeta g p = Some (n, Outgoing)) /\ plink g' p <> None) (pg_lcount g') ->
  InvG g' fnl F.
Proof.
  intros I E1 E2 E3 E4 E5 E6 E7 Hpl Hsym Hc.
  assert (Hnm : forall n, nmeta g' n = nmeta g n) by (intros; unfold nmeta; by rewrite E1).
  assert (Hpm : forall n, pmeta g' n = pmeta g n) by (intros; unfold pmeta; by rewrite E3).
  split.
  - rewrite E7, E3. apply I.
  - rewrite E3. destruct (i_ports _ _ _ I) as [H1 H2]. split.
    + intros n m. rewrite Hnm. apply H1.
    + intros p n d. rewrite Hpm, Hnm. apply H2.
  - rewrite E3. eapply slabs_ok_ext; [|apply I]. intros; by rewrite Hnm.
  - rewrite E4. destruct (i_chains _ _ _ I) as [H1 H2]. split; [done|].
    intros k i p Hp. rewrite Hpl; [by apply H2|].
    apply (inv_free_slab _ _ _ I k p); [by eapply elem_of_list_lookup_2|lia].
  - split.
    + intros p q n d. rewrite !Hpm. apply Hsym.
    + intros p. rewrite Hpm. intros Hp HF. rewrite Hpl by done. by apply (i_links _ _ _ I).
  - rewrite E2. eapply nfree_ok_ext; [|apply I]. intros x. unfold nfree. by rewrite E1.
  - destruct (i_counts _ _ _ I) as (C1 & C2 & C3). rewrite E5, E6. split_and!.
    + eapply card_ext; [|exact C1]. intros x. cbn. by rewrite Hnm.
    + eapply card_ext; [|exact C2]. intros x. cbn. by rewrite Hpm.
    + eapply card_ext; [|exact Hc]. intros x. cbn. by rewrite Hpm.
  - rewrite E1. apply I.
  - rewrite E3. apply I.
Qed.

(** ** [unlink_port] *)
Definition unlink_pl (pl : nat -> option nat) (p : nat) (x : nat) : option nat :=
  if decide (x = p) then None
  else if decide (pl p = Some x) then None else pl x.

Record same_but_links (g g' : pg) : Prop := {
  sb_nodes : pg_nodes g' = pg_nodes g;
  sb_pmeta : pg_pmeta g' = pg_pmeta g;
  sb_nfree : pg_nfree g' = pg_nfree g;
  sb_pfree : pg_pfree g' = pg_pfree g;
  sb_nc : pg_ncount g' = pg_ncount g;
  sb_pc : pg_pcount g' = pg_pcount g;
  sb_len : length (pg_link g') = length (pg_link g);
}.

Lemma sb_refl g : same_but_links g g.
Proof. by split. Qed.
Lemma sb_trans g1 g2 g3 : same_but_links g1 g2 -> same_but_links g2 g3 -> same_but_links g1 g3.
Proof. intros [] []. split; congruence. Qed.
Lemma sb_nmeta g g' n : same_but_links g g' -> nmeta g' n = nmeta g n.
Proof. intros [H1 _ _ _ _ _ _]. unfold nmeta. by rewrite H1. Qed.
Lemma sb_pmeta' g g' p : same_but_links g g' -> pmeta g' p = pmeta g p.
Proof. intros [_ H1 _ _ _ _ _]. unfold pmeta. by rewrite H1. Qed.

Lemma unlink_port_spec g fnl F p :
  InvG g fnl F ->
  exists g' l, unlink_port g p = Ok (g', l) /\ InvG g' fnl F /\
    same_but_links g g' /\
    l = (if pmeta g p then plink g p else None) /\
    (pmeta g p = None -> g' = g) /\
    (is_Some (pmeta g p) -> forall x, plink g' x = unlink_pl (plink g) p x) /\
    pg_lcount g = pg_lcount g' + (if l then 1 else 0).
Proof.
  intros I. unfold unlink_port.
  destruct (pmeta g p) as [[n d]|] eqn:Ep.
  2:{ exists g, None. split_and!; try done. by intros []. }
  rewrite (b_vget _ _ (plink g p)) by (by eapply inv_plink_lookup).
  destruct (plink g p) as [q|] eqn:Eq.
  2:{ exists g, None. split_and!; try done. intros _ x. unfold unlink_pl. rewrite Eq.
      case_decide as E; [by subst|]. by rewrite decide_False. }
  destruct (inv_link _ _ _ I _ _ _ _ Ep Eq) as [Hq [n' Hpq]].
  pose proof (inv_link_ne _ _ _ I p q (ltac:(eauto)) Eq) as Hne.
  pose proof (plink_lt _ _ _ Eq) as Hltp. pose proof (plink_lt _ _ _ Hq) as Hltq.
  rewrite b_vset by done. rewrite b_vset by (by rewrite insert_length).
  destruct (i_counts _ _ _ I) as (C1 & C2 & C3).
  set (y := if decide (d = Outgoing) then p else q).
  assert (Hy : (exists x, pmeta g y = Some (x, Outgoing)) /\ plink g y <> None).
  { unfold y. case_decide as Ed; subst; [split; [eauto|congruence]|].
    destruct d; [|done]. split; [eauto|congruence]. }
  destruct (card_del _ _ y Hy C3) as [Hpos C3'].
  rewrite b_usub by done.
  eexists _, (Some q). split; [done|].
  set (g' := with_lcount _ _).
  assert (Hpl : forall x, plink g' x = unlink_pl (plink g) p x).
  { intros x. rewrite plink_eq. cbn. rewrite lookup_insert_if by (by rewrite insert_length).
    rewrite lookup_insert_if by done. unfold unlink_pl. rewrite Eq, (plink_eq g x).
    destruct (decide (x = q)); subst.
    - rewrite decide_False by done. by rewrite decide_True.
    - destruct (decide (x = p)); [done|]. rewrite decide_False by congruence. done. }
  assert (Hsb : same_but_links g g').
  { split; try done. cbn. by rewrite !insert_length. }
  split_and!; try done; [|cbn; lia].
  apply (inv_links_change g); try apply Hsb; [done|..].
  - intros x Hx. rewrite Hpl. unfold unlink_pl. rewrite !decide_False by congruence. done.
  - intros x r nx dx Hx Hl. rewrite Hpl in Hl. unfold unlink_pl in Hl.
    case_decide as E1; [done|]. case_decide as E2; [done|].
    destruct (inv_link _ _ _ I _ _ _ _ Hx Hl) as [Hr ?]. split; [|done].
    rewrite Hpl. unfold unlink_pl.
    assert (r <> p) by congruence.
    rewrite decide_False by done. rewrite decide_False by congruence. done.
  - cbn [pg_lcount with_lcount]. eapply card_ext; [|exact C3']. intros x. cbn.
    rewrite Hpl. unfold unlink_pl. rewrite Eq.
    split.
    + intros [[Ho Hx] Hxy]. split; [done|]. rewrite decide_False, decide_False; [done| |].
      * intros [= <-]. unfold y in Hxy. case_decide; [|done]. subst. destruct Ho. cbn in *. congruence.
      * intros ->. unfold y in Hxy. case_decide; [done|]. destruct Ho as [? Ho]. rewrite Ep in Ho. congruence.
    + intros [Ho Hx]. case_decide as E1; [done|]. case_decide as E2; [done|].
      split; [done|]. intros ->. unfold y in E1, E2. case_decide; [done|]. congruence.
Qed.

(** ** [link_ports] *)
Definition link_pl (pl : nat -> option nat) (a b : nat) (x : nat) : option nat :=
  if decide (x = b) then Some a else if decide (x = a) then Some b else pl x.

Lemma link_ports_spec g fnl F a b :
  InvG g fnl F ->
  exists g' r, link_ports g a b = Ok (g', r) /\
    match r with
    | inl e => g' = g /\
        ((pmeta g a = None /\ e = UnknownPort a) \/
         (pmeta g a <> None /\ pmeta g b = None /\ e = UnknownPort a) \/
         (exists na nb d, pmeta g a = Some (na, d) /\ pmeta g b = Some (nb, d) /\
            e = IncompatibleDirections a b d) \/
         (exists na nb d, pmeta g a = Some (na, d) /\ pmeta g b = Some (nb, rev_dir d) /\
            ((plink g a <> None /\ e = AlreadyLinked a) \/
             (plink g a = None /\ plink g b <> None /\ e = AlreadyLinked b))))
    | inr e => e = (a, b) /\ InvG g' fnl F /\ same_but_links g g' /\
        (exists na nb d, pmeta g a = Some (na, d) /\ pmeta g b = Some (nb, rev_dir d)) /\
        plink g a = None /\ plink g b = None /\
        (forall x, plink g' x = link_pl (plink g) a b x) /\
        pg_lcount g' = pg_lcount g + 1
    end.
Proof.
  intros I. unfold link_ports.
  destruct (pmeta g a) as [[na da]|] eqn:Ea.
  2:{ eexists _, (inl _). split; [done|]. eauto. }
  destruct (pmeta g b) as [[nb db]|] eqn:Eb.
  2:{ eexists _, (inl _). split; [done|]. split; [done|]. right. left. eauto. }
  case_decide as Ed.
  { subst. eexists _, (inl _). split; [done|]. split; [done|]. right. right. left. eauto 10. }
  assert (db = rev_dir da) as -> by (by destruct da, db).
  rewrite (b_vget _ _ (plink g a)) by (by eapply inv_plink_lookup).
  destruct (plink g a) as [qa|] eqn:Eqa.
  { eexists _, (inl _). split; [done|]. split; [done|]. right. right. right. eauto 10. }
  rewrite (b_vget _ _ (plink g b)) by (by eapply inv_plink_lookup).
  destruct (plink g b) as [qb|] eqn:Eqb.
  { eexists _, (inl _). split; [done|]. split; [done|]. right. right. right.
    exists na, nb, da. split_and!; [done|done|]. right. eauto. }
  pose proof (pmeta_lt _ _ _ Ea) as Hla. pose proof (pmeta_lt _ _ _ Eb) as Hlb.
  rewrite <- (i_len _ _ _ I) in Hla, Hlb.
  rewrite b_vset by done. rewrite b_vset by (by rewrite insert_length).
  eexists _, (inr _). split; [done|].
  set (g' := with_lcount _ _).
  assert (Hne : a <> b).
  { intros ->. rewrite Ea in Eb. injection Eb as _ Eb. by destruct da. }
  assert (Hpl : forall x, plink g' x = link_pl (plink g) a b x).
  { intros x. rewrite plink_eq. cbn. rewrite lookup_insert_if by (by rewrite insert_length).
    rewrite lookup_insert_if by done. unfold link_pl. rewrite (plink_eq g x).
    repeat case_decide; done. }
  assert (Hsb : same_but_links g g').
  { split; try done. cbn. by rewrite !insert_length. }
  split_and!; try done; eauto.
  apply (inv_links_change g); try apply Hsb; [done|..].
  - intros x Hx. rewrite Hpl. unfold link_pl. rewrite !decide_False by congruence. done.
  - intros x r nx dx Hx Hl. rewrite Hpl in Hl. unfold link_pl in Hl. rewrite Hpl. unfold link_pl.
    case_decide as E1; [|case_decide as E2].
    + subst. injection Hl as ->. rewrite decide_False by done. rewrite decide_True by done.
      split; [done|]. rewrite Eb in Hx. injection Hx as -> <-. exists na. rewrite Ea. by destruct da.
    + subst. injection Hl as ->. rewrite decide_True by done.
      split; [done|]. rewrite Ea in Hx. injection Hx as -> <-. eauto.
    + destruct (inv_link _ _ _ I _ _ _ _ Hx Hl) as [Hr ?]. split; [|done].
      rewrite !decide_False; [done| |]; congruence.
  - destruct (i_counts _ _ _ I) as (C1 & C2 & C3).
    set (y := if decide (da = Outgoing) then a else b).
    cbn [pg_lcount with_lcount]. replace (pg_lcount g') with (S (pg_lcount g)) by (cbn; lia).
    eapply card_ext; [|eapply (card_add _ _ y); [|exact C3]].
    + intros x. cbn. rewrite Hpl. unfold link_pl.
      assert (Hy : exists n, pmeta g y = Some (n, Outgoing)).
      { unfold y. case_decide as E; [subst; eauto|]. destruct da; [|done]. eauto. }
      split.
      * intros [->|[Ho Hx]].
        -- split; [done|]. unfold y. repeat case_decide; done.
        -- split; [done|]. repeat case_decide; done.
      * intros [Ho Hx]. case_decide as E1; [|case_decide as E2; [|by right]].
        -- left. unfold y. case_decide; subst; [|done]. destruct Ho as [? Ho].
           rewrite Eb in Ho. by injection Ho.
        -- left. unfold y. case_decide; subst; [done|]. destruct Ho as [? Ho].
           rewrite Ea in Ho. by injection Ho.
    + intros [_ Hy]. unfold y in Hy. case_decide; done.
Qed.

(** ** Dropping a list of ports *)
(** Closed form of the links after dropping the ports in [l]. *)
Definition cut_in (l : list nat) (pl : nat -> option nat) (x : nat) : option nat :=
  if decide (x ∈ l) then None
  else match pl x with Some q => if decide (q ∈ l) then None else Some q | None => None end.

Lemma drop_loop_spec g fnl F l :
  InvG g fnl F -> (forall p, p ∈ l -> is_Some (pmeta g p)) -> NoDup l ->
  exists g' log, rfold drop_step l (g, []) = Ok (g', log) /\ InvG g' fnl F /\
    same_but_links g g' /\
    (forall x, is_Some (pmeta g x) -> plink g' x = cut_in l (plink g) x) /\
    (forall x, pmeta g x = None -> plink g' x = plink g x) /\
    length log = length l /\
    (forall i p, l !! i = Some p -> exists o, log !! i = Some (p, Removed o) /\
        o = match plink g p with Some q => if decide (q ∈ take i l) then None else Some q | None => None end).
Proof.
  intros I Hlive Hnd.
  destruct (rfold_ok drop_step (fun dn s =>
     InvG s.1 fnl F /\ same_but_links g s.1 /\
     (forall x, is_Some (pmeta g x) -> plink s.1 x = cut_in dn (plink g) x) /\
     (forall x, pmeta g x = None -> plink s.1 x = plink g x) /\
     length s.2 = length dn /\
     (forall i p, dn !! i = Some p -> exists o, s.2 !! i = Some (p, Removed o) /\
        o = match plink g p with Some q => if decide (q ∈ take i l) then None else Some q | None => None end))
     l (g, [])) as ([g' log] & Hf & H1 & H2 & H3 & H4 & H5 & H6).
  - cbn. split_and!; try done. intros x Hx. unfold cut_in. rewrite decide_False by apply not_elem_of_nil.
    destruct (plink g x); [|done]. by rewrite decide_False by apply not_elem_of_nil.
  - intros dn p rest [g1 log] Hl (I1 & Hsb & Hpl & Hpl0 & Hlen & Hlog). cbn in *.
    assert (Hpin : p ∈ l) by (rewrite Hl; apply elem_of_app; right; constructor).
    destruct (Hlive p Hpin) as [xp Hxp].
    assert (Hpm : forall x, pmeta g1 x = pmeta g x) by (intros; by apply sb_pmeta').
    assert (Hpdn : p ∉ dn).
    { rewrite Hl in Hnd. apply NoDup_app in Hnd as (_ & Hnd & _). intros Hin. by eapply Hnd, elem_of_list_here. }
    destruct (unlink_port_spec g1 fnl F p I1) as (g2 & o & Hu & I2 & Hsb2 & Ho & _ & Hpl2 & _).
    unfold drop_step. cbn. rewrite Hu. cbn. eexists. split; [done|]. cbn.
    rewrite Hpm, Hxp in Hpl2, Ho. specialize (Hpl2 ltac:(eauto)).
    assert (Hp1 : plink g1 p = cut_in dn (plink g) p) by (apply Hpl; eauto).
    split_and!; try done.
    + by eapply sb_trans.
    + intros x [xm Hx]. rewrite Hpl2. unfold unlink_pl.
      assert (Hx1 : plink g1 x = cut_in dn (plink g) x) by (apply Hpl; eauto).
      case_decide as E1.
      { subst. unfold cut_in. rewrite decide_True; [done|]. apply elem_of_app. right. constructor. }
      rewrite Hx1, Hp1. unfold cut_in.
      rewrite (decide_False (P := p ∈ dn)) by done.
      destruct (decide (x ∈ dn)) as [Hxd|Hxd].
      { rewrite (decide_True (P := x ∈ dn ++ [p])) by (apply elem_of_app; by left). by case_decide. }
      rewrite (decide_False (P := x ∈ dn ++ [p])) by (rewrite elem_of_app, elem_of_list_singleton; tauto).
      destruct xm as [nx dx]. destruct xp as [np dp].
      destruct (plink g x) as [q|] eqn:Eq.
      * destruct (inv_link _ _ _ I _ _ _ _ Hx Eq) as [Hqx _].
        destruct (decide (q = p)) as [->|Hqp].
        -- rewrite Hqx. rewrite (decide_False (P := x ∈ dn)) by done. rewrite decide_True by done.
           rewrite decide_True; [done|]. apply elem_of_app. right. constructor.
        -- rewrite (decide_False (P := _ = Some x)).
           ++ destruct (decide (q ∈ dn)).
              ** rewrite decide_True; [done|]. apply elem_of_app. by left.
              ** rewrite decide_False; [done|]. rewrite elem_of_app, elem_of_list_singleton. tauto.
           ++ destruct (plink g p) as [q'|] eqn:Eq'; [|done]. case_decide; [done|]. intros [= ->].
              destruct (inv_link _ _ _ I _ _ _ _ Hxp Eq') as [Hpx _]. congruence.
      * rewrite decide_False; [done|]. destruct (plink g p) as [q'|] eqn:Eq'; [|done].
        case_decide; [done|]. intros [= ->].
        destruct (inv_link _ _ _ I _ _ _ _ Hxp Eq') as [Hpx _]. congruence.
    + intros x Hx. rewrite Hpl2. unfold unlink_pl. rewrite (Hpl0 x) by done.
      rewrite decide_False by congruence. rewrite decide_False; [done|].
      rewrite Hp1. unfold cut_in. rewrite decide_False by done.
      destruct (plink g p) as [q'|] eqn:Eq'; [|done]. case_decide; [done|]. intros [= ->].
      destruct xp as [np dp]. destruct (inv_link _ _ _ I _ _ _ _ Hxp Eq') as [_ [? ?]]. congruence.
    + rewrite !app_length. cbn. lia.
    + intros i r Hi. destruct (decide (i < length dn)).
      * rewrite lookup_app_l in Hi by done. rewrite lookup_app_l by lia. by apply Hlog.
      * rewrite lookup_app_r in Hi by lia. rewrite lookup_app_r by lia.
        assert (i = length dn) as ->.
        { apply lookup_lt_Some in Hi. cbn in Hi. lia. }
        rewrite Nat.sub_diag in Hi. injection Hi as <-.
        rewrite Hlen, Nat.sub_diag. cbn. eexists. split; [done|].
        rewrite Hl, take_app. subst o. rewrite Hp1. unfold cut_in.
        rewrite (decide_False (P := p ∈ dn)) by done. done.
  - exists g', log. cbn in *. split_and!; done.
Qed.
