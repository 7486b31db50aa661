(** Loops used by [set_num_ports]: moving, initialising and clearing ports. *)
From Verif Require Export PGOps2.

(** ** Renaming links *)
Lemma links_rename pm pl pm' pl' (K : nat -> Prop) (ren : nat -> nat) :
  (forall p x, pm p = Some x -> K p \/ pl p = None) ->
  (forall p, K p -> is_Some (pm p)) ->
  (forall p n d, K p -> pm p = Some (n, d) -> exists n', pm' (ren p) = Some (n', d)) ->
  (forall p q, K p -> K q -> ren p = ren q -> p = q) ->
  (forall p', is_Some (pm' p') -> (exists p, K p /\ p' = ren p) \/ pl' p' = None) ->
  (forall p, K p -> pl' (ren p) = ren <$> pl p) ->
  links_sym pm pl ->
  links_sym pm' pl' /\
  (forall c, card (fun p => (exists n, pm p = Some (n, Outgoing)) /\ pl p <> None) c ->
     card (fun p => (exists n, pm' p = Some (n, Outgoing)) /\ pl' p <> None) c).
Proof.
  intros HK HKl Hd Hinj Hsurj Hpl Hsym.
  assert (HKq : forall p q, K p -> pl p = Some q -> K q).
  { intros p q Hp Hl. destruct (HKl p Hp) as [[n d] Hn].
    destruct (Hsym _ _ _ _ Hn Hl) as [Hq [n' Hn']]. destruct (HK _ _ Hn'); [done|congruence]. }
  split.
  - intros p' q' n' d Hn' Hl'.
    destruct (Hsurj p') as [[p [Hp ->]]|Hnone]; [eauto| |congruence].
    rewrite Hpl in Hl' by done. destruct (pl p) as [q|] eqn:El; [|done]. injection Hl' as <-.
    destruct (HKl p Hp) as [[n d0] Hn].
    destruct (Hd _ _ _ Hp Hn) as [n2 Hn2]. rewrite Hn' in Hn2. injection Hn2 as -> <-.
    destruct (Hsym _ _ _ _ Hn El) as [Hq [y Hy]].
    pose proof (HKq _ _ Hp El) as HKq'.
    split.
    + rewrite Hpl by done. by rewrite Hq.
    + by eapply Hd.
  - intros c Hc. eapply (card_bij _ _ ren); [| |exact Hc].
    + intros x y [[nx Hx] Hlx] [[ny Hy] Hly].
      destruct (HK _ _ Hx); [|done]. destruct (HK _ _ Hy); [|done]. by apply Hinj.
    + intros p'. split.
      * intros [[n' Hn'] Hl']. destruct (Hsurj p') as [[p [Hp ->]]|Hnone]; [eauto| |done].
        exists p. split; [|done]. destruct (HKl p Hp) as [[n d] Hn].
        destruct (Hd _ _ _ Hp Hn) as [n2 Hn2]. rewrite Hn' in Hn2. injection Hn2 as -> <-.
        split; [eauto|]. rewrite Hpl in Hl' by done. by destruct (pl p).
      * intros (p & [[n Hn] Hl] & ->). destruct (HK _ _ Hn) as [Hp|]; [|done].
        destruct (Hd _ _ _ Hp Hn) as [n2 Hn2]. split; [eauto|].
        rewrite Hpl by done. by destruct (pl p).
Qed.

(** ** Renaming by a list of pairs *)
Fixpoint rn (ps : list (nat * nat)) (p : nat) : nat :=
  match ps with
  | [] => p
  | (o, w) :: ps' => if decide (p = o) then w else rn ps' p
  end.

Lemma rn_out ps p : p ∉ ps.*1 -> rn ps p = p.
Proof.
  induction ps as [|[o w] ps IH]; [done|]. cbn. rewrite elem_of_cons. intros Hp.
  rewrite decide_False by tauto. apply IH. tauto.
Qed.
Lemma rn_in ps o w : NoDup ps.*1 -> (o, w) ∈ ps -> rn ps o = w.
Proof.
  induction ps as [|[o' w'] ps IH]; cbn; [by intros _ ?%elem_of_nil|].
  intros [Hni Hnd]%NoDup_cons [[= <- <-]|Hin]%elem_of_cons.
  - by rewrite decide_True.
  - rewrite decide_False; [by apply IH|]. intros ->. apply Hni. apply elem_of_list_fmap.
    by exists (o', w).
Qed.
Lemma rn_snoc ps o w p : o ∉ ps.*1 -> rn (ps ++ [(o, w)]) p = if decide (p = o) then w else rn ps p.
Proof.
  induction ps as [|[o' w'] ps IH]; [done|]. cbn. rewrite elem_of_cons. intros Hp.
  rewrite IH by tauto. destruct (decide (p = o)) as [->|]; [|done].
  rewrite decide_False; [done|]. intros ->. tauto.
Qed.

Lemma elem_of_fst (ps : list (nat * nat)) o w : (o, w) ∈ ps -> o ∈ ps.*1.
Proof. intros. apply elem_of_list_fmap. by exists (o, w). Qed.
Lemma elem_of_snd (ps : list (nat * nat)) o w : (o, w) ∈ ps -> w ∈ ps.*2.
Proof. intros. apply elem_of_list_fmap. by exists (o, w). Qed.
Lemma fst_elem_of (ps : list (nat * nat)) o : o ∈ ps.*1 -> exists w, (o, w) ∈ ps.
Proof. intros ([o' w] & -> & ?)%elem_of_list_fmap. eauto. Qed.
Lemma snd_elem_of (ps : list (nat * nat)) w : w ∈ ps.*2 -> exists o, (o, w) ∈ ps.
Proof. intros ([o' w'] & -> & ?)%elem_of_list_fmap. eauto. Qed.
Lemma fst_app (ps qs : list (nat * nat)) : (ps ++ qs).*1 = ps.*1 ++ qs.*1.
Proof. apply fmap_app. Qed.
Lemma snd_app (ps qs : list (nat * nat)) : (ps ++ qs).*2 = ps.*2 ++ qs.*2.
Proof. apply fmap_app. Qed.

Definition moved_log (ps : list (nat * nat)) : list (nat * port_op) :=
  (fun pr => (pr.1, Moved pr.2)) <$> ps.

(** ** Moving ports to another slab *)
Definition realloc_pl (ps : list (nat * nat)) (pl pl' : nat -> option nat) : Prop :=
  (forall p, p ∈ ps.*1 -> pl' p = None) /\
  (forall o w, (o, w) ∈ ps -> pl' w = rn ps <$> pl o) /\
  (forall p, p ∉ ps.*1 -> p ∉ ps.*2 -> pl' p =
     match pl p with
     | Some r => if decide (r ∈ ps.*1 /\ pl r = Some p) then Some (rn ps r) else Some r
     | None => None
     end).

Record links_only (g g' : pg) : Prop := {
  lo_nodes : pg_nodes g' = pg_nodes g;
  lo_pmeta : pg_pmeta g' = pg_pmeta g;
  lo_nfree : pg_nfree g' = pg_nfree g;
  lo_pfree : pg_pfree g' = pg_pfree g;
  lo_nc : pg_ncount g' = pg_ncount g;
  lo_pc : pg_pcount g' = pg_pcount g;
  lo_lc : pg_lcount g' = pg_lcount g;
  lo_len : length (pg_link g') = length (pg_link g);
}.

Lemma realloc_loop g ps log0 :
  NoDup ps.*1 -> NoDup ps.*2 ->
  (forall o w, (o, w) ∈ ps -> o < length (pg_link g) /\ w < length (pg_link g)) ->
  (forall o w, (o, w) ∈ ps -> exists e, pg_pmeta g !! o = Some e /\ pg_pmeta g !! w = Some e) ->
  (forall p, p ∈ ps.*1 -> p ∉ ps.*2) ->
  (forall o q, o ∈ ps.*1 -> plink g o = Some q -> plink g q = Some o /\ q <> o /\ q ∉ ps.*2) ->
  exists g' log, rfold realloc_step ps (g, log0) = Ok (g', log) /\
    links_only g g' /\ realloc_pl ps (plink g) (plink g') /\ log = log0 ++ moved_log ps.
Proof.
  intros Hnd1 Hnd2 Hlt Hmeta Hdis Hsym.
  destruct (rfold_ok realloc_step (fun dn s =>
      links_only g s.1 /\ s.2 = log0 ++ moved_log dn /\
      (forall p, p ∈ dn.*1 -> plink s.1 p = None) /\
      (forall o w, (o, w) ∈ dn -> plink s.1 w = rn dn <$> plink g o) /\
      (forall p, p ∉ dn.*1 -> p ∉ dn.*2 -> plink s.1 p =
         match plink g p with
         | Some r => if decide (r ∈ dn.*1 /\ plink g r = Some p) then Some (rn dn r) else Some r
         | None => None
         end)) ps (g, log0)) as ([g' log] & Hf & H1 & H2 & H3 & H4 & H5).
  - cbn. split_and!; try done.
    + by rewrite app_nil_r.
    + intros p Hp. by apply elem_of_nil in Hp.
    + intros o w Hp. by apply elem_of_nil in Hp.
    + intros p _ _. destruct (plink g p); [|done]. rewrite decide_False; [done|].
      intros [Hx _]. by apply elem_of_nil in Hx.
  - intros dn [o w] rest [g1 log] Hps (L & Hlog & HA & HB & HC). cbn in *.
    destruct L as [L1 L2 L3 L4 L5 L6 L7 L8].
    assert (Hin : (o, w) ∈ ps) by (rewrite Hps; apply elem_of_app; right; constructor).
    assert (Hsubd : forall x, x ∈ dn -> x ∈ ps) by (intros x Hx; rewrite Hps; apply elem_of_app; by left).
    assert (Hod : o ∉ dn.*1).
    { rewrite Hps, fst_app in Hnd1. apply NoDup_app in Hnd1 as (_ & Hnd1 & _). cbn in Hnd1.
      intros Hx. by eapply Hnd1, elem_of_list_here. }
    assert (Hwd : w ∉ dn.*2).
    { rewrite Hps, snd_app in Hnd2. apply NoDup_app in Hnd2 as (_ & Hnd2 & _). cbn in Hnd2.
      intros Hx. by eapply Hnd2, elem_of_list_here. }
    pose proof (elem_of_fst _ _ _ Hin) as Ho1. pose proof (elem_of_snd _ _ _ Hin) as Hw2.
    assert (How : forall a b, a ∈ ps.*1 -> b ∈ ps.*2 -> a <> b) by (intros a b Ha Hb ->; by apply (Hdis b)).
    assert (Hd1 : forall a, a ∈ dn.*1 -> a ∈ ps.*1).
    { intros a [b Hb]%fst_elem_of. by eapply elem_of_fst, Hsubd. }
    assert (Hd2 : forall a, a ∈ dn.*2 -> a ∈ ps.*2).
    { intros a [b Hb]%snd_elem_of. by eapply elem_of_snd, Hsubd. }
    assert (Ho2 : o ∉ dn.*2) by (intros Hx; by apply (Hdis o), Hd2).
    assert (Hw1 : w ∉ dn.*1) by (intros Hx; apply (Hdis w); [by apply Hd1|done]).
    assert (Hneq : o <> w) by (by apply How).
    destruct (Hlt _ _ Hin) as [Hlo Hlw]. destruct (Hmeta _ _ Hin) as (e & Heo & Hew).
    assert (HndD : NoDup dn.*1) by (rewrite Hps, fst_app in Hnd1; by apply NoDup_app in Hnd1 as [? _]).
    (* the value read at [o] *)
    assert (Ho : plink g1 o = rn dn <$> plink g o).
    { rewrite HC by done. destruct (plink g o) as [r|] eqn:Er; [|done]. cbn.
      destruct (Hsym o r Ho1 Er) as (Hr & _ & _).
      case_decide as E; [done|]. rewrite rn_out; [done|]. tauto. }
    unfold realloc_step. cbn [fst snd].
    rewrite (b_vget _ _ (plink g1 o)) by (apply plink_lookup; lia).
    set (lk1 := match plink g1 o with Some q => <[q:=Some w]> (pg_link g1) | None => pg_link g1 end).
    assert (Hstep1 : (match plink g1 o with Some q => vset (pg_link g1) q (Some w) | None => Ok (pg_link g1) end) = Ok lk1
       /\ length lk1 = length (pg_link g)).
    { unfold lk1. destruct (plink g1 o) as [q'|] eqn:E; [|done].
      destruct (plink g o) as [q|] eqn:Eq; [|done]. cbn in Ho. injection Ho as ->.
      destruct (Hsym o q Ho1 Eq) as (Hq & Hqo & Hq2).
      assert (rn dn q < length (pg_link g)).
      { destruct (decide (q ∈ dn.*1)) as [[z Hz]%fst_elem_of|Hz].
        - rewrite (rn_in _ _ z HndD Hz).
          by apply (Hlt q z), Hsubd.
        - rewrite rn_out by done. by eapply plink_lt. }
      rewrite vset_ok by lia. rewrite insert_length. done. }
    destruct Hstep1 as [-> Hlk1]. rewrite bind_Ok.
    assert (Hlk1o : lk1 !! o = Some (plink g1 o)).
    { unfold lk1. destruct (plink g1 o) as [q'|] eqn:E; [|rewrite <- E; apply plink_lookup; lia].
      destruct (plink g o) as [q|] eqn:Eq; [|done]. cbn in Ho. injection Ho as ->.
      destruct (Hsym o q Ho1 Eq) as (Hq & Hqo & Hq2).
      rewrite list_lookup_insert_ne; [rewrite <- E; apply plink_lookup; lia|].
      destruct (decide (q ∈ dn.*1)) as [[z Hz]%fst_elem_of|Hz].
      - rewrite (rn_in _ _ z HndD Hz).
        apply not_eq_sym. apply How; [done|]. by eapply elem_of_snd, Hsubd.
      - rewrite rn_out by done. done. }
    rewrite (b_vget _ _ _ _ Hlk1o).
    rewrite b_vset by lia. rewrite b_vset by (rewrite insert_length; lia).
    rewrite (b_vget _ _ e) by (by rewrite L2).
    rewrite b_vset by (rewrite L2; by eapply lookup_lt_Some).
    eexists. split; [done|]. cbn [fst snd].
    (* pointwise view of the new links *)
    assert (Hnew : forall p, mjoin (<[w:=plink g1 o]> (<[o:=None]> lk1) !! p) =
       if decide (p = w) then plink g1 o else if decide (p = o) then None
       else match plink g1 o with Some q => if decide (p = q) then Some w else plink g1 p | None => plink g1 p end).
    { intros p. rewrite lookup_insert_if by (rewrite insert_length; lia).
      case_decide; [by destruct (plink g1 o)|]. rewrite lookup_insert_if by lia.
      case_decide; [done|]. unfold lk1. destruct (plink g1 o) as [q|] eqn:E; [|by rewrite plink_eq].
      destruct (decide (q < length (pg_link g1))).
      - rewrite lookup_insert_if by done. case_decide; [done|]. by rewrite plink_eq.
      - rewrite list_insert_ge by lia. case_decide; [|by rewrite plink_eq]. subst p.
        (* q in range always *)
        exfalso.
        destruct (plink g o) as [q0|] eqn:Eq; [|done]. cbn in Ho. injection Ho as ->. clear lk1 Hlk1 Hlk1o.
        destruct (Hsym o q0 Ho1 Eq) as (Hq & Hqo & Hq2).
        destruct (decide (q0 ∈ dn.*1)) as [[z Hz]%fst_elem_of|Hz].
        + pose proof (rn_in _ _ z HndD Hz). apply Hsubd, Hlt in Hz. lia.
        + pose proof (rn_out _ _ Hz). apply plink_lt in Hq. lia. }
    assert (Hrn : forall p, rn (dn ++ [(o, w)]) p = if decide (p = o) then w else rn dn p) by (intros; by apply rn_snoc).
    set (g2 := with_pmeta _ _).
    assert (Hg2 : forall p, plink g2 p = mjoin (<[w:=plink g1 o]> (<[o:=None]> lk1) !! p)).
    { intros p. rewrite plink_eq. done. }
    (* injectivity of the partial renaming on link partners *)
    assert (Hrninj : forall p q, plink g o = Some q -> p ∉ dn.*2 -> p ∉ dn.*1 -> p = rn dn q -> p = q /\ q ∉ dn.*1).
    { intros p q Hq Hp2 Hp1 ->. destruct (decide (q ∈ dn.*1)) as [[z Hz]%fst_elem_of|Hz].
      - exfalso. apply Hp2. rewrite (rn_in _ _ z) by done. by eapply elem_of_snd.
      - by rewrite rn_out. }
    split_and!.
    + split; cbn; try done.
      * rewrite list_insert_id; [done|]. by rewrite L2.
      * rewrite !insert_length. lia.
    + rewrite Hlog. unfold moved_log. rewrite fmap_app, app_assoc. done.
    + intros p. rewrite fst_app, elem_of_app. cbn. rewrite elem_of_list_singleton. intros Hp.
      rewrite Hg2, Hnew. rewrite decide_False.
      2:{ destruct Hp as [Hp| ->]; [|done]. intros ->. done. }
      case_decide as Epo; [done|]. destruct Hp as [Hp|]; [|done].
      pose proof (HA _ Hp) as Hp0. destruct (plink g1 o) as [q|] eqn:E; [|done].
      case_decide as Epq; [|done]. subst p.
      destruct (plink g o) as [q0|] eqn:Eq; [|done]. cbn in Ho. injection Ho as ->.
      destruct (Hsym o q0 Ho1 Eq) as (Hq & Hqo & Hq2).
      destruct (decide (q0 ∈ dn.*1)) as [[z Hz]%fst_elem_of|Hz].
      * exfalso. rewrite (rn_in _ _ z) in Hp by done. apply (Hdis z); [by apply Hd1|].
        by eapply elem_of_snd, Hsubd.
      * rewrite rn_out in Hp by done. done.
    + intros o' w'. rewrite elem_of_app, elem_of_list_singleton.
      assert (Hext : forall x, plink g x = Some o -> rn (dn ++ [(o, w)]) <$> plink g x = Some w).
      { intros x ->. cbn. rewrite Hrn. by rewrite decide_True. }
      intros [Hin'|[= -> ->]].
      * assert (Hw'w : w' <> w) by (intros ->; apply Hwd; by eapply elem_of_snd).
        assert (Hw'o : w' <> o) by (intros ->; apply Ho2; by eapply elem_of_snd).
        rewrite Hg2, Hnew. rewrite !decide_False by done.
        pose proof (HB _ _ Hin') as HB'.
        pose proof (Hd1 _ (elem_of_fst _ _ _ Hin')) as Ho'1.
        destruct (plink g o) as [q0|] eqn:Eq; cbn in Ho; rewrite Ho.
        -- destruct (Hsym o q0 Ho1 Eq) as (Hq & Hqo & Hq2).
           case_decide as Ew'.
           ++ (* w' is the renamed partner *)
              destruct (decide (q0 ∈ dn.*1)) as [[z Hz]%fst_elem_of|Hz].
              ** rewrite (rn_in _ _ z) in Ew' by done. subst z.
                 assert (q0 = o') as ->.
                 { assert (Hndd2 : NoDup dn.*2) by (rewrite Hps, snd_app in Hnd2; by apply NoDup_app in Hnd2 as [? _]).
                   clear -Hndd2 Hz Hin'.
                   apply elem_of_list_lookup in Hz as [i Hi]. apply elem_of_list_lookup in Hin' as [j Hj].
                   assert (i = j) as ->.
                   { eapply (NoDup_lookup (dn.*2)); [done| |]; rewrite list_lookup_fmap, ?Hi, ?Hj; done. }
                   congruence. }
                 rewrite Hext; done.
              ** rewrite rn_out in Ew' by done. subst w'. exfalso. apply Hq2. by eapply elem_of_snd, Hsubd.
           ++ rewrite HB'. destruct (plink g o') as [r|] eqn:Er; [|done]. cbn. f_equal.
              rewrite Hrn. case_decide as E; [|done]. subst r. exfalso.
              destruct (Hsym o' o Ho'1 Er) as (Hr & _ & _). rewrite Eq in Hr. injection Hr as ->.
              apply Ew'. symmetry. by apply rn_in.
        -- rewrite HB'. destruct (plink g o') as [r|] eqn:Er; [|done]. cbn. f_equal.
           rewrite Hrn. case_decide as E; [|done]. subst r. exfalso.
           destruct (Hsym o' o Ho'1 Er) as (Hr & _ & _). congruence.
      * rewrite Hg2, Hnew. rewrite decide_True by done. rewrite Ho.
        destruct (plink g o) as [q0|] eqn:Eq; [|done]. cbn. f_equal. rewrite Hrn.
        rewrite decide_False; [done|]. by destruct (Hsym o q0 Ho1 Eq) as (_ & ? & _).
    + intros p. rewrite fst_app, snd_app, !elem_of_app. cbn. rewrite !elem_of_list_singleton. intros Hp1 Hp2.
      rewrite Hg2, Hnew. rewrite !decide_False by tauto.
      assert (HCp := HC p ltac:(tauto) ltac:(tauto)).
      assert (Hmem : forall r, r ∈ dn.*1 ++ [o] <-> r ∈ dn.*1 \/ r = o) by (intros; by rewrite elem_of_app, elem_of_list_singleton).
      destruct (plink g o) as [q0|] eqn:Eq; cbn in Ho; rewrite Ho.
      * destruct (Hsym o q0 Ho1 Eq) as (Hq & Hqo & Hq2).
        destruct (decide (p = rn dn q0)) as [Ep|Ep].
        -- destruct (Hrninj p q0) as [-> Hz]; [done|tauto|tauto|done|].
           rewrite Hq. rewrite decide_True; [by rewrite Hrn, decide_True|].
           rewrite Hmem. split; [by right|done].
        -- rewrite HCp. destruct (plink g p) as [r|] eqn:Er; [|done].
           destruct (decide (r = o)) as [->|Hro].
           ++ (* then p would be o's partner unless asymmetric *)
              rewrite (decide_False (P := o ∈ dn.*1 /\ _)) by tauto.
              rewrite decide_False; [done|]. intros [_ Hx]. rewrite Eq in Hx. injection Hx as ->.
              apply Ep. symmetry. apply rn_out. tauto.
           ++ destruct (decide (r ∈ dn.*1 /\ plink g r = Some p)) as [[Y1 Y2]|Y].
              ** rewrite decide_True by (rewrite Hmem; tauto). by rewrite Hrn, decide_False.
              ** rewrite decide_False; [done|]. rewrite Hmem. tauto.
      * rewrite HCp. destruct (plink g p) as [r|] eqn:Er; [|done].
        destruct (decide (r = o)) as [->|Hro].
        -- rewrite (decide_False (P := o ∈ dn.*1 /\ _)) by tauto.
           rewrite decide_False; [done|]. intros [_ Hx]. congruence.
        -- destruct (decide (r ∈ dn.*1 /\ plink g r = Some p)) as [[Y1 Y2]|Y].
           ++ rewrite decide_True by (rewrite Hmem; tauto). by rewrite Hrn, decide_False.
           ++ rewrite decide_False; [done|]. rewrite Hmem. tauto.
  - exists g', log. cbn in *. split_and!; try done.
Qed.

(** ** Moving ports inside a slab *)
Record move_post (ps : list (nat * nat)) (g g' : pg) : Prop := {
  mv_nodes : pg_nodes g' = pg_nodes g;
  mv_nfree : pg_nfree g' = pg_nfree g;
  mv_pfree : pg_pfree g' = pg_pfree g;
  mv_nc : pg_ncount g' = pg_ncount g;
  mv_pc : pg_pcount g' = pg_pcount g;
  mv_lc : pg_lcount g' = pg_lcount g;
  mv_len1 : length (pg_link g') = length (pg_link g);
  mv_len2 : length (pg_pmeta g') = length (pg_pmeta g);
  mv_new_l : forall o w, (o, w) ∈ ps -> plink g' w = plink g o;
  mv_new_m : forall o w, (o, w) ∈ ps -> pmeta g' w = pmeta g o;
  mv_old_l : forall p, p ∉ ps.*2 -> plink g' p =
      match plink g p with
      | Some r => if decide (r ∈ ps.*1 /\ plink g r = Some p) then Some (rn ps r) else Some r
      | None => None
      end;
  mv_old_m : forall p, p ∉ ps.*2 -> pmeta g' p = pmeta g p;
}.

Lemma move_loop g ps log0 :
  length (pg_link g) = length (pg_pmeta g) ->
  NoDup ps.*1 -> NoDup ps.*2 ->
  (forall o w, (o, w) ∈ ps -> o < length (pg_link g) /\ w < length (pg_link g)) ->
  (forall i j o w o' w', i < j -> ps !! i = Some (o, w) -> ps !! j = Some (o', w') -> w <> o') ->
  (forall o q, o ∈ ps.*1 -> plink g o = Some q -> plink g q = Some o /\ q ∉ ps.*1 /\ q ∉ ps.*2) ->
  exists g' log, rfold move_step ps (g, log0) = Ok (g', log) /\
    move_post ps g g' /\ log = log0 ++ moved_log ps.
Proof.
  intros Hlen Hnd1 Hnd2 Hlt Hord Hsym.
  destruct (rfold_ok move_step (fun dn s =>
      move_post dn g s.1 /\ s.2 = log0 ++ moved_log dn) ps (g, log0)) as ([g' log] & Hf & H1 & H2).
  - cbn. split; [|by rewrite app_nil_r]. split; try done.
    + intros o w Hp. by apply elem_of_nil in Hp.
    + intros o w Hp. by apply elem_of_nil in Hp.
    + intros p _. destruct (plink g p); [|done]. rewrite decide_False; [done|].
      intros [Hx _]. by apply elem_of_nil in Hx.
  - intros dn [o w] rest [g1 log] Hps (M & Hlog). cbn in *.
    destruct M as [L1 L2 L3 L4 L5 L6 L7 L8 HBl HBm HCl HCm].
    assert (Hin : (o, w) ∈ ps) by (rewrite Hps; apply elem_of_app; right; constructor).
    assert (Hsubd : forall x, x ∈ dn -> x ∈ ps) by (intros x Hx; rewrite Hps; apply elem_of_app; by left).
    assert (Hod : o ∉ dn.*1).
    { rewrite Hps, fst_app in Hnd1. apply NoDup_app in Hnd1 as (_ & Hnd1 & _). cbn in Hnd1.
      intros Hx. by eapply Hnd1, elem_of_list_here. }
    assert (Hwd : w ∉ dn.*2).
    { rewrite Hps, snd_app in Hnd2. apply NoDup_app in Hnd2 as (_ & Hnd2 & _). cbn in Hnd2.
      intros Hx. by eapply Hnd2, elem_of_list_here. }
    assert (Hod2 : o ∉ dn.*2).
    { intros ([o' w'] & Hw' & Hx)%elem_of_list_fmap. cbn in Hw'. subst w'.
      apply elem_of_list_lookup in Hx as [i Hi].
      refine (Hord i (length dn) o' o o w _ _ _ eq_refl).
      - by eapply lookup_lt_Some.
      - rewrite Hps. rewrite lookup_app_l; [done|]. by eapply lookup_lt_Some.
      - rewrite Hps. by apply list_lookup_middle. }
    pose proof (elem_of_fst _ _ _ Hin) as Ho1. pose proof (elem_of_snd _ _ _ Hin) as Hw2.
    assert (HndD : NoDup dn.*1) by (rewrite Hps, fst_app in Hnd1; by apply NoDup_app in Hnd1 as [? _]).
    assert (Hd1 : forall a, a ∈ dn.*1 -> a ∈ ps.*1).
    { intros a [b Hb]%fst_elem_of. by eapply elem_of_fst, Hsubd. }
    assert (Hd2 : forall a, a ∈ dn.*2 -> a ∈ ps.*2).
    { intros a [b Hb]%snd_elem_of. by eapply elem_of_snd, Hsubd. }
    destruct (Hlt _ _ Hin) as [Hlo Hlw].
    assert (Ho : plink g1 o = plink g o).
    { rewrite HCl by done. destruct (plink g o) as [r|] eqn:Er; [|done].
      destruct (Hsym o r Ho1 Er) as (Hr & Hr1 & Hr2).
      rewrite decide_False; [done|]. intros [Hx _]. by apply Hr1, Hd1. }
    assert (Hmo : pmeta g1 o = pmeta g o) by (by apply HCm).
    unfold move_step. cbn [fst snd].
    rewrite (b_vget _ _ (plink g1 o)) by (apply plink_lookup; lia).
    rewrite b_vset by lia.
    assert (exists e, pg_pmeta g1 !! o = Some e) as [e He].
    { apply lookup_lt_is_Some. lia. }
    rewrite (b_vget _ _ e) by done. rewrite b_vset by lia.
    set (lk1 := match plink g1 o with Some q => <[q:=Some w]> (<[w:=plink g1 o]> (pg_link g1)) | None => <[w:=plink g1 o]> (pg_link g1) end).
    assert (Hq : match plink g1 o with Some q => q < length (pg_link g1) /\ q <> w /\ plink g q = Some o /\ q ∉ ps.*1 /\ q ∉ ps.*2 | None => True end).
    { rewrite Ho. destruct (plink g o) as [q|] eqn:Eq; [|done].
      destruct (Hsym o q Ho1 Eq) as (Hq & Hq1 & Hq2). split_and!; try done.
      - rewrite L7. by eapply plink_lt.
      - intros ->. done. }
    assert (Hstep1 : (match plink g1 o with Some q => vset (<[w:=plink g1 o]> (pg_link g1)) q (Some w) | None => Ok (<[w:=plink g1 o]> (pg_link g1)) end) = Ok lk1
       /\ length lk1 = length (pg_link g)).
    { unfold lk1. destruct (plink g1 o) as [q|] eqn:E.
      - rewrite vset_ok by (rewrite insert_length; lia). rewrite !insert_length. done.
      - by rewrite insert_length. }
    destruct Hstep1 as [-> Hlk1]. rewrite bind_Ok.
    eexists. split; [done|]. cbn [fst snd].
    assert (Hnew : forall p, mjoin (lk1 !! p) =
       if decide (p = w) then plink g1 o
       else match plink g1 o with Some q => if decide (p = q) then Some w else plink g1 p | None => plink g1 p end).
    { intros p. unfold lk1. destruct (plink g1 o) as [q|] eqn:E.
      - destruct Hq as (Hql & Hqw & _). rewrite lookup_insert_if by (rewrite insert_length; lia).
        rewrite lookup_insert_if by lia.
        destruct (decide (p = q)); [subst; by rewrite decide_False|].
        case_decide; [done|]. by rewrite plink_eq.
      - rewrite lookup_insert_if by lia. case_decide; [done|]. by rewrite plink_eq. }
    assert (Hrn : forall p, rn (dn ++ [(o, w)]) p = if decide (p = o) then w else rn dn p) by (intros; by apply rn_snoc).
    set (g2 := with_pmeta _ _).
    assert (Hg2 : forall p, plink g2 p = mjoin (lk1 !! p)).
    { intros p. rewrite plink_eq. done. }
    assert (Hgm : forall p, pmeta g2 p = if decide (p = w) then pmeta g o else pmeta g1 p).
    { intros p. rewrite pmeta_eq. cbn. rewrite lookup_insert_if by lia. case_decide; [|done].
      by rewrite <- Hmo, pmeta_eq, He. }
    split; [|rewrite Hlog; unfold moved_log; rewrite fmap_app, app_assoc; done].
    split; cbn; try done; rewrite ?insert_length; try lia.
    + intros o' w'. rewrite elem_of_app, elem_of_list_singleton. rewrite Hg2, Hnew.
      intros [Hin'|[= -> ->]]; [|by rewrite decide_True].
      rewrite decide_False by (intros ->; apply Hwd; by eapply elem_of_snd).
      rewrite (HBl _ _ Hin').
      destruct (plink g1 o) as [q|] eqn:E; [|done]. destruct Hq as (_ & _ & _ & _ & Hq2).
      rewrite decide_False; [done|]. intros ->. by eapply Hq2, Hd2, elem_of_snd.
    + intros o' w'. rewrite elem_of_app, elem_of_list_singleton. rewrite Hgm.
      intros [Hin'|[= -> ->]]; [|by rewrite decide_True].
      rewrite decide_False by (intros ->; apply Hwd; by eapply elem_of_snd). by apply HBm.
    + intros p. rewrite snd_app, fst_app, elem_of_app. cbn. rewrite elem_of_list_singleton. intros Hp.
      rewrite Hg2, Hnew. rewrite decide_False by tauto.
      assert (HCp := HCl p ltac:(tauto)).
      assert (Hmem : forall r, r ∈ dn.*1 ++ [o] <-> r ∈ dn.*1 \/ r = o) by (intros; by rewrite elem_of_app, elem_of_list_singleton).
      rewrite Ho. rewrite Ho in Hq.
      destruct (plink g o) as [q|] eqn:Eq.
      * destruct Hq as (_ & _ & Hqo & Hq1 & Hq2).
        destruct (decide (p = q)) as [->|Hpq].
        -- rewrite Hqo. rewrite decide_True by (rewrite Hmem; split; [by right|done]). by rewrite Hrn, decide_True.
        -- rewrite HCp. destruct (plink g p) as [r|] eqn:Er; [|done].
           destruct (decide (r = o)) as [->|Hro].
           ++ rewrite (decide_False (P := o ∈ dn.*1 /\ _)) by tauto.
              rewrite decide_False; [done|]. intros [_ Hx]. congruence.
           ++ destruct (decide (r ∈ dn.*1 /\ plink g r = Some p)) as [[Y1 Y2]|Y].
              ** rewrite decide_True by (rewrite Hmem; tauto). by rewrite Hrn, decide_False.
              ** rewrite decide_False; [done|]. rewrite Hmem. tauto.
      * rewrite HCp. destruct (plink g p) as [r|] eqn:Er; [|done].
        destruct (decide (r = o)) as [->|Hro].
        -- rewrite (decide_False (P := o ∈ dn.*1 /\ _)) by tauto.
           rewrite decide_False; [done|]. intros [_ Hx]. congruence.
        -- destruct (decide (r ∈ dn.*1 /\ plink g r = Some p)) as [[Y1 Y2]|Y].
           ++ rewrite decide_True by (rewrite Hmem; tauto). by rewrite Hrn, decide_False.
           ++ rewrite decide_False; [done|]. rewrite Hmem. tauto.
    + intros p. rewrite snd_app, elem_of_app. cbn. rewrite elem_of_list_singleton. intros Hp.
      rewrite Hgm. rewrite decide_False by tauto. apply HCm. tauto.
  - exists g', log. cbn in *. split_and!; done.
Qed.

(** ** Initialising and clearing *)
Record fill_post (l : list nat) (e : option (nat * dir)) (g g' : pg) : Prop := {
  fi_nodes : pg_nodes g' = pg_nodes g;
  fi_nfree : pg_nfree g' = pg_nfree g;
  fi_pfree : pg_pfree g' = pg_pfree g;
  fi_nc : pg_ncount g' = pg_ncount g;
  fi_pc : pg_pcount g' = pg_pcount g;
  fi_lc : pg_lcount g' = pg_lcount g;
  fi_len1 : length (pg_link g') = length (pg_link g);
  fi_len2 : length (pg_pmeta g') = length (pg_pmeta g);
  fi_l : forall p, plink g' p = if decide (p ∈ l) then None else plink g p;
  fi_m : forall p, pmeta g' p = if decide (p ∈ l) then e else pmeta g p;
}.

Lemma init_loop n d g l :
  (forall p, p ∈ l -> p < length (pg_link g) /\ p < length (pg_pmeta g)) ->
  exists g', rfold (init_step n d) l g = Ok g' /\ fill_post l (Some (n, d)) g g'.
Proof.
  intros Hl. apply (rfold_ok (init_step n d) (fun dn g' => fill_post dn (Some (n, d)) g g')).
  - split; try done; intros p; by rewrite decide_False by apply not_elem_of_nil.
  - intros dn p rest g1 Hsplit [L1 L2 L3 L4 L5 L6 L7 L8 H1 H2].
    destruct (Hl p) as [Hp1 Hp2]; [rewrite Hsplit; apply elem_of_app; right; constructor|].
    unfold init_step. rewrite b_vset by lia. rewrite b_vset by lia. eexists. split; [done|].
    split; cbn; rewrite ?insert_length; try done.
    + intros x. rewrite plink_eq. cbn. rewrite lookup_insert_if by lia.
      case_decide as E; subst.
      * rewrite decide_True; [done|]. apply elem_of_app. right. constructor.
      * rewrite <- plink_eq, H1. destruct (decide (x ∈ dn)).
        -- rewrite decide_True; [done|]. apply elem_of_app. by left.
        -- rewrite decide_False; [done|]. rewrite elem_of_app, elem_of_list_singleton. tauto.
    + intros x. rewrite pmeta_eq. cbn. rewrite lookup_insert_if by lia.
      case_decide as E; subst.
      * rewrite decide_True; [done|]. apply elem_of_app. right. constructor.
      * rewrite <- pmeta_eq, H2. destruct (decide (x ∈ dn)).
        -- rewrite decide_True; [done|]. apply elem_of_app. by left.
        -- rewrite decide_False; [done|]. rewrite elem_of_app, elem_of_list_singleton. tauto.
Qed.

Lemma empty_loop g l :
  (forall p, p ∈ l -> p < length (pg_link g) /\ p < length (pg_pmeta g)) ->
  exists g', rfold empty_step l g = Ok g' /\ fill_post l None g g'.
Proof.
  intros Hl. apply (rfold_ok empty_step (fun dn g' => fill_post dn None g g')).
  - split; try done; intros p; by rewrite decide_False by apply not_elem_of_nil.
  - intros dn p rest g1 Hsplit [L1 L2 L3 L4 L5 L6 L7 L8 H1 H2].
    destruct (Hl p) as [Hp1 Hp2]; [rewrite Hsplit; apply elem_of_app; right; constructor|].
    unfold empty_step. rewrite b_vset by lia. rewrite b_vset by lia. eexists. split; [done|].
    split; cbn; rewrite ?insert_length; try done.
    + intros x. rewrite plink_eq. cbn. rewrite lookup_insert_if by lia.
      case_decide as E; subst.
      * rewrite decide_True; [done|]. apply elem_of_app. right. constructor.
      * rewrite <- plink_eq, H1. destruct (decide (x ∈ dn)).
        -- rewrite decide_True; [done|]. apply elem_of_app. by left.
        -- rewrite decide_False; [done|]. rewrite elem_of_app, elem_of_list_singleton. tauto.
    + intros x. rewrite pmeta_eq. cbn. rewrite lookup_insert_if by lia.
      case_decide as E; subst.
      * rewrite decide_True; [done|]. apply elem_of_app. right. constructor.
      * rewrite <- pmeta_eq, H2. destruct (decide (x ∈ dn)).
        -- rewrite decide_True; [done|]. apply elem_of_app. by left.
        -- rewrite decide_False; [done|]. rewrite elem_of_app, elem_of_list_singleton. tauto.
Qed.
