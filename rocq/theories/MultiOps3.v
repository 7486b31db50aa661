(** [set_num_ports]: what happens to the flags, and the call on visible nodes. *)
From Verif Require Export MultiOps2.

Lemma bv_swap_get b x y : exists b', bv_swap b x y = Ok b' /\ forall z, bv_get b' z = tswap (bv_get b) x y z.
Proof.
  unfold bv_swap. destruct (Bool.eqb (bv_get b x) (bv_get b y)) eqn:Eb; cbn [negb].
  - apply eqb_prop in Eb. exists b. split; [done|]. intros z. unfold tswap.
    destruct (decide (z = x)) as [->|]; [done|]. destruct (decide (z = y)) as [->|]; done.
  - destruct (bv_set_get b x (bv_get b y)) as (b1 & E1 & H1). rewrite E1, bind_Ok.
    destruct (bv_set_get b1 y (bv_get b x)) as (b2 & E2 & H2). exists b2. split; [done|]. intros z. rewrite H2, H1. unfold tswap.
    destruct (decide (z = x)) as [->|]; destruct (decide (_ = y)) as [->|]; try done.
Qed.
Lemma tswap_comp {V} (f : nat -> V) (h : nat -> nat) x y z : tswap (fun k => f (h k)) x y z = f (tswap h x y z).
Proof. unfold tswap. by repeat destruct (decide _). Qed.
Lemma tswap_ext {V} (f h : nat -> V) x y z : (forall k, f k = h k) -> tswap f x y z = tswap h x y z.
Proof. intros E. unfold tswap. by repeat destruct (decide _). Qed.
Lemma tswap_inj (h : nat -> nat) x y : (forall a b, h a = h b -> a = b) -> forall a b, tswap h x y a = tswap h x y b -> a = b.
Proof.
  intros H a b E. unfold tswap in E. destruct (decide (a = x)), (decide (b = x)), (decide (a = y)), (decide (b = y)); apply H in E; congruence.
Qed.
Lemma replay_swap_ext {V} log : forall (f h : nat -> V), (forall k, f k = h k) -> forall z, replay_swap log f z = replay_swap log h z.
Proof.
  unfold replay_swap. induction log as [|[p o] log IH]; intros f h E z; [apply E|]. cbn. apply IH. destruct o; [|exact E].
  intros k. by apply tswap_ext.
Qed.
Lemma replay_swap_comp {V} log : forall (f : nat -> V) (h : nat -> nat) z, replay_swap log (fun k => f (h k)) z = f (replay_swap log h z).
Proof.
  unfold replay_swap. induction log as [|[p o] log IH]; intros f h z; [done|]. cbn. destruct o as [new|l]; [|apply IH].
  rewrite <- IH. apply (replay_swap_ext log). intros k. apply tswap_comp.
Qed.
Lemma replay_swap_inj log : forall (h : nat -> nat), (forall a b, h a = h b -> a = b) -> forall a b, replay_swap log h a = replay_swap log h b -> a = b.
Proof.
  unfold replay_swap. induction log as [|[p o] log IH]; intros h H; [done|]. cbn. apply IH. destruct o as [new|l]; [|done].
  by apply tswap_inj.
Qed.
Lemma replay_swap_fix {V} log : forall (f : nat -> V) z, (forall x, (x, Moved z) ∉ log) -> (forall y, (z, Moved y) ∉ log) -> replay_swap log f z = f z.
Proof.
  unfold replay_swap. induction log as [|[p o] log IH]; intros f z H1 H2; [done|]. cbn.
  rewrite IH by set_solver. destruct o as [new|l]; [|done]. unfold tswap.
  rewrite !decide_False; [done|intros ->; by apply (H1 p); left|intros ->; by apply (H2 new); left].
Qed.

(** the callback wrapper *)
Definition dropped_flagged (f : list bool) (rl : list (nat * port_op)) : list (nat * nat) :=
  omap (fun x => match x.2 with Removed (Some l) => if bv_get f x.1 then Some (x.1, l) else None | _ => None end) rl.
Lemma rekey_removed f rl : forall D, (forall p o, (p, o) ∈ rl -> exists l, o = Removed l /\ (bv_get f p = true -> is_Some l)) ->
  rfold m_rekey_step rl (f, D) = Ok (f, D ++ dropped_flagged f rl).
Proof.
  induction rl as [|[p o] rl IH]; intros D H; [by rewrite app_nil_r|]. cbn [rfold].
  destruct (H p o) as (l & -> & Hl); [by left|]. cbn [m_rekey_step fst snd dropped_flagged omap list_omap].
  destruct (bv_get f p) eqn:Ef.
  - destruct (Hl eq_refl) as [q ->]. cbn [unwrap]. rewrite !bind_Ok, IH by (intros; apply H; by right).
    by rewrite <- app_assoc.
  - rewrite bind_Ok, IH by (intros; apply H; by right). by destruct l.
Qed.
Lemma rekey_moved ml : forall f D, (forall p o, (p, o) ∈ ml -> exists y, o = Moved y) ->
  exists f', rfold m_rekey_step ml (f, D) = Ok (f', D) /\ forall z, bv_get f' z = replay_swap ml (bv_get f) z.
Proof.
  induction ml as [|[p o] ml IH]; intros f D H; [by exists f|].
  destruct (H p o) as (y & ->); [by left|]. cbn [rfold m_rekey_step fst snd].
  destruct (bv_swap_get f p y) as (f1 & E1 & H1). rewrite E1, !bind_Ok.
  destruct (IH f1 D) as (f' & E & H'); [intros; apply (H p0); by right|]. exists f'. split; [done|].
  intros z. rewrite H'. unfold replay_swap. cbn. by apply (replay_swap_ext ml).
Qed.
Lemma replay_swap_removed {V} rl ml (f : nat -> V) z : (forall p o, (p, o) ∈ rl -> exists l, o = Removed l) ->
  replay_swap (rl ++ ml) f z = replay_swap ml f z.
Proof.
  unfold replay_swap. intros H. rewrite foldl_app. f_equal. induction rl as [|[p o] rl IH]; [done|].
  cbn. destruct (H p o) as [l ->]; [by left|]. apply IH. intros p0 o0 H0. apply (H p0). by right.
Qed.

Section snp.
  Context (w : N) (Hw : (1 < w <= 63)%N) (g : pg) (R : reach w g) (n i j : nat) (g' : pg) (log : list (nat * port_op))
    (Hn : contains_node g n = true) (E : set_num_ports g n i j = Ok (g', log)).
  Definition newnum (d : dir) : nat := match d with Incoming => i | Outgoing => j end.
  Let V := v_snp w g R n i j g' log Hn E.

  Lemma snp_reach : reach w g'. Proof. apply V. Qed.
  Lemma snp_num d : num_ports g' n d = newnum d. Proof. destruct V as (_ & ? & ? & _). by destruct d. Qed.
  Lemma snp_cn x : contains_node g' x = contains_node g x. Proof. apply V. Qed.
  Lemma snp_ports x d : x <> n -> ports g' x d = ports g x d. Proof. apply V. Qed.
  Lemma snp_pm p x d : x <> n -> (pmeta g' p = Some (x, d) <-> pmeta g p = Some (x, d)). Proof. apply V. Qed.

  Lemma surv_pm p p' : survives g g' n p p' -> exists x d, pmeta g p = Some (x, d) /\ pmeta g' p' = Some (x, d).
  Proof.
    intros [(d & k & H & H')|(Hc & Hne & ->)].
    - exists n, d. split; [by eapply (r_look w g R)|by eapply (r_look w g' snp_reach)].
    - apply contains_port_true in Hc as [[x d] Hp]. rewrite (pm_node _ _ _ _ Hp) in Hne. exists x, d.
      split; [done|]. apply snp_pm; [congruence|done].
  Qed.
  Lemma surv_other p p' x d : survives g g' n p p' -> pmeta g p = Some (x, d) -> x <> n -> p' = p.
  Proof.
    intros [(d' & k & H & H')|(Hc & Hne & ->)] Hp Hx; [|done]. apply (r_look w g R) in H. congruence.
  Qed.
  Lemma surv_other' p p' x d : survives g g' n p p' -> pmeta g' p' = Some (x, d) -> x <> n -> p = p'.
  Proof. intros S Hp Hx. destruct (surv_pm p p' S) as (y & d' & H1 & H2). symmetry. apply (surv_other p p' x d S); [congruence|done]. Qed.
  Lemma surv_self p x d : pmeta g p = Some (x, d) -> x <> n -> survives g g' n p p.
  Proof. intros Hp Hx. right. split_and!; [apply contains_port_true; eauto| |done]. rewrite (pm_node _ _ _ _ Hp). congruence. Qed.
  Lemma surv_fun p p1 p2 : survives g g' n p p1 -> survives g g' n p p2 -> p1 = p2.
  Proof.
    intros S1 S2. destruct (surv_pm _ _ S1) as (x & d & H1 & H2). destruct (decide (x = n)) as [->|Hx].
    - destruct S1 as [(d1 & k1 & A1 & B1)|(_ & A & _)]; [|by rewrite (pm_node _ _ _ _ H1) in A].
      destruct S2 as [(d2 & k2 & A2 & B2)|(_ & A & _)]; [|by rewrite (pm_node _ _ _ _ H1) in A].
      destruct (reach_inv _ _ R) as (fnl & F & I0). destruct (port_at_inj _ _ _ I0 _ _ _ _ _ _ _ A1 A2) as (_ & <- & <-).
      unfold port_at in *. congruence.
    - rewrite (surv_other _ _ _ _ S1 H1 Hx). by rewrite (surv_other _ _ _ _ S2 H1 Hx).
  Qed.
  Lemma surv_inj p1 p2 p' : survives g g' n p1 p' -> survives g g' n p2 p' -> p1 = p2.
  Proof.
    intros S1 S2. destruct (surv_pm _ _ S1) as (x & d & H1 & H2). destruct (decide (x = n)) as [->|Hx].
    - assert (HH : forall p, survives g g' n p p' -> exists d k, port_at g n d k p /\ port_at g' n d k p').
      { intros p [H|(Hc & Hne & ->)]; [done|]. apply contains_port_true in Hc as [[x1 d1] Hp]. rewrite (pm_node _ _ _ _ Hp) in Hne.
        exfalso. apply (snp_pm p x1 d1) in Hp; congruence. }
      destruct (HH _ S1) as (d1 & k1 & A1 & B1). destruct (HH _ S2) as (d2 & k2 & A2 & B2).
      destruct (reach_inv _ _ snp_reach) as (fnl & F & I0). destruct (port_at_inj _ _ _ I0 _ _ _ _ _ _ _ B1 B2) as (_ & <- & <-).
      unfold port_at in *. congruence.
    - rewrite (surv_other' _ _ _ _ S1 H2 Hx). by rewrite (surv_other' _ _ _ _ S2 H2 Hx).
  Qed.
  Lemma surv_lk p p' q q' : survives g g' n p p' -> survives g g' n q q' -> (lk g p = Some q <-> lk g' p' = Some q').
  Proof. apply V. Qed.
  Lemma surv_lk_inv p' q' : lk g' p' = Some q' -> exists p q, survives g g' n p p' /\ survives g g' n q q' /\ lk g p = Some q.
  Proof. apply V. Qed.

  Definition drops : list nat := drop i (ports g n Incoming) ++ drop j (ports g n Outgoing).
  Lemma drops_elem p : p ∈ drops <-> exists d k, port_at g n d k p /\ newnum d <= k.
  Proof.
    unfold drops. rewrite elem_of_app. unfold port_at. split.
    - intros [H|H]; apply elem_of_list_lookup_1 in H as [k Hk]; rewrite lookup_drop in Hk.
      + exists Incoming, (i + k). split; [done|cbn; lia].
      + exists Outgoing, (j + k). split; [done|cbn; lia].
    - intros ([] & k & Hk & Hle); cbn in Hle; [left|right]; apply elem_of_list_lookup.
      + exists (k - i). rewrite lookup_drop. by replace (i + (k - i)) with k by lia.
      + exists (k - j). rewrite lookup_drop. by replace (j + (k - j)) with k by lia.
  Qed.
  Lemma drops_nosurv p p' : p ∈ drops -> ~ survives g g' n p p'.
  Proof.
    intros (d & k & Hk & Hle)%drops_elem S. pose proof (r_look w g R _ _ _ _ Hk) as Hp.
    destruct S as [(d1 & k1 & A & B)|(_ & A & _)]; [|by rewrite (pm_node _ _ _ _ Hp) in A].
    destruct (reach_inv _ _ R) as (fnl & F & I0). destruct (port_at_inj _ _ _ I0 _ _ _ _ _ _ _ Hk A) as (_ & <- & <-).
    apply lookup_lt_Some in B. rewrite ports_length, snp_num in B. lia.
  Qed.
  Lemma live_surv p : is_Some (pmeta g p) -> (exists p', survives g g' n p p') \/ p ∈ drops.
  Proof.
    intros [[x d] Hp]. destruct (decide (x = n)) as [->|Hx].
    - destruct (r_pos w g R _ _ _ Hp) as [k Hk]. destruct (decide (k < newnum d)) as [Hlt|Hge].
      + left. rewrite <- snp_num, <- ports_length in Hlt. apply lookup_lt_is_Some in Hlt as [p' Hp']. exists p'. left. by exists d, k.
      + right. apply drops_elem. exists d, k. split; [done|lia].
    - left. exists p. by eapply surv_self.
  Qed.
  Lemma drops_nodup : NoDup drops.
  Proof.
    destruct (C02_ports_and_nodes_pf w g Hw R) as (_ & _ & _ & _ & _ & _ & H). destruct (H n) as [H1 [s H2]]. rewrite H2 in H1.
    unfold drops. apply NoDup_app. assert (Hnd : NoDup (ports g n Incoming ++ ports g n Outgoing)) by (rewrite H1; apply NoDup_seq).
    apply NoDup_app in Hnd as (N1 & N2 & N3). split_and!.
    - rewrite <- (take_drop i (ports g n Incoming)) in N1. apply NoDup_app in N1 as (_ & _ & N1). done.
    - intros x Hx Hx'. apply (N2 x).
      + rewrite <- (take_drop i (ports g n Incoming)). apply elem_of_app. by right.
      + rewrite <- (take_drop j (ports g n Outgoing)). apply elem_of_app. by right.
    - rewrite <- (take_drop j (ports g n Outgoing)) in N3. apply NoDup_app in N3 as (_ & _ & N3). done.
  Qed.

  (** The flags after the callback wrapper. [f] flags live ports. *)
  Context (f : list bool) (Hlive : forall x, bv_get f x = true -> is_Some (pmeta g x))
    (Hdrop : forall p, p ∈ drops -> bv_get f p = true -> exists q c d, lk g p = Some q /\ pmeta g q = Some (c, d) /\ c <> n)
    (Hreuse : forall p l x, (p, Removed l) ∈ log -> bv_get f p = true -> (x, Moved p) ∉ log).

  Lemma rekey_ok : exists f' D, rfold m_rekey_step log (f, []) = Ok (f', D) /\
    (forall p p', survives g g' n p p' -> bv_get f' p' = bv_get f p) /\
    (forall z, bv_get f' z = true -> (exists p, survives g g' n p z /\ bv_get f p = true) \/ (z ∈ drops /\ bv_get f z = true)) /\
    (forall z, z ∈ drops -> bv_get f z = true -> bv_get f' z = true /\ forall p, ~ survives g g' n p z) /\
    (forall p q, (p, q) ∈ D <-> p ∈ drops /\ bv_get f p = true /\ lk g p = Some q) /\ NoDup D.*1.
  Proof.
    destruct (C11_set_num_ports_callbacks_pf w g n i j g' log R Hn E) as ((rl & ml & Elog & Erl & Hrl & Hml1 & Hml2 & Hml3) & Hrep & _).
    fold drops in Erl.
    assert (Hrem : forall p o, (p, o) ∈ rl -> exists l, o = Removed l /\ p ∈ drops /\ (bv_get f p = true -> exists q, lk g p = Some q /\ l = Some q)).
    { intros p o Hp. assert (Hpd : p ∈ drops). { rewrite <- Erl. by apply (elem_of_list_fmap_1 fst) in Hp. }
      apply elem_of_list_lookup_1 in Hp as [k Hk]. destruct (Hrl k p o Hk) as (l & -> & Hl). exists l. split; [done|]. split; [done|].
      intros Fp. destruct (Hdrop p Hpd Fp) as (q & c & d & Hq & Mq & Hc). exists q. split; [done|]. apply Hl. split; [by apply linked_lk|].
      intros Hin. assert (q ∈ drops) as (d' & k' & Hq' & _)%drops_elem.
      { fold drops in Hin. rewrite <- (take_drop k drops). apply elem_of_app. by left. }
      apply (r_look w g R) in Hq'. congruence. }
    assert (Hmov : forall p o, (p, o) ∈ ml -> exists y, o = Moved y /\ survives g g' n p y).
    { intros p o Hp. destruct (Hml2 p o Hp) as (y & d & k & -> & A & B). exists y. split; [done|]. left. by exists d, k. }
    destruct (rekey_moved ml f ([] ++ dropped_flagged f rl)) as (f' & Ef & Hf').
    { intros p o Hp. destruct (Hmov p o Hp) as (y & -> & _). eauto. }
    exists f', (dropped_flagged f rl). split.
    { rewrite Elog, rfold_app, rekey_removed.
      - cbn [app] in *. cbn [mbind res_bind]. exact Ef.
      - intros p o Hp. destruct (Hrem p o Hp) as (l & -> & _ & Hl). exists l. split; [done|]. intros Fp. destruct (Hl Fp) as (q & _ & ->). eauto. }
    assert (Hall : forall z, bv_get f' z = bv_get f (replay_swap log (fun k => k) z)).
    { intros z. rewrite Hf', <- (replay_swap_comp log (bv_get f) (fun k => k) z).
      rewrite Elog, (replay_swap_removed rl ml); [done|]. intros p o Hp. destruct (Hrem p o Hp) as (l & -> & _). eauto. }
    assert (Hnomove : forall z, z ∈ drops -> bv_get f z = true -> (forall x, (x, Moved z) ∉ log) /\ (forall y, (z, Moved y) ∉ log)).
    { intros z Hz Fz. split.
      - intros x. assert (exists l, (z, Removed l) ∈ rl) as [l Hl].
        { rewrite <- Erl in Hz. apply elem_of_list_fmap in Hz as ([z' o] & -> & Ho). cbn. destruct (Hrem _ _ Ho) as (l & -> & _). eauto. }
        eapply (Hreuse z l); [|done]. rewrite Elog. apply elem_of_app. by left.
      - intros y. rewrite Elog, elem_of_app. intros [Hin|Hin].
        + destruct (Hrem _ _ Hin) as (l & ? & _). done.
        + destruct (Hmov _ _ Hin) as (y' & _ & S). by eapply drops_nosurv. }
    assert (Hfix : forall z, z ∈ drops -> bv_get f z = true -> replay_swap log (fun k => k) z = z).
    { intros z Hz Fz. destruct (Hnomove z Hz Fz). by apply (replay_swap_fix log (fun k => k)). }
    split_and!.
    - intros p p' S. rewrite Hall. f_equal. by apply (Hrep nat (fun k => k)).
    - intros z Fz. rewrite Hall in Fz. destruct (live_surv _ (Hlive _ Fz)) as [[p' S]|Hd].
      + left. eexists. split; [|exact Fz].
        assert (p' = z) as <-; [|done]. apply (replay_swap_inj log (fun k => k)); [done|]. by apply (Hrep nat (fun k => k)).
      + right. assert (replay_swap log (fun k => k) z = z) as Ez; [|by rewrite Ez in *].
        apply (replay_swap_inj log (fun k => k)); [done|]. by apply Hfix.
    - intros z Hz Fz. split; [by rewrite Hall, Hfix|]. intros p S.
      destruct S as [(d & k & A & B)|(Hc & Hne & ->)].
      + destruct (decide (p = z)) as [->|Hpz].
        * eapply (drops_nosurv z z); [done|]. left. by exists d, k.
        * destruct (Hnomove z Hz Fz) as [H _]. apply (H p). rewrite Elog. apply elem_of_app. right. by eapply Hml3.
      + eapply (drops_nosurv p p); [done|]. by right.
    - intros p q. unfold dropped_flagged. rewrite elem_of_list_omap. split.
      + intros ([p0 o] & Ho & Heq). cbn [fst snd] in Heq. destruct (Hrem _ _ Ho) as (l & -> & Hd & Hl).
        destruct l as [l|]; [|done]. destruct (bv_get f p0) eqn:Fp; [|done]. injection Heq as -> ->.
        destruct (Hl eq_refl) as (q' & Hq & [= ->]). done.
      + intros (Hd & Fp & Hq). pose proof Hd as Hd'. rewrite <- Erl in Hd'. apply elem_of_list_fmap in Hd' as ([p0 o] & -> & Ho). cbn [fst] in *.
        exists (p0, o). split; [done|]. destruct (Hrem _ _ Ho) as (l & -> & _ & Hl). destruct (Hl Fp) as (q' & Hq' & ->).
        cbn [fst snd]. rewrite Fp. congruence.
    - assert (Hnd : NoDup rl.*1) by (rewrite Erl; apply drops_nodup). clear -Hnd. induction rl as [|[p o] rl IH]; [apply NoDup_nil_2|].
      cbn in Hnd. apply NoDup_cons in Hnd as [Hp Hnd]. unfold dropped_flagged. cbn. specialize (IH Hnd).
      assert (Hgo : forall l, p ∉ (dropped_flagged f rl).*1 /\ NoDup (dropped_flagged f rl).*1 -> NoDup ((p, l) :: dropped_flagged f rl).*1).
      { intros l [A B]. cbn. by apply NoDup_cons. }
      assert (Hp' : p ∉ (dropped_flagged f rl).*1).
      { intros (x & -> & Hx)%elem_of_list_fmap. apply Hp. unfold dropped_flagged in Hx. apply elem_of_list_omap in Hx as ([p0 o0] & Ho & He).
        cbn in He. destruct o0 as [|[l|]]; [done| |done]. destruct (bv_get f p0); [|done]. injection He as <-. cbn. by apply (elem_of_list_fmap_1 fst) in Ho. }
      destruct o as [|[l|]]; [done| |done]. destruct (bv_get f p); [|done]. apply Hgo. done.
  Qed.
End snp.
