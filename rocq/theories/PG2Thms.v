(** Proofs of the theorems stated in PG2Props.v. *)
From Verif Require Export PG1Thms PGReplay.

(** [set_num_ports] on a node, including the case where nothing changes. *)
Lemma set_num_ports_post g fnl F n m i j g' log :
  InvG g fnl F -> nmeta g n = Some m -> set_num_ports g n i j = Ok (g', log) ->
  Inv g' /\ exists m', resize_post g n m i j g' m' log.
Proof.
  intros I Hm E. pose proof (set_num_ports_spec g fnl F n i j I) as H. rewrite E in H.
  destruct H as (_ & _ & H). rewrite Hm in H. destruct (decide _) as [[<- <-]|]; [|done].
  destruct H as [-> ->]. split; [by exists fnl, F|]. exists m.
  assert (Hk : forall p, kept m m p) by (intros p; unfold kept, in_range; lia).
  assert (Hr : forall p, nm_ren m m p = p) by (intros p; unfold nm_ren, in_range; repeat case_decide; lia).
  assert (Hd : dropped_ports m (nm_inc m) (nm_out m) = []).
  { unfold dropped_ports. rewrite !drop_ge; [done|..]; unfold nm_ports; by rewrite seq_length. }
  split.
  - intros x. destruct (decide (x = n)); congruence.
  - done.
  - done.
  - intros p _ _. rewrite Hr. destruct (plink g p); [|done]. by rewrite decide_True, Hr by done.
  - intros d p Hp ?. unfold in_range in Hp. lia.
  - done.
  - lia.
  - exists [], []. rewrite Hd. split_and!; [done|done|].
    split; try done; [by intros o w []%elem_of_nil|by intros o d _ _ []|constructor|constructor].
Qed.

Lemma card_filter {A} (P Q : A -> Prop) `{HQ : forall x, Decision (Q x)} n :
  card P n -> exists k, card (fun x => P x /\ Q x) k.
Proof.
  intros (L & H1 & H2 & _). exists (length (filter Q L)), (filter Q L). split_and!; [by apply NoDup_filter| |done].
  intros x. rewrite elem_of_list_filter, H2. tauto.
Qed.

Section resize.
  Context (g : pg) (fnl : list nat) (F : nat -> list nat) (I : InvG g fnl F).
  Context (g' : pg) (fnl' : list nat) (F' : nat -> list nat) (I' : InvG g' fnl' F').
  Context (n i j : nat) (m m' : node_meta) (log : list (nat * port_op)).
  Context (Hm : nmeta g n = Some m) (R : resize_post g n m i j g' m' log).

  Lemma rz_nm : nmeta g' n = Some m'.
  Proof. rewrite (rz_nmeta _ _ _ _ _ _ _ _ R). by rewrite decide_True. Qed.
  Lemma rz_other p x : pmeta g p = Some x -> x.1 <> n -> pmeta g' p = Some x /\ (forall d, ~ in_range m d p).
  Proof.
    destruct x as [n2 d]. cbn. intros Hp Hne. split.
    - apply (inv_pmeta _ _ _ I) in Hp as (m2 & Hm2 & Hr). apply (inv_pmeta _ _ _ I'). exists m2.
      rewrite (rz_nmeta _ _ _ _ _ _ _ _ R). by rewrite decide_False.
    - intros d' Hr. pose proof (inv_pmeta_range _ _ _ I _ _ _ _ Hm Hr). congruence.
  Qed.
  Lemma rz_other' p x : pmeta g' p = Some x -> x.1 <> n -> pmeta g p = Some x.
  Proof.
    destruct x as [n2 d]. cbn. intros Hp Hne.
    apply (inv_pmeta _ _ _ I') in Hp as (m2 & Hm2 & Hr). apply (inv_pmeta _ _ _ I). exists m2.
    rewrite (rz_nmeta _ _ _ _ _ _ _ _ R) in Hm2. by rewrite decide_False in Hm2.
  Qed.
  Lemma survives_iff p p' : survives g g' n p p' <-> is_Some (pmeta g p) /\ kept m m' p /\ p' = nm_ren m m' p.
  Proof.
    unfold survives. split.
    - intros [(d & k & Hp & Hp')|(Hp & Hn & ->)].
      + pose proof (port_at_pmeta _ _ _ I _ _ _ _ Hp). apply port_at_iff in Hp as (m1 & Hm1 & -> & Hk).
        apply port_at_iff in Hp' as (m2 & Hm2 & -> & Hk'). rewrite rz_nm in Hm2. injection Hm2 as <-.
        rewrite Hm in Hm1. injection Hm1 as <-.
        assert (Hr : in_range m d (nm_start m d + k)) by (unfold in_range; lia).
        split_and!; [eauto|eapply kept_off; [done|lia]|]. rewrite (nm_ren_in _ _ d) by done. lia.
      + apply contains_port_true in Hp as [x Hp].
        destruct (rz_other _ _ Hp) as [_ Hr]. { unfold port_node in Hn. rewrite Hp in Hn. cbn in Hn. congruence. }
        split_and!; [eauto| |by rewrite nm_ren_out]. split; intros Hr'; by apply Hr in Hr'.
    - intros ([[n2 d] Hp] & Hk & ->). destruct (decide (n2 = n)) as [->|Hne].
      + left. pose proof Hp as (m2 & Hm2 & Hr)%(inv_pmeta _ _ _ I). rewrite Hm in Hm2. injection Hm2 as <-.
        pose proof (kept_in _ _ _ _ Hk Hr) as Hr'. exists d, (p - nm_start m d). rewrite !port_at_iff.
        rewrite (nm_ren_in _ _ d) in * by done. unfold in_range in *. split.
        * exists m. split; [done|lia].
        * exists m'. split; [apply rz_nm|lia].
      + right. destruct (rz_other _ _ Hp Hne) as [_ Hr]. rewrite nm_ren_out by done.
        split_and!; [apply contains_port_true; eauto| |done]. unfold port_node. rewrite Hp. cbn. congruence.
  Qed.
  Lemma rz_pmeta p x : pmeta g p = Some x -> kept m m' p -> pmeta g' (nm_ren m m' p) = Some x.
  Proof.
    destruct x as [n2 d]. intros Hp Hk. destruct (decide (n2 = n)) as [->|Hne].
    - pose proof Hp as (m2 & Hm2 & Hr)%(inv_pmeta _ _ _ I). rewrite Hm in Hm2. injection Hm2 as <-.
      eapply inv_pmeta_range; [done|apply rz_nm|]. by apply kept_in.
    - destruct (rz_other _ _ Hp Hne) as [Hp' Hr]. by rewrite nm_ren_out.
  Qed.
  (** Every port of [g'] is a survivor or a new, unlinked port. *)
  Lemma rz_preimage p' x : pmeta g' p' = Some x ->
    (exists p, pmeta g p = Some x /\ kept m m' p /\ p' = nm_ren m m' p) \/ plink g' p' = None.
  Proof.
    destruct x as [n2 d]. intros Hp. destruct (decide (n2 = n)) as [->|Hne].
    - pose proof Hp as (m2 & Hm2 & Hr)%(inv_pmeta _ _ _ I'). rewrite rz_nm in Hm2. injection Hm2 as <-.
      destruct (decide (nm_num m d <= p' - nm_start m' d)) as [Hnew|Hold].
      + right. by eapply (rz_new _ _ _ _ _ _ _ _ R).
      + left. assert (Hr2 : in_range m d (nm_start m d + (p' - nm_start m' d))) by (unfold in_range in *; lia).
        eexists. split; [by eapply inv_pmeta_range|]. split; [eapply kept_off; [done|unfold in_range in *; lia]|].
        rewrite (nm_ren_in _ _ d) by done. unfold in_range in *. lia.
    - left. pose proof (rz_other' _ _ Hp Hne) as Hp0. destruct (rz_other _ _ Hp0 Hne) as [_ Hr].
      exists p'. split_and!; [done| |by rewrite nm_ren_out]. split; intros Hr'; by apply Hr in Hr'.
  Qed.
  Lemma rz_ren_inj p q : is_Some (pmeta g p) -> is_Some (pmeta g q) -> kept m m' p -> kept m m' q ->
    nm_ren m m' p = nm_ren m m' q -> p = q.
  Proof.
    intros [x Hp] [y Hq] Kp Kq E. pose proof (rz_pmeta _ _ Hp Kp) as H1. pose proof (rz_pmeta _ _ Hq Kq) as H2.
    rewrite E, H2 in H1. injection H1 as ->. destruct x as [n2 d]. destruct (decide (n2 = n)) as [->|Hne].
    - apply (inv_pmeta _ _ _ I) in Hp as (m1 & Hm1 & Hr1). apply (inv_pmeta _ _ _ I) in Hq as (m2 & Hm2 & Hr2).
      rewrite Hm in Hm1, Hm2. injection Hm1 as <-. injection Hm2 as <-.
      rewrite !(nm_ren_in _ _ d) in E by done. unfold in_range in *. lia.
    - destruct (rz_other _ _ Hp Hne) as [_ Hr1]. destruct (rz_other _ _ Hq Hne) as [_ Hr2].
      by rewrite !nm_ren_out in E.
  Qed.
  Lemma rz_linked p q : is_Some (pmeta g p) -> kept m m' p -> is_Some (pmeta g q) -> kept m m' q ->
    linked g p q <-> linked g' (nm_ren m m' p) (nm_ren m m' q).
  Proof.
    intros [x Hp] Kp Hq Kq. rewrite (linked_iff _ _ _ I), (linked_iff _ _ _ I').
    rewrite (rz_link _ _ _ _ _ _ _ _ R) by (eauto). rewrite (rz_pmeta _ _ Hp Kp). split.
    - intros [_ ->]. rewrite decide_True by done. eauto.
    - intros [_ H]. split; [eauto|]. destruct (plink g p) as [q2|] eqn:El; [|done].
      destruct (decide _) as [Kq2|]; [|done]. injection H as H. f_equal. apply rz_ren_inj; try done.
      destruct x as [n2 d]. destruct (inv_link _ _ _ I _ _ _ _ Hp El) as [_ [n3 ?]]. eauto.
  Qed.
  Lemma rz_linked' p' q' : linked g' p' q' -> exists p q, is_Some (pmeta g p) /\ kept m m' p /\
    is_Some (pmeta g q) /\ kept m m' q /\ p' = nm_ren m m' p /\ q' = nm_ren m m' q /\ linked g p q.
  Proof.
    intros Hl. pose proof Hl as [[x Hp'] Hpl]%(linked_iff _ _ _ I').
    destruct (rz_preimage _ _ Hp') as [(p & Hp & Kp & ->)|]; [|congruence].
    rewrite (rz_link _ _ _ _ _ _ _ _ R) in Hpl by eauto.
    destruct (plink g p) as [q|] eqn:El; [|done]. destruct (decide _) as [Kq|]; [|done]. injection Hpl as <-.
    assert (Hq : is_Some (pmeta g q)).
    { destruct x as [n2 d]. destruct (inv_link _ _ _ I _ _ _ _ Hp El) as [_ [n3 ?]]. eauto. }
    exists p, q. split_and!; eauto. apply (linked_iff _ _ _ I). eauto.
  Qed.
  (** Where the moves go. *)
  Lemma rz_moves ps x : move_pairs g m m' ps -> pmeta g x <> None -> kept m m' x -> nm_ren m m' x = x ->
    x ∉ ps.*2 /\ (x ∉ ps.*1 \/ (x, x) ∈ ps) \/ (x, x) ∈ ps.
  Proof.
    intros P Hx Kx Ex. destruct (decide ((x, x) ∈ ps)) as [|Hn]; [by right|]. left.
    assert (Hsnd : x ∉ ps.*2).
    { intros ([o w] & E & Hin)%elem_of_list_fmap. cbn in E. subst w.
      destruct (mp_sound _ _ _ _ P _ _ Hin) as ((d & Hr) & Ko & E).
      assert (Eo : o = x); [|by rewrite Eo in Hin]. apply rz_ren_inj; [|by apply not_eq_None_Some|done|done|congruence].
      eexists. by eapply inv_pmeta_range. }
    split; [done|]. left. intros ([o w] & E & Hin)%elem_of_list_fmap. cbn in E. subst o.
    destruct (mp_sound _ _ _ _ P _ _ Hin) as (_ & _ & ->). by rewrite Ex in Hin.
  Qed.
  Lemma rz_replay {V} (upd : (nat -> V) -> nat -> nat -> nat -> V) ps f p :
    (forall f a b, upd f a b b = f a) -> (forall f a b x, x <> a -> x <> b -> upd f a b x = f x) ->
    move_pairs g m m' ps -> is_Some (pmeta g p) -> kept m m' p ->
    foldl (fun f x => upd f x.1 x.2) f ps (nm_ren m m' p) = f p.
  Proof.
    intros U1 U2 P Hp Kp.
    destruct (replay_pairs upd U1 U2 ps f (mp_nd1 _ _ _ _ P) (mp_nd2 _ _ _ _ P) (mp_order _ _ _ _ P)) as [H1 H2].
    destruct (decide (nm_ren m m' p = p)) as [E|E].
    - destruct (rz_moves ps p P (proj2 (not_eq_None_Some _) Hp) Kp E) as [[Hs [Hf|Hin]]|Hin].
      + rewrite E. by apply H2.
      + rewrite E. by apply H1.
      + rewrite E. by apply H1.
    - apply H1. destruct Hp as [[n2 d] Hp]. destruct (decide (n2 = n)) as [->|Hne].
      + pose proof Hp as (m2 & Hm2 & Hr)%(inv_pmeta _ _ _ I). rewrite Hm in Hm2. injection Hm2 as <-.
        by eapply (mp_complete _ _ _ _ P).
      + destruct (rz_other _ _ Hp Hne) as [_ Hr]. by rewrite nm_ren_out in E.
  Qed.
End resize.


Lemma C10_set_num_ports_pf :
  forall w g n i j g' log, reach w g -> contains_node g n = true ->
    set_num_ports g n i j = Ok (g', log) ->
    num_ports g' n Incoming = i /\ num_ports g' n Outgoing = j /\ contains_node g' n = true /\
    (forall x, x <> n -> same_node g g' x) /\
    (forall p, port_node g p <> Some n -> port_node g' p <> Some n ->
       contains_port g' p = contains_port g p /\ port_node g' p = port_node g p /\
       port_direction g' p = port_direction g p) /\
    (forall p p' q q', survives g g' n p p' -> survives g g' n q q' -> (linked g p q <-> linked g' p' q')) /\
    (forall p' q', linked g' p' q' ->
       exists p q, survives g g' n p p' /\ survives g g' n q q' /\ linked g p q) /\
    node_count g' = node_count g /\
    port_count g' + (num_ports g n Incoming + num_ports g n Outgoing) = port_count g + (i + j) /\
    link_count g' <= link_count g /\
    card (fun p => port_direction g p = Some Outgoing /\ exists q, linked g p q /\
            ((forall p', ~ survives g g' n p p') \/ (forall q', ~ survives g g' n q q')))
         (link_count g - link_count g').
Proof.
  intros w g n i j g' log Hre [m Hm]%contains_node_true E.
  pose proof Hre as (fnl & F & I)%reach_inv.
  destruct (set_num_ports_post _ _ _ _ _ _ _ _ _ I Hm E) as ((fnl' & F' & I') & m' & R).
  pose proof (survives_iff _ _ _ I _ _ _ I' _ _ _ _ _ _ Hm R) as HS.
  pose proof (rz_linked _ _ _ I _ _ _ I' _ _ _ _ _ _ Hm R) as HL.
  pose proof (rz_linked' _ _ _ I _ _ _ I' _ _ _ _ _ _ Hm R) as HL'.
  pose proof (rz_nm _ _ _ _ _ _ _ _ R) as Hm'.
  assert (Hlk : forall p q, linked g p q -> is_Some (pmeta g p) /\ is_Some (pmeta g q)).
  { intros p q [Hp Hl]%(linked_iff _ _ _ I). split; [done|]. destruct Hp as [[n2 d] Hp].
    destruct (inv_link _ _ _ I _ _ _ _ Hp Hl) as [_ [n3 ?]]. eauto. }
  destruct (C03_counts_pf w g Hre) as (_ & _ & C3 & _).
  assert (C3' : card (fun p => port_direction g' p = Some Outgoing /\ exists q, linked g' p q) (link_count g')).
  { destruct (i_counts _ _ _ I') as (_ & _ & C). eapply card_ext; [|exact C]. intros p. cbn. rewrite port_direction_iff.
    split; intros [H1 H2]; (split; [done|]).
    - destruct (plink g' p) as [q|] eqn:Eq; [|done]. exists q. apply (linked_iff _ _ _ I'). destruct H1 as [? H1]. eauto.
    - destruct H2 as [q [_ Hq]%(linked_iff _ _ _ I')]. congruence. }
  set (Q := fun p => match plink g p with Some q => kept m m' p /\ kept m m' q | None => False end).
  assert (HQd : forall p, Decision (Q p)) by (intros p; unfold Q; destruct (plink g p); apply _).
  destruct (card_filter _ Q _ C3) as [k Hk].
  assert (HQ : forall p, port_direction g p = Some Outgoing -> Q p <-> exists q, linked g p q /\ kept m m' p /\ kept m m' q).
  { intros p (no & Hp)%port_direction_iff. unfold Q. destruct (plink g p) as [q|] eqn:El.
    - split; [intros K; exists q; split; [apply (linked_iff _ _ _ I); eauto|done]|].
      intros (q2 & [_ Hl]%(linked_iff _ _ _ I) & K). congruence.
    - split; [done|]. intros (q2 & [_ Hl]%(linked_iff _ _ _ I) & K). congruence. }
  assert (Ek : k = link_count g').
  { eapply card_unique; [|exact C3']. eapply (card_bij _ _ (nm_ren m m')); [| |exact Hk].
    - cbn. intros x y ((Dx & _) & Qx) ((Dy & _) & Qy). apply HQ in Qx as (qx & _ & Kx & _); [|done].
      apply HQ in Qy as (qy & _ & Ky & _); [|done]. apply port_direction_iff in Dx as [? Dx]. apply port_direction_iff in Dy as [? Dy].
      eapply (rz_ren_inj _ _ _ I _ _ _ I'); eauto.
    - intros y. cbn. split.
      + intros [(no & Hd)%port_direction_iff (q' & Hl)].
        destruct (HL' _ _ Hl) as (p2 & q2 & S2 & K2 & Sq & Kq & -> & -> & Hl2). exists p2. split; [|done].
        destruct S2 as [x Hx]. pose proof (rz_pmeta _ _ _ I _ _ _ I' _ _ _ _ _ _ Hm R _ _ Hx K2) as Hp'.
        assert (Hd2 : port_direction g p2 = Some Outgoing) by (apply port_direction_iff; exists no; congruence).
        split; [split; [done|eauto]|]. apply HQ; [done|]. eauto.
      + intros (x & ((Dx & _) & Qx) & ->). apply HQ in Qx as (q & Hl & Kx & Kq); [|done].
        destruct (Hlk _ _ Hl) as [Sp Sq]. apply port_direction_iff in Dx as [no Dx]. split.
        * apply port_direction_iff. exists no. exact (rz_pmeta _ _ _ I _ _ _ I' _ _ _ _ _ _ Hm R _ _ Dx Kx).
        * exists (nm_ren m m' q). by apply HL. }
  subst k.
  edestruct (card_minus (A := nat)) as [Hle Hdiff]; [|exact C3|exact Hk|]; [intros x H; exact (proj1 H)|].
  assert (Hnp : forall d, num_ports g n d = nm_num m d) by (intros d; unfold num_ports; by rewrite Hm).
  assert (Hnp' : forall d, num_ports g' n d = nm_num m' d) by (intros d; unfold num_ports; by rewrite Hm').
  rewrite !Hnp, !Hnp'. cbn [nm_num].
  split_and!.
  - apply R.
  - apply R.
  - apply contains_node_true. eauto.
  - intros x Hx. apply same_node_nmeta. rewrite (rz_nmeta _ _ _ _ _ _ _ _ R). by rewrite decide_False.
  - intros p H1 H2.
    assert (E1 : pmeta g' p = pmeta g p).
    { unfold port_node in *. destruct (pmeta g p) as [x|] eqn:Ep; cbn in *.
      - destruct (rz_other _ _ _ I _ _ _ I' _ _ _ _ _ _ Hm R p x Ep) as [-> _]; [congruence|done].
      - destruct (pmeta g' p) as [x|] eqn:Ep'; cbn in *; [|done].
        rewrite <- Ep. symmetry. eapply (rz_other' _ _ _ I _ _ _ I'); [done|exact Ep'|congruence]. }
    unfold contains_port, port_node, port_direction. rewrite E1. done.
  - intros p p' q q' (Sp & Kp & ->)%HS (Sq & Kq & ->)%HS. by apply HL.
  - intros p' q' (p & q & Sp & Kp & Sq & Kq & -> & -> & Hl)%HL'. exists p, q. rewrite !HS. done.
  - apply R.
  - apply R.
  - done.
  - eapply card_ext; [|exact Hdiff]. cbn. intros p. symmetry. split.
    + intros [Hd (q & Hl & Hnot)]. split; [eauto|]. intros [_ (q2 & Hl2 & Kp & Kq)%(HQ _ Hd)].
      assert (q2 = q) as -> by (unfold linked in *; congruence). destruct (Hlk _ _ Hl) as [Sp Sq].
      destruct Hnot as [Hn|Hn]; eapply Hn; apply HS; done.
    + intros [[Hd (q & Hl)] Hnot]. split; [done|]. exists q. split; [done|]. destruct (Hlk _ _ Hl) as [Sp Sq].
      destruct (decide (kept m m' p)) as [Kp|Kp]; [right; intros q' (_ & Kq & _)%HS|left; intros p' (_ & K & _)%HS; done].
      apply Hnot. split; [eauto|]. apply HQ; eauto.
Qed.

Lemma C11_set_num_ports_callbacks_pf :
  forall w g n i j g' log, reach w g -> contains_node g n = true ->
    set_num_ports g n i j = Ok (g', log) ->
    let dropped := drop i (ports g n Incoming) ++ drop j (ports g n Outgoing) in
    (exists rl ml, log = rl ++ ml /\
       rl.*1 = dropped /\
       (forall k p o, rl !! k = Some (p, o) -> exists l, o = Removed l /\
          forall q, l = Some q <-> linked g p q /\ q ∉ take k dropped) /\
       NoDup ml.*1 /\
       (forall p o, (p, o) ∈ ml -> exists new d k, o = Moved new /\ port_at g n d k p /\ port_at g' n d k new) /\
       (forall d k p p', port_at g n d k p -> port_at g' n d k p' -> p <> p' -> (p, Moved p') ∈ ml)) /\
    (forall (V : Type) (f : nat -> V) p p', survives g g' n p p' -> replay_swap log f p' = f p) /\
    (forall (V : Type) (dflt : V) (f : nat -> V) p p', survives g g' n p p' -> replay_rekey dflt log f p' = f p).
Proof.
  intros w g n i j g' log (fnl & F & I)%reach_inv [m Hm]%contains_node_true E dropped.
  destruct (set_num_ports_post _ _ _ _ _ _ _ _ _ I Hm E) as ((fnl' & F' & I') & m' & R).
  pose proof (survives_iff _ _ _ I _ _ _ I' _ _ _ _ _ _ Hm R) as HS.
  pose proof (rz_nm _ _ _ _ _ _ _ _ R) as Hm'.
  destruct (rz_log _ _ _ _ _ _ _ _ R) as (rl & ps & -> & [Hrl1 Hrl2] & P).
  assert (Hdr : dropped_ports m i j = dropped) by (unfold dropped, dropped_ports, ports; by rewrite Hm).
  rewrite Hdr in *.
  assert (Hml : (moved_log ps).*1 = ps.*1).
  { unfold moved_log. rewrite <- list_fmap_compose. apply list_fmap_ext. by intros ? [? ?]. }
  split_and!.
  - exists rl, (moved_log ps). split_and!; [done|..].
    + apply list_eq_same_length with (n := length dropped); [done|by rewrite fmap_length|].
      intros k x y Hk Hx Hy. rewrite list_lookup_fmap in Hx. destruct (Hrl2 _ _ Hy) as (o & Ho & _). rewrite Ho in Hx. by injection Hx.
    + intros k p o Hk. destruct (lookup_lt_is_Some_2 dropped k) as [y Hy]; [rewrite <- Hrl1; by eapply lookup_lt_Some|].
      destruct (Hrl2 _ _ Hy) as (l & Hl & El). rewrite Hk in Hl. injection Hl as <- ->. exists l. split; [done|].
      assert (Sp : is_Some (pmeta g p)).
      { apply elem_of_list_lookup_2 in Hy. rewrite <- Hdr in Hy. apply dropped_elem in Hy as [[Hr _]|[Hr _]]; eexists; by eapply inv_pmeta_range. }
      intros q. rewrite (linked_iff _ _ _ I), El. destruct (plink g p) as [q'|]; [|naive_solver].
      destruct (decide (q' ∈ take k dropped)); naive_solver.
    + rewrite Hml. apply P.
    + intros p o ([o' w'] & [= -> ->] & Hin)%elem_of_list_fmap.
      destruct (mp_sound _ _ _ _ P _ _ Hin) as ((d & Hr) & K & ->).
      pose proof (kept_in _ _ _ _ K Hr) as Hr'.
      exists (nm_ren m m' o'), d, (o' - nm_start m d). rewrite !port_at_iff. rewrite (nm_ren_in _ _ d) in * by done.
      unfold in_range in *. split_and!; [done|exists m; split; [done|lia]|exists m'; split; [done|lia]].
    + intros d k p p' Hp Hp' Hne.
      assert (Hs : survives g g' n p p') by (left; eauto). apply HS in Hs as (Sp & K & ->).
      apply port_at_iff in Hp as (m2 & Hm2 & -> & Hk). rewrite Hm in Hm2. injection Hm2 as <-.
      assert (Hr : in_range m d (nm_start m d + k)) by (unfold in_range; lia).
      apply elem_of_list_fmap. eexists (_, _). split; [done|]. by eapply (mp_complete _ _ _ _ P).
  - intros V f p p' (Sp & K & ->)%HS. unfold replay_swap. rewrite foldl_app.
    assert (Hrem : forall h : nat -> V, foldl (fun (f : nat -> V) (x : nat * port_op) => match x.2 with Moved new => tswap f x.1 new | Removed _ => f end) h rl = h).
    { assert (Hall : forall x, x ∈ rl -> exists l, x.2 = Removed l).
      { intros x [k Hk]%elem_of_list_lookup_1. destruct (lookup_lt_is_Some_2 dropped k) as [y Hy]; [rewrite <- Hrl1; by eapply lookup_lt_Some|].
        destruct (Hrl2 _ _ Hy) as (l & Hl & _). rewrite Hk in Hl. injection Hl as ->. eauto. }
      clear -Hall. induction rl as [|[x o] rl IH]; intros h; [done|]. cbn [foldl].
      destruct (Hall (x, o)) as [l El]; [by left|]. rewrite El. apply IH. intros y Hy. apply Hall. by right. }
    rewrite Hrem, (moved_log_fold _ tswap) by done.
    apply (rz_replay _ _ _ I _ _ _ I' _ _ _ _ _ _ Hm R); [apply tswap_1|apply tswap_2|done|done|done].
  - intros V dflt f p p' (Sp & K & ->)%HS. unfold replay_rekey. rewrite foldl_app.
    rewrite (moved_log_fold _ (trekey dflt)) by done.
    rewrite (rz_replay _ _ _ I _ _ _ I' _ _ _ _ _ _ Hm R); [|apply trekey_1|apply trekey_2|done|done|done].
    assert (Hp : p ∉ rl.*1).
    { intros ([x o] & -> & [k Hk]%elem_of_list_lookup_1)%elem_of_list_fmap. destruct (lookup_lt_is_Some_2 dropped k) as [y Hy]; [rewrite <- Hrl1; by eapply lookup_lt_Some|].
      destruct (Hrl2 _ _ Hy) as (l & Hl & _). rewrite Hk in Hl. injection Hl as -> ->. cbn in *.
      apply elem_of_list_lookup_2 in Hy. rewrite <- Hdr in Hy. rewrite <- (rz_inc _ _ _ _ _ _ _ _ R), <- (rz_out _ _ _ _ _ _ _ _ R) in Hy.
      apply (dropped_kept m m') in Hy. done. }
    assert (Hall : forall x, x ∈ rl -> exists l, x.2 = Removed l).
    { intros x [k Hk]%elem_of_list_lookup_1. destruct (lookup_lt_is_Some_2 dropped k) as [y Hy]; [rewrite <- Hrl1; by eapply lookup_lt_Some|].
      destruct (Hrl2 _ _ Hy) as (l & Hl & _). rewrite Hk in Hl. injection Hl as ->. eauto. }
    clear -Hall Hp. revert f. induction rl as [|[x o] rl IH]; intros f; [done|]. cbn [foldl].
    rewrite fmap_cons, not_elem_of_cons in Hp. cbn in Hp. destruct Hp as [Hp1 Hp2].
    destruct (Hall (x, o)) as [l El]; [by left|]. rewrite El. rewrite IH; [by rewrite decide_False|done|].
    intros y Hy. apply Hall. by right.
Qed.

Lemma C12_compact_nodes_pf :
  forall w g, reach w g ->
    exists g' log, compact_nodes g = Ok (g', log) /\ reach w g' /\
    log.*1 = nodes_iter g /\ log.*2 = seq 0 (node_count g) /\
    StronglySorted lt log.*1 /\ (forall n, n ∈ log.*1 <-> contains_node g n = true) /\
    (forall n, contains_node g' n = true <-> n < node_count g) /\
    (forall o n d, (o, n) ∈ log -> ports g' n d = ports g o d) /\
    (forall p, contains_port g' p = contains_port g p /\ port_direction g' p = port_direction g p /\
       port_link g' p = port_link g p) /\
    (forall o n p, (o, n) ∈ log -> (port_node g' p = Some n <-> port_node g p = Some o)) /\
    node_count g' = node_count g /\ port_count g' = port_count g /\ link_count g' = link_count g.
Proof.
  intros w g Hr. pose proof Hr as (fnl & F & I)%reach_inv.
  destruct (compact_nodes_spec g fnl F I) as (g' & log & E & I' & P). exists g', log. split; [done|].
  split. { eapply (reach_step w g OCompactNodes); [done|done|]. cbn. by rewrite E. }
  pose proof (node_ids_length _ _ _ I) as Hlen.
  destruct (zip_seq_pairs (node_ids g)) as (Z1 & Z2 & _); [apply idxs_NoDup|apply node_ids_sorted|].
  rewrite <- (cn_log _ _ _ P) in Z1, Z2. rewrite Hlen in Z2.
  assert (Hin : forall o n, (o, n) ∈ log <-> node_ids g !! n = Some o).
  { intros o n. rewrite (cn_log _ _ _ P), elem_of_list_lookup. split.
    - intros [i Hi]. apply lookup_zip_with_Some in Hi as (x & y & [= -> ->] & Hx & [-> ?]%lookup_seq). done.
    - intros Hn. exists n. apply lookup_zip_with_Some. exists o, n. split_and!; [done|done|].
      apply lookup_seq. split; [lia|]. by apply lookup_lt_Some in Hn. }
  assert (Hpl : forall p, plink g' p = plink g p) by (intros p; unfold plink; by rewrite (cn_link _ _ _ P)).
  split_and!.
  - by rewrite nodes_iter_eq.
  - done.
  - rewrite Z1. apply node_ids_sorted.
  - intros n. rewrite Z1, node_ids_elem. by rewrite contains_node_true.
  - intros n. rewrite contains_node_true, (cn_nmeta _ _ _ P). change (node_count g) with (pg_ncount g). rewrite <- Hlen. split.
    + intros [m Hm]. destruct (node_ids g !! n) eqn:En; [|done]. by apply lookup_lt_Some in En.
    + intros [x Hx]%lookup_lt_is_Some_2. rewrite Hx. cbn. apply node_ids_elem. by eapply elem_of_list_lookup_2.
  - intros o n d Hn%Hin. unfold ports. rewrite (cn_nmeta _ _ _ P), Hn. done.
  - intros p. unfold contains_port, port_direction. rewrite (port_link_eq _ _ _ I), (port_link_eq _ _ _ I'), Hpl.
    rewrite (cn_pmeta _ _ _ P). destruct (pmeta g p) as [[x d]|]; done.
  - intros o n p Hn%Hin. unfold port_node. rewrite (cn_pmeta _ _ _ P).
    destruct (pmeta g p) as [[x d]|] eqn:Ep; [|done]. cbn.
    pose proof (node_ids_rank g x (pmeta_nmeta _ _ _ I _ _ _ Ep)) as Hx. split.
    + intros [= <-]. congruence.
    + intros [= ->]. apply node_ids_inv in Hn as [_ ->]. done.
  - apply P.
  - apply P.
  - apply P.
Qed.

Lemma compact_ports_core :
  forall g fnl F, InvG g fnl F -> no_hollow g ->
    exists g' log, compact_ports g = Ok (g', log) /\
    log.*1 = ports_iter g /\ log.*2 = seq 0 (port_count g) /\
    StronglySorted lt log.*1 /\ (forall p, p ∈ log.*1 <-> contains_port g p = true) /\
    (forall p, contains_port g' p = true <-> p < port_count g) /\
    (forall n, contains_node g' n = contains_node g n) /\
    (forall n d, num_ports g' n d = num_ports g n d) /\
    (forall p p' n d k, (p, p') ∈ log -> (port_at g' n d k p' <-> port_at g n d k p)) /\
    (forall p p' q q', (p, p') ∈ log -> (q, q') ∈ log -> (linked g' p' q' <-> linked g p q)) /\
    (forall p p', (p, p') ∈ log -> (unlinked g' p' <-> unlinked g p)) /\
    node_count g' = node_count g /\ port_count g' = port_count g /\ link_count g' = link_count g.
Proof.
  intros g fnl F I Hnh.
  destruct (compact_ports_spec g fnl F I Hnh) as (g' & log & E & I' & P). exists g', log. split; [done|].
  pose proof (port_ids_length _ _ _ I) as Hlen.
  destruct (zip_seq_pairs (port_ids g)) as (Z1 & Z2 & _); [apply idxs_NoDup|apply port_ids_sorted|].
  rewrite <- (cp_log _ _ _ P) in Z1, Z2. rewrite Hlen in Z2.
  assert (Hin : forall o n, (o, n) ∈ log <-> port_ids g !! n = Some o).
  { intros o n. rewrite (cp_log _ _ _ P), elem_of_list_lookup. split.
    - intros [i Hi]. apply lookup_zip_with_Some in Hi as (x & y & [= -> ->] & Hx & [-> ?]%lookup_seq). done.
    - intros Hn. exists n. apply lookup_zip_with_Some. exists o, n. split_and!; [done|done|].
      apply lookup_seq. split; [lia|]. by apply lookup_lt_Some in Hn. }
  assert (Hnum : forall n d, num_ports g' n d = num_ports g n d).
  { intros n d. unfold num_ports. rewrite (cp_nmeta _ _ _ P). destruct (nmeta g n); [|done]. by destruct d. }
  assert (Hat : forall p p' n d k, (p, p') ∈ log -> port_at g n d k p -> port_at g' n d k p').
  { intros p p' n d k Hp%Hin Hat. pose proof (port_at_pmeta _ _ _ I _ _ _ _ Hat) as Hm.
    assert (Hm' : pmeta g' p' = Some (n, d)) by (rewrite (cp_pmeta _ _ _ P), Hp; done).
    apply (pmeta_port_at _ _ _ I') in Hm' as [k' Hk'].
    assert (k' = k) as ->; [|done].
    (* the rank of consecutive live ports is consecutive *)
    apply port_at_iff in Hat as (m & Hnm & -> & Hk). apply port_at_iff in Hk' as (m' & Hnm' & -> & Hk').
    rewrite (cp_nmeta _ _ _ P), Hnm in Hnm'. injection Hnm' as <-.
    apply port_ids_inv in Hp as [Hs Hrk].
    assert (Hrun : forall j, j <= nm_inc m + nm_out m -> port_rank g (nm_first m + j) = port_rank g (nm_first m) + j).
    { induction j as [|j IHj]; intros Hj; [by rewrite !Nat.add_0_r|].
      rewrite !Nat.add_succ_r. assert (Hl : exists d2, pmeta g (nm_first m + j) = Some (n, d2)).
      { destruct (decide (j < nm_inc m)); [exists Incoming|exists Outgoing];
        apply (inv_pmeta_range _ _ _ I _ _ _ _ Hnm); unfold in_range; cbn; lia. }
      destruct Hl as [d2 Hl]. unfold port_rank in *.
      destruct (proj2 (live_pmeta g (nm_first m + j)) ltac:(eauto)) as (e & He & Le).
      rewrite rank_S, He, Le. rewrite IHj by lia. lia. }
    destruct d; cbn in *.
    - rewrite Hrun in Hrk by lia. lia.
    - rewrite <- (Nat.add_assoc (nm_first m)) in Hrk. rewrite Hrun in Hrk by lia. lia. }
  assert (Hsurj : forall p p' n d k, (p, p') ∈ log -> port_at g' n d k p' -> port_at g n d k p).
  { intros p p' n d k Hp Hk'. pose proof (port_at_pmeta _ _ _ I' _ _ _ _ Hk') as Hm.
    rewrite (cp_pmeta _ _ _ P), (proj1 (Hin _ _) Hp) in Hm. cbn in Hm.
    apply (pmeta_port_at _ _ _ I) in Hm as [k2 Hk2]. pose proof (Hat _ _ _ _ _ Hp Hk2) as H.
    destruct (port_at_inj _ _ _ I' _ _ _ _ _ _ _ H Hk') as (_ & _ & ->). done. }
  split_and!.
  - by rewrite ports_iter_eq.
  - done.
  - rewrite Z1. apply port_ids_sorted.
  - intros n. rewrite Z1, port_ids_elem. by rewrite contains_port_true.
  - intros n. rewrite contains_port_true, (cp_pmeta _ _ _ P). change (port_count g) with (pg_pcount g). rewrite <- Hlen. split.
    + intros [m Hm]. destruct (port_ids g !! n) eqn:En; [|done]. by apply lookup_lt_Some in En.
    + intros [x Hx]%lookup_lt_is_Some_2. rewrite Hx. cbn. apply port_ids_elem. by eapply elem_of_list_lookup_2.
  - intros n. unfold contains_node. rewrite (cp_nmeta _ _ _ P). by destruct (nmeta g n).
  - done.
  - intros p p' n d k Hp. split; eauto.
  - intros p p' q q' Hp%Hin Hq%Hin. rewrite (linked_iff _ _ _ I), (linked_iff _ _ _ I').
    rewrite (cp_pmeta _ _ _ P), (cp_plink _ _ _ P), Hp. cbn. apply port_ids_inv in Hq as [Sq ->]. split.
    + intros [Sp Hl]. split; [done|]. destruct (plink g p) as [q2|] eqn:El; [|done]. injection Hl as Hl. f_equal.
      destruct Sp as [[n d] Sp]. destruct (inv_link _ _ _ I _ _ _ _ Sp El) as [_ [n3 Sq2]].
      pose proof (port_ids_rank g q Sq). pose proof (port_ids_rank g q2 (ex_intro _ _ Sq2)). congruence.
    + intros [Sp ->]. done.
  - intros p p' Hp%Hin. rewrite (unlinked_iff _ _ _ I), (unlinked_iff _ _ _ I').
    rewrite (cp_pmeta _ _ _ P), (cp_plink _ _ _ P), Hp. cbn. destruct (plink g p); [|done]. split; intros [? ?]; done.
  - apply P.
  - apply P.
  - apply P.
Qed.

Lemma C13_compact_ports_pf :
  forall w g, reach w g -> (forall n, ~ hollow g n) ->
    exists g' log, compact_ports g = Ok (g', log) /\ reach w g' /\
    log.*1 = ports_iter g /\ log.*2 = seq 0 (port_count g) /\
    StronglySorted lt log.*1 /\ (forall p, p ∈ log.*1 <-> contains_port g p = true) /\
    (forall p, contains_port g' p = true <-> p < port_count g) /\
    (forall n, contains_node g' n = contains_node g n) /\
    (forall n d, num_ports g' n d = num_ports g n d) /\
    (forall p p' n d k, (p, p') ∈ log -> (port_at g' n d k p' <-> port_at g n d k p)) /\
    (forall p p' q q', (p, p') ∈ log -> (q, q') ∈ log -> (linked g' p' q' <-> linked g p q)) /\
    (forall p p', (p, p') ∈ log -> (unlinked g' p' <-> unlinked g p)) /\
    node_count g' = node_count g /\ port_count g' = port_count g /\ link_count g' = link_count g.
Proof.
  intros w g Hr Hh. pose proof Hr as (fnl & F & I)%reach_inv.
  destruct (compact_ports_core g fnl F I (no_hollow_iff _ Hh)) as (g' & log & E & Rest). exists g', log. split; [done|].
  split; [|exact Rest]. eapply (reach_step w g OCompactPorts); [done|done|]. cbn. by rewrite E.
Qed.

Lemma C14_hollow_refuted_pf :
  exists g g1 log g2 g3, reach 16 g /\ compact_ports g = Ok (g1, log) /\
    add_node (po_max_offset 16) g1 0 1 = Ok (g2, 2) /\ ports g2 2 Outgoing = [1] /\ contains_port g2 1 = true /\
    contains_node g2 0 = true /\ remove_node g2 0 = Ok g3 /\
    contains_node g3 2 = true /\ ports g3 2 Outgoing = [1] /\ contains_port g3 1 = false.
Proof.
  set (g := default pg_new (run 16 [OAdd 1 0; OSetPorts 0 0 0; OAdd 1 0] pg_new)).
  exists g. eexists _, _, _, _. split; [apply (run_reach _ [OAdd 1 0; OSetPorts 0 0 0; OAdd 1 0]); vm_compute; reflexivity|].
  split; [vm_compute; reflexivity|]. split; [vm_compute; reflexivity|]. split; [done|]. split; [done|]. split; [done|].
  split; [vm_compute; reflexivity|]. done.
Qed.

(** The graph without the port slots of its hollow nodes. *)
Definition fill_entry (e : node_entry) : node_entry :=
  match e with
  | NNode m => if decide (nm_inc m + nm_out m = 0) then NNode (NM 0 0 0 0) else e
  | NFree _ _ => e
  end.
Definition fill (g : pg) : pg := with_nodes g (map fill_entry (pg_nodes g)).
Definition fill_meta (m : node_meta) : node_meta := if decide (nm_inc m + nm_out m = 0) then NM 0 0 0 0 else m.
Lemma fill_nmeta g n : nmeta (fill g) n = fill_meta <$> nmeta g n.
Proof.
  unfold nmeta. cbn. rewrite list_lookup_fmap. destruct (pg_nodes g !! n) as [[|m]|]; [done| |done]. cbn. unfold fill_meta.
  by destruct (decide (nm_inc m + nm_out m = 0)).
Qed.
Lemma fill_nfree g n : nfree (fill g) n = nfree g n.
Proof.
  unfold nfree. cbn. rewrite list_lookup_fmap. destruct (pg_nodes g !! n) as [[|m]|]; [done| |done]. cbn.
  by destruct (decide (nm_inc m + nm_out m = 0)).
Qed.
Lemma fill_range m d p : in_range (fill_meta m) d p <-> in_range m d p.
Proof. unfold fill_meta, in_range. destruct (decide (nm_inc m + nm_out m = 0)); [|done]. destruct d; cbn; lia. Qed.
Lemma fill_inv g fnl F : InvG g fnl F -> InvG (fill g) fnl F.
Proof.
  intros I. destruct (i_counts _ _ _ I) as (C1 & C2 & C3). destruct (i_ports _ _ _ I) as [P1 P2]. destruct (i_slabs _ _ _ I) as [S1 S2 S3 S4 S5].
  assert (Hd : forall m s l, disj (nm_first m) (nm_cap m) s l -> disj (nm_first (fill_meta m)) (nm_cap (fill_meta m)) s l).
  { intros m s l Hm. unfold fill_meta. destruct (decide (nm_inc m + nm_out m = 0)); [by left|done]. }
  assert (Hs : forall a b c d, disj a b c d -> disj c d a b) by (unfold disj; intros; lia).
  split; try (apply I).
  - split.
    + intros n m. rewrite fill_nmeta. intros (m0 & Hm & ->)%fmap_Some. pose proof (P1 _ _ Hm) as Hok. unfold fill_meta.
      destruct (decide _); [|exact Hok]. unfold meta_ok in *. cbn. lia.
    + intros p n d. change (pmeta (fill g) p) with (pmeta g p). rewrite P2. split.
      * intros (m & Hm & Hr). exists (fill_meta m). rewrite fill_nmeta, Hm. split; [done|by apply fill_range].
      * intros (m & Hm & Hr). rewrite fill_nmeta in Hm. apply fmap_Some in Hm as (m0 & Hm & ->). exists m0. split; [done|by apply fill_range].
  - split; try done.
    + intros n m n' m' Hne. rewrite !fill_nmeta. intros (a & Ha & ->)%fmap_Some (b & Hb & ->)%fmap_Some. apply Hd, Hs, Hd, Hs. by eapply S1.
    + intros n m k p. rewrite !fill_nmeta. intros (a & Ha & ->)%fmap_Some Hp. apply Hd. by eapply S2.
  - destruct (i_nfree _ _ _ I) as [N1 N2 N3 N4]. split; [exact N1|exact N2| |].
    + intros n. by rewrite fill_nfree.
    + intros i n Hi. rewrite fill_nfree. by apply N4.
  - split; [|split; [exact C2|exact C3]]. eapply card_ext; [|exact C1]. intros n. cbn beta. rewrite fill_nmeta. by destruct (nmeta g n).
  - cbn. rewrite map_length. apply I.
Qed.
Lemma fill_no_hollow g : no_hollow (fill g).
Proof.
  intros n m. rewrite fill_nmeta. intros (a & _ & ->)%fmap_Some. unfold fill_meta. destruct (decide _); cbn; lia.
Qed.
(** The loop of [compact_ports] does not see the difference. *)
Lemma fill_loop es : forall old new ns,
  (forall n d m, PPort n d ∈ es -> ns !! n = Some (NNode m) -> 0 < nm_inc m + nm_out m) ->
  forall pm ns' log, compact_pmeta_loop es old new (map fill_entry ns) = Ok (pm, ns', log) ->
  exists ns0, compact_pmeta_loop es old new ns = Ok (pm, ns0, log) /\ ns' = map fill_entry ns0.
Proof.
  induction es as [|[|n d] es IH]; intros old new ns Hpos pm ns' log; cbn [compact_pmeta_loop].
  - intros [= <- <- <-]. by exists ns.
  - apply IH. intros n d m Hin. eapply Hpos. by right.
  - assert (Hget : vget (map fill_entry ns) n = (e ← vget ns n; Ok (fill_entry e))).
    { unfold vget. rewrite list_lookup_fmap. by destruct (ns !! n). }
    rewrite Hget. destruct (vget ns n) as [e|] eqn:Ee; [|done]. cbn [mbind res_bind].
    unfold vget in Ee. destruct (ns !! n) as [e'|] eqn:En; [|done]. injection Ee as ->.
    destruct e as [|m]; [done|]. pose proof (Hpos n d m ltac:(by left) En) as Hp.
    cbn [fill_entry]. rewrite decide_False by lia.
    assert (Hpos' : forall n0 d0 m0, PPort n0 d0 ∈ es -> ns !! n0 = Some (NNode m0) -> 0 < nm_inc m0 + nm_out m0) by (intros n0 d0 m0 Hin; eapply Hpos; by right).
    destruct (decide (nm_first m = old)) as [Ef|Ef].
    + destruct (nm_new new (nm_inc m) (nm_out m) (trunc16 (nm_total m))) as [m'|] eqn:Em; [|done]. cbn [mbind res_bind].
      assert (Hm' : nm_inc m' + nm_out m' = nm_inc m + nm_out m).
      { unfold nm_new in Em. do 4 (apply bind_inv in Em as (? & _ & Em)). by injection Em as <-. }
      assert (Hset : vset (map fill_entry ns) n (NNode m') = (l ← vset ns n (NNode m'); Ok (map fill_entry l))).
      { pose proof (lookup_lt_Some _ _ _ En) as Hlt. rewrite !vset_ok by (rewrite ?map_length; done). cbn [mbind res_bind]. f_equal.
        change (map fill_entry (<[n := NNode m']> ns)) with (fill_entry <$> <[n := NNode m']> ns). rewrite list_fmap_insert. cbn [fill_entry]. by rewrite decide_False by lia. }
      rewrite Hset. rewrite (vset_ok ns n) by (by eapply lookup_lt_Some). cbn [mbind res_bind].
      destruct (compact_pmeta_loop es (S old) (S new) (map fill_entry (<[n := NNode m']> ns))) as [[[pm1 ns1] log1]|] eqn:El; [|done]. cbn [mbind res_bind].
      intros [= <- <- <-]. edestruct (IH (S old) (S new) (<[n := NNode m']> ns)) as (ns0 & E0 & Eq0); [|exact El|].
      { intros n0 d0 m0 Hin Hl. destruct (decide (n0 = n)) as [->|Hne].
        - rewrite list_lookup_insert in Hl by (by eapply lookup_lt_Some). injection Hl as <-. lia.
        - rewrite list_lookup_insert_ne in Hl by done. by eapply Hpos'. }
      rewrite E0, Eq0. cbn [mbind res_bind]. by exists ns0.
    + cbn [mbind res_bind]. destruct (compact_pmeta_loop es (S old) (S new) (map fill_entry ns)) as [[[pm1 ns1] log1]|] eqn:El; [|done]. cbn [mbind res_bind].
      intros [= <- <- <-]. destruct (IH _ _ ns Hpos' _ _ _ El) as (ns0 & E0 & ->). rewrite E0. cbn [mbind res_bind]. by exists ns0.
Qed.

Lemma C14_compact_ports_partial_pf :
  forall w g, reach w g ->
    exists g' log, compact_ports g = Ok (g', log) /\
    log.*1 = ports_iter g /\ log.*2 = seq 0 (port_count g) /\
    StronglySorted lt log.*1 /\ (forall p, p ∈ log.*1 <-> contains_port g p = true) /\
    (forall p, contains_port g' p = true <-> p < port_count g) /\
    (forall n, contains_node g' n = contains_node g n) /\
    (forall n d, num_ports g' n d = num_ports g n d) /\
    (forall p p' n d k, (p, p') ∈ log -> (port_at g' n d k p' <-> port_at g n d k p)) /\
    (forall p p' q q', (p, p') ∈ log -> (q, q') ∈ log -> (linked g' p' q' <-> linked g p q)) /\
    (forall p p', (p, p') ∈ log -> (unlinked g' p' <-> unlinked g p)) /\
    node_count g' = node_count g /\ port_count g' = port_count g /\ link_count g' = link_count g.
Proof.
  intros w g Hr. pose proof Hr as (fnl & F & I)%reach_inv.
  destruct (compact_ports_core (fill g) fnl F (fill_inv g fnl F I) (fill_no_hollow g)) as (g1 & log & E & Rest).
  unfold compact_ports in E. cbn [pg_link pg_pmeta pg_nodes fill with_nodes] in E.
  destruct (compact_links_loop (length (pg_link g)) 0 0 (pg_pmeta g) (pg_link g)) as [[lk k]|] eqn:El; [|done]. cbn [mbind res_bind] in E.
  destruct (compact_pmeta_loop (pg_pmeta g) 0 0 (map fill_entry (pg_nodes g))) as [[[pm ns'] log']|] eqn:Ep; [|done]. cbn [mbind res_bind] in E.
  injection E as <- <-.
  edestruct (fill_loop (pg_pmeta g) 0 0 (pg_nodes g)) as (ns0 & E0 & Eq0); [|exact Ep|].
  { intros n d m [p Hp]%elem_of_list_lookup Hm. assert (Hp' : pmeta g p = Some (n, d)) by (unfold pmeta; by rewrite Hp).
    apply (inv_pmeta _ _ _ I) in Hp' as (m' & Hm' & Hr'). unfold nmeta in Hm'. rewrite Hm in Hm'. injection Hm' as <-. unfold in_range in Hr'. destruct d; cbn in Hr'; lia. }
  subst ns'. eexists _, log'. split; [unfold compact_ports; rewrite El; cbn [mbind res_bind]; rewrite E0; reflexivity|].
  set (g' := with_pfree _ _). change (with_pfree _ _) with (fill g') in Rest.
  assert (O1 : forall h n, contains_node (fill h) n = contains_node h n).
  { intros h n. unfold contains_node. rewrite fill_nmeta. by destruct (nmeta h n). }
  assert (O2 : forall h n d, num_ports (fill h) n d = num_ports h n d).
  { intros h n d. unfold num_ports. rewrite fill_nmeta. destruct (nmeta h n) as [m|]; [|done]. cbn. unfold fill_meta. destruct (decide _); [|done]. destruct d; cbn; lia. }
  assert (O3 : forall h n d, ports (fill h) n d = ports h n d).
  { intros h n d. unfold ports. rewrite fill_nmeta. destruct (nmeta h n) as [m|]; [|done]. cbn. unfold fill_meta. destruct (decide _); [|done].
    unfold nm_ports. destruct d; cbn; [replace (nm_inc m) with 0 by lia|replace (nm_out m) with 0 by lia]; reflexivity. }
  destruct Rest as (R1 & R2 & R3 & R4 & R5 & R6 & R7 & R8 & R9 & R10 & R11 & R12 & R13). split_and!; try assumption.
  - intros n. specialize (R6 n). by rewrite !O1 in R6.
  - intros n d. specialize (R7 n d). by rewrite !O2 in R7.
  - intros p p' n d i Hp. specialize (R8 p p' n d i Hp). unfold port_at in *. by rewrite !O3 in R8.
Qed.

Lemma swap_post_obs g a b g' : Inv g -> Inv g' -> swap_nodes_post g a b g' ->
    (forall d, ports g' a d = ports g b d /\ ports g' b d = ports g a d) /\
    contains_node g' a = contains_node g b /\ contains_node g' b = contains_node g a /\
    (forall n, n <> a -> n <> b -> same_node g g' n) /\
    (forall p, contains_port g' p = contains_port g p /\ port_direction g' p = port_direction g p /\
       port_link g' p = port_link g p) /\
    (forall p, port_node g p = Some a -> port_node g' p = Some b) /\
    (forall p, port_node g p = Some b -> port_node g' p = Some a) /\
    (forall p, port_node g p <> Some a -> port_node g p <> Some b -> port_node g' p = port_node g p) /\
    node_count g' = node_count g /\ port_count g' = port_count g /\ link_count g' = link_count g.
Proof.
  intros (fnl & F & I) (fnl' & F' & I') P.
  assert (Hpl : forall p, plink g' p = plink g p) by (intros p; unfold plink; by rewrite (sn_link _ _ _ _ P)).
  assert (Ha : nmeta g' a = nmeta g b) by (rewrite (sn_nmeta _ _ _ _ P); unfold swp; by rewrite decide_True).
  assert (Hb : nmeta g' b = nmeta g a).
  { rewrite (sn_nmeta _ _ _ _ P); unfold swp. destruct (decide (b = a)) as [->|]; [done|]. by rewrite decide_True. }
  assert (Hsw : forall x, swp a b x = if decide (x = a) then b else if decide (x = b) then a else x) by done.
  split_and!.
  - intros d. unfold ports. by rewrite Ha, Hb.
  - unfold contains_node. by rewrite Ha.
  - unfold contains_node. by rewrite Hb.
  - intros n H1 H2. apply same_node_nmeta. rewrite (sn_nmeta _ _ _ _ P). unfold swp. by rewrite !decide_False.
  - intros p. unfold contains_port, port_direction. rewrite (port_link_eq _ _ _ I), (port_link_eq _ _ _ I'), Hpl.
    rewrite (sn_pmeta _ _ _ _ P). destruct (pmeta g p) as [[x d]|]; done.
  - intros p. unfold port_node. rewrite (sn_pmeta _ _ _ _ P). destruct (pmeta g p) as [[x d]|]; [|done]. cbn.
    intros [= ->]. f_equal. unfold swp. by rewrite decide_True.
  - intros p. unfold port_node. rewrite (sn_pmeta _ _ _ _ P). destruct (pmeta g p) as [[x d]|]; [|done]. cbn.
    intros [= ->]. f_equal. unfold swp. destruct (decide (b = a)); [done|]. by rewrite decide_True.
  - intros p. unfold port_node. rewrite (sn_pmeta _ _ _ _ P). destruct (pmeta g p) as [[x d]|]; [|done]. cbn.
    intros H1 H2. f_equal. unfold swp. rewrite !decide_False by congruence. done.
  - apply P.
  - apply P.
  - apply P.
Qed.

Lemma C15_swap_nodes_pf :
  forall w g a b, reach w g -> contains_node g a = true -> contains_node g b = true ->
    exists g', swap_nodes g a b = Ok g' /\ reach w g' /\
    (forall d, ports g' a d = ports g b d /\ ports g' b d = ports g a d) /\
    contains_node g' a = true /\ contains_node g' b = true /\
    (forall n, n <> a -> n <> b -> same_node g g' n) /\
    (forall p, contains_port g' p = contains_port g p /\ port_direction g' p = port_direction g p /\
       port_link g' p = port_link g p) /\
    (forall p, port_node g p = Some a -> port_node g' p = Some b) /\
    (forall p, port_node g p = Some b -> port_node g' p = Some a) /\
    (forall p, port_node g p <> Some a -> port_node g p <> Some b -> port_node g' p = port_node g p) /\
    node_count g' = node_count g /\ port_count g' = port_count g /\ link_count g' = link_count g /\
    exists g'', swap_nodes g' a b = Ok g'' /\ same_graph g g''.
Proof.
  intros w g a b Hr Ha Hb. pose proof Hr as [fnl [F I]]%reach_inv.
  destruct (swap_nodes_allowed g fnl F a b I) as (g' & E & I' & P). { left. tauto. }
  exists g'. split; [done|]. split. { eapply (reach_step w g (OSwap a b)); [done|left; tauto|]. cbn. by rewrite E. }
  destruct (swap_post_obs g a b g') as (S1 & S2 & S3 & S4 & S5 & S6 & S7 & S8 & S9); [by eexists _, _|done|done|].
  rewrite S2, S3, Ha, Hb. split; [done|]. split; [done|]. split; [done|]. split; [done|]. split; [done|]. split; [done|]. split; [done|]. split; [done|].
  destruct S9 as (S9 & S10 & S11). split; [done|]. split; [done|]. split; [done|].
  destruct I' as (fnl' & F' & I').
  destruct (swap_nodes_allowed g' fnl' F' a b I') as (g'' & E' & (fnl'' & F'' & I'') & P'). { left. rewrite S2, S3. tauto. }
  exists g''. split; [done|].
  assert (Hn : forall n, nmeta g'' n = nmeta g n).
  { intros n. by rewrite (sn_nmeta _ _ _ _ P'), (sn_nmeta _ _ _ _ P), swp_swp. }
  assert (Hpm : forall p, pmeta g'' p = pmeta g p).
  { intros p. rewrite (sn_pmeta _ _ _ _ P'), (sn_pmeta _ _ _ _ P). destruct (pmeta g p) as [[x d]|]; [|done]. cbn. by rewrite swp_swp. }
  split_and!.
  - intros n. by apply same_node_nmeta.
  - intros p. eapply same_port_meta; [exact I|exact I''|done|]. intros _. unfold plink. by rewrite (sn_link _ _ _ _ P'), (sn_link _ _ _ _ P).
  - unfold node_count. by rewrite (sn_nc _ _ _ _ P'), (sn_nc _ _ _ _ P).
  - unfold port_count. by rewrite (sn_pc _ _ _ _ P'), (sn_pc _ _ _ _ P).
  - unfold link_count. by rewrite (sn_lc _ _ _ _ P'), (sn_lc _ _ _ _ P).
Qed.

Lemma C16_swap_free_refuted_pf :
  exists g g', reach 16 g /\ contains_node g 2 = true /\ contains_node g 1 = false /\
    swap_nodes g 2 1 = Ok g' /\ forall i j, add_node (po_max_offset 16) g' i j = Panic.
Proof.
  set (g := default pg_new (run 16 [OAdd 0 0; OAdd 1 0; OAdd 1 1; ORemove 1] pg_new)).
  exists g. eexists. split; [apply (run_reach _ [OAdd 0 0; OAdd 1 0; OAdd 1 1; ORemove 1]); vm_compute; reflexivity|].
  split; [done|]. split; [done|]. split; [vm_compute; reflexivity|]. intros i j. unfold add_node.
  destruct (assert (N.of_nat i <=? _)%N); [|done]. destruct (assert (N.of_nat j <=? _)%N); done.
Qed.

Lemma C16_swap_free_partial_pf :
  forall w ops g a b, hist w ops g -> contains_node g a = true -> spare_slot g b ->
    exists g', swap_nodes g a b = Ok g' /\ hist w (ops ++ [OSwap a b]) g' /\
    contains_node g' b = true /\ contains_node g' a = false /\
    (forall d, ports g' b d = ports g a d) /\
    (forall n, n <> a -> n <> b -> same_node g g' n) /\
    (forall p, contains_port g' p = contains_port g p /\ port_direction g' p = port_direction g p /\
       port_link g' p = port_link g p) /\
    (forall p, port_node g p = Some a -> port_node g' p = Some b) /\
    (forall p, port_node g p <> Some a -> port_node g' p = port_node g p) /\
    node_count g' = node_count g /\ port_count g' = port_count g /\ link_count g' = link_count g /\
    (forall i j, (N.of_nat i <= po_max_offset w /\ N.of_nat j <= po_max_offset w)%N ->
       (N.of_nat i <= 65534 /\ N.of_nat (i + j) <= 65535)%N ->
       (N.of_nat (sum_list (node_cost <$> ops ++ [OAdd i j])) <= 2 ^ 31 - 1)%N ->
       (N.of_nat (sum_list (port_cost <$> ops ++ [OAdd i j])) <= 2 ^ 31 - 1)%N ->
       exists g'' n, add_node (po_max_offset w) g' i j = Ok (g'', n)).
Proof.
  intros w ops g a b Hh Ha Hb. pose proof (reach_inv w g (ex_intro _ _ Hh)) as [fnl [F I]].
  assert (Hal : allowed g (OSwap a b)) by (left; tauto).
  destruct (swap_nodes_allowed g fnl F a b I Hal) as (g' & E & I' & P).
  assert (Hh' : hist w (ops ++ [OSwap a b]) g'). { econstructor; [done|done|]. cbn. by rewrite E. }
  exists g'. split; [done|]. split; [done|].
  destruct (swap_post_obs g a b g') as (S1 & S2 & S3 & S4 & S5 & S6 & S7 & S8 & S9 & S10 & S11); [by eexists _, _|done|done|].
  destruct Hb as (Hb & _). rewrite S2, S3, Ha, Hb. split_and!; try done.
  - intros d. apply S1.
  - intros p Hp. apply S8; [done|]. intros Hn. apply contains_node_false in Hb. apply port_node_iff in Hn as [d Hd].
    destruct (pmeta_nmeta _ _ _ I _ _ _ Hd) as [? ?]. congruence.
  - intros i j Hij Hij2 Hc1 Hc2.
    destruct (C06_no_panic_pf w (ops ++ [OSwap a b]) g' (OAdd i j) Hh' Hij2 Hij) as (g2 & r & Hs).
    { revert Hc1. rewrite !fmap_app, !sum_list_with_app. cbn. unfold sum_list_with in *. lia. }
    { revert Hc2. rewrite !fmap_app, !sum_list_with_app. cbn. unfold sum_list_with in *. lia. }
    cbn in Hs. destruct (add_node _ _ _ _) as [[g3 n]|]; [|done]. eauto.
Qed.

Lemma C20_port_counts_refuted_pf :
  exists (i : nat) g n, N.of_nat i = 65537%N /\ add_node (po_max_offset 32) pg_new i 0 = Ok (g, n) /\
    num_ports g n Incoming = 1 /\ num_ports g n Outgoing = 0 /\ N.of_nat (port_count g) = 65537%N.
Proof.
  set (f := fun i => match add_node (po_max_offset 32) pg_new i 0 with
    | Ok (g, n) => (num_ports g n Incoming, num_ports g n Outgoing, N.of_nat (port_count g)) = (1, 0, 65537%N)
    | Panic => False end).
  assert (H : f (N.to_nat 65537)) by (vm_compute; reflexivity). unfold f in H. clear f.
  exists (N.to_nat 65537). remember (N.to_nat 65537) as i eqn:Ei.
  destruct (add_node (po_max_offset 32) pg_new i 0) as [[g n]|] eqn:E; [|done]. injection H as H1 H2 H3.
  exists g, n. split; [rewrite Ei; apply N2Nat.id|]. done.
Qed.

Lemma C20_port_counts_partial_pf :
  forall w g i j g' n, (1 < w <= 16)%N -> reach w g -> add_node (po_max_offset w) g i j = Ok (g', n) ->
    num_ports g' n Incoming = i /\ num_ports g' n Outgoing = j /\ port_count g' = port_count g + (i + j) /\
    card (fun p => contains_port g' p = true) (port_count g').
Proof.
  intros w g i j g' n Hw Hr E.
  assert (Hm : (po_max_offset w <= 32766)%N).
  { unfold po_max_offset, bf_max_index, umax. assert (2 ^ w <= 2 ^ 16)%N by (apply N.pow_le_mono_r; lia). rewrite N.shiftr_div_pow2. change (2 ^ 1)%N with 2%N. change (2 ^ 16)%N with 65536%N in *.
    pose proof (N.div_le_mono (2 ^ w - 1) 65535 2 ltac:(lia) ltac:(lia)) as H'. change (65535 / 2)%N with 32767%N in H'. lia. }
  assert (Hij : (N.of_nat i <= 32766 /\ N.of_nat j <= 32766)%N).
  { unfold add_node, assert in E. destruct (N.of_nat i <=? po_max_offset w)%N eqn:E1; [|done]. cbn in E.
    destruct (N.of_nat j <=? po_max_offset w)%N eqn:E2; [|done]. lia. }
  assert (Hr' : reach w g').
  { eapply (reach_step w g (OAdd i j)); [done|cbn; lia|]. cbn. by rewrite E. }
  pose proof Hr as [fnl [F I]]%reach_inv.
  pose proof (add_node_spec (po_max_offset w) g fnl F i j I ltac:(lia) ltac:(lia)) as H. rewrite E in H.
  destruct H as (_ & m' & A).
  assert (Hn : nmeta g' n = Some m') by apply A.
  unfold num_ports. rewrite Hn. cbn. split_and!; [apply A|apply A|apply A|]. apply (C03_counts_pf w g' Hr').
Qed.

Lemma C21_offset_type_refuted_pf :
  exists g g' log p o, reach 8 g /\ set_num_ports g 0 200 0 = Ok (g', log) /\
    port_at g' 0 Incoming 128 p /\ port_offset 8 g' p = Ok (Some o) /\
    po_direction 8 o = Ok Outgoing /\ po_index 8 o = Ok 0%N.
Proof.
  set (g := default pg_new (run 8 [OAdd 0 0] pg_new)).
  exists g. eexists _, _, 128, 128%N. split; [apply (run_reach _ [OAdd 0 0]); vm_compute; reflexivity|].
  split; [vm_compute; reflexivity|]. vm_compute. done.
Qed.

Lemma C21_offset_type_partial_pf :
  forall w g n i j g' log, (1 < w <= 63)%N -> reach w g -> contains_node g n = true ->
    set_num_ports g n i j = Ok (g', log) ->
    (N.of_nat i <= po_max_offset w + 1 /\ N.of_nat j <= po_max_offset w + 1)%N ->
    forall d k p, port_at g' n d k p -> exists o, port_offset w g' p = Ok (Some o) /\
      po_direction w o = Ok d /\ po_index w o = Ok (N.of_nat k).
Proof.
  intros w g n i j g' log Hw Hr Hn E Hij d k p Hp.
  assert (Hr' : reach w g'). { eapply (reach_step w g (OSetPorts n i j)); [done|done|]. cbn. by rewrite E. }
  destruct (C10_set_num_ports_pf w g n i j g' log Hr Hn E) as (Hi & Hj & _).
  assert (Hk : k < num_ports g' n d). { rewrite <- ports_length. by eapply lookup_lt_Some. }
  assert (Hkm : (N.of_nat k <= po_max_offset w)%N) by (destruct d; lia).
  destruct (C02_ports_and_nodes_pf w g' Hw Hr') as (H1 & _).
  destruct (H1 n d (N.of_nat k) Hkm) as (o & Ho & _ & Hsome).
  rewrite Nat2N.id in Hsome.
  destruct (po_new_ok w d (N.of_nat k) ltac:(lia) Hkm) as (o' & Ho' & Hd & Hix).
  assert (o' = o) as -> by congruence.
  assert (Hpi : port_index w g' n o = Ok (Some p)).
  { unfold port_index. unfold port_at, ports in Hp. destruct (nmeta g' n); [|done].
    rewrite Hd, bind_Ok, Hix, bind_Ok, Nat2N.id. by f_equal. }
  destruct (Hsome p Hpi) as (_ & _ & _ & _ & _ & _ & Hoff). exists o. done.
Qed.

Lemma C22_clear_reserve_shrink_pf :
  forall w g, reach w g ->
    (forall n, contains_node (clear g) n = false) /\ (forall p, contains_port (clear g) p = false) /\
    node_count (clear g) = 0 /\ port_count (clear g) = 0 /\ link_count (clear g) = 0 /\ is_empty (clear g) = true /\
    (forall o, step w (clear g) o = step w pg_new o) /\
    (forall a b, same_graph g (reserve g a b) /\ forall o, step w (reserve g a b) o = step w g o) /\
    same_graph g (shrink_to_fit g) /\ (forall o, step w (shrink_to_fit g) o = step w g o).
Proof.
  intros w g _. split_and!; done.
Qed.

Lemma C67_side_tables_pf :
  forall w g (V : Type) (dflt : V) (f : nat -> V), reach w g ->
    (forall g' log, compact_nodes g = Ok (g', log) -> forall o n, (o, n) ∈ log ->
       replay_rekeys dflt log f n = f o /\ replay_swaps log f n = f o) /\
    ((forall n, ~ hollow g n) -> forall g' log, compact_ports g = Ok (g', log) -> forall p p', (p, p') ∈ log ->
       replay_rekeys dflt log f p' = f p /\ replay_swaps log f p' = f p).
Proof.
  intros w g V dflt f (fnl & F & I)%reach_inv.
  assert (HH : forall l, NoDup l -> StronglySorted lt l -> forall o n, (o, n) ∈ zip l (seq 0 (length l)) ->
    replay_rekeys dflt (zip l (seq 0 (length l))) f n = f o /\ replay_swaps (zip l (seq 0 (length l))) f n = f o).
  { intros l Hnd Hs o n Hin. destruct (zip_seq_pairs l Hnd Hs) as (_ & _ & N1 & N2 & Ho & _). split.
    - unfold replay_rekeys. apply (replay_pairs (trekey dflt)); [apply trekey_1|apply trekey_2|done..].
    - unfold replay_swaps. apply (replay_pairs tswap); [apply tswap_1|apply tswap_2|done..]. }
  split.
  - intros g' log E. destruct (compact_nodes_spec g fnl F I) as (g1 & l & E1 & _ & P).
    rewrite E in E1. injection E1 as <- <-. rewrite (cn_log _ _ _ P). apply HH; [apply idxs_NoDup|apply node_ids_sorted].
  - intros Hh g' log E. destruct (compact_ports_spec g fnl F I (no_hollow_iff _ Hh)) as (g1 & l & E1 & _ & P).
    rewrite E in E1. injection E1 as <- <-. rewrite (cp_log _ _ _ P). apply HH; [apply idxs_NoDup|apply port_ids_sorted].
Qed.
