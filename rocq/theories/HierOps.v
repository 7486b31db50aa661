(** What each hierarchy operation does to the children lists. *)
From Verif Require Export HierInv.

Lemma h_mod_get h k f x : h_get (h_mod h k f) x = if decide (x = k) then f (h_get h k) else h_get h x.
Proof.
  unfold h_mod, h_get, um_get, um_get_mut, um_resize, vresize.
  destruct (decide (length (um_data h) <= k)) as [Hk|Hk]; cbn.
  - rewrite take_ge by lia.
    assert (E : um_data h !! k = None) by (by apply lookup_ge_None).
    destruct (decide (x = k)) as [->|Hx].
    + rewrite list_lookup_alter, lookup_app_r, lookup_replicate_2 by lia. by rewrite E.
    + rewrite list_lookup_alter_ne by done. destruct (decide (x < length (um_data h))).
      * by rewrite lookup_app_l by done.
      * rewrite lookup_app_r by lia. rewrite (lookup_ge_None_2 (um_data h)) by lia.
        destruct (decide (x <= k)).
        -- by rewrite lookup_replicate_2 by lia.
        -- by rewrite lookup_ge_None_2 by (rewrite replicate_length; lia).
  - destruct (decide (x = k)) as [->|Hx].
    + rewrite list_lookup_alter. destruct (lookup_lt_is_Some_2 (um_data h) k) as [y ->]; [lia|done].
    + by rewrite list_lookup_alter_ne.
Qed.
Lemma h_mod_default h k f : um_default (h_mod h k f) = um_default h.
Proof. unfold h_mod, um_get_mut. by destruct (decide _). Qed.
Lemma h_mod_len h k f : length (um_data h) <= length (um_data (h_mod h k f)).
Proof.
  unfold h_mod, um_get_mut, um_resize, vresize. destruct (decide _); cbn; rewrite alter_length; [|lia].
  rewrite take_ge by lia. rewrite app_length. lia.
Qed.
Lemma h_put_get h k d x : h_get (h_put h k d) x = if decide (x = k) then d else h_get h x.
Proof. unfold h_put. by rewrite h_mod_get. Qed.

Definition HInv (h : hier) (ch : nat -> list nat) : Prop :=
  forest h ch /\ acyclic h /\ um_default h = nd_new.

Lemma get_out h n : length (um_data h) <= n -> h_get h n = um_default h.
Proof. intros H. unfold h_get, um_get. by rewrite lookup_ge_None_2. Qed.
Lemma par_bound h ch c p : HInv h ch -> h_parent h c = Some p -> c < length (um_data h).
Proof.
  intros (_ & _ & Hd) Hp. destruct (decide (c < length (um_data h))); [done|].
  unfold h_parent in Hp. rewrite get_out in Hp by lia. by rewrite Hd in Hp.
Qed.
Lemma ch_len h ch p : HInv h ch -> length (ch p) <= length (um_data h).
Proof.
  intros HI. pose proof HI as ((Hl & Hp & _) & _ & _).
  rewrite <- (seq_length (length (um_data h)) 0). apply submseteq_length, NoDup_submseteq.
  - apply Hl.
  - intros c Hc. apply elem_of_seq. apply Hp in Hc. pose proof (par_bound _ _ _ _ HI Hc). lia.
Qed.

Lemma forestv_ext v v' ch ch' : (forall x, v x = v' x) -> (forall p, ch p = ch' p) -> forestv v ch -> forestv v' ch'.
Proof.
  intros Hv Hc (H1 & H2 & H3 & H4). split; [|split; [|split]].
  - intros p. rewrite <- Hv, <- Hc. apply H1.
  - intros p c. rewrite <- Hv, <- Hc. apply H2.
  - intros p i c. rewrite <- Hv, <- Hc. apply H3.
  - intros c. rewrite <- Hv. apply H4.
Qed.
Lemma acyclicv_ext v v' : (forall x, v x = v' x) -> acyclicv v -> acyclicv v'.
Proof. intros Hv Hac. eapply acyclic_sub; [done|]. intros c p. by rewrite Hv. Qed.
Lemma HInv_ch h ch ch' : (forall p, ch p = ch' p) -> HInv h ch -> HInv h ch'.
Proof. intros E (HF & ?). split; [|done]. by eapply forestv_ext. Qed.
Lemma HInv_view h h' ch : (forall x, h_get h' x = h_get h x) -> um_default h' = nd_new -> HInv h ch -> HInv h' ch.
Proof.
  intros E Hd (HF & Hac & _). split; [|split; [|done]].
  - eapply forestv_ext; [intros x; symmetry; apply E|intros q; reflexivity|exact HF].
  - eapply acyclicv_ext; [intros x; symmetry; apply E|exact Hac].
Qed.

Lemma HInv_new : HInv h_new (fun _ => []).
Proof.
  split; [|split; [|done]].
  - split; [|split; [|split]].
    + intros p. repeat split. apply NoDup_nil_2.
    + intros p c. cbn. split; [by intros ?%elem_of_nil|done].
    + done.
    + done.
  - intros n Hn. inversion Hn as [? ? H|? ? ? H]; subst; done.
Qed.

(** ** The climb of [cycle_check] *)
Lemma climb_ok h ch n : HInv h ch -> forall fuel p vis,
  NoDup vis -> Forall (fun z => z < length (um_data h) /\ tc (child_of (h_get h)) z p) vis ->
  S (length (um_data h)) <= fuel + length vis ->
  exists b, h_climb fuel h n p = HOk b /\ (b = false <-> rtc (child_of (h_get h)) p n).
Proof.
  intros HI fuel. pose proof HI as (_ & Hac & _). induction fuel as [|fuel IH]; intros p vis Hnd Hvis Hf.
  - exfalso. assert (length vis <= length (um_data h)); [|lia].
    rewrite <- (seq_length (length (um_data h)) 0). apply submseteq_length, NoDup_submseteq; [done|].
    intros z Hz. apply elem_of_seq. rewrite Forall_forall in Hvis. destruct (Hvis _ Hz). lia.
  - cbn. destruct (decide (p = n)) as [->|Hpn].
    + exists false. split; [done|]. split; [intros _; apply rtc_refl|done].
    + destruct (h_parent h p) as [q|] eqn:Eq.
      * destruct (IH q (p :: vis)) as (b & -> & Hb).
        -- apply NoDup_cons. split; [|done]. intros Hin. rewrite Forall_forall in Hvis.
           destruct (Hvis _ Hin) as [_ Ht]. by apply Hac in Ht.
        -- apply Forall_cons. split.
           ++ split; [by eapply par_bound|]. by apply tc_once.
           ++ eapply Forall_impl; [done|]. intros z [? ?]. split; [done|]. by eapply tc_r.
        -- cbn. lia.
        -- exists b. split; [done|]. rewrite Hb. split.
           ++ intros H. by eapply rtc_l.
           ++ intros H. apply rtc_inv in H as [?|(y & Hy & H)]; [done|].
              unfold child_of in Hy. unfold h_parent in Eq. congruence.
      * exists true. split; [done|]. split; [done|]. intros H. apply rtc_inv in H as [?|(y & Hy & H)]; [done|].
        unfold child_of in Hy. unfold h_parent in Eq. congruence.
Qed.
Lemma no_desc v ch p n : forestv v ch -> ch n = [] -> rtc (child_of v) p n -> p = n.
Proof.
  intros (_ & Hp & _) Hn H. apply rtc_inv_r in H as [?|(y & _ & Hy)]; [done|].
  apply Hp in Hy. rewrite Hn in Hy. by apply elem_of_nil in Hy.
Qed.
Lemma first_none h ch n : HInv h ch -> h_first h n = None <-> ch n = [].
Proof.
  intros ((Hl & _) & _). destruct (Hl n) as (_ & Hf & _). unfold h_first. rewrite Hf. by destruct (ch n).
Qed.
Lemma cycle_check_ok h ch n p : HInv h ch -> n <> p \/ h_first h n <> None ->
  exists b, h_cycle_check h n p = HOk b /\ (b = false <-> anc h n p).
Proof.
  intros HI Hg. unfold h_cycle_check. destruct (h_first h n) as [c|] eqn:Ef.
  - apply (climb_ok _ _ n HI _ p []); [apply NoDup_nil_2|done|]. unfold h_fuel. cbn. lia.
  - exists true. split; [done|]. split; [done|]. intros H. apply (first_none _ _ _ HI) in Ef.
    apply (no_desc _ ch) in H; [|apply HI|done]. destruct Hg; congruence.
Qed.

(** ** Insertions *)
Lemma ins_HInv h ch n p i h' :
  HInv h ch -> h_parent h n = None -> ~ anc h n p -> i <= length (ch p) ->
  um_default h' = um_default h ->
  (forall x, h_get h' x = ins_nd (h_get h) n p (before_at (ch p) i) (ch p !! i) x) ->
  HInv h' (setch p (ins_list i n (ch p)) ch).
Proof.
  intros (HF & Hac & Hd) Hr Hn Hi Hdf Hv. destruct (forest_ins _ _ _ _ _ _ HF Hac Hr Hn Hi Hv).
  split; [done|]. split; [done|]. by rewrite Hdf.
Qed.
Lemma nd_eta d : d = mkND (nd_first d) (nd_last d) (nd_count d) (nd_parent d) (nd_prev d) (nd_next d).
Proof. by destruct d. Qed.

Lemma forest_child h ch p i c : HInv h ch -> ch p !! i = Some c -> nd_parent (h_get h c) = Some p.
Proof. intros ((_ & Hp & _) & _) H. apply Hp. by eapply elem_of_list_lookup_2. Qed.

Ltac nd_fin :=
  try congruence; try (exfalso; intuition congruence);
  unfold nd_set_first, nd_set_last, nd_set_count, nd_set_parent, nd_set_prev, nd_set_next; cbn;
  rewrite ?Nat.add_1_r; try apply nd_eta; f_equal; congruence.
Ltac nd_cases :=
  repeat match goal with
  | |- context [decide ?P] => destruct (decide P)
  end.

Lemma push_ok h ch n p : HInv h ch -> h_parent h n = None -> ~ anc h n p ->
  exists h', h_push_child h n p = HOk (h', None) /\ HInv h' (setch p (ch p ++ [n]) ch).
Proof.
  intros HI Hr Hn. pose proof HI as (HF & Hac & Hd). pose proof HF as (Hl & Hp & _).
  assert (Hnp : n <> p) by (intros ->; apply Hn, rtc_refl).
  destruct (cycle_check_ok h ch n p HI (or_introl Hnp)) as (b & Hb & Hb').
  unfold h_push_child. rewrite Hb. cbn. destruct b; [|exfalso; apply Hn; by apply Hb']. cbn. rewrite Hr.
  unfold h_last. rewrite !h_mod_get. rewrite decide_True by done. rewrite !(decide_False (P := p = n)) by done. cbn.
  rewrite <- (ins_list_end n (ch p)).
  destruct (nd_last (h_get h p)) as [l|] eqn:El.
  - eexists. split; [done|]. apply (ins_HInv h); try done; try (by rewrite !h_mod_default).
    rewrite (forest_last _ _ _ HF) in El.
    assert (Hlp : nd_parent (h_get h l) = Some p) by (by eapply forest_child).
    assert (l <> n) by (unfold h_parent in Hr; congruence).
    assert (l <> p). { intros ->. apply (Hac p). by apply tc_once. }
    intros x. rewrite !h_mod_get. unfold ins_nd.
    assert (E1 : ch p !! length (ch p) = None) by (apply lookup_ge_None; lia).
    assert (E2 : before_at (ch p) (length (ch p)) = Some l).
    { destruct (length (ch p)) as [|k] eqn:E; [|done]. apply lookup_lt_Some in El. lia. }
    rewrite E1, E2. unfold h_parent in Hr.
    destruct (Hl p) as (_ & _ & _ & Hc). destruct HF as (_ & _ & _ & Hro). destruct (Hro _ Hr) as [Hp1 Hp2].
    clear Hl Hp Hro HI Hac Hn Hb Hb'.
    destruct (decide (x = l)) as [->|]; [|destruct (decide (x = n)) as [->|]; [|destruct (decide (x = p)) as [->|]]];
    nd_cases; nd_fin.
  - eexists. split; [done|]. apply (ins_HInv h); try done; try (by rewrite !h_mod_default).
    assert (Ech : ch p = []). { destruct (Hl p) as (_ & _ & H & _). rewrite H in El. by apply last_None in El. }
    intros x. rewrite !h_mod_get, Ech. unfold ins_nd. cbn. unfold h_parent in Hr.
    destruct HF as (_ & _ & _ & Hro). destruct (Hro _ Hr) as [Hp1 Hp2].
    clear Hl Hp Hro HI Hac Hn Hb Hb'.
    destruct (decide (x = n)) as [->|]; [|destruct (decide (x = p)) as [->|]];
    nd_cases; nd_fin.
Qed.

Lemma push_front_ok h ch n p : HInv h ch -> h_parent h n = None -> ~ anc h n p ->
  exists h', h_push_front_child h n p = HOk (h', None) /\ HInv h' (setch p (n :: ch p) ch).
Proof.
  intros HI Hr Hn. pose proof HI as (HF & Hac & Hd). pose proof HF as (Hl & Hp & _).
  assert (Hnp : n <> p) by (intros ->; apply Hn, rtc_refl).
  destruct (cycle_check_ok h ch n p HI (or_introl Hnp)) as (b & Hb & Hb').
  unfold h_push_front_child. rewrite Hb. cbn. destruct b; [|exfalso; apply Hn; by apply Hb']. cbn. rewrite Hr.
  unfold h_first. rewrite !h_mod_get. rewrite decide_True by done. rewrite !(decide_False (P := p = n)) by done. cbn.
  rewrite <- (ins_list_front n (ch p)).
  destruct (nd_first (h_get h p)) as [l|] eqn:El.
  - eexists. split; [done|]. apply (ins_HInv h); try done; try (by rewrite !h_mod_default); try lia.
    rewrite (forest_head _ _ _ HF) in El.
    assert (Hlp : nd_parent (h_get h l) = Some p) by (by eapply forest_child).
    assert (l <> n) by (unfold h_parent in Hr; congruence).
    assert (l <> p). { intros ->. apply (Hac p). by apply tc_once. }
    intros x. rewrite !h_mod_get. unfold ins_nd.
    rewrite El. cbn [before_at]. unfold h_parent in Hr.
    destruct (Hl p) as (_ & _ & _ & Hc). destruct HF as (_ & _ & _ & Hro). destruct (Hro _ Hr) as [Hp1 Hp2].
    clear Hl Hp Hro HI Hac Hn Hb Hb'.
    destruct (decide (x = l)) as [->|]; [|destruct (decide (x = n)) as [->|]; [|destruct (decide (x = p)) as [->|]]];
    nd_cases; nd_fin.
  - eexists. split; [done|]. apply (ins_HInv h); try done; try (by rewrite !h_mod_default); try lia.
    assert (Ech : ch p = []). { destruct (Hl p) as (_ & H & _ & _). rewrite H in El. by destruct (ch p). }
    intros x. rewrite !h_mod_get, Ech. unfold ins_nd. cbn. unfold h_parent in Hr.
    destruct HF as (_ & _ & _ & Hro). destruct (Hro _ Hr) as [Hp1 Hp2].
    clear Hl Hp Hro HI Hac Hn Hb Hb'.
    destruct (decide (x = n)) as [->|]; [|destruct (decide (x = p)) as [->|]];
    nd_cases; nd_fin.
Qed.

Lemma sib_cases h ch p i s : HInv h ch -> ch p !! i = Some s ->
  nd_parent (h_get h s) = Some p /\ s <> p
  /\ nd_next (h_get h s) = ch p !! S i /\ nd_prev (h_get h s) = before_at (ch p) i
  /\ (forall y, nd_next (h_get h s) = Some y -> nd_parent (h_get h y) = Some p /\ y <> p /\ y <> s)
  /\ (forall y, nd_prev (h_get h s) = Some y -> nd_parent (h_get h y) = Some p /\ y <> p /\ y <> s)
  /\ (nd_next (h_get h s) = None -> nd_last (h_get h p) = Some s)
  /\ (nd_prev (h_get h s) = None -> nd_first (h_get h p) = Some s).
Proof.
  intros HI Hs. pose proof HI as (HF & Hac & _). pose proof HF as (Hl & Hp & Hsib & _).
  pose proof (forest_notself _ _ HF Hac) as Hself.
  assert (Hne : forall y j, ch p !! j = Some y -> y <> p).
  { intros y j Hy ->. by eapply Hself, elem_of_list_lookup_2. }
  destruct (Hsib _ _ _ Hs) as [-> ->].
  split; [by eapply forest_child|]. split; [by eapply Hne|]. split; [done|]. split; [done|]. split; [|split; [|split]].
  - intros y Hy. split; [by eapply forest_child|]. split; [by eapply Hne|].
    intros ->. destruct (forest_uniq _ _ _ _ _ _ _ HF Hs Hy). lia.
  - intros y Hy. destruct i as [|i]; [done|]. split; [by eapply forest_child|]. split; [by eapply Hne|].
    intros ->. destruct (forest_uniq _ _ _ _ _ _ _ HF Hs Hy). lia.
  - intros H. rewrite (forest_last _ _ _ HF). rewrite <- Hs. f_equal. apply lookup_ge_None in H. apply lookup_lt_Some in Hs. lia.
  - intros H. rewrite (forest_head _ _ _ HF). destruct i as [|i]; [done|].
    apply lookup_ge_None in H. apply lookup_lt_Some in Hs. lia.
Qed.

Lemma before_ok h ch n p i s : HInv h ch -> h_parent h n = None -> ~ anc h n p -> ch p !! i = Some s ->
  exists h', h_insert_before h n s = HOk (h', None) /\ HInv h' (setch p (ins_list i n (ch p)) ch).
Proof.
  intros HI Hr Hn Hs. pose proof HI as (HF & Hac & Hd).
  assert (Hnp : n <> p) by (intros ->; apply Hn, rtc_refl).
  destruct (cycle_check_ok h ch n p HI (or_introl Hnp)) as (b & Hb & Hb').
  pose proof (sib_cases _ _ _ _ _ HI Hs) as (Hsp & Hspne & Enx & Epv & Hny & Hpy & _ & _).
  unfold h_insert_before. rewrite Hr. unfold h_parent at 1. rewrite Hsp, Hb. cbn.
  destruct b; [|exfalso; apply Hn; by apply Hb']. cbn.
  unfold h_parent in Hr. assert (s <> n) by congruence.
  assert (Eb : h_prev (h_mod h p (λ d : nd, nd_set_count (nd_count d + 1) d)) s = nd_prev (h_get h s)).
  { unfold h_prev. rewrite h_mod_get. by rewrite decide_False. }
  rewrite Eb. destruct HF as (_ & _ & _ & Hro). destruct (Hro _ Hr) as [Hp1 Hp2].
  destruct (nd_prev (h_get h s)) as [l|] eqn:El.
  all: eexists; split; [done|]; apply (ins_HInv h); try done; try (by rewrite !h_mod_default);
    try (apply lookup_lt_Some in Hs; lia); intros x; rewrite !h_mod_get; unfold ins_nd; rewrite Hs, <- Epv.
  - destruct (Hpy l eq_refl) as (? & ? & ?).
    assert (l <> n) by congruence.
    clear Hro HI Hac Hn Hb Hb' Hny Hpy.
    destruct (decide (x = l)) as [->|]; [|destruct (decide (x = n)) as [->|]; [|destruct (decide (x = p)) as [->|]; [|destruct (decide (x = s)) as [->|]]]];
    nd_cases; nd_fin.
  - clear Hro HI Hac Hn Hb Hb' Hny Hpy.
    destruct (decide (x = n)) as [->|]; [|destruct (decide (x = p)) as [->|]; [|destruct (decide (x = s)) as [->|]]];
    nd_cases; nd_fin.
Qed.
Lemma after_ok h ch n p i s : HInv h ch -> h_parent h n = None -> ~ anc h n p -> ch p !! i = Some s ->
  exists h', h_insert_after h n s = HOk (h', None) /\ HInv h' (setch p (ins_list (S i) n (ch p)) ch).
Proof.
  intros HI Hr Hn Hs. pose proof HI as (HF & Hac & Hd).
  assert (Hnp : n <> p) by (intros ->; apply Hn, rtc_refl).
  destruct (cycle_check_ok h ch n p HI (or_introl Hnp)) as (b & Hb & Hb').
  pose proof (sib_cases _ _ _ _ _ HI Hs) as (Hsp & Hspne & Enx & Epv & Hny & Hpy & _ & _).
  unfold h_insert_after. rewrite Hr. unfold h_parent at 1. rewrite Hsp, Hb. cbn.
  destruct b; [|exfalso; apply Hn; by apply Hb']. cbn.
  unfold h_parent in Hr. assert (s <> n) by congruence.
  assert (Eb : h_next (h_mod h p (λ d : nd, nd_set_count (nd_count d + 1) d)) s = nd_next (h_get h s)).
  { unfold h_next. rewrite h_mod_get. by rewrite decide_False. }
  rewrite Eb. destruct HF as (_ & _ & _ & Hro). destruct (Hro _ Hr) as [Hp1 Hp2].
  destruct (nd_next (h_get h s)) as [l|] eqn:El.
  all: eexists; split; [done|]; apply (ins_HInv h); try done; try (by rewrite !h_mod_default);
    try (apply lookup_lt_Some in Hs; lia); intros x; rewrite !h_mod_get; unfold ins_nd; cbn [before_at]; rewrite Hs, <- Enx.
  - destruct (Hny l eq_refl) as (? & ? & ?).
    assert (l <> n) by congruence.
    clear Hro HI Hac Hn Hb Hb' Hny Hpy.
    destruct (decide (x = l)) as [->|]; [|destruct (decide (x = n)) as [->|]; [|destruct (decide (x = p)) as [->|]; [|destruct (decide (x = s)) as [->|]]]];
    nd_cases; nd_fin.
  - clear Hro HI Hac Hn Hb Hb' Hny Hpy.
    destruct (decide (x = n)) as [->|]; [|destruct (decide (x = p)) as [->|]; [|destruct (decide (x = s)) as [->|]]];
    nd_cases; nd_fin.
Qed.

(** ** Detaching *)
Lemma filter_ne_notin n (l : list nat) : n ∉ l -> filter (.≠ n) l = l.
Proof.
  induction l as [|x l IH]; intros H; [done|]. apply not_elem_of_cons in H as [H1 H2].
  rewrite filter_cons_True by done. by rewrite IH.
Qed.
Lemma filter_ne_delete n (l : list nat) i : NoDup l -> l !! i = Some n -> delete i l = filter (.≠ n) l.
Proof.
  revert i. induction l as [|x l IH]; intros i Hd Hi; [done|]. apply NoDup_cons in Hd as [Hx Hd].
  destruct i as [|i].
  - injection Hi as ->. change (delete 0 (n :: l)) with l. rewrite filter_cons_False by naive_solver. by rewrite filter_ne_notin.
  - cbn in Hi. rewrite filter_cons_True.
    + change (delete (S i) (x :: l)) with (x :: delete i l). f_equal. by apply IH.
    + intros ->. by eapply Hx, elem_of_list_lookup_2.
Qed.
Lemma detach_ok h ch n : HInv h ch ->
  exists h', h_detach h n = HOk (h', h_parent h n) /\ HInv h' (fun p => filter (.≠ n) (ch p)).
Proof.
  intros HI. pose proof HI as (HF & Hac & Hd). pose proof HF as (Hl & Hp & Hsib & Hro).
  unfold h_detach, um_try_get_mut.
  destruct (um_data h !! n) as [d|] eqn:En.
  2:{ assert (h_get h n = nd_new) as E by (unfold h_get, um_get; by rewrite En).
      exists h. split; [unfold h_parent; by rewrite E|]. eapply HInv_ch; [|done].
      intros p. cbn. rewrite filter_ne_notin; [done|]. intros H%Hp. by rewrite E in H. }
  assert (Ed : d = h_get h n) by (unfold h_get, um_get; by rewrite En). subst d.
  destruct (nd_parent (h_get h n)) as [p|] eqn:Ep.
  2:{ eexists. split; [unfold h_parent; rewrite Ep; done|].
      eapply HInv_ch; [|eapply (HInv_view h); [|by rewrite h_mod_default|done]].
      - intros p. cbn. rewrite filter_ne_notin; [done|]. intros H%Hp. congruence.
      - intros x. rewrite h_mod_get. destruct (decide (x = n)) as [->|]; [|done]. destruct (Hro _ Ep) as [E1 E2].
        destruct (h_get h n); cbn in *; by subst. }
  destruct (forest_slot _ _ _ _ HF Ep) as [i Hi].
  pose proof (sib_cases _ _ _ _ _ HI Hi) as (_ & Hne & Enx & Epv & Hny & Hpy & Hnl & Hpf).
  destruct (Hl p) as (Hnd & _ & _ & Hc). pose proof (lookup_lt_Some _ _ _ Hi) as Hlt.
  assert (E0 : h_child_count (h_mod h n (fun d => nd_set_parent None (nd_set_prev None (nd_set_next None d)))) p <> 0).
  { unfold h_child_count. rewrite h_mod_get. rewrite decide_False by done. rewrite Hc. lia. }
  destruct (decide _); [done|]. clear E0.
  eexists. split; [unfold h_parent; rewrite Ep; reflexivity|].
  apply (HInv_ch _ (setch p (delete i (ch p)) ch)).
  { intros q. unfold setch. destruct (decide (q = p)) as [->|Hq]; [by apply filter_ne_delete|].
    symmetry. apply filter_ne_notin. intros H%Hp. congruence. }
  match goal with |- HInv ?h' _ => cut (um_default h' = um_default h /\ forall x, h_get h' x = del_nd (h_get h) n p (before_at (ch p) i) (ch p !! S i) x) end.
  { intros [Hd' Hv]. destruct (forest_del _ _ _ _ _ _ HF Hac Hi Hv). split; [done|]. split; [done|]. by rewrite Hd'. }
  rewrite <- Enx, <- Epv. clear Enx Epv.
  destruct (nd_prev (h_get h n)) as [a|] eqn:Ea, (nd_next (h_get h n)) as [b|] eqn:Eb.
  all: split; [by rewrite !h_mod_default|]; intros x; rewrite !h_mod_get; unfold del_nd.
  - destruct (Hny b eq_refl) as (? & ? & ?), (Hpy a eq_refl) as (? & ? & ?).
    assert (a <> b). { intros ->. destruct (Hsib _ _ _ Hi) as [E1 E2]. rewrite Ea in E2. rewrite Eb in E1.
      destruct i as [|i]; [done|]. destruct (forest_uniq _ _ _ _ _ _ _ HF (eq_sym E1) (eq_sym E2)). lia. }
    clear Hro HI Hac Hny Hpy Hl Hp Hsib HF Hnl Hpf.
    destruct (decide (x = a)) as [->|]; [|destruct (decide (x = b)) as [->|]; [|destruct (decide (x = p)) as [->|]; [|destruct (decide (x = n)) as [->|]]]];
    nd_cases; nd_fin.
  - destruct (Hpy a eq_refl) as (? & ? & ?).
    clear Hro HI Hac Hny Hpy Hl Hp Hsib HF Hnl Hpf.
    destruct (decide (x = a)) as [->|]; [|destruct (decide (x = p)) as [->|]; [|destruct (decide (x = n)) as [->|]]];
    nd_cases; nd_fin.
  - destruct (Hny b eq_refl) as (? & ? & ?).
    clear Hro HI Hac Hny Hpy Hl Hp Hsib HF Hnl Hpf.
    destruct (decide (x = b)) as [->|]; [|destruct (decide (x = p)) as [->|]; [|destruct (decide (x = n)) as [->|]]];
    nd_cases; nd_fin.
  - clear Hro HI Hac Hny Hpy Hl Hp Hsib HF Hnl Hpf.
    destruct (decide (x = p)) as [->|]; [|destruct (decide (x = n)) as [->|]];
    nd_cases; nd_fin.
Qed.

Definition nd_cut (d : nd) : nd := nd_set_parent None (nd_set_prev None (nd_set_next None d)).
Lemma detach_list_ok l : forall fuel h, length l <= fuel -> NoDup l ->
  (forall i c, l !! i = Some c -> nd_next (h_get h c) = l !! S i) ->
  exists h', h_detach_list fuel h (head l) = HOk h' /\ um_default h' = um_default h
    /\ forall x, h_get h' x = if decide (x ∈ l) then nd_cut (h_get h x) else h_get h x.
Proof.
  induction l as [|c l IH]; intros fuel h Hf Hnd Hnx.
  - exists h. split; [by destruct fuel|]. split; [done|]. intros x. by rewrite decide_False by apply not_elem_of_nil.
  - destruct fuel as [|fuel]; [cbn in Hf; lia|]. apply NoDup_cons in Hnd as [Hc Hnd]. cbn [head h_detach_list].
    unfold h_next. rewrite (Hnx 0 c eq_refl). change ((c :: l) !! 1) with (l !! 0).
    replace (l !! 0) with (head l) by (by destruct l).
    destruct (IH fuel (h_mod h c nd_cut)) as (h' & E & Hd & Hv).
    + cbn in Hf. lia.
    + done.
    + intros i x Hx. rewrite h_mod_get. rewrite decide_False; [by apply (Hnx (S i) x)|].
      intros ->. by eapply Hc, elem_of_list_lookup_2.
    + exists h'. split; [exact E|]. split; [by rewrite Hd, h_mod_default|].
      intros x. rewrite Hv, !h_mod_get.
      destruct (decide (x = c)) as [->|].
      * rewrite decide_False by done. by rewrite decide_True by (by left).
      * destruct (decide (x ∈ l)); [by rewrite decide_True by (by right)|]. by rewrite decide_False by (rewrite not_elem_of_cons; done).
Qed.
Lemma detach_children_ok h ch n : HInv h ch ->
  exists h', h_detach_children h n = HOk h' /\ HInv h' (setch n [] ch).
Proof.
  intros HI. pose proof HI as (HF & Hac & Hd). pose proof HF as (Hl & Hp & Hsib & Hro).
  unfold h_detach_children, um_try_get_mut.
  destruct (um_data h !! n) as [d|] eqn:En.
  2:{ assert (h_get h n = nd_new) as E by (unfold h_get, um_get; by rewrite En).
      exists h. split; [done|]. eapply HInv_ch; [|done]. intros p. unfold setch. destruct (decide (p = n)) as [->|]; [|done].
      apply (first_none _ _ _ HI). unfold h_first. by rewrite E. }
  assert (Ed : d = h_get h n) by (unfold h_get, um_get; by rewrite En). subst d.
  destruct (Hl n) as (Hnd & Hf & _). rewrite Hf.
  pose proof (forest_notself _ _ HF Hac n) as Hself.
  destruct (detach_list_ok (ch n) (h_fuel h) (h_mod h n (fun d => nd_set_count 0 (nd_set_first None (nd_set_last None d))))) as (h' & E & Hd' & Hv).
  - unfold h_fuel. pose proof (ch_len _ _ n HI). lia.
  - done.
  - intros i c Hc. rewrite h_mod_get. destruct (Hsib _ _ _ Hc) as [<- _]. destruct (decide (c = n)) as [->|]; done.
  - exists h'. split; [done|]. cut (forestv (h_get h') (setch n [] ch) /\ acyclicv (h_get h')).
    { intros []. split; [done|]. split; [done|]. by rewrite Hd', h_mod_default. }
    eapply forest_clear; [done..|]. intros x. rewrite Hv, !h_mod_get. clear -Hself.
    destruct (decide (x = n)) as [->|]; nd_cases; unfold nd_cut; nd_fin.
Qed.
Lemma remove_ok h ch n : HInv h ch ->
  exists h', h_remove h n = HOk h' /\ HInv h' (fun p => if decide (p = n) then [] else filter (.≠ n) (ch p)).
Proof.
  intros HI. destruct (detach_children_ok _ _ n HI) as (h1 & E1 & HI1). unfold h_remove. rewrite E1. cbn.
  destruct (detach_ok _ _ n HI1) as (h2 & E2 & HI2). rewrite E2. cbn. exists h2. split; [done|].
  eapply HInv_ch; [|done]. intros p. cbn. unfold setch. by destruct (decide (p = n)).
Qed.

(** ** Renaming *)
Lemma rekey_list_ok l new : forall fuel h, length l <= fuel ->
  (forall i c, l !! i = Some c -> nd_next (h_get h c) = l !! S i) ->
  exists h', h_rekey_list fuel h (head l) new = HOk h' /\ um_default h' = um_default h
    /\ length (um_data h) <= length (um_data h')
    /\ forall x, h_get h' x = if decide (x ∈ l) then nd_set_parent (Some new) (h_get h x) else h_get h x.
Proof.
  induction l as [|c l IH]; intros fuel h Hf Hnx.
  - exists h. split; [by destruct fuel|]. split; [done|]. split; [done|]. intros x. by rewrite decide_False by apply not_elem_of_nil.
  - destruct fuel as [|fuel]; [cbn in Hf; lia|]. cbn [head h_rekey_list].
    unfold h_next. rewrite h_mod_get, decide_True by done. cbn [nd_next nd_set_parent].
    rewrite (Hnx 0 c eq_refl). change ((c :: l) !! 1) with (l !! 0).
    replace (l !! 0) with (head l) by (by destruct l).
    destruct (IH fuel (h_mod h c (nd_set_parent (Some new)))) as (h' & E & Hd & Hlen & Hv).
    + cbn in Hf. lia.
    + intros i x Hx. rewrite h_mod_get. pose proof (Hnx (S i) x Hx) as E. change ((c :: l) !! S (S i)) with (l !! S i) in E.
      rewrite <- E. destruct (decide (x = c)) as [->|]; done.
    + exists h'. split; [exact E|]. split; [by rewrite Hd, h_mod_default|].
      split; [etrans; [|exact Hlen]; apply h_mod_len|].
      intros x. rewrite Hv, !h_mod_get.
      destruct (decide (x = c)) as [->|].
      * rewrite (decide_True (P := c ∈ c :: l)) by (by left). by destruct (decide (c ∈ l)).
      * destruct (decide (x ∈ l)); [by rewrite decide_True by (by right)|]. by rewrite decide_False by (rewrite not_elem_of_cons; done).
Qed.
Lemma rekey_in_parent_get h d new x :
  h_get (h_rekey_in_parent h d new) x =
  mkND (if decide (nd_parent d = Some x /\ nd_prev d = None) then Some new else nd_first (h_get h x))
       (if decide (nd_parent d = Some x /\ nd_next d = None) then Some new else nd_last (h_get h x))
       (nd_count (h_get h x)) (nd_parent (h_get h x)) (nd_prev (h_get h x)) (nd_next (h_get h x)).
Proof.
  unfold h_rekey_in_parent. destruct (nd_parent d) as [p|].
  - destruct (decide (nd_prev d = None)), (decide (nd_next d = None)); rewrite ?h_mod_get;
      (destruct (decide (x = p)) as [->|]; nd_cases; nd_fin).
  - rewrite !decide_False by naive_solver. apply nd_eta.
Qed.
Lemma rekey_in_parent_default h d new : um_default (h_rekey_in_parent h d new) = um_default h.
Proof. unfold h_rekey_in_parent. destruct (nd_parent d); [|done]. do 2 destruct (decide _); by rewrite ?h_mod_default. Qed.
Lemma rekey_in_siblings_get h d new x :
  h_get (h_rekey_in_siblings h d new) x =
  mkND (nd_first (h_get h x)) (nd_last (h_get h x)) (nd_count (h_get h x)) (nd_parent (h_get h x))
       (if decide (nd_next d = Some x) then Some new else nd_prev (h_get h x))
       (if decide (nd_prev d = Some x) then Some new else nd_next (h_get h x)).
Proof.
  unfold h_rekey_in_siblings. destruct (nd_prev d) as [a|], (nd_next d) as [b|]; rewrite ?h_mod_get.
  - nd_cases; subst; nd_fin.
  - destruct (decide (x = a)) as [->|]; nd_cases; nd_fin.
  - destruct (decide (x = b)) as [->|]; nd_cases; nd_fin.
  - nd_cases; nd_fin.
Qed.
Lemma rekey_in_siblings_default h d new : um_default (h_rekey_in_siblings h d new) = um_default h.
Proof. unfold h_rekey_in_siblings. destruct (nd_prev d), (nd_next d); by rewrite ?h_mod_default. Qed.

(** Who points at a given node. *)
Lemma first_iff v ch x a : forestv v ch -> nd_first (v x) = Some a <-> nd_parent (v a) = Some x /\ nd_prev (v a) = None.
Proof.
  intros HF. rewrite (forest_head _ _ _ HF). pose proof HF as (Hl & Hp & Hs & Hr). split.
  - intros H. split; [apply Hp; by eapply elem_of_list_lookup_2|]. by destruct (Hs _ _ _ H) as [_ ->].
  - intros [H1 H2]. destruct (forest_slot _ _ _ _ HF H1) as [i Hi]. destruct (Hs _ _ _ Hi) as [_ E].
    destruct i as [|i]; [done|]. rewrite H2 in E. symmetry in E. apply lookup_ge_None in E. apply lookup_lt_Some in Hi. lia.
Qed.
Lemma last_iff v ch x a : forestv v ch -> nd_last (v x) = Some a <-> nd_parent (v a) = Some x /\ nd_next (v a) = None.
Proof.
  intros HF. rewrite (forest_last _ _ _ HF). pose proof HF as (Hl & Hp & Hs & Hr). split.
  - intros H. split; [apply Hp; by eapply elem_of_list_lookup_2|]. destruct (Hs _ _ _ H) as [-> _].
    apply lookup_ge_None. lia.
  - intros [H1 H2]. destruct (forest_slot _ _ _ _ HF H1) as [i Hi]. destruct (Hs _ _ _ Hi) as [E _].
    rewrite <- Hi. f_equal. rewrite H2 in E. symmetry in E. apply lookup_ge_None in E. apply lookup_lt_Some in Hi. lia.
Qed.
Lemma next_prev_iff v ch x a : forestv v ch -> nd_next (v x) = Some a <-> nd_prev (v a) = Some x.
Proof.
  intros HF. pose proof HF as (Hl & Hp & Hs & Hr). split; intros H.
  - destruct (nd_parent (v x)) as [p|] eqn:E; [|destruct (Hr _ E); congruence].
    destruct (forest_slot _ _ _ _ HF E) as [i Hi]. destruct (Hs _ _ _ Hi) as [E1 _]. rewrite H in E1.
    by destruct (Hs _ _ _ (eq_sym E1)) as [_ ->].
  - destruct (nd_parent (v a)) as [p|] eqn:E; [|destruct (Hr _ E); congruence].
    destruct (forest_slot _ _ _ _ HF E) as [i Hi]. destruct (Hs _ _ _ Hi) as [_ E1]. rewrite H in E1.
    destruct i as [|i]; [done|]. by destruct (Hs _ _ _ (eq_sym E1)) as [-> _].
Qed.
Lemma no_self v ch a : forestv v ch -> acyclicv v ->
  nd_first (v a) <> Some a /\ nd_last (v a) <> Some a /\ nd_parent (v a) <> Some a
  /\ nd_prev (v a) <> Some a /\ nd_next (v a) <> Some a.
Proof.
  intros HF Hac. pose proof HF as (Hl & Hp & Hs & Hr).
  assert (H1 : nd_parent (v a) <> Some a) by (intros H; apply (Hac a); by apply tc_once).
  assert (H2 : nd_next (v a) <> Some a).
  { intros H. destruct (nd_parent (v a)) as [p|] eqn:E; [|destruct (Hr _ E); congruence].
    destruct (forest_slot _ _ _ _ HF E) as [i Hi]. destruct (Hs _ _ _ Hi) as [E1 _]. rewrite H in E1.
    destruct (forest_uniq _ _ _ _ _ _ _ HF Hi (eq_sym E1)). lia. }
  repeat split; try done.
  - intros H. by apply (first_iff _ _ _ _ HF) in H as [??].
  - intros H. by apply (last_iff _ _ _ _ HF) in H as [??].
  - intros H. by apply (next_prev_iff _ _ _ _ HF) in H.
Qed.

Lemma exch_opt2 a b (P Q : Prop) `{!Decision P} `{!Decision Q} o : a <> b ->
  (P <-> o = Some b) -> (Q <-> o = Some a) ->
  (if decide P then Some a else if decide Q then Some b else o) = exch a b <$> o.
Proof.
  intros Hab HP HQ. destruct (decide P) as [H|H].
  - apply HP in H as ->. cbn. unfold exch. destruct (decide (b = a)); [congruence|]. by rewrite decide_True.
  - destruct (decide Q) as [H'|H'].
    + apply HQ in H' as ->. cbn. unfold exch. by rewrite decide_True.
    + destruct o as [x|]; [|done]. cbn. unfold exch. rewrite !decide_False; [done| |].
      * intros ->. by apply H, HP.
      * intros ->. by apply H', HQ.
Qed.
Lemma exch_val a b o : a <> b -> o <> Some a -> rekey_in_value o b a = exch a b <$> o.
Proof.
  intros Hab Ho. destruct o as [x|]; [|done]. cbn. unfold exch. destruct (decide (x = b)) as [->|].
  - by rewrite decide_False.
  - by rewrite decide_False by congruence.
Qed.
Lemma exch_val' a b o : a <> b -> o <> Some b -> rekey_in_value o a b = exch a b <$> o.
Proof.
  intros Hab Ho. destruct o as [x|]; [|done]. cbn. unfold exch. destruct (decide (x = a)) as [->|]; [done|].
  by rewrite decide_False by congruence.
Qed.

Lemma swap_ok h ch a b : HInv h ch ->
  exists h', h_swap_nodes h a b = HOk h' /\ HInv h' (fun p => exch a b <$> ch (exch a b p)).
Proof.
  intros HI. pose proof HI as (HF & Hac & Hd). pose proof HF as (Hl & Hp & Hsib & Hro).
  unfold h_swap_nodes. destruct (decide (a = b)) as [->|Hab].
  { exists h. split; [done|]. eapply HInv_ch; [|done]. intros p.
    assert (E : forall x, exch b b x = x) by (intros x; unfold exch; repeat destruct (decide _); congruence).
    rewrite E. rewrite (list_fmap_ext _ id) by (intros; apply E). by rewrite list_fmap_id. }
  unfold h_rekey_in_children.
  destruct (Hl a) as (_ & Hfa & _), (Hl b) as (_ & Hfb & _). rewrite Hfa.
  destruct (rekey_list_ok (ch a) b (h_fuel h) h) as (h1 & E1 & Hd1 & Hlen1 & Hv1).
  { unfold h_fuel. pose proof (ch_len _ _ a HI). lia. }
  { intros i c Hc. by destruct (Hsib _ _ _ Hc). }
  rewrite E1. cbn [mbind hres_bind]. rewrite Hfb.
  destruct (rekey_list_ok (ch b) a (h_fuel h1) h1) as (h2 & E2 & Hd2 & Hlen2 & Hv2).
  { unfold h_fuel. pose proof (ch_len _ _ b HI). lia. }
  { intros i c Hc. rewrite Hv1. destruct (Hsib _ _ _ Hc) as [<- _]. by destruct (decide (c ∈ ch a)). }
  rewrite E2. cbn [mbind hres_bind]. eexists. split; [done|].
  match goal with |- HInv ?h' _ => cut (um_default h' = um_default h /\ forall x, h_get h' x = ren_nd (exch a b) (h_get h (exch a b x))) end.
  { intros [Hd' Hv]. destruct (forest_ren _ _ _ _ _ HF Hac Hv). split; [done|]. split; [done|]. by rewrite Hd'. }
  split.
  { unfold h_put. by rewrite !h_mod_default, !rekey_in_siblings_default, !rekey_in_parent_default, Hd2, Hd1. }
  intros x. rewrite !h_put_get.
  destruct (no_self _ _ a HF Hac) as (A1 & A2 & A3 & A4 & A5), (no_self _ _ b HF Hac) as (B1 & B2 & B3 & B4 & B5).
  destruct (decide (x = b)) as [->|Hxb].
  { unfold exch at 2. rewrite (decide_False (P := b = a)), (decide_True (P := b = b)) by congruence.
    unfold rekey_in_data, ren_nd. by rewrite !exch_val. }
  destruct (decide (x = a)) as [->|Hxa].
  { unfold exch at 2. rewrite (decide_True (P := a = a)) by congruence.
    unfold rekey_in_data, ren_nd. by rewrite !exch_val'. }
  unfold exch at 2. rewrite (decide_False (P := x = b)), (decide_False (P := x = a)) by congruence.
  rewrite !rekey_in_siblings_get. cbn. rewrite !rekey_in_parent_get. cbn. rewrite Hv2, Hv1. unfold ren_nd.
  f_equal.
  - rewrite <- (exch_opt2 a b (nd_parent (h_get h b) = Some x /\ nd_prev (h_get h b) = None) (nd_parent (h_get h a) = Some x /\ nd_prev (h_get h a) = None)) by (try done; symmetry; by apply (first_iff _ ch)).
    by nd_cases.
  - rewrite <- (exch_opt2 a b (nd_parent (h_get h b) = Some x /\ nd_next (h_get h b) = None) (nd_parent (h_get h a) = Some x /\ nd_next (h_get h a) = None)) by (try done; symmetry; by apply (last_iff _ ch)).
    by nd_cases.
  - by destruct (decide (x ∈ ch b)), (decide (x ∈ ch a)).
  - rewrite <- (exch_opt2 a b (x ∈ ch b) (x ∈ ch a)) by (done || apply Hp).
    by destruct (decide (x ∈ ch b)), (decide (x ∈ ch a)).
  - rewrite <- (exch_opt2 a b (nd_next (h_get h b) = Some x) (nd_next (h_get h a) = Some x)) by (try done; by apply (next_prev_iff _ ch)).
    by nd_cases.
  - rewrite <- (exch_opt2 a b (nd_prev (h_get h b) = Some x) (nd_prev (h_get h a) = Some x)) by (try done; symmetry; by apply (next_prev_iff _ ch)).
    by nd_cases.
Qed.

Lemma isolated_pointers v ch n : forestv v ch -> v n = nd_new -> forall x,
  nd_first (v x) <> Some n /\ nd_last (v x) <> Some n /\ nd_parent (v x) <> Some n
  /\ nd_prev (v x) <> Some n /\ nd_next (v x) <> Some n.
Proof.
  intros HF Hn x. repeat split.
  - intros H. apply (first_iff _ _ _ _ HF) in H as [H _]. by rewrite Hn in H.
  - intros H. apply (last_iff _ _ _ _ HF) in H as [H _]. by rewrite Hn in H.
  - intros H. pose proof HF as (Hl & Hp & _). apply Hp in H. destruct (Hl n) as (_ & Hf & _). rewrite Hn in Hf. cbn in Hf.
    destruct (ch n); [by apply elem_of_nil in H|done].
  - intros H. apply (next_prev_iff _ _ _ _ HF) in H. by rewrite Hn in H.
  - intros H. apply (next_prev_iff _ _ _ _ HF) in H. by rewrite Hn in H.
Qed.
Lemma exch_opt1 a b (Q : Prop) `{!Decision Q} o : o <> Some b -> (Q <-> o = Some a) ->
  (if decide Q then Some b else o) = exch a b <$> o.
Proof.
  intros Ho HQ. destruct (decide Q) as [H'|H'].
  - apply HQ in H' as ->. cbn. unfold exch. by rewrite decide_True.
  - destruct o as [x|]; [|done]. cbn. unfold exch. rewrite !decide_False; [done| |].
    + congruence.
    + intros ->. by apply H', HQ.
Qed.
Lemma exch_none a b o : o <> Some a -> o <> Some b -> o = exch a b <$> o.
Proof. intros. destruct o as [x|]; [|done]. cbn. unfold exch. by rewrite !decide_False by congruence. Qed.
Lemma rekey_ok h ch old new : HInv h ch -> h_get h new = nd_new ->
  exists h', h_rekey h old new = HOk h' /\ HInv h' (fun p => exch old new <$> ch (exch old new p)).
Proof.
  intros HI Hnew. pose proof HI as (HF & Hac & Hd). pose proof HF as (Hl & Hp & Hsib & Hro).
  unfold h_rekey. rewrite decide_True by done. destruct (decide (old = new)) as [->|Hne].
  { exists h. split; [done|]. eapply HInv_ch; [|done]. intros p.
    assert (E : forall x, exch new new x = x) by (intros x; unfold exch; repeat destruct (decide _); congruence).
    rewrite E. rewrite (list_fmap_ext _ id) by (intros; apply E). by rewrite list_fmap_id. }
  unfold h_rekey_in_children. destruct (Hl old) as (_ & Hfo & _). rewrite Hfo.
  pose proof (forest_notself _ _ HF Hac old) as Hself.
  destruct (rekey_list_ok (ch old) new (h_fuel (h_put h old nd_new)) (h_put h old nd_new)) as (h1 & E1 & Hd1 & _ & Hv1).
  { unfold h_fuel. pose proof (ch_len _ _ old HI). pose proof (h_mod_len h old (fun _ => nd_new)). unfold h_put. lia. }
  { intros i c Hc. rewrite h_put_get. destruct (Hsib _ _ _ Hc) as [<- _]. rewrite decide_False; [done|].
    intros ->. by eapply Hself, elem_of_list_lookup_2. }
  rewrite E1. cbn [mbind hres_bind]. eexists. split; [done|].
  match goal with |- HInv ?h' _ => cut (um_default h' = um_default h /\ forall x, h_get h' x = ren_nd (exch old new) (h_get h (exch old new x))) end.
  { intros [Hd' Hv]. destruct (forest_ren _ _ _ _ _ HF Hac Hv). split; [done|]. split; [done|]. by rewrite Hd'. }
  split.
  { unfold h_put in *. by rewrite !h_mod_default, !rekey_in_siblings_default, !rekey_in_parent_default, Hd1, h_mod_default. }
  intros x. rewrite !h_put_get.
  destruct (no_self _ _ old HF Hac) as (A1 & A2 & A3 & A4 & A5).
  pose proof (isolated_pointers _ _ _ HF Hnew) as Hiso.
  destruct (decide (x = new)) as [->|Hxb].
  { unfold exch at 2. rewrite (decide_False (P := new = old)), (decide_True (P := new = new)) by congruence.
    destruct (Hiso old) as (B1 & B2 & B3 & B4 & B5). unfold ren_nd. rewrite <- !exch_none by done. apply nd_eta. }
  rewrite !rekey_in_siblings_get. cbn. rewrite !rekey_in_parent_get. cbn. rewrite Hv1, h_put_get.
  destruct (decide (x = old)) as [->|Hxa].
  { unfold exch at 2. rewrite (decide_True (P := old = old)) by congruence. rewrite Hnew.
    rewrite (decide_False (P := old ∈ ch old)) by done. rewrite !decide_False by (naive_solver). done. }
  unfold exch at 2. rewrite (decide_False (P := x = old)), (decide_False (P := x = new)) by congruence.
  destruct (Hiso x) as (B1 & B2 & B3 & B4 & B5). unfold ren_nd.
  f_equal.
  - rewrite <- (exch_opt1 old new (nd_parent (h_get h old) = Some x /\ nd_prev (h_get h old) = None)) by (try done; symmetry; by apply (first_iff _ ch)).
    by nd_cases.
  - rewrite <- (exch_opt1 old new (nd_parent (h_get h old) = Some x /\ nd_next (h_get h old) = None)) by (try done; symmetry; by apply (last_iff _ ch)).
    by nd_cases.
  - by destruct (decide (x ∈ ch old)).
  - rewrite <- (exch_opt1 old new (x ∈ ch old)) by (done || apply Hp).
    by destruct (decide (x ∈ ch old)).
  - rewrite <- (exch_opt1 old new (nd_next (h_get h old) = Some x)) by (try done; by apply (next_prev_iff _ ch)).
    by nd_cases.
  - rewrite <- (exch_opt1 old new (nd_prev (h_get h old) = Some x)) by (try done; symmetry; by apply (next_prev_iff _ ch)).
    by nd_cases.
Qed.

(** ** Capacity *)
Lemma ensure_ok e h ch c : HInv h ch -> HInv (h_ensure_capacity e h c) ch.
Proof.
  intros HI. pose proof HI as (_ & _ & Hd). eapply HInv_view; [|by unfold h_ensure_capacity, um_ensure_capacity; destruct (decide _)|done].
  intros x. unfold h_ensure_capacity, um_ensure_capacity. destruct (decide _) as [Hc|]; [|done].
  unfold h_get, um_get, vresize. cbn. rewrite take_ge by lia. destruct (decide (x < length (um_data h))).
  - by rewrite lookup_app_l.
  - rewrite lookup_app_r by lia. rewrite (lookup_ge_None_2 (um_data h)) by lia.
    destruct (decide (x < c)); [by rewrite lookup_replicate_2 by lia|].
    by rewrite lookup_ge_None_2 by (rewrite replicate_length; lia).
Qed.
Lemma isolated_new h ch n : HInv h ch -> ch n = [] -> (forall p, n ∉ ch p) -> h_get h n = nd_new.
Proof.
  intros ((Hl & Hp & _ & Hr) & _) H1 H2. destruct (Hl n) as (_ & E1 & E2 & E3). rewrite H1 in E1, E2, E3. cbn in *.
  assert (E4 : nd_parent (h_get h n) = None).
  { destruct (nd_parent (h_get h n)) as [p|] eqn:E; [|done]. apply Hp in E. by apply H2 in E. }
  destruct (Hr _ E4) as [E5 E6]. rewrite (nd_eta (h_get h n)). by rewrite E1, E2, E3, E4, E5, E6.
Qed.
Lemma remove_all_ok ns : forall h ch, HInv h ch ->
  exists h', h_remove_all h ns = HOk h' /\ HInv h' (fun p => if decide (p ∈ ns) then [] else filter (.∉ ns) (ch p)).
Proof.
  induction ns as [|n ns IH]; intros h ch HI.
  - exists h. split; [done|]. eapply HInv_ch; [|done]. intros p. cbn.
    assert (Hf : forall l : list nat, filter (.∉ []) l = l).
    { intros l. induction l as [|x l IH]; [done|]. rewrite filter_cons_True by apply not_elem_of_nil. by rewrite IH. }
    by rewrite decide_False, Hf by apply not_elem_of_nil.
  - cbn. destruct (remove_ok _ _ n HI) as (h1 & -> & HI1). cbn. destruct (IH _ _ HI1) as (h2 & -> & HI2).
    exists h2. split; [done|]. eapply HInv_ch; [|done]. intros p. cbn.
    destruct (decide (p ∈ ns)); [by rewrite decide_True by (by right)|].
    destruct (decide (p = n)) as [->|].
    + by rewrite (decide_True (P := n ∈ n :: ns)) by (by left).
    + rewrite decide_False by (rewrite not_elem_of_cons; done). rewrite list_filter_filter.
      apply list_filter_iff. intros x. rewrite not_elem_of_cons. tauto.
Qed.
Lemma shrink_ok e h ch c : HInv h ch ->
  exists h', h_shrink_to e h c = HOk h'
    /\ HInv h' (fun p => if decide (p < c) then filter (fun x => x < c) (ch p) else []).
Proof.
  intros HI. unfold h_shrink_to. set (ns := rev (seq c (length (um_data h) + e - c))).
  destruct (remove_all_ok ns _ _ HI) as (h1 & E1 & HI1). rewrite E1. cbn. eexists. split; [done|].
  assert (Hns : forall x, x ∈ ns <-> c <= x < c + (length (um_data h) + e - c)).
  { intros x. unfold ns. rewrite elem_of_list_In, <- in_rev, <- elem_of_list_In, elem_of_seq. lia. }
  assert (Hch : forall p x, x ∈ ch p -> x < length (um_data h) /\ p < length (um_data h)).
  { intros p x Hx. pose proof HI as ((Hl & Hp & _) & _ & Hd). split.
    - apply Hp in Hx. by eapply par_bound.
    - destruct (decide (p < length (um_data h))); [done|]. destruct (Hl p) as (_ & Hf & _).
      rewrite get_out in Hf by lia. rewrite Hd in Hf. cbn in Hf. destruct (ch p); [by apply elem_of_nil in Hx|done]. }
  assert (HI2 : HInv h1 (fun p => if decide (p < c) then filter (fun x => x < c) (ch p) else [])).
  { eapply HInv_ch; [|done]. intros p. cbn. destruct (decide (p ∈ ns)) as [Hin|Hin].
    - apply Hns in Hin. by rewrite decide_False by lia.
    - rewrite Hns in Hin. destruct (decide (p < c)).
      + assert (Hall : Forall (fun x => x ∉ ns <-> x < c) (ch p)).
        { apply Forall_forall. intros x Hx. rewrite Hns. destruct (Hch _ _ Hx). lia. }
        clear -Hall. induction (ch p) as [|x l IH]; [done|]. apply Forall_cons in Hall as [H1 H2].
        rewrite !filter_cons. rewrite IH by done. destruct (decide (x ∉ ns)), (decide (x < c)); try done; tauto.
      + assert (ch p = []) as ->; [|done]. destruct (ch p) as [|x l] eqn:E; [done|].
        destruct (Hch p x) as [_ ?]; [rewrite E; by left|]. lia. }
  pose proof HI2 as (_ & _ & Hd). eapply HInv_view; [|exact Hd|exact HI2].
  intros x. destruct (decide (x < c)).
  - unfold h_get, um_get, um_shrink_to. cbn. by rewrite lookup_take.
  - transitivity nd_new.
    + transitivity (um_default (um_shrink_to h1 c)); [apply get_out; cbn; rewrite take_length; lia|exact Hd].
    + symmetry. eapply isolated_new; [exact HI2|cbn; by rewrite decide_False by lia|].
      intros p. cbn. destruct (decide (p < c)); [|apply not_elem_of_nil]. rewrite elem_of_list_filter. lia.
Qed.

(** ** Histories *)
Lemma attach_err_same {A} (h h' : hier) (e e' : option A) : HOk (h, e) = HOk (h', e') -> h = h' /\ e = e'.
Proof. intros [= -> ->]. done. Qed.
Lemma step_inv h ch o h' : HInv h ch -> ~ self_push h o -> h_step h o = HOk h' -> exists ch', HInv h' ch'.
Proof.
  intros HI Hg Hs. destruct o as [n p|n p|n s|n s|n|n|n|a b|o n|e c|e c]; cbn in Hs.
  - destruct (h_parent h n) as [q|] eqn:Eq.
    { unfold hfst, h_push_child in Hs. destruct (h_cycle_check h n p) as [[]| |]; cbn in Hs; try done.
      - rewrite Eq in Hs. injection Hs as <-. eauto.
      - injection Hs as <-. eauto. }
    destruct (cycle_check_ok h ch n p HI) as (b & Hb & Hb').
    { destruct (decide (n = p)) as [->|]; [|by left]. right. intros E. by apply Hg. }
    destruct b.
    + destruct (push_ok h ch n p) as (h1 & E1 & HI1); [done..| |].
      * intros H. by apply Hb' in H.
      * rewrite E1 in Hs. injection Hs as <-. eauto.
    + unfold hfst, h_push_child in Hs. rewrite Hb in Hs. injection Hs as <-. eauto.
  - destruct (h_parent h n) as [q|] eqn:Eq.
    { unfold hfst, h_push_front_child in Hs. destruct (h_cycle_check h n p) as [[]| |]; cbn in Hs; try done.
      - rewrite Eq in Hs. injection Hs as <-. eauto.
      - injection Hs as <-. eauto. }
    destruct (cycle_check_ok h ch n p HI) as (b & Hb & Hb').
    { destruct (decide (n = p)) as [->|]; [|by left]. right. intros E. by apply Hg. }
    destruct b.
    + destruct (push_front_ok h ch n p) as (h1 & E1 & HI1); [done..| |].
      * intros H. by apply Hb' in H.
      * rewrite E1 in Hs. injection Hs as <-. eauto.
    + unfold hfst, h_push_front_child in Hs. rewrite Hb in Hs. injection Hs as <-. eauto.
  - destruct (h_parent h n) as [q|] eqn:Eq.
    { unfold hfst, h_insert_before in Hs. rewrite Eq in Hs. injection Hs as <-. eauto. }
    destruct (h_parent h s) as [p|] eqn:Ep.
    2:{ unfold hfst, h_insert_before in Hs. rewrite Eq, Ep in Hs. injection Hs as <-. eauto. }
    assert (Hpc : h_first h p <> None).
    { intros H. apply (first_none _ _ _ HI) in H. apply HI in Ep. rewrite H in Ep. by apply elem_of_nil in Ep. }
    destruct (cycle_check_ok h ch n p HI) as (b & Hb & Hb').
    { destruct (decide (n = p)) as [->|]; [|by left]. by right. }
    destruct b.
    + destruct (forest_slot (h_get h) ch p s) as [i Hi]; [apply HI|done|].
      destruct (before_ok h ch n p i s) as (h1 & E1 & HI1); [done..| |done|].
      * intros H. by apply Hb' in H.
      * rewrite E1 in Hs. injection Hs as <-. eauto.
    + unfold hfst, h_insert_before in Hs. rewrite Eq, Ep, Hb in Hs. injection Hs as <-. eauto.
  - destruct (h_parent h n) as [q|] eqn:Eq.
    { unfold hfst, h_insert_after in Hs. rewrite Eq in Hs. injection Hs as <-. eauto. }
    destruct (h_parent h s) as [p|] eqn:Ep.
    2:{ unfold hfst, h_insert_after in Hs. rewrite Eq, Ep in Hs. injection Hs as <-. eauto. }
    assert (Hpc : h_first h p <> None).
    { intros H. apply (first_none _ _ _ HI) in H. apply HI in Ep. rewrite H in Ep. by apply elem_of_nil in Ep. }
    destruct (cycle_check_ok h ch n p HI) as (b & Hb & Hb').
    { destruct (decide (n = p)) as [->|]; [|by left]. by right. }
    destruct b.
    + destruct (forest_slot (h_get h) ch p s) as [i Hi]; [apply HI|done|].
      destruct (after_ok h ch n p i s) as (h1 & E1 & HI1); [done..| |done|].
      * intros H. by apply Hb' in H.
      * rewrite E1 in Hs. injection Hs as <-. eauto.
    + unfold hfst, h_insert_after in Hs. rewrite Eq, Ep, Hb in Hs. injection Hs as <-. eauto.
  - destruct (detach_ok _ _ n HI) as (h1 & E1 & HI1). rewrite E1 in Hs. injection Hs as <-. eauto.
  - destruct (detach_children_ok _ _ n HI) as (h1 & E1 & HI1). rewrite E1 in Hs. injection Hs as <-. eauto.
  - destruct (remove_ok _ _ n HI) as (h1 & E1 & HI1). rewrite E1 in Hs. injection Hs as <-. eauto.
  - destruct (swap_ok _ _ a b HI) as (h1 & E1 & HI1). rewrite E1 in Hs. injection Hs as <-. eauto.
  - destruct (decide (h_get h n = nd_new)) as [E|E].
    + destruct (rekey_ok _ _ o n HI E) as (h1 & E1 & HI1). rewrite E1 in Hs. injection Hs as <-. eauto.
    + unfold h_rekey in Hs. by rewrite decide_False in Hs.
  - injection Hs as <-. exists ch. by apply ensure_ok.
  - destruct (shrink_ok e _ _ c HI) as (h1 & E1 & HI1). rewrite E1 in Hs. injection Hs as <-. eauto.
Qed.
Lemma hreach_inv h : hreach h -> exists ch, HInv h ch.
Proof.
  induction 1 as [|h o h' _ [ch HI] Hg Hs]; [exists (fun _ => []); apply HInv_new|]. by eapply step_inv.
Qed.
