(** Lemmas on equal hierarchies. *)
From Verif Require Export HEqSpec MapThms HierOps.

Lemma nd_eqb_eq d d' : nd_eqb d d' = true <-> d = d'.
Proof.
  unfold nd_eqb. rewrite !andb_true_iff, !bool_decide_eq_true. destruct d, d'; cbn. split.
  - intros [[[[[-> ->] ->] ->] ->] ->]. done.
  - intros [= -> -> -> -> -> ->]. done.
Qed.
Lemma h_eqb_iff h h' : h_eqb h h' = true <-> um_default h = um_default h' /\ forall n, h_get h n = h_get h' n.
Proof. apply C33_equality_pf, nd_eqb_eq. Qed.

(** The default entry never changes. *)
Lemma detach_list_def fuel : forall h n h', h_detach_list fuel h n = HOk h' -> um_default h' = um_default h.
Proof.
  induction fuel as [|f IH]; intros h [c|] h'; cbn; intros [= <-] || intros H; try done. apply IH in H. by rewrite H, h_mod_default.
Qed.
Lemma rekey_list_def fuel new : forall h n h', h_rekey_list fuel h n new = HOk h' -> um_default h' = um_default h.
Proof.
  induction fuel as [|f IH]; intros h [c|] h'; cbn; intros [= <-] || intros H; try done. apply IH in H. by rewrite H, h_mod_default.
Qed.
Lemma detach_def h n h' p : h_detach h n = HOk (h', p) -> um_default h' = um_default h.
Proof.
  unfold h_detach. intros H. repeat (case_match; try done); injection H as <- <-; by rewrite ?h_mod_default.
Qed.
Lemma detach_children_def h n h' : h_detach_children h n = HOk h' -> um_default h' = um_default h.
Proof.
  unfold h_detach_children. destruct (um_try_get_mut h n) as [d|]; [|by intros [= <-]].
  intros H%detach_list_def. by rewrite H, h_mod_default.
Qed.
Lemma remove_def h n h' : h_remove h n = HOk h' -> um_default h' = um_default h.
Proof.
  unfold h_remove. destruct (h_detach_children h n) as [h1| |] eqn:E; try done. cbn.
  destruct (h_detach h1 n) as [[h2 q]| |] eqn:E2; try done. cbn. intros [= <-].
  by rewrite (detach_def _ _ _ _ E2), (detach_children_def _ _ _ E).
Qed.
Lemma remove_all_def l : forall h h', h_remove_all h l = HOk h' -> um_default h' = um_default h.
Proof.
  induction l as [|n l IH]; intros h h'; cbn; [by intros [= <-]|]. destruct (h_remove h n) as [h1| |] eqn:E; try done. cbn.
  intros H%IH. by rewrite H, (remove_def _ _ _ E).
Qed.
Lemma step_def h o h' : h_step h o = HOk h' -> um_default h' = um_default h.
Proof.
  destruct o as [n p|n p|n s|n s|n|n|n|a b|o n|e c|e c]; cbn.
  - unfold hfst, h_push_child. destruct (h_cycle_check h n p) as [[]| |]; cbn; try done; [|by intros [= <-]].
    intros H. repeat (case_match; try done); cbn in H; injection H as <-; by rewrite ?h_mod_default.
  - unfold hfst, h_push_front_child. destruct (h_cycle_check h n p) as [[]| |]; cbn; try done; [|by intros [= <-]].
    intros H. repeat (case_match; try done); cbn in H; injection H as <-; by rewrite ?h_mod_default.
  - unfold hfst, h_insert_before. destruct (h_parent h n); [by intros [= <-]|]. destruct (h_parent h s) as [p|]; [|by intros [= <-]].
    destruct (h_cycle_check h n p) as [[]| |]; cbn; try done; [|by intros [= <-]].
    intros H. repeat (case_match; try done); cbn in H; injection H as <-; by rewrite ?h_mod_default.
  - unfold hfst, h_insert_after. destruct (h_parent h n); [by intros [= <-]|]. destruct (h_parent h s) as [p|]; [|by intros [= <-]].
    destruct (h_cycle_check h n p) as [[]| |]; cbn; try done; [|by intros [= <-]].
    intros H. repeat (case_match; try done); cbn in H; injection H as <-; by rewrite ?h_mod_default.
  - unfold hfst. destruct (h_detach h n) as [[h1 q]| |] eqn:E; try done. cbn. intros [= <-]. by eapply detach_def.
  - apply detach_children_def.
  - apply remove_def.
  - unfold h_swap_nodes. destruct (decide (a = b)); [by intros [= <-]|]. unfold h_rekey_in_children.
    destruct (h_rekey_list _ h _ b) as [h1| |] eqn:E1; try done. cbn [mbind hres_bind].
    destruct (h_rekey_list _ h1 _ a) as [h2| |] eqn:E2; try done. cbn [mbind hres_bind]. intros [= <-].
    unfold h_put. rewrite !h_mod_default, !rekey_in_siblings_default, !rekey_in_parent_default.
    by rewrite (rekey_list_def _ _ _ _ _ E2), (rekey_list_def _ _ _ _ _ E1).
  - unfold h_rekey. destruct (decide (h_get h n = nd_new)); [|done]. destruct (decide (o = n)); [by intros [= <-]|].
    unfold h_rekey_in_children. destruct (h_rekey_list _ _ _ n) as [h1| |] eqn:E1; try done. cbn [mbind hres_bind]. intros [= <-].
    unfold h_put. rewrite h_mod_default, rekey_in_siblings_default, rekey_in_parent_default.
    rewrite (rekey_list_def _ _ _ _ _ E1). unfold h_put. by rewrite h_mod_default.
  - intros [= <-]. unfold h_ensure_capacity, um_ensure_capacity, um_resize, vresize. repeat case_match; done.
  - unfold h_shrink_to. destruct (h_remove_all _ _) as [h1| |] eqn:E; try done. cbn. intros [= <-].
    rewrite <- (remove_all_def _ _ _ E). done.
Qed.
Lemma hhist_def h : hhist h -> um_default h = nd_new.
Proof. induction 1 as [|h o h' _ IH Hs]; [done|]. by rewrite (step_def _ _ _ Hs). Qed.
Lemma hreach_def h : hreach h -> um_default h = nd_new.
Proof. induction 1 as [|h o h' _ IH _ Hs]; [done|]. by rewrite (step_def _ _ _ Hs). Qed.

(** The lists of children determine everything. *)
Lemma HInv_same_get h h' ch : HInv h ch -> HInv h' ch -> forall n, h_get h n = h_get h' n.
Proof.
  intros ((Hl & Hp & Hs & Hr) & _ & _) ((Hl' & Hp' & Hs' & Hr') & _ & _) n.
  assert (Epar : nd_parent (h_get h n) = nd_parent (h_get h' n)).
  { destruct (nd_parent (h_get h n)) as [p|] eqn:E.
    - symmetry. apply Hp', Hp. done.
    - destruct (nd_parent (h_get h' n)) as [p|] eqn:E'; [|done]. apply Hp', Hp in E'. congruence. }
  assert (Esib : nd_prev (h_get h n) = nd_prev (h_get h' n) /\ nd_next (h_get h n) = nd_next (h_get h' n)).
  { destruct (nd_parent (h_get h n)) as [p|] eqn:E.
    - apply Hp in E. apply elem_of_list_lookup_1 in E as [i Hi].
      destruct (Hs _ _ _ Hi) as [-> ->], (Hs' _ _ _ Hi) as [-> ->]. done.
    - destruct (Hr _ E) as [-> ->]. symmetry in Epar. destruct (Hr' _ Epar) as [-> ->]. done. }
  destruct (Hl n) as (_ & H1 & H2 & H3), (Hl' n) as (_ & H1' & H2' & H3'), Esib as [H4 H5].
  destruct (h_get h n), (h_get h' n). cbn in *. congruence.
Qed.
Lemma HInv_eqb h h' ch : HInv h ch -> HInv h' ch -> h_eqb h h' = true.
Proof.
  intros HI HI'. apply h_eqb_iff. split; [|by eapply HInv_same_get].
  destruct HI as (_ & _ & ->), HI' as (_ & _ & ->). done.
Qed.
(** First children and next siblings determine the lists. *)
Lemma chain_same ch ch' h h' p :
  HInv h ch -> HInv h' ch' -> (forall n, h_first h n = h_first h' n /\ h_next h n = h_next h' n) ->
  forall i, ch p !! i = ch' p !! i.
Proof.
  intros HI HI' Hs i. pose proof HI as (HF & _). pose proof HI' as (HF' & _). induction i as [|i IH].
  - rewrite <- (forest_head _ _ p HF), <- (forest_head _ _ p HF'). apply Hs.
  - pose proof HF as (_ & _ & Hx & _). pose proof HF' as (_ & _ & Hx' & _).
    destruct (ch p !! i) as [c|] eqn:E.
    + symmetry in IH. destruct (Hx _ _ _ E) as [<- _], (Hx' _ _ _ IH) as [<- _]. apply Hs.
    + symmetry in IH. apply lookup_ge_None in E, IH. rewrite !lookup_ge_None_2 by lia. done.
Qed.
Lemma same_first_next h h' : hreach h -> hreach h' -> (forall n, h_first h n = h_first h' n /\ h_next h n = h_next h' n) -> h_eqb h h' = true.
Proof.
  intros [ch HI]%hreach_inv [ch' HI']%hreach_inv Hs. eapply HInv_eqb; [exact HI|].
  eapply HInv_ch; [|exact HI']. intros p. apply list_eq. intros i. symmetry. by eapply chain_same.
Qed.

(** Calls on equal hierarchies. *)
Lemma anc_same h h' a c : (forall n, h_get h n = h_get h' n) -> anc h a c -> anc h' a c.
Proof.
  intros E H. unfold anc in *. induction H as [|x y z Hxy _ IH]; [apply rtc_refl|].
  eapply rtc_l; [|exact IH]. unfold child_of in *. by rewrite <- E.
Qed.
Lemma cyc_same h h' ch n p : HInv h ch -> HInv h' ch -> n <> p \/ h_first h n <> None ->
  exists b, h_cycle_check h n p = HOk b /\ h_cycle_check h' n p = HOk b /\ (b = false <-> anc h n p) /\ (b = false <-> anc h' n p).
Proof.
  intros HI HI' Hg. pose proof (HInv_same_get _ _ _ HI HI') as E.
  destruct (cycle_check_ok h ch n p HI Hg) as (b & Hb & Hb1).
  destruct (cycle_check_ok h' ch n p HI') as (b' & Hb' & Hb1').
  { destruct Hg as [|Hg]; [by left|right]. unfold h_first in *. by rewrite <- E. }
  exists b. split; [done|]. assert (b = false <-> b' = false) as Hbb.
  { rewrite Hb1, Hb1'. split; apply anc_same; [done|]. intros x. by rewrite E. }
  assert (b = b') as <-; [|done]. destruct b, b'; try done; [by apply Hbb|by symmetry; apply Hbb].
Qed.
Lemma cyc_any h h' ch n p : HInv h ch -> HInv h' ch -> exists b, h_cycle_check h n p = HOk b /\ h_cycle_check h' n p = HOk b.
Proof.
  intros HI HI'. pose proof (HInv_same_get _ _ _ HI HI') as E. destruct (h_first h n) eqn:Ef.
  - destruct (cyc_same h h' ch n p HI HI') as (b & H1 & H2 & _); [right; congruence|]. eauto.
  - exists true. unfold h_cycle_check, h_first in *. rewrite <- E, Ef. done.
Qed.
Definition both (a b : hier) : Prop := exists ch, HInv a ch /\ HInv b ch.
Lemma step_alike h h' ch o : HInv h ch -> HInv h' ch -> ~ self_push h o ->
  h_answer h o = h_answer h' o /\ alike both (h_step h o) (h_step h' o).
Proof.
  intros HI HI' Hg. pose proof (HInv_same_get _ _ _ HI HI') as E.
  assert (Epar : forall n, h_parent h n = h_parent h' n) by (intros n; unfold h_parent; by rewrite E).
  assert (Hself : both h h') by (exists ch; done).
  destruct o as [n p|n p|n s|n s|n|n|n|a b|o n|e c|e c]; cbn [h_answer h_step].
  - pose proof (Epar n) as En. destruct (h_parent h n) as [q|] eqn:Eq; symmetry in En.
    + destruct (cyc_any h h' ch n p HI HI') as (b & Hb & Hb'). unfold hfst, hsnd, h_push_child. rewrite Hb, Hb'. destruct b; cbn; rewrite ?Eq, ?En; done.
    + destruct (cyc_same h h' ch n p HI HI') as (b & Hb & Hb' & Hn & Hn').
      { destruct (decide (n = p)) as [->|]; [|by left]. right. intros Ef. apply Hg. cbn. done. }
      destruct b.
      * destruct (push_ok h ch n p HI Eq) as (h1 & E1 & HI1); [intros H; by apply Hn in H|].
        destruct (push_ok h' ch n p HI' En) as (h2 & E2 & HI2); [intros H; by apply Hn' in H|].
        rewrite E1, E2. cbn. split; [done|]. by eexists.
      * unfold hfst, hsnd, h_push_child. rewrite Hb, Hb'. cbn. done.
  - pose proof (Epar n) as En. destruct (h_parent h n) as [q|] eqn:Eq; symmetry in En.
    + destruct (cyc_any h h' ch n p HI HI') as (b & Hb & Hb'). unfold hfst, hsnd, h_push_front_child. rewrite Hb, Hb'. destruct b; cbn; rewrite ?Eq, ?En; done.
    + destruct (cyc_same h h' ch n p HI HI') as (b & Hb & Hb' & Hn & Hn').
      { destruct (decide (n = p)) as [->|]; [|by left]. right. intros Ef. apply Hg. cbn. done. }
      destruct b.
      * destruct (push_front_ok h ch n p HI Eq) as (h1 & E1 & HI1); [intros H; by apply Hn in H|].
        destruct (push_front_ok h' ch n p HI' En) as (h2 & E2 & HI2); [intros H; by apply Hn' in H|].
        rewrite E1, E2. cbn. split; [done|]. by eexists.
      * unfold hfst, hsnd, h_push_front_child. rewrite Hb, Hb'. cbn. done.
  - pose proof (Epar n) as En. destruct (h_parent h n) as [q|] eqn:Eq; symmetry in En.
    { unfold hfst, hsnd, h_insert_before. rewrite Eq, En. cbn. done. }
    pose proof (Epar s) as Es. destruct (h_parent h s) as [p|] eqn:Ep; symmetry in Es.
    2:{ unfold hfst, hsnd, h_insert_before. rewrite Eq, En, Ep, Es. cbn. done. }
    assert (Hpc : h_first h p <> None).
    { intros H. apply (first_none _ _ _ HI) in H. apply HI in Ep. rewrite H in Ep. by apply elem_of_nil in Ep. }
    destruct (cyc_same h h' ch n p HI HI') as (b & Hb & Hb' & Hn & Hn'); [destruct (decide (n = p)) as [->|]; [by right|by left]|].
    destruct b.
    + destruct (forest_slot (h_get h) ch p s) as [i Hi]; [apply HI|done|].
      destruct (before_ok h ch n p i s HI Eq) as (h1 & E1 & HI1); [intros H; by apply Hn in H|done|].
      destruct (before_ok h' ch n p i s HI' En) as (h2 & E2 & HI2); [intros H; by apply Hn' in H|done|].
      rewrite E1, E2. cbn. split; [done|]. by eexists.
    + unfold hfst, hsnd, h_insert_before. rewrite Eq, En, Ep, Es, Hb, Hb'. cbn. done.
  - pose proof (Epar n) as En. destruct (h_parent h n) as [q|] eqn:Eq; symmetry in En.
    { unfold hfst, hsnd, h_insert_after. rewrite Eq, En. cbn. done. }
    pose proof (Epar s) as Es. destruct (h_parent h s) as [p|] eqn:Ep; symmetry in Es.
    2:{ unfold hfst, hsnd, h_insert_after. rewrite Eq, En, Ep, Es. cbn. done. }
    assert (Hpc : h_first h p <> None).
    { intros H. apply (first_none _ _ _ HI) in H. apply HI in Ep. rewrite H in Ep. by apply elem_of_nil in Ep. }
    destruct (cyc_same h h' ch n p HI HI') as (b & Hb & Hb' & Hn & Hn'); [destruct (decide (n = p)) as [->|]; [by right|by left]|].
    destruct b.
    + destruct (forest_slot (h_get h) ch p s) as [i Hi]; [apply HI|done|].
      destruct (after_ok h ch n p i s HI Eq) as (h1 & E1 & HI1); [intros H; by apply Hn in H|done|].
      destruct (after_ok h' ch n p i s HI' En) as (h2 & E2 & HI2); [intros H; by apply Hn' in H|done|].
      rewrite E1, E2. cbn. split; [done|]. by eexists.
    + unfold hfst, hsnd, h_insert_after. rewrite Eq, En, Ep, Es, Hb, Hb'. cbn. done.
  - destruct (detach_ok _ _ n HI) as (h1 & E1 & HI1), (detach_ok _ _ n HI') as (h1' & E1' & HI1'). rewrite E1, E1'. cbn.
    rewrite Epar. split; [done|]. by eexists.
  - destruct (detach_children_ok _ _ n HI) as (h1 & E1 & HI1), (detach_children_ok _ _ n HI') as (h1' & E1' & HI1'). rewrite E1, E1'. cbn.
    split; [done|]. by eexists.
  - destruct (remove_ok _ _ n HI) as (h1 & E1 & HI1), (remove_ok _ _ n HI') as (h1' & E1' & HI1'). rewrite E1, E1'. cbn.
    split; [done|]. by eexists.
  - destruct (swap_ok _ _ a b HI) as (h1 & E1 & HI1), (swap_ok _ _ a b HI') as (h1' & E1' & HI1'). rewrite E1, E1'. cbn.
    split; [done|]. by eexists.
  - split; [done|]. destruct (decide (h_get h n = nd_new)) as [En|En].
    + pose proof En as En'. rewrite E in En'.
      destruct (rekey_ok _ _ o n HI En) as (h1 & E1 & HI1), (rekey_ok _ _ o n HI' En') as (h1' & E1' & HI1'). rewrite E1, E1'. by eexists.
    + pose proof En as En'. rewrite E in En'. unfold h_rekey. by rewrite !decide_False by done.
  - split; [done|]. exists ch. split; by apply ensure_ok.
  - destruct (shrink_ok e _ _ c HI) as (h1 & E1 & HI1), (shrink_ok e _ _ c HI') as (h1' & E1' & HI1'). rewrite E1, E1'. cbn.
    split; [done|]. by eexists.
Qed.
