(** Proofs of properties C36-C43 and C68. *)
From Verif Require Export HierOps PG3Thms.

Lemma hhist_run l : forall h h', hhist h -> h_run h l = HOk h' -> hhist h'.
Proof.
  induction l as [|o l IH]; intros h h' Hr Hrun; cbn in Hrun; [by injection Hrun as <-|].
  destruct (h_step h o) as [h1| |] eqn:E; cbn in Hrun; try done.
  eapply IH; [|exact Hrun]. by eapply hh_step.
Qed.

Lemma C36_hierarchy_refuted_pf :
exists h, hhist h /\ ~ exists ch, forest h ch.
Proof.
  destruct (h_run h_new [HPush 0 0; HSwap 0 1]) as [h| |] eqn:E; [|vm_compute in E; discriminate..].
  exists h. split.
  - eapply hhist_run; [constructor|exact E].
  - intros [ch (Hl & Hp & _)]. vm_compute in E. injection E as <-.
    assert (H : 1 ∈ ch 0) by (by apply Hp). destruct (Hl 0) as (_ & Hf & _). cbn in Hf.
    destruct (ch 0); [by apply elem_of_nil in H|done].
Qed.

Lemma C36_hierarchy_partial_pf :
forall h, hreach h -> exists ch : nat -> list nat,
  (forall p, NoDup (ch p)
     /\ h_first h p = head (ch p) /\ h_last h p = last (ch p)
     /\ h_child_count h p = length (ch p) /\ h_has_children h p = bool_decide (ch p <> []))
  /\ (forall p c, c ∈ ch p <-> h_parent h c = Some p)
  /\ (forall p i c, ch p !! i = Some c ->
        h_next h c = ch p !! S i /\ h_prev h c = match i with 0 => None | S j => ch p !! j end)
  /\ (forall c, h_is_root h c = true -> h_parent h c = None /\ h_prev h c = None /\ h_next h c = None).
Proof.
  intros h Hr. destruct (hreach_inv _ Hr) as (ch & (Hl & Hp & Hs & Hro) & _). exists ch.
  split; [|split; [exact Hp|split; [exact Hs|]]].
  - intros p. destruct (Hl p) as (H1 & H2 & H3 & H4). repeat split; try done.
    unfold h_has_children, h_child_count. rewrite H4. apply bool_decide_ext. destruct (ch p); cbn; split; try done; lia.
  - intros c H. unfold h_is_root in H. apply bool_decide_eq_true in H. split; [done|]. by apply Hro.
Qed.

Lemma C37_insertions_refuted_pf :
exists h n p, hreach h /\ anc h n p /\ exists h', h_push_child h n p = HOk (h', None).
Proof.
  exists h_new, 0, 0. split; [constructor|]. split; [apply rtc_refl|]. by eexists.
Qed.

Lemma forest_uniq_ch h ch ch' : forest h ch -> forest h ch' -> forall p, ch p = ch' p.
Proof.
  intros HF HF' p. apply list_eq. intros i. induction i as [|i IH].
  - rewrite <- (forest_head _ _ _ HF), <- (forest_head _ _ _ HF'). done.
  - destruct (ch p !! i) as [c|] eqn:E.
    + pose proof HF as (_ & _ & Hs & _). pose proof HF' as (_ & _ & Hs' & _).
      destruct (Hs _ _ _ E) as [<- _]. symmetry in IH. by destruct (Hs' _ _ _ IH) as [<- _].
    + symmetry in IH. rewrite !lookup_ge_None_2; [done|..]; apply lookup_ge_None in E, IH; lia.
Qed.
Lemma reach_HInv h ch : hreach h -> forest h ch -> HInv h ch.
Proof.
  intros Hr HF. destruct (hreach_inv _ Hr) as (ch' & HI). eapply HInv_ch; [|exact HI].
  apply (forest_uniq_ch h); [apply HI|done].
Qed.
Lemma anc_dec h ch n p : HInv h ch -> anc h n p \/ ~ anc h n p.
Proof.
  intros HI. destruct (decide (n = p)) as [->|Hne]; [left; apply rtc_refl|].
  destruct (cycle_check_ok h ch n p HI (or_introl Hne)) as ([] & _ & Hb); [right|left; by apply Hb].
  intros H. by apply Hb in H.
Qed.

Lemma C37_push_child_partial_pf :
forall h ch n p, hreach h -> forest h ch -> ~ self_push h (HPush n p) ->
  (h_parent h n = None -> ~ anc h n p ->
     exists h', h_push_child h n p = HOk (h', None) /\ forest h' (setch p (ch p ++ [n]) ch))
  /\ (h_parent h n <> None \/ anc h n p ->
     exists e, h_push_child h n p = HOk (h, Some e)
       /\ (e = Cycle n p /\ anc h n p \/ e = AlreadyAttached n /\ h_parent h n <> None)).
Proof.
  intros h ch n p Hr HF Hg. pose proof (reach_HInv _ _ Hr HF) as HI. split.
  - intros H1 H2. destruct (push_ok _ _ _ _ HI H1 H2) as (h' & E & HI'). exists h'. split; [done|apply HI'].
  - intros Hor. unfold h_push_child. destruct (decide (n = p /\ h_first h n = None)) as [[<- Hf]|Hnf].
    + assert (h_parent h n <> None). { intros E. by apply Hg. }
      unfold h_cycle_check. rewrite Hf. cbn. destruct (h_parent h n); [|done]. eexists. split; [done|]. right. done.
    + destruct (cycle_check_ok h ch n p HI) as (b & -> & Hb).
      { destruct (decide (n = p)) as [->|]; [|by left]. right. intros E. by apply Hnf. }
      cbn. destruct b; cbn.
      * assert (Hp : h_parent h n <> None). { destruct Hor as [|H]; [done|]. by apply Hb in H. }
        destruct (h_parent h n); [|done]. eexists. split; [done|]. by right.
      * eexists. split; [done|]. left. split; [done|]. by apply Hb.
Qed.

Lemma C37_push_front_child_partial_pf :
forall h ch n p, hreach h -> forest h ch -> ~ self_push h (HPushFront n p) ->
  (h_parent h n = None -> ~ anc h n p ->
     exists h', h_push_front_child h n p = HOk (h', None) /\ forest h' (setch p (n :: ch p) ch))
  /\ (h_parent h n <> None \/ anc h n p ->
     exists e, h_push_front_child h n p = HOk (h, Some e)
       /\ (e = Cycle n p /\ anc h n p \/ e = AlreadyAttached n /\ h_parent h n <> None)).
Proof.
  intros h ch n p Hr HF Hg. pose proof (reach_HInv _ _ Hr HF) as HI. split.
  - intros H1 H2. destruct (push_front_ok _ _ _ _ HI H1 H2) as (h' & E & HI'). exists h'. split; [done|apply HI'].
  - intros Hor. unfold h_push_front_child. destruct (decide (n = p /\ h_first h n = None)) as [[<- Hf]|Hnf].
    + assert (h_parent h n <> None). { intros E. by apply Hg. }
      unfold h_cycle_check. rewrite Hf. cbn. destruct (h_parent h n); [|done]. eexists. split; [done|]. right. done.
    + destruct (cycle_check_ok h ch n p HI) as (b & -> & Hb).
      { destruct (decide (n = p)) as [->|]; [|by left]. right. intros E. by apply Hnf. }
      cbn. destruct b; cbn.
      * assert (Hp : h_parent h n <> None). { destruct Hor as [|H]; [done|]. by apply Hb in H. }
        destruct (h_parent h n); [|done]. eexists. split; [done|]. by right.
      * eexists. split; [done|]. left. split; [done|]. by apply Hb.
Qed.

Lemma C37_insert_before_pf :
forall h ch n s, hreach h -> forest h ch ->
  (forall p l1 l2, h_parent h n = None -> ch p = l1 ++ s :: l2 -> ~ anc h n p ->
     exists h', h_insert_before h n s = HOk (h', None) /\ forest h' (setch p (l1 ++ n :: s :: l2) ch))
  /\ (h_parent h n <> None -> h_insert_before h n s = HOk (h, Some (AlreadyAttached n)))
  /\ (h_parent h n = None -> h_parent h s = None -> h_insert_before h n s = HOk (h, Some (RootSibling s)))
  /\ (forall p, h_parent h n = None -> h_parent h s = Some p -> anc h n p ->
        h_insert_before h n s = HOk (h, Some (Cycle n p))).
Proof.
  intros h ch n s Hr HF. pose proof (reach_HInv _ _ Hr HF) as HI. split; [|split; [|split]].
  - intros p l1 l2 H1 H2 H3. destruct (before_ok h ch n p (length l1) s) as (h' & E & HI'); [done..| |].
    + rewrite H2. by apply list_lookup_middle.
    + exists h'. split; [done|]. rewrite H2 in HI'. unfold ins_list in HI'. rewrite take_app, drop_app in HI'. apply HI'.
  - intros H. unfold h_insert_before. by destruct (h_parent h n).
  - intros H1 H2. unfold h_insert_before. by rewrite H1, H2.
  - intros p H1 H2 H3. unfold h_insert_before. rewrite H1, H2.
    destruct (cycle_check_ok h ch n p HI) as (b & -> & Hb).
    { destruct (decide (n = p)) as [->|]; [|by left]. right. intros E. apply (first_none _ _ _ HI) in E.
      apply HF in H2. rewrite E in H2. by apply elem_of_nil in H2. }
    apply Hb in H3 as ->. done.
Qed.

Lemma C37_insert_after_pf :
forall h ch n s, hreach h -> forest h ch ->
  (forall p l1 l2, h_parent h n = None -> ch p = l1 ++ s :: l2 -> ~ anc h n p ->
     exists h', h_insert_after h n s = HOk (h', None) /\ forest h' (setch p (l1 ++ s :: n :: l2) ch))
  /\ (h_parent h n <> None -> h_insert_after h n s = HOk (h, Some (AlreadyAttached n)))
  /\ (h_parent h n = None -> h_parent h s = None -> h_insert_after h n s = HOk (h, Some (RootSibling s)))
  /\ (forall p, h_parent h n = None -> h_parent h s = Some p -> anc h n p ->
        h_insert_after h n s = HOk (h, Some (Cycle n p))).
Proof.
  intros h ch n s Hr HF. pose proof (reach_HInv _ _ Hr HF) as HI. split; [|split; [|split]].
  - intros p l1 l2 H1 H2 H3. destruct (after_ok h ch n p (length l1) s) as (h' & E & HI'); [done..| |].
    + rewrite H2. by apply list_lookup_middle.
    + exists h'. split; [done|]. rewrite H2 in HI'. unfold ins_list in HI'.
      replace (take (S (length l1)) (l1 ++ s :: l2)) with (l1 ++ [s]) in HI'.
      2:{ rewrite (cons_middle s l1 l2), app_assoc. rewrite take_app_alt; [done|]. rewrite app_length. cbn. lia. }
      replace (drop (S (length l1)) (l1 ++ s :: l2)) with l2 in HI'.
      2:{ rewrite (cons_middle s l1 l2), app_assoc. rewrite drop_app_alt; [done|]. rewrite app_length. cbn. lia. }
      rewrite <- app_assoc in HI'. apply HI'.
  - intros H. unfold h_insert_after. by destruct (h_parent h n).
  - intros H1 H2. unfold h_insert_after. by rewrite H1, H2.
  - intros p H1 H2 H3. unfold h_insert_after. rewrite H1, H2.
    destruct (cycle_check_ok h ch n p HI) as (b & -> & Hb).
    { destruct (decide (n = p)) as [->|]; [|by left]. right. intros E. apply (first_none _ _ _ HI) in E.
      apply HF in H2. rewrite E in H2. by apply elem_of_nil in H2. }
    apply Hb in H3 as ->. done.
Qed.

Lemma C38_acyclic_refuted_pf :
exists h n, hhist h /\ tc (child_of (h_get h)) n n.
Proof.
  destruct (h_push_child h_new 0 0) as [[h e]| |] eqn:E; [|vm_compute in E; discriminate..].
  exists h, 0. split; [eapply (hh_step h_new (HPush 0 0)); [constructor|cbn [h_step]; by rewrite E]|].
  vm_compute in E. injection E as <- <-. apply tc_once. by vm_compute.
Qed.

Lemma C38_loop_refuted_pf :
exists h n p, hhist h /\ h_push_child h n p = HLoop
  /\ h_first h n <> None /\ forall fuel, h_climb fuel h n p = HLoop.
Proof.
  destruct (h_run h_new [HPush 0 0; HPush 2 1]) as [h| |] eqn:E; [|vm_compute in E; discriminate..].
  exists h, 1, 0. split.
  - eapply hhist_run; [constructor|exact E].
  - vm_compute in E. injection E as <-. split; [by vm_compute|]. split; [by vm_compute|].
    intros fuel. induction fuel as [|fuel IH]; [done|exact IH].
Qed.

Lemma C38_acyclic_partial_pf :
forall h, hreach h -> (forall n, ~ tc (child_of (h_get h)) n n)
  /\ forall n p, anc h n p -> ~ self_push h (HPush n p) ->
       (exists e, h_push_child h n p = HOk (h, Some e)) /\ (exists e, h_push_front_child h n p = HOk (h, Some e)).
Proof.
  intros h Hr. destruct (hreach_inv _ Hr) as (ch & HI). split; [apply HI|]. intros n p Ha Hg.
  destruct (C37_push_child_partial_pf h ch n p Hr (proj1 HI) Hg) as [_ H1].
  destruct (C37_push_front_child_partial_pf h ch n p Hr (proj1 HI) Hg) as [_ H2].
  destruct H1 as (e1 & ? & _); [by right|]. destruct H2 as (e2 & ? & _); [by right|]. eauto.
Qed.

Lemma C39_detach_pf :
forall h ch n, hreach h -> forest h ch ->
  (exists h', h_detach h n = HOk (h', h_parent h n) /\ forest h' (fun p => filter (.≠ n) (ch p)))
  /\ (exists h', h_detach_children h n = HOk h' /\ forest h' (setch n [] ch))
  /\ (exists h', h_remove h n = HOk h' /\ forest h' (setch n [] (fun p => filter (.≠ n) (ch p)))).
Proof.
  intros h ch n Hr HF. pose proof (reach_HInv _ _ Hr HF) as HI. split; [|split].
  - destruct (detach_ok _ _ n HI) as (h' & E & HI'). exists h'. split; [done|apply HI'].
  - destruct (detach_children_ok _ _ n HI) as (h' & E & HI'). exists h'. split; [done|apply HI'].
  - destruct (remove_ok _ _ n HI) as (h' & E & HI'). exists h'. split; [done|apply HI'].
Qed.

Lemma C39_shrink_to_pf :
forall extra h ch c, hreach h -> forest h ch ->
  exists h', h_shrink_to extra h c = HOk h'
    /\ forest h' (fun p => if decide (p < c) then filter (fun x => x < c) (ch p) else []).
Proof.
  intros e h ch c Hr HF. pose proof (reach_HInv _ _ Hr HF) as HI.
  destruct (shrink_ok e _ _ c HI) as (h' & E & HI'). exists h'. split; [done|apply HI'].
Qed.

Lemma C40_children_pf :
forall h ch n sched, hreach h -> forest h ch ->
  children_len (h_children h n) = length (ch n)
  /\ run_iter (children_next h) (children_next_back h) children_len sched (h_children h n) = Ok (deque sched (ch n)).
Proof.
  intros h ch n sched Hr (Hl & Hp & Hs & _). destruct (Hl n) as (Hnd & Hf & Hla & Hc).
  split; [done|].
  apply (run_iter_sim _ _ _ (fun s l => s.2 = length l /\ (l <> [] -> s.1.1 = head l /\ s.1.2 = last l)
    /\ exists pre post, ch n = pre ++ l ++ post)).
  - intros [[nx pv] len] l (E1 & E2 & pre & post & E3). cbn in E1. unfold children_next.
    destruct l as [|c l]; cbn [head tail length] in *.
    { rewrite decide_True by done. eexists. split; [done|]. cbn. split; [done|]. split; [done|]. eauto. }
    destruct E2 as [E2' E2]; [done|]. cbn in E2', E2. subst nx. rewrite decide_False by lia. cbn. eexists. split; [done|]. cbn. split; [lia|].
    split.
    + intros Hne. assert (Hcl : ch n !! length pre = Some c) by (rewrite E3; by apply list_lookup_middle).
      destruct (Hs _ _ _ Hcl) as [E4 _]. unfold h_next. rewrite E4. split.
      * rewrite E3. rewrite lookup_app_r by lia. replace (S (length pre) - length pre) with 1 by lia. by destruct l.
      * cbn in E2. rewrite E2. by destruct l.
    + exists (pre ++ [c]), post. rewrite E3, <- app_assoc. done.
  - intros [[nx pv] len] l (E1 & E2 & pre & post & E3). cbn in E1. unfold children_next_back.
    destruct (list_snoc l) as [->|(l' & c & ->)].
    { rewrite decide_True by done. eexists. split; [done|]. cbn. split; [done|]. split; [done|]. eauto. }
    destruct (last_removelast l' c) as [-> ->]. rewrite app_length in E1. cbn in E1.
    destruct E2 as [E2 E2']; [by destruct l'|]. cbn in E2, E2'. rewrite last_snoc in E2'. subst pv.
    rewrite decide_False by lia. cbn. eexists. split; [done|]. cbn. split; [lia|]. split.
    + intros Hne. assert (Hcl : ch n !! (length pre + length l') = Some c).
      { rewrite E3, <- app_assoc, app_assoc. rewrite <- app_length. by apply list_lookup_middle. }
      destruct (Hs _ _ _ Hcl) as [_ E4]. unfold h_prev. rewrite E4. split.
      * rewrite E2. by destruct l'.
      * destruct (list_snoc l') as [->|(l2 & d & ->)]; [done|]. rewrite last_snoc, app_length. cbn.
        rewrite Nat.add_succ_r, Nat.add_0_r, Nat.add_succ_r.
        rewrite E3, <- !app_assoc, app_assoc, <- app_length. by apply list_lookup_middle.
    + exists pre, ([c] ++ post). by rewrite E3, <- app_assoc.
  - intros s l (E1 & _). done.
  - cbn. split; [done|]. split; [done|]. exists [], []. by rewrite app_nil_r.
Qed.

Lemma nsteps_S_tc {A} (R : relation A) k x y : nsteps R (S k) x y -> tc R x y.
Proof.
  revert x. induction k as [|k IH]; intros x H.
  - inversion H as [|? ? q ? H1 H2]; subst. inversion H2; subst. by apply tc_once.
  - inversion H as [|? ? q ? H1 H2]; subst. eapply tc_l; [done|]. by apply IH.
Qed.
Section desc.
  Context (h : hier) (ch : nat -> list nat) (HI : HInv h ch).
  Definition level (k : nat) (l : list nat) : list nat := Nat.iter k (mbind ch) l.
  Lemma level_S k l : level (S k) l = level k (l ≫= ch).
  Proof. unfold level. by rewrite Nat.iter_succ_r. Qed.
  Fixpoint lv (f : nat) (l : list nat) : list nat := match f with 0 => [] | S f => l ++ lv f (l ≫= ch) end.
  Definition bfs (Q R : list nat) : Prop :=
    exists s t f, Q = s ++ t /\ R = s ++ lv f (t ++ (s ≫= ch)) /\ level f (t ++ (s ≫= ch)) = [].
  Lemma lv_nil f : lv f [] = [].
  Proof. induction f; [done|]. cbn. done. Qed.
  Lemma bfs_nil R : bfs [] R -> R = [].
  Proof. intros (s & t & f & E & -> & _). symmetry in E. apply app_eq_nil in E as [-> ->]. cbn. apply lv_nil. Qed.
  Lemma bfs_cons x Q R : bfs (x :: Q) R -> exists R', R = x :: R' /\ bfs (Q ++ ch x) R'.
  Proof.
    assert (Hgo : forall s t f, x :: Q = s ++ t -> s <> [] -> level f (t ++ (s ≫= ch)) = [] ->
      exists R', s ++ lv f (t ++ (s ≫= ch)) = x :: R' /\ bfs (Q ++ ch x) R').
    { intros [|y s] t f E Hne Hlv; [done|]. injection E as <- ->.
      exists (s ++ lv f (t ++ ((x :: s) ≫= ch))). split; [done|]. exists s, (t ++ ch x), f. split; [by rewrite app_assoc|].
      replace ((t ++ ch x) ++ (s ≫= ch)) with (t ++ ((x :: s) ≫= ch)); [done|]. cbn. by rewrite app_assoc. }
    intros (s & t & f & E & -> & Hlv). destruct s as [|y s]; [|by apply Hgo].
    cbn in E. subst t. cbn [app mbind list_bind] in Hlv |- *. rewrite app_nil_r in *. destruct f as [|f]; [done|]. cbn [lv].
    destruct (Hgo (x :: Q) [] f) as (R' & E & Hb).
    - by rewrite app_nil_r.
    - done.
    - rewrite level_S in Hlv. done.
    - exists R'. done.
  Qed.
  Definition qrel (q : list nat) (qs : list (list nat)) : Prop :=
    Forall2 (fun c l => head l = Some c /\ exists p i, l = drop i (ch p)) q qs.
  Definition dsim (s : desc_st) (R : list nat) : Prop :=
    match s with
    | inl n => exists f, R = n :: lv f (ch n) /\ level f (ch n) = []
    | inr q => exists qs, qrel q qs /\ bfs (concat qs) R
    end.
  Lemma qrel_first n : qrel (option_list (h_first h n)) (match ch n with [] => [] | _ => [ch n] end).
  Proof.
    unfold h_first. rewrite (proj1 (proj2 (proj1 (proj1 HI) n))). destruct (ch n) as [|c l] eqn:E; [constructor|].
    cbn. constructor; [|constructor]. split; [done|]. exists n, 0. by rewrite drop_0.
  Qed.
  Lemma concat_first n : concat (match ch n with [] => [] | _ => [ch n] end) = ch n.
  Proof. destruct (ch n); [done|]. cbn. by rewrite app_nil_r. Qed.
  Lemma desc_next_sim s R : dsim s R ->
    exists s', Ok (desc_next h s) = Ok (head R, s') /\ dsim s' (tail R).
  Proof.
    destruct s as [n|q].
    - intros (f & -> & Hf). eexists. split; [done|]. cbn. eexists. split; [apply qrel_first|]. rewrite concat_first.
      exists [], (ch n), f. cbn. by rewrite app_nil_r.
    - intros (qs & Hq & Hb). destruct Hq as [|x l q qs (Hx & p & i & ->) Hq].
      + apply bfs_nil in Hb as ->. eexists. split; [done|]. exists []. split; [constructor|].
        exists [], [], 0. done.
      + destruct (drop i (ch p)) as [|y l] eqn:El; [done|]. injection Hx as ->.
        assert (Hi : ch p !! i = Some x) by (rewrite <- (Nat.add_0_r i), <- lookup_drop, El; done).
        assert (Hl : l = drop (S i) (ch p)).
        { rewrite (drop_S _ _ _ Hi) in El. by injection El. }
        cbn [concat] in Hb. cbn [app] in Hb. apply bfs_cons in Hb as (R' & -> & Hb).
        eexists. split; [cbn; done|]. cbn [dsim tail].
        pose proof HI as ((_ & _ & Hs & _) & _). destruct (Hs _ _ _ Hi) as [Hnx _]. unfold h_next. rewrite Hnx.
        exists ((match l with [] => [] | _ => [l] end ++ qs) ++ (match ch x with [] => [] | _ => [ch x] end)). split.
        * apply Forall2_app; [apply Forall2_app|apply qrel_first]; [|done].
          destruct l as [|z l'].
          -- rewrite lookup_ge_None_2; [constructor|]. symmetry in Hl. apply (f_equal length) in Hl. rewrite drop_length in Hl. cbn in Hl. lia.
          -- assert (ch p !! S i = Some z) as -> by (rewrite <- (Nat.add_0_r (S i)), <- lookup_drop, <- Hl; done).
             cbn. constructor; [|constructor]. split; [done|]. eauto.
        * replace (concat _) with ((l ++ concat qs) ++ ch x); [done|].
          rewrite !concat_app. rewrite concat_first. f_equal. f_equal. destruct l; [done|]. cbn. by rewrite app_nil_r.
  Qed.

  Lemma depth_bound n k : forall c vis, NoDup vis ->
    Forall (fun z => z < length (um_data h) /\ tc (child_of (h_get h)) z c) vis ->
    nsteps (child_of (h_get h)) k c n -> k + length vis <= length (um_data h).
  Proof.
    pose proof HI as (_ & Hac & _). induction k as [|k IH]; intros c vis Hnd Hvis Hk.
    - cbn. rewrite <- (seq_length (length (um_data h)) 0). apply submseteq_length, NoDup_submseteq; [done|].
      intros z Hz. apply elem_of_seq. rewrite Forall_forall in Hvis. destruct (Hvis _ Hz). lia.
    - inversion Hk as [|? ? q ? Hcq Hq]; subst.
      assert (k + length (c :: vis) <= length (um_data h)); [|cbn in *; lia]. apply (IH q); [| |done].
      + apply NoDup_cons. split; [|done]. intros Hin. rewrite Forall_forall in Hvis. destruct (Hvis _ Hin) as [_ Ht]. by apply Hac in Ht.
      + apply Forall_cons. split; [split; [by eapply par_bound|by apply tc_once]|].
        eapply Forall_impl; [done|]. intros z [? ?]. split; [done|]. by eapply tc_r.
  Qed.
  Lemma level_elem n k c : c ∈ level k [n] <-> nsteps (child_of (h_get h)) k c n.
  Proof.
    pose proof HI as ((_ & Hp & _) & _). revert c. induction k as [|k IH]; intros c.
    - cbn. rewrite elem_of_list_singleton. split; [intros ->; constructor|by inversion 1].
    - change (level (S k) [n]) with (level k [n] ≫= ch). rewrite elem_of_list_bind. split.
      + intros (y & Hc & Hy). eapply nsteps_l; [by apply Hp|by apply IH].
      + inversion 1 as [|? ? q ? Hcq Hq]; subst. exists q. split; [by apply Hp|by apply IH].
  Qed.
  Lemma level_empty n : level (S (length (um_data h))) [n] = [].
  Proof.
    destruct (level _ _) as [|c l] eqn:E; [done|]. exfalso.
    assert (Hc : c ∈ level (S (length (um_data h))) [n]) by (rewrite E; by left). apply level_elem in Hc.
    pose proof (depth_bound n _ c [] NoDup_nil_2 (Forall_nil_2 _) Hc). cbn in *. lia.
  Qed.
  Lemma nsteps_det i j c n : nsteps (child_of (h_get h)) i c n -> nsteps (child_of (h_get h)) j c n -> i = j.
  Proof.
    pose proof HI as (_ & Hac & _). revert j c. induction i as [|i IH]; intros j c Hi Hj.
    - inversion Hi; subst. destruct j as [|j]; [done|]. exfalso. apply (Hac n). exact (nsteps_S_tc _ _ _ _ Hj).
    - inversion Hi as [|? ? q ? Hcq Hq]; subst. inversion Hj as [|? ? q' ? Hcq' Hq']; subst.
      + exfalso. apply (Hac n). exact (nsteps_S_tc _ _ _ _ Hi).
      + f_equal. unfold child_of in *. assert (q = q') as <- by congruence. by apply (IH _ q).
  Qed.
  Lemma level_nodup n k : NoDup (level k [n]).
  Proof.
    pose proof HI as ((Hl & Hp & _) & _). induction k as [|k IH]; [apply NoDup_singleton|].
    change (level (S k) [n]) with (level k [n] ≫= ch). revert IH. generalize (level k [n]). intros l.
    induction l as [|x l IHl]; intros Hnd; [apply NoDup_nil_2|]. apply NoDup_cons in Hnd as [Hx Hnd]. cbn.
    apply NoDup_app. split; [apply Hl|]. split; [|by apply IHl]. intros c Hc Hc'.
    apply elem_of_list_bind in Hc' as (y & Hy & Hyl). apply Hp in Hc, Hy. congruence.
  Qed.
  Lemma lv_concat f n : lv f [n] = concat ((fun k => level k [n]) <$> seq 0 f).
  Proof.
    assert (H : forall i, lv f (level i [n]) = concat ((fun k => level k [n]) <$> seq i f)); [|apply (H 0)].
    induction f as [|f IH]; intros i; [done|]. cbn. f_equal. apply (IH (S i)).
  Qed.
  Lemma lv_nodup f n : NoDup (lv f [n]).
  Proof.
    rewrite lv_concat. generalize 0. induction f as [|f IH]; intros i; [apply NoDup_nil_2|]. cbn.
    apply NoDup_app. split; [apply level_nodup|]. split; [|apply IH]. intros c Hc Hc'.
    apply elem_of_list_In, in_concat in Hc' as (l & Hl & Hcl). apply elem_of_list_In, elem_of_list_fmap in Hl as (j & -> & Hj).
    apply elem_of_list_In in Hcl. apply elem_of_seq in Hj. apply level_elem in Hc, Hcl.
    pose proof (nsteps_det _ _ _ _ Hc Hcl). lia.
  Qed.
End desc.

Lemma C41_descendants_pf :
forall h ch n, hreach h -> forest h ch ->
  let levels k := Nat.iter k (mbind ch) [n] in
  (forall k c, c ∈ levels k <-> nsteps (child_of (h_get h)) k c n)
  /\ exists depth, levels depth = []
  /\ let D := concat (levels <$> seq 0 depth) in
     NoDup D /\ (forall c, c ∈ D <-> anc h n c)
     /\ forall k, run_fwd (fun s => Ok (desc_next h s)) k (h_descendants n) = Ok (fwd k D).
Proof.
  intros h ch n Hr HF levels. pose proof (reach_HInv _ _ Hr HF) as HI. split; [intros k c; by apply level_elem|].
  exists (S (length (um_data h))). split; [by apply level_empty|]. intros D.
  assert (ED : D = lv ch (S (length (um_data h))) [n]) by (by rewrite lv_concat).
  split; [rewrite ED; eapply lv_nodup; exact HI|]. split.
  - intros c. unfold D, anc. split.
    + intros Hc. apply elem_of_list_In, in_concat in Hc as (l & Hl & Hcl).
      apply elem_of_list_In, elem_of_list_fmap in Hl as (j & -> & Hj). apply elem_of_list_In in Hcl.
      apply (level_elem h ch HI) in Hcl. by eapply rtc_nsteps_2.
    + intros [k Hk]%rtc_nsteps_1. apply elem_of_list_In, in_concat. exists (levels k). split.
      * apply elem_of_list_In, elem_of_list_fmap. exists k. split; [done|]. apply elem_of_seq.
        pose proof (depth_bound h ch HI n _ c [] NoDup_nil_2 (Forall_nil_2 _) Hk). cbn in *. lia.
      * apply elem_of_list_In. by apply (level_elem h ch HI).
  - intros k. apply (run_fwd_sim _ (dsim ch)); [apply (desc_next_sim h ch HI)|]. rewrite ED.
    exists (length (um_data h)). cbn. rewrite app_nil_r. split; [done|].
    pose proof (level_empty h ch HI n) as E. rewrite level_S in E. cbn in E. by rewrite app_nil_r in E.
Qed.

Lemma C42_swap_nodes_pf :
forall h ch a b, hreach h -> forest h ch ->
  exists h', h_swap_nodes h a b = HOk h' /\ forest h' (fun p => exch a b <$> ch (exch a b p)).
Proof.
  intros h ch a b Hr HF. pose proof (reach_HInv _ _ Hr HF) as HI.
  destruct (swap_ok _ _ a b HI) as (h' & E & HI'). exists h'. split; [done|apply HI'].
Qed.

Lemma C42_rekey_pf :
forall h ch old new, hreach h -> forest h ch -> old <> new ->
  h_parent h new = None -> ch new = [] ->
  exists h', h_rekey h old new = HOk h'
    /\ forest h' (fun p => if decide (p = new) then ch old else if decide (p = old) then []
                           else (fun c => if decide (c = old) then new else c) <$> ch p)
    /\ h_get h' old = nd_new.
Proof.
  intros h ch old new Hr HF Hne Hroot Hch. pose proof (reach_HInv _ _ Hr HF) as HI.
  pose proof HF as (_ & Hp & _).
  assert (Hni : forall p, new ∉ ch p). { intros p H. apply Hp in H. unfold h_parent in Hroot. congruence. }
  assert (Hself : forall p, p ∉ ch p) by (apply (forest_notself (h_get h)); [done|apply HI]).
  assert (Hnew : h_get h new = nd_new) by (by eapply isolated_new).
  destruct (rekey_ok _ _ old new HI Hnew) as (h' & E & HI'). exists h'. split; [done|].
  assert (HI'' : HInv h' (fun p => if decide (p = new) then ch old else if decide (p = old) then []
                           else (fun c => if decide (c = old) then new else c) <$> ch p)).
  { eapply HInv_ch; [|exact HI']. intros p. cbn. unfold exch at 2.
    destruct (decide (p = new)) as [->|Hpn].
    - rewrite (decide_False (P := new = old)) by congruence.
      transitivity (id <$> ch old); [|by rewrite list_fmap_id].
      apply list_fmap_ext. intros _ x Hx%elem_of_list_lookup_2. unfold exch. rewrite !decide_False; [done|..].
      + intros ->. by apply Hni in Hx.
      + intros ->. by apply Hself in Hx.
    - destruct (decide (p = old)) as [->|]; [by rewrite Hch|].
      apply list_fmap_ext. intros _ x Hx%elem_of_list_lookup_2. unfold exch. destruct (decide (x = old)); [done|].
      rewrite decide_False; [done|]. intros ->. by apply Hni in Hx. }
  split; [apply HI''|]. eapply isolated_new; [exact HI''|cbn; by rewrite decide_False, decide_True|].
  intros p. cbn. destruct (decide (p = new)) as [->|]; [apply Hself|]. destruct (decide (p = old)); [apply not_elem_of_nil|].
  intros (c & E2 & Hc)%elem_of_list_fmap. destruct (decide (c = old)); congruence.
Qed.

Lemma C43_rekey_same_refuted_pf :
exists h n, hreach h /\ h_parent h n <> None /\ h_rekey h n n = HPanic.
Proof.
  destruct (h_push_child h_new 1 0) as [[h e]| |] eqn:E; [|vm_compute in E; discriminate..].
  exists h, 1. split.
  - eapply (hr_step h_new (HPush 1 0)); [constructor|by intros [? _]|cbn [h_step]; by rewrite E].
  - vm_compute in E. injection E as <- <-. by vm_compute.
Qed.

Lemma C43_rekey_same_partial_pf :
forall h ch n, hreach h -> forest h ch ->
  (h_parent h n = None /\ ch n = [] -> h_rekey h n n = HOk h)
  /\ (h_parent h n <> None \/ ch n <> [] -> h_rekey h n n = HPanic).
Proof.
  intros h ch n Hr HF. pose proof (reach_HInv _ _ Hr HF) as HI. pose proof HF as (Hl & Hp & _). unfold h_rekey. split.
  - intros [H1 H2]. rewrite decide_True; [by rewrite decide_True|]. eapply isolated_new; [exact HI|done|].
    intros p H. apply Hp in H. unfold h_parent in H1. congruence.
  - intros H. rewrite decide_False; [done|]. intros E. destruct H as [H|H].
    + unfold h_parent in H. by rewrite E in H.
    + apply H. apply (first_none _ _ _ HI). unfold h_first. by rewrite E.
Qed.

Lemma C68_total_partial_pf :
forall h ch o, hreach h -> forest h ch -> ~ self_push h o ->
  h_step h o <> HLoop
  /\ (h_step h o = HPanic <-> exists old new, o = HRekey old new /\ (h_parent h new <> None \/ ch new <> [])).
Proof.
  intros h ch o Hr HF Hg. pose proof (reach_HInv _ _ Hr HF) as HI.
  assert (Hok : (exists h', h_step h o = HOk h') -> h_step h o <> HLoop /\ h_step h o <> HPanic).
  { intros [h' ->]. done. }
  assert (Hres : (forall old new, o <> HRekey old new) -> (exists h', h_step h o = HOk h') ->
    h_step h o <> HLoop
    /\ (h_step h o = HPanic <-> exists old new, o = HRekey old new /\ (h_parent h new <> None \/ ch new <> []))).
  { intros Hno H. destruct (Hok H). split; [done|]. split; [done|]. intros (? & ? & E & _). by apply Hno in E. }
  destruct o as [n p|n p|n s|n s|n|n|n|a b|o n|e c|e c]; try (apply Hres; [done|]); cbn.
  - destruct (C37_push_child_partial_pf h ch n p Hr HF Hg) as [H1 H2].
    destruct (anc_dec h ch n p HI); [destruct H2 as (? & -> & _); [by right|by eexists]|].
    destruct (decide (h_parent h n = None)); [destruct H1 as (? & -> & _); [done..|by eexists]|].
    destruct H2 as (? & -> & _); [by left|by eexists].
  - destruct (C37_push_front_child_partial_pf h ch n p Hr HF Hg) as [H1 H2].
    destruct (anc_dec h ch n p HI); [destruct H2 as (? & -> & _); [by right|by eexists]|].
    destruct (decide (h_parent h n = None)); [destruct H1 as (? & -> & _); [done..|by eexists]|].
    destruct H2 as (? & -> & _); [by left|by eexists].
  - destruct (C37_insert_before_pf h ch n s Hr HF) as (H1 & H2 & H3 & H4).
    destruct (decide (h_parent h n = None)); [|rewrite H2 by done; by eexists].
    destruct (h_parent h s) as [p|] eqn:Ep; [|rewrite H3 by done; by eexists].
    destruct (anc_dec h ch n p HI); [rewrite (H4 p) by done; by eexists|].
    destruct (forest_slot (h_get h) ch p s HF Ep) as [i Hi].
    destruct (H1 p (take i (ch p)) (drop (S i) (ch p))) as (? & -> & _); [done|by rewrite take_drop_middle|done|by eexists].
  - destruct (C37_insert_after_pf h ch n s Hr HF) as (H1 & H2 & H3 & H4).
    destruct (decide (h_parent h n = None)); [|rewrite H2 by done; by eexists].
    destruct (h_parent h s) as [p|] eqn:Ep; [|rewrite H3 by done; by eexists].
    destruct (anc_dec h ch n p HI); [rewrite (H4 p) by done; by eexists|].
    destruct (forest_slot (h_get h) ch p s HF Ep) as [i Hi].
    destruct (H1 p (take i (ch p)) (drop (S i) (ch p))) as (? & -> & _); [done|by rewrite take_drop_middle|done|by eexists].
  - destruct (detach_ok _ _ n HI) as (? & -> & _). by eexists.
  - destruct (detach_children_ok _ _ n HI) as (? & -> & _). by eexists.
  - destruct (remove_ok _ _ n HI) as (? & -> & _). by eexists.
  - destruct (swap_ok _ _ a b HI) as (? & -> & _). by eexists.
  - destruct (decide (h_get h n = nd_new)) as [E|E].
    + destruct (rekey_ok _ _ o n HI E) as (h1 & -> & HI1). split; [done|]. split; [done|].
      intros (o' & n' & [= <- <-] & [H|H]); [by unfold h_parent in H; rewrite E in H|].
      exfalso. apply H, (first_none _ _ _ HI). unfold h_first. by rewrite E.
    + unfold h_rekey. rewrite decide_False by done. split; [done|]. split; [|done]. intros _. exists o, n. split; [done|].
      destruct (decide (h_parent h n = None)) as [E1|]; [|by left]. destruct (decide (ch n = [])) as [E2|]; [|by right].
      exfalso. apply E. eapply isolated_new; [exact HI|done|]. intros p H. pose proof HF as (_ & Hp & _). apply Hp in H.
      unfold h_parent in E1. congruence.
  - by eexists.
  - destruct (shrink_ok e _ _ c HI) as (? & -> & _). by eexists.
Qed.
