(** Correctness of the LCA precomputation and queries. *)
From Verif Require Export LcaModel HierThms.

Lemma um_store_get {V} (m : umap V) k v x : um_get (um_store m k v) x = if decide (x = k) then v else um_get m x.
Proof.
  unfold um_store, um_get, um_get_mut, um_resize, vresize.
  destruct (decide (length (um_data m) <= k)) as [Hk|Hk]; cbn.
  - rewrite take_ge by lia. destruct (decide (x = k)) as [->|Hx].
    + rewrite list_lookup_insert; [done|]. rewrite app_length, replicate_length. lia.
    + rewrite list_lookup_insert_ne by done. destruct (decide (x < length (um_data m))).
      * by rewrite lookup_app_l by done.
      * rewrite lookup_app_r by lia. rewrite (lookup_ge_None_2 (um_data m)) by lia.
        destruct (decide (x <= k)).
        -- by rewrite lookup_replicate_2 by lia.
        -- by rewrite lookup_ge_None_2 by (rewrite replicate_length; lia).
  - destruct (decide (x = k)) as [->|Hx].
    + rewrite list_lookup_insert; [done|lia].
    + by rewrite list_lookup_insert_ne.
Qed.

Section lca.
  Context (h : hier) (ch : nat -> list nat) (HI : HInv h ch).
  Notation R := (child_of (h_get h)).
  Notation N := (length (um_data h)).

  Fixpoint up (k : nat) (n : nat) : option nat :=
    match k with 0 => Some n | S k => match h_parent h n with Some p => up k p | None => None end end.
  Lemma up_add j k n : up (j + k) n = up j n ≫= up k.
  Proof. revert n. induction j as [|j IH]; intros n; [done|]. cbn. destruct (h_parent h n); [apply IH|done]. Qed.
  Lemma up_nsteps k n a : up k n = Some a <-> nsteps R k n a.
  Proof.
    revert n. induction k as [|k IH]; intros n; cbn.
    - split; [intros [= ->]; constructor|by inversion 1].
    - destruct (h_parent h n) as [p|] eqn:E.
      + rewrite IH. split; [intros H; by eapply nsteps_l|].
        inversion 1 as [|? ? q ? H1 H2]; subst. unfold child_of in H1. unfold h_parent in E. congruence.
      + split; [done|]. inversion 1 as [|? ? q ? H1 H2]; subst. unfold child_of in H1. unfold h_parent in E. congruence.
  Qed.
  Lemma anc_up n a : anc h a n <-> exists k, up k n = Some a.
  Proof.
    unfold anc. split.
    - intros [k Hk]%rtc_nsteps_1. exists k. by apply up_nsteps.
    - intros [k Hk]. apply up_nsteps in Hk. by eapply rtc_nsteps_2.
  Qed.
  Lemma up_bound k n a : up k n = Some a -> k <= N.
  Proof.
    intros H. apply up_nsteps in H.
    pose proof (depth_bound h ch HI a _ n [] NoDup_nil_2 (Forall_nil_2 _) H). cbn in *. lia.
  Qed.
  Lemma up_none j k n : j <= k -> up j n = None -> up k n = None.
  Proof. intros Hk H. replace k with (j + (k - j)) by lia. rewrite up_add, H. done. Qed.
  Lemma anc_linear a b x : anc h a x -> anc h b x -> anc h a b \/ anc h b a.
  Proof.
    intros [j Hj]%anc_up [k Hk]%anc_up. destruct (decide (j <= k)).
    - right. apply anc_up. exists (k - j). replace k with (j + (k - j)) in Hk by lia. rewrite up_add, Hj in Hk. done.
    - left. apply anc_up. exists (j - k). replace j with (k + (j - k)) in Hj by lia. rewrite up_add, Hk in Hj. done.
  Qed.
  Lemma anc_anti a b : anc h a b -> anc h b a -> a = b.
  Proof.
    intros H1 H2. pose proof HI as (_ & Hac & _). apply rtc_inv in H1 as [?|(y & Hy & H1)]; [done|].
    exfalso. apply (Hac b). eapply tc_rtc_r; [by apply tc_once|]. by etrans.
  Qed.
  Lemma anc_strict a b : anc h a b -> a <> b -> exists p, h_parent h b = Some p /\ anc h a p.
  Proof.
    intros H Hne. apply rtc_inv in H as [?|(y & Hy & H)]; [congruence|]. by exists y.
  Qed.
  Lemma same_parent_disj c c' y : h_parent h c = h_parent h c' -> c <> c' -> anc h c y -> anc h c' y -> False.
  Proof.
    intros Hp Hne H1 H2.
    assert (Hgo : forall a b, h_parent h a = h_parent h b -> a <> b -> anc h a b -> False).
    { intros a b E Hab Ha. destruct (anc_strict _ _ Ha Hab) as (p & Hbp & Hap). rewrite Hbp in E.
      pose proof HI as (_ & Hac & _). apply (Hac a). eapply tc_rtc_r; [apply tc_once; exact E|]. exact Hap. }
    destruct (anc_linear _ _ _ H1 H2); [by eapply Hgo|]. by eapply (Hgo c' c).
  Qed.

  (** The children list is what iterating [children] gives. *)
  Lemma children_list_ok n fuel : N + 2 <= fuel -> h_children_list fuel h (h_children h n) = HOk (ch n).
  Proof.
    intros Hf. pose proof HI as ((Hl & Hp & Hs & _) & _). destruct (Hl n) as (Hnd & Hfi & Hla & Hc).
    pose proof (ch_len _ _ n HI) as Hlen.
    assert (Hgo : forall l fuel pre nx pv, length l < fuel -> ch n = pre ++ l -> (l <> [] -> nx = head l) ->
      h_children_list fuel h (nx, pv, length l) = HOk l).
    { intros l. induction l as [|c l IH]; intros fu pre nx pv Hfu E Hnx; (destruct fu as [|fu]; [lia|]); cbn -[h_next].
      - done.
      - rewrite Hnx by done. rewrite decide_False by done. cbn -[h_next]. rewrite Nat.sub_0_r. rewrite (IH fu (pre ++ [c])).
        + done.
        + cbn in Hfu. lia.
        + by rewrite <- app_assoc.
        + intros Hne. assert (Hi : ch n !! length pre = Some c) by (rewrite E; by apply list_lookup_middle).
          destruct (Hs _ _ _ Hi) as [E1 _]. unfold h_next. rewrite E1, E, lookup_app_r by lia.
          replace (S (length pre) - length pre) with 1 by lia. by destruct l. }
    unfold h_children. rewrite Hc. apply (Hgo _ _ []); [lia|done|]. intros _. exact Hfi.
  Qed.

  Definition climb_ok (cn : umap (list nat)) (x : nat) : Prop := forall i, um_get cn x !! i = up (2 ^ i) x.

  Lemma scan_ok cn n : (forall j y, up (S j) n = Some y -> climb_ok cn y) ->
    forall fuel i, N + 2 <= fuel + i -> i <= N + 1 ->
    exists L, lca_scan fuel cn (up (2 ^ i) n) i = HOk L /\ forall k, L !! k = up (2 ^ (i + k)) n.
  Proof.
    intros Hcn fuel. induction fuel as [|fuel IH]; intros i H1 H2; [lia|]. cbn.
    destruct (up (2 ^ i) n) as [y|] eqn:E.
    - pose proof (up_bound _ _ _ E) as Hb. pose proof (Nat.pow_gt_lin_r 2 i ltac:(lia)).
      destruct (2 ^ i) as [|j] eqn:E2; [lia|]. rewrite (Hcn j y E i). rewrite E2.
      assert (E3 : up (S j) y = up (2 ^ (i + 1)) n).
      { replace (2 ^ (i + 1)) with (S j + S j); [by rewrite up_add, E|].
        rewrite Nat.pow_add_r, E2. cbn. lia. }
      rewrite E3. destruct (IH (i + 1)) as (L & -> & HL); [lia..|]. cbn. eexists. split; [done|].
      intros [|k]; [by rewrite Nat.add_0_r, E2|]. cbn. rewrite HL. do 2 f_equal. lia.
    - exists []. split; [done|]. intros k. cbn. symmetry. eapply up_none; [|exact E]. apply Nat.pow_le_mono_r; lia.
  Qed.

  Definition F (l : lca_t) (x : nat) : nat := um_get (l_first l) x.
  Definition L (l : lca_t) (x : nat) : nat := um_get (l_last l) x.
  Record good (l l' : lca_t) (S : list nat) (t t' : nat) : Prop := {
    g_frame : forall x, x ∉ S -> F l' x = F l x /\ L l' x = L l x /\ um_get (l_climb l') x = um_get (l_climb l) x;
    g_range : forall x, x ∈ S -> t <= F l' x /\ F l' x < L l' x /\ L l' x < t';
    g_climb : forall x, x ∈ S -> climb_ok (l_climb l') x;
    g_anc : forall x y, x ∈ S -> y ∈ S -> (F l' x <= F l' y /\ L l' y <= L l' x <-> anc h x y);
  }.
  Lemma good_app l l1 l2 S1 S2 t t1 t2 : t <= t1 -> t1 <= t2 ->
    good l l1 S1 t t1 -> good l1 l2 S2 t1 t2 ->
    (forall x y, x ∈ S1 -> y ∈ S2 -> x <> y /\ ~ anc h x y /\ ~ anc h y x) ->
    good l l2 (S1 ++ S2) t t2.
  Proof.
    intros Ht1 Ht2 G1 G2 Hd.
    assert (Hn : forall x, x ∈ S1 -> x ∉ S2) by (intros x H1 H2; by destruct (Hd x x)).
    split.
    - intros x Hx. apply not_elem_of_app in Hx as [H1 H2].
      destruct (g_frame _ _ _ _ _ G1 x H1) as (A1 & A2 & A3), (g_frame _ _ _ _ _ G2 x H2) as (B1 & B2 & B3).
      split; [|split]; congruence.
    - intros x [Hx|Hx]%elem_of_app.
      + destruct (g_frame _ _ _ _ _ G2 x (Hn _ Hx)) as (-> & -> & _). destruct (g_range _ _ _ _ _ G1 x Hx). lia.
      + destruct (g_range _ _ _ _ _ G2 x Hx). lia.
    - intros x [Hx|Hx]%elem_of_app.
      + intros i. destruct (g_frame _ _ _ _ _ G2 x (Hn _ Hx)) as (_ & _ & ->). by apply (g_climb _ _ _ _ _ G1).
      + by apply (g_climb _ _ _ _ _ G2).
    - intros x y [Hx|Hx]%elem_of_app [Hy|Hy]%elem_of_app.
      + destruct (g_frame _ _ _ _ _ G2 x (Hn _ Hx)) as (-> & -> & _).
        destruct (g_frame _ _ _ _ _ G2 y (Hn _ Hy)) as (-> & -> & _). by apply (g_anc _ _ _ _ _ G1).
      + destruct (g_frame _ _ _ _ _ G2 x (Hn _ Hx)) as (-> & -> & _).
        destruct (Hd x y Hx Hy) as (_ & Hna & _).
        pose proof (g_range _ _ _ _ _ G1 x Hx). pose proof (g_range _ _ _ _ _ G2 y Hy). split; [lia|done].
      + destruct (g_frame _ _ _ _ _ G2 y (Hn _ Hy)) as (-> & -> & _).
        destruct (Hd y x Hy Hx) as (_ & _ & Hna).
        pose proof (g_range _ _ _ _ _ G1 y Hy). pose proof (g_range _ _ _ _ _ G2 x Hx). split; [lia|done].
      + by apply (g_anc _ _ _ _ _ G2).
  Qed.

  Definition visit_spec (f : nat) : Prop := forall n l ts,
    (forall c, ~ nsteps R f c n) -> (forall j y, up (S j) n = Some y -> climb_ok (l_climb l) y) ->
    (h_parent h n = None -> um_get (l_climb l) n = []) ->
    exists S l', NoDup S /\ (forall x, x ∈ S <-> anc h n x)
      /\ (forall st fu, N + 2 <= fu -> lca_dfs (2 * length S + fu) h (DVisit n (h_parent h n) :: st) l ts
                                       = lca_dfs fu h st l' (ts + 2 * length S))
      /\ good l l' S ts (ts + 2 * length S).
  Lemma visits_ok f n : visit_spec f -> forall cs l ts,
    (forall c, c ∈ cs -> h_parent h c = Some n /\ forall d, ~ nsteps R f d c) -> NoDup cs ->
    (forall j y, up j n = Some y -> climb_ok (l_climb l) y) ->
    exists S l', NoDup S /\ (forall x, x ∈ S <-> exists c, c ∈ cs /\ anc h c x)
      /\ (forall st fu, N + 2 <= fu ->
            lca_dfs (2 * length S + fu) h (((fun c => DVisit c (Some n)) <$> cs) ++ st) l ts
            = lca_dfs fu h st l' (ts + 2 * length S))
      /\ good l l' S ts (ts + 2 * length S).
  Proof.
    intros IH cs. induction cs as [|c cs IHcs]; intros l ts Hcs Hnd Hcn.
    - exists [], l. split; [apply NoDup_nil_2|]. split.
      { intros x. split; [by intros ?%elem_of_nil|]. intros (c & Hc & _). by apply elem_of_nil in Hc. }
      split; [intros st fu _; by rewrite Nat.add_0_r|]. split; [done|intros x Hx; by apply elem_of_nil in Hx..|intros x y Hx; by apply elem_of_nil in Hx].
    - apply NoDup_cons in Hnd as [Hc Hnd]. destruct (Hcs c) as [Hpc Hhc]; [by left|].
      destruct (IH c l ts Hhc) as (S1 & l1 & Hnd1 & Hel1 & Hrun1 & G1).
      { intros j y Hj. cbn in Hj. rewrite Hpc in Hj. by eapply Hcn. }
      { congruence. }
      destruct (IHcs l1 (ts + 2 * length S1)) as (S2 & l2 & Hnd2 & Hel2 & Hrun2 & G2).
      { intros d Hd. apply Hcs. by right. }
      { done. }
      { intros j y Hj i. assert (Hy : y ∉ S1).
        { intros Hy. apply Hel1 in Hy.
          assert (anc h y n) by (apply anc_up; eauto).
          assert (anc h c n) by (unfold anc in *; by etrans).
          pose proof HI as (_ & Hac & _). apply (Hac c). eapply tc_rtc_r; [apply tc_once; exact Hpc|done]. }
        destruct (g_frame _ _ _ _ _ G1 y Hy) as (_ & _ & ->). by eapply Hcn. }
      assert (Hdis : forall x y, x ∈ S1 -> y ∈ S2 -> x <> y /\ ~ anc h x y /\ ~ anc h y x).
      { intros x y Hx Hy. apply Hel1 in Hx. apply Hel2 in Hy as (c' & Hc' & Hy).
        assert (Hcc : c <> c') by congruence. destruct (Hcs c') as [Hpc' _]; [by right|].
        assert (Hno : forall z, anc h c z -> anc h c' z -> False) by (intros z; apply same_parent_disj; congruence).
        split; [|split].
        - intros ->. by eapply Hno.
        - intros H. apply (Hno y); [|done]. unfold anc in *. by etrans.
        - intros H. apply (Hno x); [done|]. unfold anc in *. by etrans. }
      exists (S1 ++ S2), l2. split.
      { apply NoDup_app. split; [done|]. split; [|done]. intros x H1 H2. by destruct (Hdis x x). }
      split.
      { intros x. rewrite elem_of_app, Hel1, Hel2. split.
        - intros [H|(d & Hd & H)]; [exists c; split; [by left|done]|exists d; split; [by right|done]].
        - intros (d & [->|Hd]%elem_of_cons & H); [by left|right; by exists d]. }
      rewrite app_length. split.
      + intros st fu Hfu. rewrite fmap_cons. cbn [app].
        replace (2 * (length S1 + length S2) + fu) with (2 * length S1 + (2 * length S2 + fu)) by lia.
        rewrite <- Hpc. rewrite Hrun1 by lia. rewrite Hpc, Hrun2 by done. f_equal. lia.
      + replace (ts + 2 * (length S1 + length S2)) with (ts + 2 * length S1 + 2 * length S2) by lia.
        eapply good_app; [| |exact G1|exact G2|done]; lia.
  Qed.

  Lemma visit_ok f : visit_spec f.
  Proof.
    induction f as [|f IH]; intros n l ts Hh Hcn Hroot.
    { exfalso. apply (Hh n). constructor. }
    pose proof HI as ((Hl & Hp & _) & Hac & _).
    destruct (scan_ok (l_climb l) n Hcn (N + 2) 0) as (L0 & HL0 & HL); [lia..|]. cbn in HL0.
    set (cn' := match L0 with [] => l_climb l | _ => um_store (l_climb l) n L0 end).
    assert (Hcn' : climb_ok cn' n).
    { intros i. unfold cn'. destruct L0 as [|z L0].
      - rewrite Hroot; [exact (HL i)|]. specialize (HL 0). cbn in HL. by destruct (h_parent h n).
      - rewrite um_store_get, decide_True by done. by rewrite HL. }
    assert (Hcn'x : forall x, x <> n -> um_get cn' x = um_get (l_climb l) x).
    { intros x Hx. unfold cn'. destruct L0; [done|]. by rewrite um_store_get, decide_False by done. }
    set (l0 := mkLCA (um_store (l_first l) n ts) (l_last l) cn').
    destruct (visits_ok f n IH (rev (ch n)) l0 (ts + 1)) as (S1 & l1 & Hnd1 & Hel1 & Hrun1 & G1).
    { intros c Hc. rewrite elem_of_list_In, <- in_rev, <- elem_of_list_In in Hc. apply Hp in Hc. split; [done|].
      intros d Hd. apply (Hh d). replace (S f) with (f + 1) by lia.
      eapply nsteps_trans; [exact Hd|]. by apply nsteps_once. }
    { apply NoDup_ListNoDup, List.NoDup_rev, NoDup_ListNoDup, Hl. }
    { intros j y Hj i. destruct (decide (y = n)) as [->|Hy]; [apply Hcn'|]. cbn. rewrite Hcn'x by done.
      destruct j as [|j]; [cbn in Hj; congruence|]. by eapply Hcn. }
    assert (HnS : n ∉ S1).
    { intros Hn. apply Hel1 in Hn as (c & Hc & Hn). rewrite elem_of_list_In, <- in_rev, <- elem_of_list_In in Hc.
      apply Hp in Hc. apply (Hac c). eapply tc_rtc_r; [apply tc_once; exact Hc|exact Hn]. }
    assert (Hsub : forall x, x ∈ S1 <-> anc h n x /\ x <> n).
    { intros x. rewrite Hel1. split.
      - intros (c & Hc & Hx). rewrite elem_of_list_In, <- in_rev, <- elem_of_list_In in Hc. apply Hp in Hc. split.
        + unfold anc in *. by eapply rtc_r.
        + intros ->. apply HnS, Hel1. exists c. split; [|done].
          rewrite elem_of_list_In, <- in_rev, <- elem_of_list_In. by apply Hp.
      - intros [Hx Hne]. apply rtc_inv_r in Hx as [?|(c & Hx & Hc)]; [congruence|].
        exists c. split; [|exact Hx]. rewrite elem_of_list_In, <- in_rev, <- elem_of_list_In. by apply Hp. }
    set (t1 := ts + 1 + 2 * length S1) in *.
    exists (n :: S1), (mkLCA (l_first l1) (um_store (l_last l1) n t1) (l_climb l1)).
    split; [by apply NoDup_cons|]. split.
    { intros x. rewrite elem_of_cons, Hsub. split; [intros [->|[? _]]; [apply rtc_refl|done]|].
      intros H. destruct (decide (x = n)); [by left|by right]. }
    split.
    - intros st fu Hfu. replace (2 * length (n :: S1) + fu) with (S (2 * length S1 + S fu)) by (cbn; lia).
      cbn [lca_dfs].
      destruct (scan_ok (l_climb l) n Hcn (2 * length S1 + S fu) 0) as (L1 & HL1 & HL'); [lia..|]. cbn [Nat.pow] in HL1.
      change (up 1 n) with (match h_parent h n with Some p => Some p | None => None end) in HL1.
      replace (match h_parent h n with Some p => Some p | None => None end) with (h_parent h n) in HL1 by (by destruct (h_parent h n)).
      assert (L1 = L0) as -> by (apply list_eq; intros i; by rewrite HL, HL').
      rewrite HL1. cbn [mbind hres_bind]. rewrite children_list_ok by lia. cbn [mbind hres_bind].
      replace (rev ((λ c : nat, DVisit c (Some n)) <$> ch n)) with ((λ c : nat, DVisit c (Some n)) <$> rev (ch n)) by apply map_rev. fold cn'. fold l0. rewrite Hrun1 by lia. cbn [lca_dfs]. f_equal. unfold t1. cbn [length]. lia.
    - assert (HF1 : F l1 n = ts).
      { destruct (g_frame _ _ _ _ _ G1 n HnS) as (-> & _). unfold F, l0. cbn. by rewrite um_store_get, decide_True. }
      assert (E1 : forall x, F (mkLCA (l_first l1) (um_store (l_last l1) n t1) (l_climb l1)) x = F l1 x) by done.
      assert (E2 : forall x, L (mkLCA (l_first l1) (um_store (l_last l1) n t1) (l_climb l1)) x = if decide (x = n) then t1 else L l1 x).
      { intros x. unfold L. cbn. apply um_store_get. }
      split.
      + intros x Hx. apply not_elem_of_cons in Hx as [Hxn Hx]. rewrite E1, E2, decide_False by done.
        destruct (g_frame _ _ _ _ _ G1 x Hx) as (A1 & A2 & A3). cbn. rewrite A1, A2, A3.
        unfold F, L, l0. cbn. rewrite um_store_get, decide_False, Hcn'x by done. done.
      + intros x Hx. rewrite E1, E2. destruct (decide (x = n)) as [->|Hxn].
        * rewrite HF1. unfold t1. cbn [length]. lia.
        * apply elem_of_cons in Hx as [?|Hx]; [done|]. destruct (g_range _ _ _ _ _ G1 x Hx). unfold t1 in *. cbn [length]. lia.
      + intros x Hx. cbn. apply elem_of_cons in Hx as [->|Hx]; [|by apply (g_climb _ _ _ _ _ G1)].
        intros i. destruct (g_frame _ _ _ _ _ G1 n HnS) as (_ & _ & ->). apply Hcn'.
      + intros x y Hx Hy. rewrite !E1, !E2. destruct (decide (x = n)) as [->|Hxn], (decide (y = n)) as [->|Hyn].
        * split; [intros _; apply rtc_refl|lia].
        * apply elem_of_cons in Hy as [?|Hy]; [done|]. pose proof (g_range _ _ _ _ _ G1 y Hy).
          rewrite HF1. split; [intros _; by apply Hsub|]. unfold t1. lia.
        * apply elem_of_cons in Hx as [?|Hx]; [done|]. pose proof (g_range _ _ _ _ _ G1 x Hx).
          rewrite HF1. split; [lia|]. intros Ha. apply Hsub in Hx as [Hx _]. by pose proof (anc_anti _ _ Ha Hx).
        * apply elem_of_cons in Hx as [?|Hx]; [done|]. apply elem_of_cons in Hy as [?|Hy]; [done|].
          by apply (g_anc _ _ _ _ _ G1).
  Qed.

  Lemma height_bound n c : ~ nsteps R (S N) c n.
  Proof. intros H. apply up_nsteps, up_bound in H. lia. Qed.

  Lemma roots_ok nodes : NoDup nodes -> forall l ts S0,
    (forall r x, r ∈ nodes -> h_parent h r = None -> x ∈ S0 -> ~ anc h r x) ->
    (forall x y, x ∈ S0 -> anc h y x -> y ∈ S0) ->
    (forall r, r ∈ nodes -> h_parent h r = None -> um_get (l_climb l) r = []) ->
    good (mkLCA (um_with_default 0) (um_with_default 0) (um_with_default [])) l S0 0 ts ->
    exists l' S' ts', good (mkLCA (um_with_default 0) (um_with_default 0) (um_with_default [])) l' S' 0 ts'
      /\ (forall x, x ∈ S0 -> x ∈ S') /\ (forall r x, r ∈ nodes -> h_parent h r = None -> anc h r x -> x ∈ S')
      /\ (forall x, x ∈ S' -> x ∈ S0 \/ exists r, r ∈ nodes /\ h_parent h r = None /\ anc h r x)
      /\ forall fuel, 3 * N + 5 <= fuel -> lca_roots fuel h nodes l ts = HOk l'.
  Proof.
    induction nodes as [|r nodes IH]; intros Hnd l ts S0 Hfresh Hup Hemp G.
    - exists l, S0, ts. split; [done|]. split; [done|]. split; [intros r x Hr; by apply elem_of_nil in Hr|]. split; [by left|done].
    - apply NoDup_cons in Hnd as [Hr Hnd]. destruct (h_parent h r) as [p|] eqn:Ep.
      + destruct (IH Hnd l ts S0) as (l' & S' & ts' & G' & H1 & H2 & H4 & H3).
        * intros r' x Hr'. apply Hfresh. by right.
        * done.
        * intros r' Hr'. apply Hemp. by right.
        * done.
        * exists l', S', ts'. split; [done|]. split; [done|]. split.
          -- intros r' x [->|Hr']%elem_of_cons; [congruence|]. by apply H2.
          -- split; [intros x [?|(r' & Hr' & ?)]%H4; [by left|right; exists r'; split; [by right|done]]|].
             intros fuel Hf. cbn. unfold h_is_root. rewrite Ep. cbn. by apply H3.
      + destruct (visit_ok (S N) r l ts) as (S1 & l1 & Hnd1 & Hel1 & Hrun1 & G1).
        * intros c. apply height_bound.
        * intros j y Hj. cbn in Hj. by rewrite Ep in Hj.
        * intros _. apply Hemp; [by left|done].
        * assert (Hdis : forall x y, x ∈ S0 -> y ∈ S1 -> x <> y /\ ~ anc h x y /\ ~ anc h y x).
          { intros x y Hx Hy. apply Hel1 in Hy.
            assert (Hno : forall z, z ∈ S0 -> ~ anc h r z) by (intros z Hz; apply Hfresh; [by left|done..]).
            split; [|split].
            - intros ->. by apply (Hno y).
            - intros Ha. apply (Hno x Hx). destruct (anc_linear _ _ _ Ha Hy) as [H|H]; [|done].
              destruct (decide (x = r)) as [->|Hxr]; [apply rtc_refl|]. apply anc_strict in H as (q & Hq & _); congruence.
            - intros Ha. apply (Hno x Hx). unfold anc in *. by etrans. }
          destruct (IH Hnd l1 (ts + 2 * length S1) (S0 ++ S1)) as (l' & S' & ts' & G' & H1 & H2 & H4 & H3).
          -- intros r' x Hr' Hpr' [Hx|Hx]%elem_of_app; [apply Hfresh; [by right|done..]|].
             intros Ha. apply Hel1 in Hx. apply (same_parent_disj r r' x); congruence.
          -- intros x y [Hx|Hx]%elem_of_app Hy; [apply elem_of_app; left; by eapply Hup|].
             apply elem_of_app. right. apply Hel1 in Hx. apply Hel1.
             destruct (anc_linear _ _ _ Hx Hy) as [H|H]; [done|].
             destruct (decide (y = r)) as [->|Hxr]; [apply rtc_refl|]. apply anc_strict in H as (q & Hq & _); congruence.
          -- intros r' Hr' Hpr'. destruct (g_frame _ _ _ _ _ G1 r') as (_ & _ & ->).
             ++ intros Hx. apply Hel1 in Hx. apply (same_parent_disj r r' r'); [congruence|congruence|done|apply rtc_refl].
             ++ apply Hemp; [by right|done].
          -- eapply good_app; [| |exact G|exact G1|done]; lia.
          -- exists l', S', ts'. split; [done|]. split; [intros x Hx; apply H1, elem_of_app; by left|]. split.
             ++ intros r' x [->|Hr']%elem_of_cons; [|by apply H2]. intros _ Hx. apply H1, elem_of_app. right. by apply Hel1.
             ++ split.
                { intros x [[?|Hx%Hel1]%elem_of_app|(r' & Hr' & ?)]%H4; [by left|right; exists r; split; [by left|done]|right; exists r'; split; [by right|done]]. }
                intros fuel Hf. cbn. unfold h_is_root. rewrite Ep. cbn.
                assert (HS1 : length S1 <= S N).
                { rewrite <- (seq_length (S N) 0). change (S N) with (length (r :: seq 0 N)) || idtac.
                  transitivity (length (r :: seq 0 N)); [|cbn; rewrite !seq_length; lia].
                  apply submseteq_length, NoDup_submseteq; [done|]. intros x Hx. apply Hel1 in Hx.
                  apply elem_of_cons. destruct (decide (x = r)) as [->|Hxr]; [by left|right]. apply elem_of_seq.
                  apply anc_strict in Hx as (q & Hq & _); [|congruence]. pose proof (par_bound _ _ _ _ HI Hq). lia. }
                replace fuel with (2 * length S1 + (fuel - 2 * length S1)) at 1 by lia.
                rewrite <- Ep at 1. rewrite Hrun1 by lia.
                destruct (fuel - 2 * length S1) as [|k] eqn:E; [lia|]. cbn [lca_dfs mbind hres_bind]. by apply H3.
  Qed.

  (** *** Queries *)
  Context (l : lca_t) (nodes : list nat).
  Context (Hanc : forall x y, x ∈ nodes -> y ∈ nodes -> lca_is_ancestor l x y = true <-> anc h x y).
  Context (Hclimb : forall x, x ∈ nodes -> climb_ok (l_climb l) x).
  Context (Hclosed : forall c p, c ∈ nodes -> h_parent h c = Some p -> p ∈ nodes).

  Lemma anc_in x a : x ∈ nodes -> anc h a x -> a ∈ nodes.
  Proof.
    intros Hx Ha. induction Ha as [x|x y z Hxy _ IH]; [done|]. apply IH. by eapply Hclosed.
  Qed.
  Lemma climb_last x : x ∈ nodes ->
    match last (um_get (l_climb l) x) with
    | Some v => exists i, um_get (l_climb l) x !! i = Some v /\ length (um_get (l_climb l) x) = S i /\ up (2 ^ i) x = Some v
    | None => h_parent h x = None /\ um_get (l_climb l) x = []
    end.
  Proof.
    intros Hx. pose proof (Hclimb x Hx) as Hc. rewrite last_lookup.
    destruct (um_get (l_climb l) x) as [|z L0] eqn:E.
    - cbn. split; [|done]. specialize (Hc 0). rewrite E in Hc. cbn in Hc. by destruct (h_parent h x).
    - cbn [length pred]. destruct ((z :: L0) !! length L0) as [v|] eqn:E2.
      + exists (length L0). split; [done|]. split; [done|]. by rewrite <- Hc, E.
      + apply lookup_ge_None in E2. cbn in E2. lia.
  Qed.
  Lemma up_anc k x v : up k x = Some v -> anc h v x.
  Proof. intros H. apply anc_up. by exists k. Qed.

  (** Every node has a root above it. *)
  Lemma root_ex x : exists r, anc h r x /\ h_parent h r = None.
  Proof.
    assert (H : forall f y, (forall a, ~ nsteps R f y a) -> exists r, anc h r y /\ h_parent h r = None).
    { induction f as [|f IH]; intros y Hy; [exfalso; apply (Hy y); constructor|].
      destruct (h_parent h y) as [p|] eqn:E; [|exists y; split; [apply rtc_refl|done]].
      destruct (IH p) as (r & Hr & Hroot).
      - intros a Ha. apply (Hy a). eapply nsteps_l; [exact E|done].
      - exists r. split; [|done]. eapply rtc_l; [exact E|exact Hr]. }
    apply (H (S N) x). intros a. apply height_bound.
  Qed.
  Lemma root_uniq x r r' : anc h r x -> anc h r' x -> h_parent h r = None -> h_parent h r' = None -> r = r'.
  Proof.
    intros H1 H2 E1 E2. destruct (decide (r = r')) as [|Hne]; [done|]. exfalso.
    eapply (same_parent_disj r r' x); congruence.
  Qed.
  Lemma root_ok fuel x k r : x ∈ nodes -> up k x = Some r -> h_parent h r = None -> k < fuel ->
    lca_root fuel l x = HOk r.
  Proof.
    revert x k. induction fuel as [|fuel IH]; intros x k Hx Hk Hr Hf; [lia|]. cbn.
    pose proof (climb_last x Hx) as Hl. destruct (last (um_get (l_climb l) x)) as [v|].
    - destruct Hl as (i & _ & _ & Hv). pose proof (Nat.pow_nonzero 2 i ltac:(lia)).
      destruct (decide (2 ^ i <= k)) as [Hle|Hgt].
      + apply (IH v (k - 2 ^ i)); [by eapply anc_in; [|by eapply up_anc]| |done|lia].
        replace k with (2 ^ i + (k - 2 ^ i)) in Hk by lia. rewrite up_add, Hv in Hk. done.
      + exfalso. replace (2 ^ i) with (k + S (2 ^ i - k - 1)) in Hv by lia. rewrite up_add, Hk in Hv. cbn in Hv. by rewrite Hr in Hv.
    - destruct Hl as [Hp _]. destruct k as [|k]; [cbn in Hk; congruence|]. cbn in Hk. by rewrite Hp in Hk.
  Qed.

  Lemma find_ok b r fuel : b ∈ nodes -> anc h r b -> h_parent h r = None ->
    forall u k seen, u ∈ nodes -> up k u = Some r -> k < fuel ->
    (anc h u b -> exists s, seen = Some s /\ ~ anc h s b /\ last (um_get (l_climb l) s) = Some u) ->
    exists w v, lca_find fuel l b (Some u) seen = HOk (Some w) /\ ~ anc h w b
      /\ last (um_get (l_climb l) w) = Some v /\ anc h v b
      /\ (anc h w u \/ anc h u b /\ seen = Some w).
  Proof.
    intros Hb Hrb Hr. induction fuel as [|fuel IH]; intros u k seen Hu Hk Hf Hseen; [lia|]. cbn.
    destruct (lca_is_ancestor l u b) eqn:E.
    - apply Hanc in E; [|done..]. destruct (Hseen E) as (s & -> & Hs & Hsu). exists s, u. repeat split; try done. by right.
    - assert (Hnu : ~ anc h u b) by (intros H; apply Hanc in H; [congruence|done..]).
      pose proof (climb_last u Hu) as Hl. destruct (last (um_get (l_climb l) u)) as [v|] eqn:El.
      + destruct Hl as (i & _ & _ & Hv). pose proof (Nat.pow_nonzero 2 i ltac:(lia)).
        assert (Hle : 2 ^ i <= k).
        { destruct (decide (2 ^ i <= k)); [done|]. exfalso. replace (2 ^ i) with (k + S (2 ^ i - k - 1)) in Hv by lia.
          rewrite up_add, Hk in Hv. cbn in Hv. by rewrite Hr in Hv. }
        destruct (IH v (k - 2 ^ i) (Some u)) as (w & z & Hw & Hnw & Hz & Hzb & Hor).
        * eapply anc_in; [exact Hu|by eapply up_anc].
        * replace k with (2 ^ i + (k - 2 ^ i)) in Hk by lia. rewrite up_add, Hv in Hk. done.
        * lia.
        * intros _. by exists u.
        * exists w, z. repeat split; try done. left. destruct Hor as [Hor|[_ [= <-]]]; [|apply rtc_refl].
          apply up_anc in Hv. unfold anc in *. by etrans.
      + destruct Hl as [Hp _]. exfalso. destruct k as [|k].
        * cbn in Hk. injection Hk as ->. done.
        * cbn in Hk. by rewrite Hp in Hk.
  Qed.

  Lemma search_ok b (bound := S (S N)) : b ∈ nodes -> forall fuel u i k r, u ∈ nodes -> ~ anc h u b ->
    anc h r b -> h_parent h r = None -> up k u = Some r ->
    (exists v, um_get (l_climb l) u !! i = Some v /\ anc h v b) ->
    k * bound + i < fuel ->
    exists w v, lca_search fuel l b u i = HOk w /\ anc h w u /\ ~ anc h w b
      /\ um_get (l_climb l) w !! 0 = Some v /\ h_parent h w = Some v /\ anc h v b.
  Proof.
    intros Hb. induction fuel as [|fuel IH]; intros u i k r Hu Hnu Hrb Hr Hk (v & Hv & Hvb) Hf; [lia|]. cbn.
    pose proof (Hclimb u Hu) as Hcu.
    destruct (decide (0 < i)) as [Hi|Hi].
    - unfold h_index. destruct (um_get (l_climb l) u !! (i - 1)) as [y|] eqn:Ey.
      2:{ apply lookup_ge_None in Ey. apply lookup_lt_Some in Hv. lia. }
      cbn. pose proof Ey as Hy. rewrite Hcu in Hy.
      assert (Hyn : y ∈ nodes) by (eapply anc_in; [exact Hu|by eapply up_anc]).
      destruct (lca_is_ancestor l y b) eqn:E.
      + apply Hanc in E; [|done..]. apply (IH u (i - 1) k r); try done; [by exists y|lia].
      + assert (Hny : ~ anc h y b) by (intros H; apply Hanc in H; [congruence|done..]).
        rewrite Hcu in Hv.
        assert (Hvy : up (2 ^ (i - 1)) y = Some v).
        { replace i with (S (i - 1)) in Hv by lia. cbn in Hv. rewrite Nat.add_0_r in Hv. rewrite up_add, Hy in Hv. done. }
        pose proof (Hclimb y Hyn) as Hcy. rewrite <- Hcy in Hvy. pose proof (lookup_lt_Some _ _ _ Hvy) as Hlt.
        unfold h_sub. rewrite decide_True by lia. cbn.
        set (m := length (um_get (l_climb l) y) - 1).
        assert (Hmax : Nat.max (i - 1) m = m) by (unfold m; lia). rewrite Hmax.
        assert (Hle : 2 ^ (i - 1) <= k).
        { destruct (decide (2 ^ (i - 1) <= k)); [done|]. exfalso.
          replace (2 ^ (i - 1)) with (k + S (2 ^ (i - 1) - k - 1)) in Hy by lia.
          rewrite up_add, Hk in Hy. cbn in Hy. by rewrite Hr in Hy. }
        pose proof (Nat.pow_nonzero 2 (i - 1) ltac:(lia)).
        destruct (lookup_lt_is_Some_2 (um_get (l_climb l) y) m) as [z Hz]; [unfold m; lia|].
        assert (Hzb : anc h z b).
        { pose proof Hz as Hz'. rewrite Hcy in Hz', Hvy.
          assert (2 ^ (i - 1) <= 2 ^ m) by (apply Nat.pow_le_mono_r; unfold m; lia).
          replace (2 ^ m) with (2 ^ (i - 1) + (2 ^ m - 2 ^ (i - 1))) in Hz' by lia. rewrite up_add, Hvy in Hz'. cbn in Hz'.
          apply up_anc in Hz'. unfold anc in *. by etrans. }
        assert (Hm : m <= N).
        { rewrite Hcy in Hz. apply up_bound in Hz. pose proof (Nat.pow_gt_lin_r 2 m ltac:(lia)). lia. }
        destruct (IH y m (k - 2 ^ (i - 1)) r) as (w & z' & Hw & Hwy & Hrest); try done.
        * replace k with (2 ^ (i - 1) + (k - 2 ^ (i - 1))) in Hk by lia. rewrite up_add, Hy in Hk. done.
        * by exists z.
        * assert ((k - 2 ^ (i - 1)) * bound + bound <= k * bound); [|unfold bound in *; lia].
          replace k with (S (k - 1)) at 2 by lia. cbn [Nat.mul]. assert (k - 2 ^ (i - 1) <= k - 1) by lia.
          pose proof (Nat.mul_le_mono_r _ _ bound H0). lia.
        * exists w, z'. split; [done|]. split; [|done]. apply up_anc in Hy. unfold anc in *. by etrans.
    - assert (i = 0) as -> by lia. exists u, v. split; [done|]. split; [apply rtc_refl|]. split; [done|]. split; [done|].
      rewrite Hcu in Hv. cbn in Hv. split; [|done]. by destruct (h_parent h u).
  Qed.

  Lemma lca_ok a b fuel : a ∈ nodes -> b ∈ nodes -> N * S (S N) + N + 2 <= fuel ->
    (exists c, lca_lca fuel l a b = HOk (Some c) /\ anc h c a /\ anc h c b
       /\ forall d, anc h d a -> anc h d b -> anc h d c)
    \/ lca_lca fuel l a b = HOk None /\ ~ exists d, anc h d a /\ anc h d b.
  Proof.
    intros Ha Hb Hf. unfold lca_lca.
    destruct (lca_is_ancestor l a b) eqn:E1.
    { apply Hanc in E1; [|done..]. left. exists a. split; [done|]. split; [apply rtc_refl|]. split; [done|]. by intros d ? _. }
    destruct (lca_is_ancestor l b a) eqn:E2.
    { apply Hanc in E2; [|done..]. left. exists b. split; [done|]. split; [done|]. split; [apply rtc_refl|]. by intros d _ ?. }
    assert (Hab : ~ anc h a b) by (intros H; apply Hanc in H; [congruence|done..]).
    destruct (root_ex a) as (ra & Hra & Hrap), (root_ex b) as (rb & Hrb & Hrbp).
    apply anc_up in Hra as Hka. destruct Hka as [ka Hka]. apply anc_up in Hrb as Hkb. destruct Hkb as [kb Hkb].
    pose proof (up_bound _ _ _ Hka). pose proof (up_bound _ _ _ Hkb).
    rewrite (root_ok fuel a ka ra), (root_ok fuel b kb rb) by (done || lia). cbn.
    destruct (decide (ra <> rb)) as [Hne|Heq].
    { right. split; [done|]. intros (d & Hda & Hdb). apply Hne. destruct (root_ex d) as (rd & Hrd & Hrdp).
      transitivity rd; [|symmetry].
      - eapply root_uniq; [exact Hra| |done..]. unfold anc in *. by etrans.
      - symmetry. eapply root_uniq; [| exact Hrb|done..]. unfold anc in *. by etrans. }
    assert (ra = rb) as <- by (by destruct (decide (ra = rb))).
    destruct (find_ok b ra fuel Hb Hrb Hrap a ka None) as (w & v & -> & Hnw & Hlw & Hvb & Hor); try done; [lia|].
    destruct Hor as [Hor|[_ ?]]; [|done]. cbn.
    assert (Hw : w ∈ nodes) by exact (anc_in a w Ha Hor).
    pose proof (climb_last w Hw) as Hl. rewrite Hlw in Hl. destruct Hl as (i & Hi & Hlen & Hup).
    unfold h_sub. rewrite Hlen, decide_True by lia. cbn. rewrite Nat.sub_0_r.
    assert (Hkw : exists kw, up kw w = Some ra).
    { apply anc_up. destruct (anc_linear _ _ _ Hra Hor) as [|H']; [done|].
      destruct (decide (w = ra)) as [->|Hwr]; [apply rtc_refl|]. apply anc_strict in H' as (q & Hq & _); congruence. }
    destruct Hkw as [kw Hkw]. pose proof (up_bound _ _ _ Hkw).
    assert (i <= N). { apply up_bound in Hup. pose proof (Nat.pow_gt_lin_r 2 i ltac:(lia)). lia. }
    destruct (search_ok b Hb fuel w i kw ra) as (z & p & -> & Hz & Hnz & Hz0 & Hzp & Hpb); try done; [by exists v| |].
    { pose proof (Nat.mul_le_mono_r kw N (S (S N))). lia. }
    cbn. unfold h_index. rewrite Hz0. cbn. left. exists p. split; [done|].
    assert (Hza : anc h z a) by (unfold anc in *; by etrans).
    assert (Hpz : anc h p z) by (apply rtc_once; exact Hzp).
    split; [unfold anc in *; by etrans|]. split; [done|]. intros d Hda Hdb.
    destruct (anc_linear _ _ _ Hda Hza) as [H'|H'].
    - destruct (decide (d = z)) as [->|Hdz]; [done|]. apply anc_strict in H' as (q & Hq & Hdq); [|done]. congruence.
    - exfalso. apply Hnz. unfold anc in *. by etrans.
  Qed.
End lca.
