(** The loop of dominators.rs computes the iteration of DomAbs. *)
From Verif Require Export DomAbs PostThms MapThms.

Section loop.
  Context (v : gview) (d : dir) (nf : nat -> bool) (pf : nat -> nat -> bool).
  Context (r : nat) (pre : nat -> list nat).
  Context (pre_le : forall i p, p ∈ pre i -> i <= r /\ p <= r).
  Context (pre_up : forall i, i < r -> exists p, p ∈ pre i /\ i < p).
  Context (nti : umap nat) (itn : list nat).
  Notation tree := (tree r).
  Notation anc := (anc r).
  Notation isnca := (isnca r).

  (** The parents of the nodes from [lo] on are known. *)
  Definition repr (doms : list (option nat)) (f : nat -> nat) (lo : nat) : Prop :=
    length doms = S r /\ f r = r /\ forall j, j <= r -> doms !! j = Some (if decide (lo <= j) then Some (f j) else None).

  Context (Hitn : length itn = S r).
  Context (Hpre : forall i node doms f lo, itn !! i = Some node -> i < r -> repr doms f lo ->
    dom_preds v nf pf nti doms node (gv_ports v node (rev_dir d)) = Ok (filter (fun p => lo <= p) (pre i))).

  Lemma dom_at_ok doms f lo a : repr doms f lo -> lo <= a -> a <= r -> dom_at doms (Some a) = HOk (Some (f a)).
  Proof. intros (_ & _ & H) Hlo Ha. cbn. rewrite (vget_ok _ _ _ (H a Ha)). by rewrite decide_True. Qed.

  Lemma isnca_sym f a b c : isnca f [a; b] c -> isnca f [b; a] c.
  Proof.
    intros [H1 H2]. split.
    - intros p Hp. apply H1. set_solver.
    - intros x Hx. apply H2. intros p Hp. apply Hx. set_solver.
  Qed.
  Lemma isnca_up lo f a b c : tree lo f -> lo <= a -> lo <= b -> a < b -> a < r -> isnca f [f a; b] c -> isnca f [a; b] c.
  Proof.
    intros T Ha Hb Hab Har [H1 H2]. split.
    - intros p [->|[->|Hp%elem_of_nil]%elem_of_cons]%elem_of_cons; [|apply H1; set_solver|done]. apply anc_step; [done|]. apply H1. left.
    - intros x Hx. apply H2. intros p [->|[->|Hp%elem_of_nil]%elem_of_cons]%elem_of_cons; [|apply Hx; set_solver|done].
      pose proof (Hx a ltac:(set_solver)) as [<-|[_ Hax]]%anc_inv; [|done].
      pose proof (Hx b ltac:(set_solver)) as Hbx. destruct (anc_le r lo f b a T Hbx Hb). lia.
  Qed.
  Lemma intersect_ok doms f lo : repr doms f lo -> tree lo f ->
    forall fuel a b, lo <= a <= r -> lo <= b <= r -> (r - a) + (r - b) < fuel ->
    exists c, intersect fuel doms (Some a) (Some b) = HOk (Some c) /\ isnca f [a; b] c /\ lo <= c <= r.
  Proof.
    intros HR T. induction fuel as [|fuel IH]; intros a b Ha Hb Hf; [lia|]. cbn [intersect].
    destruct (decide (Some a = Some b)) as [[= ->]|Hne].
    - exists b. split; [done|]. split; [|done]. split.
      + intros p [->|[->|Hp%elem_of_nil]%elem_of_cons]%elem_of_cons; [apply rtc_refl|apply rtc_refl|done].
      + intros x Hx. apply Hx. left.
    - cbn [fin_lt]. destruct (bool_decide (a < b)) eqn:Hlt.
      + apply bool_decide_eq_true in Hlt. rewrite (dom_at_ok _ f lo) by (done || lia). cbn [mbind hres_bind].
        pose proof (T a ltac:(lia) ltac:(lia)). destruct (IH (f a) b) as (c & -> & Hc & ?); [lia|lia|lia|]. exists c. split; [done|].
        split; [|done]. apply (isnca_up lo); (done || lia).
      + apply bool_decide_eq_false in Hlt. assert (b < a) by (assert (a <> b) by congruence; lia).
        rewrite (dom_at_ok _ f lo) by (done || lia). cbn [mbind hres_bind].
        pose proof (T b ltac:(lia) ltac:(lia)). destruct (IH a (f b)) as (c & -> & Hc & ?); [lia|lia|lia|]. exists c. split; [done|].
        split; [|done]. apply isnca_sym, (isnca_up lo); [done|lia|lia|lia|lia|]. by apply isnca_sym.
  Qed.
  Lemma reduce_ok doms f lo fuel : repr doms f lo -> tree lo f -> 2 * r < fuel ->
    forall l Q a, isnca f Q a -> lo <= a <= r -> (forall p, p ∈ l -> lo <= p <= r) ->
    exists c, dom_reduce fuel doms (Some a) l = HOk (Some c) /\ isnca f (Q ++ l) c /\ lo <= c <= r.
  Proof.
    intros HR T Hf. induction l as [|i l IH]; intros Q a HQ Ha Hl.
    - exists a. rewrite app_nil_r. done.
    - cbn [dom_reduce]. destruct (intersect_ok doms f lo HR T fuel a i Ha) as (c & -> & [Hc1 Hc2] & Hc); [apply Hl; left|lia|].
      cbn [mbind hres_bind]. destruct (IH (Q ++ [i]) c) as (c' & -> & Hc' & ?); [|done|set_solver|].
      + destruct HQ as [HQ1 HQ2]. split.
        * intros p [Hp| ->%elem_of_list_singleton]%elem_of_app; [|apply Hc1; set_solver].
          eapply rtc_transitive; [by apply HQ1|]. apply Hc1. left.
        * intros x Hx. apply Hc2. intros p [->|[->|Hp%elem_of_nil]%elem_of_cons]%elem_of_cons; [| |done].
          -- apply HQ2. intros p Hp. apply Hx. set_solver.
          -- apply Hx. set_solver.
      + exists c'. split; [done|]. split; [|done]. by rewrite <- app_assoc in Hc'.
  Qed.

  (** One visit. *)
  Lemma visit_ok fuel doms f lo ch i : repr doms f lo -> tree lo f -> lo <= S i -> i < r -> 2 * r < fuel ->
    exists c doms', dom_visit v d nf pf fuel nti itn (doms, ch) i =
        HOk (doms', ch || bool_decide (doms !! i <> Some (Some c)))
      /\ isnca f (filter (fun p => lo <= p) (pre i)) c /\ i < c <= r
      /\ length doms' = S r /\ forall j, doms' !! j = if decide (j = i) then Some (Some c) else doms !! j.
  Proof.
    intros HR T Hlo Hi Hf. pose proof HR as (Hlen & _ & HD).
    destruct (lookup_lt_is_Some_2 itn i) as [node Hnode]; [lia|].
    destruct (lookup_lt_is_Some_2 doms i) as [old Hold]; [lia|].
    unfold dom_visit. rewrite (vget_ok _ _ _ Hnode). cbn [lift mbind hres_bind]. rewrite (Hpre i node doms f lo) by done.
    cbn [lift mbind hres_bind]. destruct (pre_up i Hi) as (p0 & Hp0 & Hip0).
    assert (Hin : p0 ∈ filter (fun p => lo <= p) (pre i)) by (apply elem_of_list_filter; split; [lia|done]).
    assert (Hall : forall p, p ∈ filter (fun p => lo <= p) (pre i) -> lo <= p <= r).
    { intros p [? ?]%elem_of_list_filter. split; [done|]. by apply (pre_le i). }
    remember (filter (fun p => lo <= p) (pre i)) as ps eqn:Eps. clear Eps. destruct ps as [|a l]; [by apply elem_of_nil in Hin|].
    destruct (reduce_ok doms f lo fuel HR T Hf l [a] a) as (c & -> & Hc & Hcr).
    { split; [intros p ->%elem_of_list_singleton; apply rtc_refl|]. intros x Hx. apply Hx. left. }
    { apply Hall. left. } { intros p Hp. apply Hall. by right. }
    cbn [mbind hres_bind]. rewrite (vget_ok _ _ _ Hold). cbn [lift mbind hres_bind].
    assert (Hic : i < c).
    { destruct Hc as [Hc _]. specialize (Hc p0 Hin). destruct (anc_le r lo f p0 c T Hc ltac:(apply Hall, Hin)). lia. }
    exists c. destruct (decide (Some c = old)) as [E|E].
    - exists doms. split; [|split; [done|split; [lia|split; [done|]]]].
      + rewrite Hold, E. rewrite bool_decide_false by (intros Hx; by apply Hx). by rewrite orb_false_r.
      + intros j. destruct (decide (j = i)) as [->|]; [|done]. by rewrite Hold, E.
    - exists (<[i := Some c]> doms). split; [|split; [done|split; [lia|split; [by rewrite insert_length|]]]].
      + rewrite vset_ok by lia. cbn [lift mbind hres_bind]. rewrite Hold. rewrite bool_decide_true by congruence. by rewrite orb_true_r.
      + intros j. destruct (decide (j = i)) as [->|]; [by rewrite list_lookup_insert by lia|by rewrite list_lookup_insert_ne].
  Qed.

  Definition fset (f : nat -> nat) (i c j : nat) : nat := if decide (j = i) then c else f j.
  Lemma fset_eq f i c : fset f i c i = c. Proof. unfold fset. by rewrite decide_True. Qed.
  Lemma fset_ne f i c j : j <> i -> fset f i c j = f j. Proof. intros. unfold fset. by rewrite decide_False. Qed.

  Lemma rev_seq k : rev (seq 0 (S k)) = k :: rev (seq 0 k).
  Proof. rewrite seq_S, rev_app_distr. done. Qed.

  (** The first round. *)
  Lemma first_ok fuel : 2 * r < fuel -> forall k doms f ch, k <= r -> repr doms f k -> tree k f ->
    exists doms' f' ch', hfold (dom_visit v d nf pf fuel nti itn) (rev (seq 0 k)) (doms, ch) = HOk (doms', ch')
      /\ repr doms' f' 0 /\ tree 0 f' /\ (forall j, k <= j -> f' j = f j) /\ (0 < k -> ch' = true) /\ (k = 0 -> ch' = ch)
      /\ (ch = true -> ch' = true)
      /\ forall i, i < k -> isnca f' (filter (fun p => i < p) (pre i)) (f' i).
  Proof.
    intros Hf. induction k as [|k IH]; intros doms f ch Hk HR T.
    - exists doms, f, ch. split; [done|]. split; [done|]. split; [done|]. repeat split; (done || lia).
    - rewrite rev_seq. cbn [hfold]. pose proof HR as (Hlen & Hfr & HD).
      destruct (visit_ok fuel doms f (S k) ch k HR T) as (c & doms1 & -> & Hc & Hkc & Hl1 & HD1); [lia|lia|done|].
      cbn [mbind hres_bind].
      assert (T1 : tree k (fset f k c)).
      { intros j Hj Hjr. destruct (decide (j = k)) as [->|]; [by rewrite fset_eq|]. rewrite fset_ne by done. apply T; lia. }
      destruct (IH doms1 (fset f k c) (ch || bool_decide (doms !! k <> Some (Some c)))) as (doms' & f' & ch' & -> & HR' & T' & Hext & Hch1 & Hch2 & Hch3 & Hnca).
      { lia. }
      { split; [done|]. split; [by rewrite fset_ne by lia|]. intros j Hj. rewrite HD1. destruct (decide (j = k)) as [->|Hjk].
        - rewrite decide_True by lia. by rewrite fset_eq.
        - rewrite HD by done. rewrite fset_ne by done. destruct (decide (S k <= j)), (decide (k <= j)); try lia; done. }
      { done. }
      exists doms', f', ch'. split; [done|]. split; [done|]. split; [done|]. split; [|split; [|split; [done|split]]].
      + intros j Hj. rewrite Hext by lia. by rewrite fset_ne by lia.
      + intros _. destruct k as [|k]; [|by apply Hch1; lia]. rewrite Hch2 by done. rewrite HD by lia. rewrite decide_False by lia.
        rewrite bool_decide_true by congruence. by rewrite orb_true_r.
      + intros ->. by apply Hch3.
      + intros i Hi. destruct (decide (i = k)) as [->|]; [|apply Hnca; lia]. rewrite Hext by lia. rewrite fset_eq.
        destruct (pre_up k ltac:(lia)) as (p0 & Hp0 & Hip0).
        eapply (isnca_ext r (S k) f); [done| | | |].
        * intros j Hj _. rewrite Hext by lia. by rewrite fset_ne by lia.
        * intros p [? ?]%elem_of_list_filter. lia.
        * intros E. apply (not_elem_of_nil p0). rewrite <- E. by apply elem_of_list_filter.
        * exact Hc.
  Qed.

  (** Every other round. *)
  Lemma filter_ge0 (l : list nat) : filter (fun p => 0 <= p) l = l.
  Proof. apply filter_all. intros. lia. Qed.
  Lemma mix_ext f1 f2 g1 g2 i : (forall j, f1 j = f2 j) -> (forall j, j <= i -> g1 j = g2 j) -> forall j, mix f1 g1 i j = mix f2 g2 i j.
  Proof. intros H1 H2 j. unfold mix. destruct (decide _); [done|]. apply H2. lia. Qed.
  Lemma next_ok fuel : 2 * r < fuel -> forall k doms f ch, k <= r -> repr doms f 0 -> tree 0 f ->
    exists doms' f' ch', hfold (dom_visit v d nf pf fuel nti itn) (rev (seq 0 k)) (doms, ch) = HOk (doms', ch')
      /\ repr doms' f' 0 /\ tree 0 f' /\ (forall j, k <= j -> f' j = f j)
      /\ (ch' = false -> ch = false /\ forall i, f' i = f i) /\ (ch = true -> ch' = true)
      /\ (ch = false -> ch' = true -> exists i, i < k /\ f' i <> f i)
      /\ forall i, i < k -> isnca (mix f' f i) (pre i) (f' i).
  Proof.
    intros Hf. induction k as [|k IH]; intros doms f ch Hk HR T.
    - exists doms, f, ch. split; [done|]. split; [done|]. split; [done|]. repeat split; (done || lia || congruence).
    - rewrite rev_seq. cbn [hfold]. pose proof HR as (Hlen & Hfr & HD).
      destruct (visit_ok fuel doms f 0 ch k HR T) as (c & doms1 & -> & Hc & Hkc & Hl1 & HD1); [lia|lia|done|].
      rewrite filter_ge0 in Hc. cbn [mbind hres_bind].
      assert (Hb : bool_decide (doms !! k <> Some (Some c)) = bool_decide (f k <> c)).
      { rewrite HD by lia. rewrite decide_True by lia. apply bool_decide_ext. split; congruence. }
      rewrite Hb. set (b := bool_decide (f k <> c)) in *.
      destruct (IH doms1 (fset f k c) (ch || b)) as (doms' & f' & ch' & -> & HR' & T' & Hext & Hch1 & Hch2 & Hch3 & Hnca).
      { lia. }
      { split; [done|]. split; [by rewrite fset_ne by lia|]. intros j Hj. rewrite HD1. rewrite (decide_True (P := 0 <= j)) by lia. destruct (decide (j = k)) as [->|Hjk].
        - by rewrite fset_eq.
        - rewrite HD by done. rewrite fset_ne by done. by rewrite decide_True by lia. }
      { intros j Hj Hjr. destruct (decide (j = k)) as [->|]; [by rewrite fset_eq|]. rewrite fset_ne by done. apply T; lia. }
      assert (Hk' : f' k = c) by (rewrite Hext by lia; apply fset_eq).
      exists doms', f', ch'. split; [done|]. split; [done|]. split; [done|]. split; [|split; [|split; [|split]]].
      + intros j Hj. rewrite Hext by lia. by rewrite fset_ne by lia.
      + intros [[Hx Hy]%orb_false_iff Hall]%Hch1. split; [done|]. intros i. rewrite Hall.
        destruct (decide (i = k)) as [->|]; [|by rewrite fset_ne]. rewrite fset_eq. subst b.
        apply bool_decide_eq_false in Hy. destruct (decide (f k = c)); [done|tauto].
      + intros ->. by apply Hch2.
      + intros -> Ht. cbn in Hch3. subst b. destruct (decide (f k = c)) as [E|E].
        * destruct Hch3 as (i & Hi & Hne); [rewrite bool_decide_false; [done|tauto]|done|]. exists i. split; [lia|].
          by rewrite fset_ne in Hne by lia.
        * exists k. split; [lia|]. congruence.
      + intros i Hi. destruct (decide (i = k)) as [->|].
        * rewrite Hk'. destruct (pre_up k ltac:(lia)) as (p0 & Hp0 & Hip0).
          eapply (isnca_ext r 0 f); [done| |intros; lia|intros E; rewrite E in Hp0; by apply elem_of_nil in Hp0|exact Hc].
          intros j _ Hj. unfold mix. destruct (decide (k < j)); [|done]. rewrite Hext by lia. by rewrite fset_ne by lia.
        * destruct (pre_up i ltac:(lia)) as (p0 & Hp0 & Hip0).
          eapply (isnca_ext r 0 (mix f' (fset f k c) i)); [| |intros; lia|intros E; rewrite E in Hp0; by apply elem_of_nil in Hp0|apply Hnca; lia].
          -- apply mix_tree; [|done]. intros j Hj Hjr. destruct (decide (j = k)) as [->|]; [by rewrite fset_eq|]. rewrite fset_ne by done. apply T; lia.
          -- intros j _ Hj. apply mix_ext; [done|]. intros j' Hj'. by rewrite fset_ne by lia.
  Qed.

  (** Number of steps left for the parents to rise. *)
  Definition slack (f : nat -> nat) : nat := sum_list_with (fun i => r - f i) (seq 0 r).
  Lemma slack_lt f f' : tree 0 f -> tree 0 f' -> rise r 0 f f' -> (exists i, i < r /\ f' i <> f i) -> slack f' < slack f.
  Proof.
    intros T T' R (i & Hi & Hne). unfold slack.
    assert (Hle : forall j, j < r -> f j <= f' j <= r).
    { intros j Hj. specialize (R j ltac:(lia) Hj). pose proof (T j ltac:(lia) Hj). pose proof (T' j ltac:(lia) Hj).
      destruct (anc_le r 0 f' _ _ T' R ltac:(lia)). lia. }
    assert (H : forall l, (forall j, j ∈ l -> j < r) -> sum_list_with (fun i => r - f' i) l <= sum_list_with (fun i => r - f i) l
      /\ (i ∈ l -> sum_list_with (fun i => r - f' i) l < sum_list_with (fun i => r - f i) l)).
    { induction l as [|a l IH]; intros Hl; [split; [done|by intros ?%elem_of_nil]|].
      destruct IH as [I1 I2]; [set_solver|]. specialize (Hle a (Hl a ltac:(left))) as Ha. cbn. split; [lia|].
      intros [<-|Hin]%elem_of_cons; [pose proof (Hle i Hi); lia|specialize (I2 Hin); lia]. }
    apply H; [intros j ?%elem_of_seq; lia|]. apply elem_of_seq. lia.
  Qed.

  Lemma loop_next_ok : forall m fuel doms f, slack f <= m -> m + 2 * r + 2 <= fuel -> repr doms f 0 -> tree 0 f ->
    (forall i, i < r -> good r pre f i) ->
    (pass1 r pre f \/ exists f0, tree 0 f0 /\ pass r pre f0 f /\ rise r 0 f0 f) ->
    exists doms' f', dom_loop v d nf pf fuel nti itn doms = HOk doms' /\ repr doms' f' 0 /\ tree 0 f'
      /\ (forall i, i < r -> good r pre f' i) /\ forall i, i < r -> isnca f' (pre i) (f' i).
  Proof.
    induction m as [m IH] using lt_wf_ind. intros fuel doms f Hs Hf HR T G Hp.
    destruct fuel as [|fuel]; [lia|]. cbn [dom_loop]. rewrite Hitn. cbn [Nat.sub]. rewrite Nat.sub_0_r.
    destruct (next_ok (S fuel) ltac:(lia) r doms f false ltac:(lia) HR T) as (doms' & f' & ch' & -> & HR' & T' & Hext & Hch1 & _ & Hch3 & Hnca).
    cbn [mbind hres_bind].
    assert (Hpass : pass r pre f f') by exact Hnca.
    assert (HRise : rise r 0 f f').
    { destruct Hp as [Hp|(f0 & T0 & Hp0 & R0)]; [by apply (rise_first r pre pre_le pre_up)|by apply (rise_next r pre pre_le pre_up f0)]. }
    assert (G' : forall i, i < r -> good r pre f' i) by (by apply (good_next r pre pre_le pre_up f)).
    destruct ch'.
    - destruct (Hch3 eq_refl eq_refl) as (i & Hi & Hne).
      pose proof (slack_lt f f' T T' HRise ltac:(by exists i)) as Hlt.
      eapply (IH (slack f')); [lia|done|lia|done|done|done|]. right. by exists f.
    - destruct (Hch1 eq_refl) as [_ Heq]. exists doms', f'. split; [done|]. split; [done|]. split; [done|]. split; [done|].
      intros i Hi. destruct (pre_up i Hi) as (p0 & Hp0 & Hip0).
      eapply (isnca_ext r 0 (mix f' f i)); [by apply mix_tree| |intros; lia|intros E; rewrite E in Hp0; by apply elem_of_nil in Hp0|by apply Hnca].
      intros j _ _. unfold mix. by destruct (decide _).
  Qed.

  Lemma loop_ok fuel : r * r + 2 * r + 3 <= fuel ->
    exists doms' f', dom_loop v d nf pf fuel nti itn (replicate r None ++ [Some r]) = HOk doms' /\ repr doms' f' 0 /\ tree 0 f'
      /\ (forall i, i < r -> good r pre f' i) /\ forall i, i < r -> isnca f' (pre i) (f' i).
  Proof.
    intros Hf. destruct fuel as [|fuel]; [lia|]. cbn [dom_loop]. rewrite Hitn. cbn [Nat.sub]. rewrite Nat.sub_0_r.
    assert (HR0 : repr (replicate r None ++ [Some r]) id r).
    { split; [rewrite app_length, replicate_length; cbn; lia|]. split; [done|]. intros j Hj.
      destruct (decide (r <= j)).
      - assert (j = r) as -> by lia. rewrite lookup_app_r by (rewrite replicate_length; lia). rewrite replicate_length, Nat.sub_diag. done.
      - rewrite lookup_app_l by (rewrite replicate_length; lia). apply lookup_replicate. split; [done|lia]. }
    assert (T0 : tree r id) by (intros i ? ?; lia).
    destruct (first_ok (S fuel) ltac:(lia) r _ id false ltac:(lia) HR0 T0) as (doms' & f' & ch' & -> & HR' & T' & _ & Hch1 & Hch2 & _ & Hnca).
    cbn [mbind hres_bind]. destruct ch'.
    - eapply (loop_next_ok (r * r)); [|lia|done|done|by apply (good_first r pre pre_le pre_up)|by left].
      unfold slack. assert (H : forall l, sum_list_with (fun i => r - f' i) l <= length l * r) by (induction l; cbn; lia).
      specialize (H (seq 0 r)). by rewrite seq_length in H.
    - destruct (decide (r = 0)) as [Hr|Hr]; [|specialize (Hch1 ltac:(lia)); done].
      exists doms', f'. split; [done|]. split; [done|]. split; [done|]. split; intros; lia.
  Qed.
End loop.
