(** [swap_nodes], [compact_nodes], [compact_ports] of multigraphs, and the
    invariant for every history. *)
From Verif Require Export MultiOps7.

Lemma replay_bv log : forall b, exists b', rfold (fun b x => bv_swap b x.1 x.2) log b = Ok b' /\ forall z, bv_get b' z = replay_swaps log (bv_get b) z.
Proof.
  induction log as [|[x y] log IH]; intros b; [by exists b|]. cbn [rfold fst snd].
  destruct (bv_swap_get b x y) as (b1 & E1 & H1). rewrite E1, bind_Ok. destruct (IH b1) as (b' & E & H'). exists b'. split; [done|].
  intros z. rewrite H'. unfold replay_swaps. cbn [foldl fst snd]. clear -H1. revert z.
  assert (G : forall log (f h : nat -> bool), (forall k, f k = h k) -> forall z, replay_swaps log f z = replay_swaps log h z).
  { clear. unfold replay_swaps. induction log as [|[x y] log IH]; intros f h E z; [apply E|]. cbn. apply IH. intros k. by apply tswap_ext. }
  by apply G.
Qed.
Lemma replay_swaps_comp {V} log : forall (f : nat -> V) (h : nat -> nat) z, replay_swaps log (fun k => f (h k)) z = f (replay_swaps log h z).
Proof.
  assert (G : forall log (f h : nat -> V), (forall k, f k = h k) -> forall z, replay_swaps log f z = replay_swaps log h z).
  { clear. unfold replay_swaps. induction log as [|[x y] log IH]; intros f h E z; [apply E|]. cbn. apply IH. intros k. by apply tswap_ext. }
  unfold replay_swaps in *. induction log as [|[x y] log IH]; intros f h z; [done|]. cbn. rewrite <- IH. apply (G log). intros k. apply tswap_comp.
Qed.
Lemma replay_swaps_inj log : forall (h : nat -> nat), (forall a b, h a = h b -> a = b) -> forall a b, replay_swaps log h a = replay_swaps log h b -> a = b.
Proof.
  unfold replay_swaps. induction log as [|[x y] log IH]; intros h H; [done|]. cbn. apply IH. by apply tswap_inj.
Qed.
(** A bit vector permuted along a renumbering that covers all set bits *)
Lemma replay_flags log b : (forall o n, (o, n) ∈ log -> replay_swaps log (fun k => k) n = o) ->
  (forall x, bv_get b x = true -> exists y, (x, y) ∈ log) ->
  exists b', rfold (fun b x => bv_swap b x.1 x.2) log b = Ok b' /\
    (forall o n, (o, n) ∈ log -> bv_get b' n = bv_get b o) /\ (forall z, bv_get b' z = true -> exists o, (o, z) ∈ log).
Proof.
  intros Hr Hl. destruct (replay_bv log b) as (b' & E & H). exists b'. split; [done|].
  assert (H' : forall z, bv_get b' z = bv_get b (replay_swaps log (fun k => k) z)).
  { intros z. rewrite H. by rewrite <- (replay_swaps_comp log (bv_get b) (fun k => k)). }
  split.
  - intros o n Hin. rewrite H'. f_equal. by apply Hr.
  - intros z Hz. rewrite H' in Hz. destruct (Hl _ Hz) as [y Hy]. pose proof (Hr _ _ Hy) as Hy'.
    apply (replay_swaps_inj log) in Hy' as ->; [|done]. eauto.
Qed.

Lemma sorted_lt_nodup (l : list nat) : StronglySorted lt l -> NoDup l.
Proof.
  induction 1 as [|x l _ IH Hx]; constructor; [|done]. intros Hin. rewrite Forall_forall in Hx. apply Hx in Hin. lia.
Qed.
Lemma assoc_inj1 (log : list (nat * nat)) a x y : NoDup log.*1 -> (a, x) ∈ log -> (a, y) ∈ log -> x = y.
Proof.
  induction log as [|[o n] log IH]; cbn; [by intros _ ?%elem_of_nil|]. intros [Hn Hd]%NoDup_cons Hx Hy.
  apply elem_of_cons in Hx as [Hx|Hx], Hy as [Hy|Hy]; [congruence| | |by apply IH].
  - injection Hx as -> ->. destruct Hn. apply elem_of_list_fmap. by exists (o, y).
  - injection Hy as -> ->. destruct Hn. apply elem_of_list_fmap. by exists (o, x).
Qed.
Lemma assoc_inj2 (log : list (nat * nat)) a x y : NoDup log.*2 -> (x, a) ∈ log -> (y, a) ∈ log -> x = y.
Proof.
  induction log as [|[o n] log IH]; cbn; [by intros _ ?%elem_of_nil|]. intros [Hn Hd]%NoDup_cons Hx Hy.
  apply elem_of_cons in Hx as [Hx|Hx], Hy as [Hy|Hy]; [congruence| | |by apply IH].
  - injection Hx as -> ->. destruct Hn. apply elem_of_list_fmap. by exists (y, n).
  - injection Hy as -> ->. destruct Hn. apply elem_of_list_fmap. by exists (x, n).
Qed.

Section renum.
  Context (w : N) (Hw : (1 < w <= 63)%N) (m : mpg) (I : minv w m []).
  Notation g := (m_graph m).
  Let R := mi_reach _ _ _ I.

  Definition same_live (p p' : nat) : Prop := is_Some (pmeta g p) /\ p' = p.

  (** [swap_nodes] *)
  Lemma m_swap_ok a b : allowed g (OSwap a b) -> exists m', m_swap_nodes m a b = Ok m' /\ minv w m' [] /\
    (forall n, contains_node (m_graph m') n = contains_node g (swp a b n)) /\ (forall n, is_copy m' n = is_copy m (swp a b n)) /\
    (forall n d, ports (m_graph m') n d = ports g (swp a b n) d) /\
    (forall p, pmeta (m_graph m') p = (fun x => (swp a b x.1, x.2)) <$> pmeta g p) /\
    (forall x, vis m' x <-> vis m x) /\
    (forall x y, rlink m' x y <-> rlink m x y).
  Proof.
    intros Ha. destruct (reach_inv _ _ R) as (fnl & F & IG). destruct (swap_nodes_allowed g fnl F a b IG Ha) as (g' & E & _ & PP).
    destruct (bv_swap_get (m_copy m) a b) as (cp & Ecp & Hcp). exists (m_with_copy (m_with_graph m g') cp).
    split. { unfold m_swap_nodes. by rewrite E, bind_Ok, Ecp, bind_Ok. }
    assert (R' : reach w g'). { eapply (reach_step w g (OSwap a b)); [done|done|]. cbn. by rewrite E. }
    assert (Hcp' : forall n, bv_get cp n = is_copy m (swp a b n)).
    { intros n. rewrite Hcp. unfold tswap, swp, is_copy. by repeat destruct (decide _). }
    assert (Hcn : forall n, contains_node g' n = contains_node g (swp a b n)). { intros n. unfold contains_node. by rewrite (sn_nmeta _ _ _ _ PP). }
    assert (Hpo : forall n d, ports g' n d = ports g (swp a b n) d). { intros n d. unfold ports. by rewrite (sn_nmeta _ _ _ _ PP). }
    pose proof (sn_pmeta _ _ _ _ PP) as Hpm.
    assert (Hlk : forall p, lk g' p = lk g p).
    { intros p. unfold lk. destruct (pmeta g p) as [[n d]|] eqn:Mp.
      - pose proof (Hpm p) as Mp'. rewrite Mp in Mp'. cbn in Mp'. destruct (reach_inv _ _ R') as (fnl' & F' & IG').
        rewrite (port_link_eq _ _ _ IG'), Mp', (port_link_eq _ _ _ IG), Mp. unfold plink. by rewrite (sn_link _ _ _ _ PP).
      - pose proof (Hpm p) as Mp'. rewrite Mp in Mp'. cbn in Mp'. by rewrite (r_port_link_none w g' R' p Mp'), (r_port_link_none w g R p Mp). }
    set (m' := m_with_copy (m_with_graph m g') cp).
    set (S := fun n n' => contains_node g n = true /\ n' = swp a b n).
    assert (HI : minv w m' [] /\ (forall x y, rlink m' x y <-> exists x0 y0, same_live x0 x.1 /\ same_live y0 y.1 /\ rlink m (x0, x.2) (y0, y.2)) /\
      (forall x, same_live x x -> vis m' x <-> vis m x)).
    { assert (A1 : forall n, contains_node g n = true -> exists n', S n n') by (intros n Hn; by exists (swp a b n)).
      assert (A2 : forall n', contains_node g' n' = true -> exists n, S n n').
      { intros n' Hn'. rewrite Hcn in Hn'. exists (swp a b n'). split; [done|]. by rewrite swp_swp. }
      assert (A3 : forall n n', S n n' -> contains_node g n = true /\ contains_node g' n' = true).
      { intros n n' [Hn ->]. by rewrite Hcn, swp_swp. }
      assert (A4 : forall n x y, S n x -> S n y -> x = y) by (intros n x y [_ ->] [_ ->]; done).
      assert (A5 : forall n x y, S x n -> S y n -> x = y) by (intros n x y [_ ->] [_ H]; by apply swp_inj in H).
      assert (B1 : forall p, is_Some (pmeta g p) -> exists p', same_live p p') by (intros p Hp; by exists p).
      assert (B2 : forall p', is_Some (pmeta g' p') -> exists p, same_live p p').
      { intros p Hp. exists p. split; [|done]. rewrite Hpm in Hp. by apply fmap_is_Some in Hp. }
      assert (B3 : forall p p', same_live p p' -> exists n n' d, pmeta g p = Some (n, d) /\ pmeta g' p' = Some (n', d) /\ S n n').
      { intros p p' [[[n d] Mp] ->]. exists n, (swp a b n), d. rewrite Hpm, Mp. split_and!; try done. split; [by eapply (r_node w g R)|done]. }
      assert (B4 : forall n x y, same_live n x -> same_live n y -> x = y) by (intros n x y [_ ->] [_ ->]; done).
      assert (B5 : forall n x y, same_live x n -> same_live y n -> x = y) by (intros n x y [_ ->] [_ ->]; done).
      assert (D1 : forall n n' d, S n n' -> Forall2 same_live (ports g n d) (ports g' n' d)).
      { intros n n' d [Hn ->]. rewrite Hpo, swp_swp. apply Forall_Forall2_diag, Forall_forall. intros x Hx%(r_elem w g R). split; [eauto|done]. }
      assert (D2 : forall p p' q q', same_live p p' -> same_live q q' -> lk g p = Some q <-> lk g' p' = Some q').
      { intros p p' q q' [_ ->] [_ ->]. by rewrite Hlk. }
      assert (E1 : forall p p', same_live p p' -> is_multi m' p' = is_multi m p) by (intros p p' [_ ->]; done).
      assert (E2 : forall p', is_multi m' p' = true -> is_Some (pmeta g' p')).
      { intros p Fp. rewrite Hpm. apply fmap_is_Some. by eapply (flag_live w m). }
      assert (E3 : forall n n', S n n' -> is_copy m' n' = is_copy m n).
      { intros n n' [_ ->]. change (is_copy m' (swp a b n)) with (bv_get cp (swp a b n)). by rewrite Hcp', swp_swp. }
      assert (E4 : forall n', is_copy m' n' = true -> contains_node g' n' = true).
      { intros n' Hn'. change (is_copy m' n') with (bv_get cp n') in Hn'. rewrite Hcp' in Hn'. rewrite Hcn. by eapply (copy_live w m). }
      split; [by apply (iso_minv w m m' I R' S same_live)|]. split; [by apply (iso_rlink w m m' I R' S same_live)|].
      intros x. by apply (iso_vis m m' S same_live). }
    destruct HI as (I' & RL & HV). split; [done|]. split; [done|]. split; [done|]. split; [done|]. split; [done|].
    assert (HV' : forall x, vis m' x <-> vis m x).
    { intros x. destruct (pmeta g x) as [y|] eqn:Mx; [apply HV; split; [eauto|done]|].
      assert (pmeta g' x = None) as Mx' by (by rewrite Hpm, Mx). split; intros (? & ? & M & _); cbn in M; congruence. }
    split; [done|]. intros x y. rewrite RL. split.
    - intros (x0 & y0 & [_ E1] & [_ E2] & H). destruct x, y; cbn in *. by subst.
    - intros H. pose proof H as ((? & ? & M1 & _) & (? & ? & M2 & _) & _). exists x.1, y.1. destruct x, y. split; [by split; [eauto|]|]. split; [by split; [eauto|]|done].
  Qed.

  (** [compact_nodes] *)
  Lemma m_compact_nodes_ok : exists m' log, m_compact_nodes m = Ok (m', log) /\ minv w m' [] /\ compact_nodes g = Ok (m_graph m', log) /\
    (forall o n, (o, n) ∈ log -> is_copy m' n = is_copy m o) /\
    (forall x, vis m' x <-> vis m x) /\ (forall x y, rlink m' x y <-> rlink m x y).
  Proof.
    destruct (C12_compact_nodes_pf w g R) as (g' & log & E & R' & L1 & L2 & L3 & L4 & HN & HP & Hpt & Hpn & _).
    assert (NDo : NoDup log.*1) by (by apply sorted_lt_nodup).
    assert (NDn : NoDup log.*2). { rewrite L2. apply NoDup_seq. }
    assert (Hr : forall o n, (o, n) ∈ log -> replay_swaps log (fun k => k) n = o).
    { intros o n Hin. by destruct (proj1 (C67_side_tables_pf w g nat 0 (fun k => k) R) g' log E o n Hin). }
    destruct (replay_flags log (m_copy m)) as (cp & Ecp & F1 & F2); [done| |].
    { intros x Hx. assert (contains_node g x = true) as Hn by (by eapply (copy_live w m)). apply L4, elem_of_list_fmap in Hn as ([o n] & -> & Hin). eauto. }
    set (m' := m_with_copy (m_with_graph m g') cp).
    exists m', log. split. { unfold m_compact_nodes. by rewrite E, bind_Ok, Ecp, bind_Ok. }
    set (S := fun o n => (o, n) ∈ log).
    assert (Hlen : node_count g = length log). { rewrite <- (fmap_length snd log), L2. by rewrite seq_length. }
    assert (A1 : forall n, contains_node g n = true -> exists n', S n n').
    { intros n Hn. apply L4, elem_of_list_fmap in Hn as ([o n'] & -> & Hin). by exists n'. }
    assert (A2 : forall n', contains_node g' n' = true -> exists n, S n n').
    { intros n' Hn'. apply HN in Hn'. assert (n' ∈ log.*2) as Hin by (rewrite L2; apply elem_of_seq; lia).
      apply elem_of_list_fmap in Hin as ([o ?] & -> & Hin). by exists o. }
    assert (A4 : forall n x y, S n x -> S n y -> x = y) by (intros n x y H1 H2; by apply (assoc_inj1 log n)).
    assert (A5 : forall n x y, S x n -> S y n -> x = y) by (intros n x y H1 H2; by apply (assoc_inj2 log n)).
    assert (Hpm : forall p n d, pmeta g p = Some (n, d) -> exists n', S n n' /\ pmeta g' p = Some (n', d)).
    { intros p n d Mp. destruct (A1 n) as [n' Hn']; [by eapply (r_node w g R)|]. exists n'. split; [done|].
      apply pm_of; [by apply (Hpn n n' p Hn'), (pm_node _ _ _ d)|]. destruct (Hpt p) as (_ & -> & _). by eapply pm_dir. }
    assert (Hsome : forall p, is_Some (pmeta g' p) <-> is_Some (pmeta g p)).
    { intros p. rewrite <- !contains_port_true. destruct (Hpt p) as (-> & _). done. }
    assert (Hlk : forall p, lk g' p = lk g p). { intros p. unfold lk. by destruct (Hpt p) as (_ & _ & ->). }
    assert (B1 : forall p, is_Some (pmeta g p) -> exists p', same_live p p') by (intros p Hp; by exists p).
    assert (B2 : forall p', is_Some (pmeta g' p') -> exists p, same_live p p').
    { intros p Hp. exists p. split; [|done]. by apply Hsome. }
    assert (B3 : forall p p', same_live p p' -> exists n n' d, pmeta g p = Some (n, d) /\ pmeta g' p' = Some (n', d) /\ S n n').
    { intros p p' [[[n d] Mp] ->]. destruct (Hpm _ _ _ Mp) as (n' & ? & ?). by exists n, n', d. }
    assert (B4 : forall n x y, same_live n x -> same_live n y -> x = y) by (intros n x y [_ ->] [_ ->]; done).
    assert (B5 : forall n x y, same_live x n -> same_live y n -> x = y) by (intros n x y [_ ->] [_ ->]; done).
    assert (D1 : forall n n' d, S n n' -> Forall2 same_live (ports g n d) (ports g' n' d)).
    { intros n n' d Hn. rewrite (HP n n' d Hn). apply Forall_Forall2_diag, Forall_forall. intros x Hx%(r_elem w g R). split; [eauto|done]. }
    assert (D2 : forall p p' q q', same_live p p' -> same_live q q' -> lk g p = Some q <-> lk g' p' = Some q').
    { intros p p' q q' [_ ->] [_ ->]. by rewrite Hlk. }
    assert (E1 : forall p p', same_live p p' -> is_multi m' p' = is_multi m p) by (intros p p' [_ ->]; done).
    assert (E2 : forall p', is_multi m' p' = true -> is_Some (pmeta g' p')).
    { intros p Fp. apply Hsome. by eapply (flag_live w m). }
    assert (E3 : forall n n', S n n' -> is_copy m' n' = is_copy m n).
    { intros n n' Hn. by apply F1. }
    assert (E4 : forall n', is_copy m' n' = true -> contains_node g' n' = true).
    { intros n' Hn'. destruct (F2 n' Hn') as [o Ho]. apply HN. assert (n' ∈ log.*2) as Hin by (apply elem_of_list_fmap; by exists (o, n')).
      rewrite L2 in Hin. apply elem_of_seq in Hin. lia. }
    split; [by apply (iso_minv w m m' I R' S same_live)|].
    pose proof (iso_rlink w m m' I R' S same_live) as RL. do 17 (specialize (RL ltac:(done))).
    pose proof (iso_vis m m' S same_live) as HV. do 2 (specialize (HV ltac:(done))).
    split; [done|]. split; [done|].
    assert (HV' : forall x, vis m' x <-> vis m x).
    { intros x. destruct (pmeta g x) as [y|] eqn:Mx; [apply HV; split; [eauto|done]|].
      assert (pmeta g' x = None) as Mx'. { destruct (pmeta g' x) eqn:Mx'; [|done]. destruct (proj1 (Hsome x)); [eauto|congruence]. }
      split; intros (? & ? & M & _); cbn in M; congruence. }
    split; [done|]. intros x y. rewrite RL. split.
    - intros (x0 & y0 & [_ Q1] & [_ Q2] & H). destruct x, y; cbn in *. by subst.
    - intros H. pose proof H as ((? & ? & M1 & _) & (? & ? & M2 & _) & _). exists x.1, y.1. destruct x, y. split; [by split; [eauto|]|]. split; [by split; [eauto|]|done].
  Qed.

  (** [compact_ports] *)
  Lemma m_compact_ports_ok : (forall n, ~ hollow g n) -> exists m' log, m_compact_ports m = Ok (m', log) /\ minv w m' [] /\ compact_ports g = Ok (m_graph m', log) /\
    m_copy m' = m_copy m /\
    (forall p p', (p, p') ∈ log -> is_multi m' p' = is_multi m p) /\
    (forall p p', (p, p') ∈ log -> vis m' p' <-> vis m p) /\
    (forall x y, rlink m' x y <-> exists x0 y0, (x0, x.1) ∈ log /\ (y0, y.1) ∈ log /\ rlink m (x0, x.2) (y0, y.2)).
  Proof.
    intros Hh. destruct (C13_compact_ports_pf w g R Hh) as (g' & log & E & R' & L1 & L2 & L3 & L4 & HP & HN & Hnp & Hat & Hlk & _).
    assert (NDo : NoDup log.*1) by (by apply sorted_lt_nodup).
    assert (NDn : NoDup log.*2). { rewrite L2. apply NoDup_seq. }
    assert (Hr : forall o n, (o, n) ∈ log -> replay_swaps log (fun k => k) n = o).
    { intros o n Hin. by destruct (proj2 (C67_side_tables_pf w g nat 0 (fun k => k) R) Hh g' log E o n Hin). }
    destruct (replay_flags log (m_multi m)) as (fl & Efl & F1 & F2); [done| |].
    { intros x Hx. assert (contains_port g x = true) as Hn by (apply contains_port_true; by eapply (flag_live w m)). apply L4, elem_of_list_fmap in Hn as ([o n] & -> & Hin). eauto. }
    set (m' := m_with_multi (m_with_graph m g') fl).
    exists m', log. split. { unfold m_compact_ports. by rewrite E, bind_Ok, Efl, bind_Ok. }
    set (S := fun n n' => contains_node g n = true /\ n' = n). set (T := fun p p' => (p, p') ∈ log).
    assert (A1 : forall n, contains_node g n = true -> exists n', S n n') by (intros n Hn; by exists n).
    assert (A2 : forall n', contains_node g' n' = true -> exists n, S n n').
    { intros n' Hn'. exists n'. split; [|done]. by rewrite <- HN. }
    assert (A4 : forall n x y, S n x -> S n y -> x = y) by (intros n x y [_ ->] [_ ->]; done).
    assert (A5 : forall n x y, S x n -> S y n -> x = y) by (intros n x y [_ ->] [_ ->]; done).
    assert (B1 : forall p, is_Some (pmeta g p) -> exists p', T p p').
    { intros p Hp%contains_port_true. apply L4, elem_of_list_fmap in Hp as ([o p'] & -> & Hin). by exists p'. }
    assert (B2 : forall p', is_Some (pmeta g' p') -> exists p, T p p').
    { intros p' Hp'%contains_port_true. apply HP in Hp'. assert (p' ∈ log.*2) as Hin by (rewrite L2; apply elem_of_seq; lia).
      apply elem_of_list_fmap in Hin as ([o ?] & -> & Hin). by exists o. }
    assert (B3 : forall p p', T p p' -> exists n n' d, pmeta g p = Some (n, d) /\ pmeta g' p' = Some (n', d) /\ S n n').
    { intros p p' Hp. assert (contains_port g p = true) as [[n d] Mp]%contains_port_true by (apply L4, elem_of_list_fmap; by exists (p, p')).
      exists n, n, d. split; [done|]. destruct (r_pos w g R _ _ _ Mp) as [k Hk]. split; [|split; [by eapply (r_node w g R)|done]].
      apply (r_look w g' R' p' n d k). by apply (Hat p p' n d k Hp). }
    assert (B4 : forall n x y, T n x -> T n y -> x = y) by (intros n x y H1 H2; by apply (assoc_inj1 log n)).
    assert (B5 : forall n x y, T x n -> T y n -> x = y) by (intros n x y H1 H2; by apply (assoc_inj2 log n)).
    assert (D1 : forall n n' d, S n n' -> Forall2 T (ports g n d) (ports g' n' d)).
    { intros n n' d [Hn ->]. apply Forall2_same_length_lookup. split; [by rewrite !(r_len), Hnp|].
      intros k x y Hx Hy. destruct (B1 x) as [x' Hx']; [rewrite (r_look w g R _ _ _ _ Hx); eauto|].
      pose proof (proj2 (Hat x x' n d k Hx') Hx) as Hy'. unfold port_at in Hy'. rewrite Hy in Hy'. by injection Hy' as ->. }
    assert (D2 : forall p p' q q', T p p' -> T q q' -> lk g p = Some q <-> lk g' p' = Some q').
    { intros p p' q q' H1 H2. rewrite <- !linked_lk. by rewrite (Hlk p p' q q' H1 H2). }
    assert (E1 : forall p p', T p p' -> is_multi m' p' = is_multi m p) by (intros p p' Hp; by apply F1).
    assert (E2 : forall p', is_multi m' p' = true -> is_Some (pmeta g' p')).
    { intros p Fp. destruct (F2 p Fp) as [o Ho]. destruct (B3 o p Ho) as (? & ? & ? & _ & M & _). eauto. }
    assert (E3 : forall n n', S n n' -> is_copy m' n' = is_copy m n) by (intros n n' [_ ->]; done).
    assert (E4 : forall n', is_copy m' n' = true -> contains_node g' n' = true).
    { intros n' Hn'. rewrite HN. by eapply (copy_live w m). }
    split; [by apply (iso_minv w m m' I R' S T)|].
    pose proof (iso_rlink w m m' I R' S T) as RL. do 17 (specialize (RL ltac:(done))).
    pose proof (iso_vis m m' S T) as HV. do 2 (specialize (HV ltac:(done))).
    done.
  Qed.
End renum.
