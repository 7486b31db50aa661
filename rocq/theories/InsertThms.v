(** Proofs of properties C98 and C99. *)
From Verif Require Export InsertMulti BoundThms.

(** The graph that the ports of each kind of view come from *)
Lemma over_pg g : view_over (lv_of_pg g) g.
Proof. by split_and!. Qed.
Lemma over_m w m : view_over (lv_of_m w m) (m_graph m).
Proof. by split_and!. Qed.
Lemma over_filtered {E} (V : lview E) og nf lf : view_over V og -> view_over (filtered V nf lf) og.
Proof. intros H. exact H. Qed.
Lemma over_subgraph {E} (V : lview E) og nodes : view_over V og -> view_over (subgraph V nodes) og.
Proof. intros H. exact H. Qed.

Section counts.
  Context {E} (V : lview E) (Nn : nat -> Prop) (Rl : E -> E -> Prop) (HS : shows V Nn Rl).
  Lemma plinks_bound B : (forall p l, port_in V Nn p -> lv_plinks V p = HOk l -> length l <= B) ->
    forall p l, NoDup l -> (forall x, x ∈ l -> lv_port V x = p /\ exists y, Rl x y) -> length l <= B.
  Proof.
    intros Hb p l Hnd Hl.
    assert (H : exists l2, l2.*1 = l /\ forall x y, (x, y) ∈ l2 -> lv_port V x = p /\ Rl x y).
    { clear Hnd. induction l as [|x l IH]; [exists []; split; [done|]; intros ? ? []%elem_of_nil|].
      destruct IH as (l2 & <- & H2); [intros; apply Hl; by right|]. destruct (Hl x) as [Hx [y Hy]]; [by left|].
      exists ((x, y) :: l2). split; [done|]. intros a b [[= -> ->]|Hab]%elem_of_cons; [done|by apply H2]. }
    destruct H as (l2 & <- & H2). destruct l2 as [|[x y] l3] eqn:El; [cbn; lia|]. rewrite <- El in *.
    assert (Hp : port_in V Nn p). { destruct (H2 x y) as [<- Hr]; [rewrite El; by left|]. by apply (lvs_end _ _ _ HS _ _ Hr). }
    destruct (lvs_plinks _ _ _ HS p Hp) as (l & Epl & Hln & Hle). rewrite fmap_length.
    etransitivity; [|exact (Hb p l Hp Epl)]. apply submseteq_length, NoDup_submseteq.
    - by eapply NoDup_fmap_1.
    - intros [a b] Hab. apply Hle. by apply H2.
  Qed.
  Lemma links_bound Ks K : link_list V Rl Ks -> NoDup K -> (forall x y, (x, y) ∈ K -> Rl x y /\ (y, x) ∉ K) -> length K <= length Ks.
  Proof.
    intros [Hn Hks] Hnd HK.
    set (f := fun z : E * E => if decide (lv_pdir V (lv_port V z.1) = Some Outgoing) then z else (z.2, z.1)).
    rewrite <- (fmap_length f K). apply submseteq_length, NoDup_submseteq.
    - apply NoDup_fmap_2_strong; [|done]. intros [x y] [a b] H1 H2. unfold f. cbn.
      destruct (HK _ _ H1) as [_ Q1], (HK _ _ H2) as [_ Q2].
      destruct (decide _), (decide _); intros [= -> ->]; done.
    - intros z ([x y] & -> & Hz)%elem_of_list_fmap. destruct (HK _ _ Hz) as [Hr _]. unfold f. cbn.
      destruct (decide _) as [Ed|Ed]; apply Hks; [done|]. split; [by apply (lvs_sym _ _ _ HS)|].
      destruct (lv_pdir V (lv_port V x)) as [[]|] eqn:Ex; [|done|].
      + apply (lvs_opp _ _ _ HS _ _ _ Hr Ex).
      + destruct (lvs_end _ _ _ HS _ _ Hr) as (n & Hn' & _). by destruct (lvs_dir _ _ _ HS (lv_port V x) ltac:(congruence)).
  Qed.
End counts.


Lemma C98_insert_view_pf :
forall E {HE : EqDecision E} (V : lview E) N Rl og w ops g L, (1 < w <= 63)%N -> hist w ops g ->
  shows V N Rl -> view_over V og -> reach w og -> lv_nodes V = HOk L ->
  (forall n d, N n -> (N.of_nat (num_ports og n d) <= po_max_offset w)%N) ->
  (N.of_nat (sum_list (node_cost <$> ops) + length L) <= 2 ^ 31 - 1)%N ->
  (N.of_nat (sum_list (port_cost <$> ops) + sum_list (n_ports og <$> L)) <= 2 ^ 31 - 1)%N ->
  exists g' r, t_insert w (t_pg w) V og g = HOk (g', r) /\ reach w g' /\
    (forall n, contains_node g n = true -> contains_node g' n = true /\ forall d, ports g' n d = ports g n d) /\
    (forall p q, contains_port g p = true -> linked g' p q <-> linked g p q) /\
    match r with
    | inr R => one_link V Rl /\ nodes_copied L og g g' (fun n => contains_node g n = true) (fun n => contains_node g' n = true) R /\
        exists f, links_copied V Rl og g' id (linked g) (linked g') R f
    | inl e => ~ one_link V Rl /\ exists p, e = AlreadyLinked p
    end.
Proof.
  intros E HE V N Rl og w ops g L Hw Hh HS HV Hro HL Hmax Hb1 Hb2.
  destruct (lvs_nodes _ _ _ HS) as (L' & EL & HLnd & HLn & _). rewrite HL in EL. injection EL as <-.
  pose proof (t_insert_ok w Hw (t_pg w) contains_node linked id V N Rl og HS HV Hro Hmax L HL HLnd HLn False False
    (fun R _ s => pg_good w ops og R s) 0 0 ltac:(done) ltac:(done) (fun R _ s H => pg_good_reach w ops og R s H)
    (fun R _ s old HG => pg_H_add w Hw ops N og Hro Hmax L Hb1 Hb2 R s old HG)
    (fun R _ s a b na nb d HG _ _ _ => pg_H_link w Hw ops N og Hmax L Hb1 Hb2 R s a b na nb d HG)
    (fun R _ s x y HG => pg_H_end w s x y (pg_good_reach w ops og R s HG))
    g (pg_good_nil w ops g Hh og)) as HI.
  destruct (t_insert w (t_pg w) V og g) as [[g' r]| |]; [|done|done]. exists g', r. cbn in HI. split; [done|].
  assert (HK : forall R K M, vins (t_pg w) contains_node linked id V N Rl og (fun R _ s => pg_good w ops og R s) g R K M g' ->
    reach w g' /\ (forall n, contains_node g n = true -> contains_node g' n = true /\ forall d, ports g' n d = ports g n d) /\
    (forall p q, contains_port g p = true -> linked g' p q <-> linked g p q)).
  { intros R K M X. split; [eapply pg_good_reach, (vi_good _ _ _ _ _ _ _ _ _ _ _ _ _ _ X)|].
    pose proof (vins_kept w Hw (t_pg w) contains_node linked id V N Rl og (fun R _ s => pg_good w ops og R s)
      (fun R _ s H => pg_good_reach w ops og R s H) g R K M g' X) as [K1 K2]. split; [exact K1|].
    intros p q Hp. apply K2. apply contains_port_true in Hp as [[n d] Hm].
    pose proof (reach_inv _ _ (ex_intro _ ops Hh)) as (f & F & I). destruct (pmeta_port_at _ _ _ I _ _ _ Hm) as [k Hk].
    destruct (pmeta_nmeta _ _ _ I _ _ _ Hm) as [mm Hmm]. exists n, d.
    split; [by apply contains_node_true; eauto|]. by eapply elem_of_list_lookup_2. }
  destruct r as [e|R].
  - destruct HI as ((_ & H1 & H2) & R & K & M & X). destruct (HK _ _ _ X) as (Q1 & Q2 & Q3). done.
  - destruct HI as (K & M & X & HF & HR). destruct (HK _ _ _ X) as (Q1 & Q2 & Q3).
    pose proof (vins_links w Hw (t_pg w) contains_node linked id V N Rl og HS L HLn (fun R _ s => pg_good w ops og R s)
      (fun R _ s H => pg_good_reach w ops og R s H) (fun R _ s x y HG => pg_H_end w s x y (pg_good_reach w ops og R s HG))
      g (pg_good_nil w ops g Hh og) 0 R K M g' X HF HR) as HLk.
    split; [done|]. split; [done|]. split; [done|]. split; [|split; [|by eexists]].
    + intros x y x' y' H1 H2 Ep. assert (Ex : x = x').
      { apply (lc_inj _ _ _ _ _ _ _ _ _ HLk _ _ _ _ H1 H2).
        pose proof (lc_end _ _ _ _ _ _ _ _ _ HLk _ _ H1) as C1. pose proof (lc_end _ _ _ _ _ _ _ _ _ HLk _ _ H2) as C2.
        rewrite <- Ep in C2. exact (cop_fun w Hw (t_pg w) _ _ _ _ _ _ _ Hro _ _ _ _ _ _ _ _ _ X C1 C2). }
      subst x'. split; [done|]. by eapply (lvs_fun _ _ _ HS).
    + eapply (vins_nodes (t_pg w)); [exact X|done].
Qed.

Lemma C99_multi_insert_pf :
forall E {HE : EqDecision E} (V : lview E) N Rl og w m L Ks, (2 < w <= 63)%N -> mreach w m ->
  shows V N Rl -> view_over V og -> reach w og -> lv_nodes V = HOk L -> link_list V Rl Ks ->
  (forall n d, N n -> (N.of_nat (num_ports og n d) <= po_max_offset w)%N) ->
  (forall p l, port_in V N p -> lv_plinks V p = HOk l -> (N.of_nat (length l) <= N.min (po_max_offset w + 1) 32767)%N) ->
  (N.of_nat (length (pg_nodes (m_graph m)) + length L + 2 * length Ks) <= 2 ^ 31 - 1)%N ->
  (N.of_nat (length (pg_pmeta (m_graph m)) + sum_list (n_ports og <$> L)) + 65536 * N.of_nat (length Ks) <= 2 ^ 31 - 1)%N ->
  exists m' R, t_insert w (t_m w) V og m = HOk (m', inr R) /\ mreach w m' /\
    nodes_copied L og (m_graph m) (m_graph m') (fun n => m_contains_node m n = true) (fun n => m_contains_node m' n = true) R /\
    exists f, links_copied V Rl og (m_graph m') fst (mlinked w m) (mlinked w m') R f.
Proof.
  intros E HE V N Rl og w m L Ks Hw Hm HS HV Hro HL HKs Hmax HB Hb1 Hb2. assert (Hw1 : (1 < w <= 63)%N) by lia.
  destruct (lvs_nodes _ _ _ HS) as (L' & EL & HLnd & HLn & _). rewrite HL in EL. injection EL as <-.
  set (B := N.to_nat (N.min (po_max_offset w + 1) 32767)).
  assert (HB1 : (N.of_nat B <= po_max_offset w + 1)%N) by (unfold B; lia). assert (HB2 : (N.of_nat B <= 32767)%N) by (unfold B; lia).
  assert (HBB : forall p l, NoDup l -> (forall x, x ∈ l -> lv_port V x = p /\ exists y, Rl x y) -> length l <= B).
  { apply (plinks_bound V N Rl HS B). intros p l Hp Hl. specialize (HB p l Hp Hl). unfold B. lia. }
  pose proof (t_insert_ok w Hw1 (t_m w) m_contains_node (mlinked w) fst V N Rl og HS HV Hro Hmax L HL HLnd HLn False True
    (m_good w og L (length Ks)) B (length Ks) (fun _ => HBB) (fun _ K => links_bound V N Rl HS Ks K HKs) (fun R j s H => m_good_reach w Hw og L (length Ks) R j s H)
    (fun R j s old HG => m_H_add w Hw m og Hro L N Hmax B (length Ks) HB1 HB2 Hb1 Hb2 R j s old HG)
    (fun R j s a b na nb d HG => m_H_link w Hw og L B (length Ks) HB1 HB2 R j s a b na nb d HG)
    (fun R j s x y HG => m_H_end w Hw og L (length Ks) R j s x y HG)
    m (m_good_nil w Hw m Hm og L N Hmax B (length Ks) HB1 HB2 Hb1 Hb2)) as HI.
  destruct (t_insert w (t_m w) V og m) as [[m' r]| |]; [|done|done]. cbn in HI.
  destruct r as [e|R]; [destruct HI as [[[] _] _]; exact Logic.I|]. destruct HI as (K & M & X & HF & HR).
  pose proof (vi_good _ _ _ _ _ _ _ _ _ _ _ _ _ _ X) as [Hr' _].
  exists m', R. split; [done|]. split; [done|]. split.
  - eapply (vins_nodes (t_m w)); [exact X|done].
  - eexists. eapply (vins_links w Hw1 (t_m w) m_contains_node (mlinked w) fst V N Rl og HS L HLn (m_good w og L (length Ks))
      (fun R j s H => m_good_reach w Hw og L (length Ks) R j s H) (fun R j s x y HG => m_H_end w Hw og L (length Ks) R j s x y HG)
      m (m_good_nil w Hw m Hm og L N Hmax B (length Ks) HB1 HB2 Hb1 Hb2) (0, 0) R K M m' X HF HR).
Qed.
