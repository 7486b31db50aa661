(** Lemmas for the generated graphs. *)
From Verif Require Export GenSpec InsertThms.

Lemma zip_elem {A B} (l : list A) (k : list B) x : x ∈ zip l k -> x.1 ∈ l /\ x.2 ∈ k.
Proof.
  revert k. induction l as [|a l IH]; intros [|b k]; cbn; try (by intros []%elem_of_nil).
  intros [->|H]%elem_of_cons; [split; by left|]. destruct (IH k H). split; by right.
Qed.
Lemma zip_nodup_fst {A B} (l : list A) (k : list B) : NoDup l -> NoDup (zip l k).*1.
Proof.
  intros H. revert k. induction H as [|a l Ha H IH]; intros [|b k]; cbn; try constructor; [|done].
  intros (x & -> & Hx)%elem_of_list_fmap. by apply zip_elem in Hx as [? _].
Qed.
Lemma zip_nodup_snd {A B} (l : list A) (k : list B) : NoDup k -> NoDup (zip l k).*2.
Proof.
  intros H. revert l. induction H as [|b k Hb H IH]; intros [|a l]; cbn; try constructor; [|done].
  intros (x & -> & Hx)%elem_of_list_fmap. by apply zip_elem in Hx as [_ ?].
Qed.
Lemma zip_len {A B} (l : list A) (k : list B) : length (zip l k) = Nat.min (length l) (length k).
Proof. revert k. induction l as [|a l IH]; intros [|b k]; cbn; [done..|]. by rewrite IH. Qed.
Lemma filter_once {A B} `{EqDecision B} (f : A -> B) (l : list A) b : NoDup (f <$> l) -> length (filter (fun x => f x = b) l) <= 1.
Proof.
  induction l as [|x l IH]; [cbn; lia|]. cbn [fmap list_fmap]. intros [Hx Hn]%NoDup_cons. rewrite filter_cons.
  destruct (decide (f x = b)) as [<-|]; [|by apply IH]. cbn.
  destruct (filter (fun y => f y = f x) l) as [|y k] eqn:E; [done|]. exfalso. apply Hx.
  assert (y ∈ filter (fun y => f y = f x) l) as [Hy Hl]%elem_of_list_filter by (rewrite E; by left). rewrite <- Hy. by apply elem_of_list_fmap_1.
Qed.
Lemma mapM_Forall2 {A B} (f : A -> res B) l (Q : A -> B -> Prop) : (forall x, x ∈ l -> exists y, f x = Ok y /\ Q x y) ->
  exists k, mapM f l = Ok k /\ Forall2 Q l k.
Proof.
  induction l as [|x l IH]; intros H; [by exists []|]. destruct (H x) as (y & Ey & Qy); [by left|].
  destruct IH as (k & Ek & Qk); [intros z Hz; apply H; by right|]. exists (y :: k). cbn. rewrite Ey. cbn [mbind res_bind]. rewrite Ek. cbn. auto.
Qed.

Lemma lists_nodes_len vs es maxn maxp : lists_nodes vs es -> Forall (fun e => forall d, in_sizes maxn maxp (edge_end d e)) es -> length vs <= maxn - 1.
Proof.
  intros [Hnd Hv] Hf. rewrite <- (seq_length (maxn - 1) 1). apply submseteq_length, NoDup_submseteq; [done|].
  intros v (e & d & He & <-)%Hv. rewrite Forall_forall in Hf. destruct (Hf e He d) as [H _]. apply elem_of_seq. lia.
Qed.

Section gen.
  Context {S E' : Type} (w : N) (Hw : (1 < w <= 63)%N) (T : target S (E' * E')).
  Context (has : S -> nat -> bool) (rel : S -> E' -> E' -> Prop) (endp : E' -> nat) (count : S -> res nat).
  (** [Good nn np nl s]: there is room for [nn] nodes, [np] ports and [nl] links. *)
  Context (Good : nat -> nat -> nat -> S -> Prop) (B : nat) (s0 : S).
  Notation G s := (t_graph T s).
  Notation edge := ((nat * nat) * (nat * nat))%type.
  Context (H_reach : forall nn np nl s, Good nn np nl s -> reach w (G s)).
  Context (H_weak : forall nn np nl nn' np' nl' s, Good nn np nl s -> nn' <= nn -> np' <= np -> nl' <= nl -> Good nn' np' nl' s).
  Context (H_add : forall nn np nl s i j, Good (nn + 1) (np + (i + j)) nl s ->
    (N.of_nat i <= N.min (po_max_offset w) 32767)%N -> (N.of_nat j <= N.min (po_max_offset w) 32767)%N ->
    exists s' n, t_add T s i j = Ok (s', n) /\ Good nn np nl s' /\ has s n = false /\ has s' n = true /\
      num_ports (G s') n Incoming = i /\ num_ports (G s') n Outgoing = j /\
      (forall x, x <> n -> has s' x = has s x) /\ (forall x d, x <> n -> has s x = true -> ports (G s') x d = ports (G s) x d) /\
      (forall x y, rel s' x y <-> rel s x y)).
  Notation below s a := (forall l, NoDup l -> (forall z, z ∈ l -> endp z = a /\ exists v, rel s z v) -> length l < B).
  Context (H_link : forall nn np nl s a b na nb, Good nn np (nl + 1) s -> below s a -> below s b -> has s na = true -> has s nb = true ->
    a ∈ ports (G s) na Outgoing -> b ∈ ports (G s) nb Incoming ->
    exists s' r, t_link T s a b = Ok (s', inr r) /\ Good nn np nl s' /\ (forall x, has s' x = has s x) /\
      (forall x d, has s x = true -> ports (G s') x d = ports (G s) x d) /\
      exists x y, endp x = a /\ endp y = b /\ (forall z, ~ rel s x z) /\ (forall z, ~ rel s y z) /\ x <> y /\
          forall u v, rel s' u v <-> rel s u v \/ (u = x /\ v = y) \/ (u = y /\ v = x)).
  Context (H_count : forall nn np nl s, Good nn np nl s -> exists c, count s = Ok c /\ (c = 0 <-> forall n, has s n = false)).
  Context (H0n : forall n, has s0 n = false) (H0r : forall x y, ~ rel s0 x y).

  (** The value of an edge *)
  Definition ge_of (e : edge) (ge : tedge) : Prop :=
    te_sv ge = e.1.1 /\ te_tv ge = e.2.1 /\ po_new w Outgoing (N.of_nat e.1.2) = Ok (te_sp ge) /\ po_new w Incoming (N.of_nat e.2.2) = Ok (te_tp ge).
  Definition small (e : edge) : Prop := (forall d, N.of_nat (edge_end d e).2 < N.min (po_max_offset w) 32767)%N.

  (** ** The port counts *)
  Definition cnt (c : gmap nat nat * gmap nat nat) (d : dir) (v : nat) : nat := match d with Incoming => default 0 (c.1 !! v) | Outgoing => default 0 (c.2 !! v) end.
  Lemma add_port_ok c v d k o : (N.of_nat k <= po_max_offset w)%N -> po_new w d (N.of_nat k) = Ok o ->
    exists c', add_port w c v o = Ok c' /\ forall d' v', cnt c' d' v' = if decide (d' = d /\ v' = v) then Nat.max (cnt c d v) (k + 1) else cnt c d' v'.
  Proof.
    intros Hk Ho. destruct (po_new_ok w d (N.of_nat k)) as (o' & Eo & Ed & Ei); [lia|done|]. rewrite Ho in Eo. injection Eo as <-.
    unfold add_port. rewrite Ed. cbn [mbind res_bind]. rewrite Ei. cbn [mbind res_bind]. rewrite Nat2N.id. eexists. split; [done|].
    intros d' v'. destruct d, d'; cbn [cnt fst snd]; destruct (decide _) as [[? ->]|Hn]; try done; try (by rewrite lookup_insert);
      rewrite lookup_insert_ne; try done; intros ->; by apply Hn.
  Qed.
  Lemma count_ports_ok es ges c : Forall2 ge_of es ges -> Forall small es -> exists c', count_ports w ges c = Ok c' /\
    forall d v k, k < cnt c' d v <-> k < cnt c d v \/ exists e, e ∈ es /\ (edge_end d e).1 = v /\ k <= (edge_end d e).2.
  Proof.
    intros HF. revert c. induction HF as [|e ge es ges (Q1 & Q2 & Q3 & Q4) HF IH]; intros c Hs.
    { exists c. split; [done|]. intros d v k. split; [by left|]. intros [H|(e & []%elem_of_nil & _)]; done. }
    apply Forall_cons in Hs as [He Hs]. cbn [count_ports]. rewrite Q1, Q2.
    destruct (add_port_ok c e.1.1 Outgoing e.1.2 (te_sp ge)) as (c1 & -> & C1); [|exact Q3|]. { specialize (He Outgoing). cbn in He. lia. }
    cbn [mbind res_bind]. destruct (add_port_ok c1 e.2.1 Incoming e.2.2 (te_tp ge)) as (c2 & -> & C2); [|exact Q4|]. { specialize (He Incoming). cbn in He. lia. }
    cbn [mbind res_bind]. destruct (IH c2 Hs) as (c' & -> & C'). exists c'. split; [done|]. intros d v k. rewrite C', C2.
    assert (HX : k < (if decide (d = Incoming /\ v = e.2.1) then Nat.max (cnt c1 Incoming e.2.1) (e.2.2 + 1) else cnt c1 d v) <->
      k < cnt c d v \/ (edge_end d e).1 = v /\ k <= (edge_end d e).2).
    { destruct (decide (d = Incoming /\ v = e.2.1)) as [[-> ->]|Hn].
      - rewrite C1, decide_False by (by intros [? _]). cbn. split; [intros; destruct (decide (k < cnt c Incoming e.2.1)); [by left|right; split; [done|unfold cnt in *; lia]]|].
        unfold cnt. lia.
      - rewrite C1. destruct (decide (d = Outgoing /\ v = e.1.1)) as [[-> ->]|Hn'].
        + cbn [edge_end]. split; [intros; destruct (decide (k < cnt c Outgoing e.1.1)); [by left|right; split; [done|unfold cnt in *; lia]]|]. unfold cnt. lia.
        + split; [by left|]. intros [H|[Hv _]]; [done|]. destruct d; cbn in Hv; subst v; [by destruct Hn|by destruct Hn']. }
    rewrite HX. split.
    - intros [[H|[H1 H2]]|(e' & He' & H)]; [by left|right; exists e; split; [by left|done]|right; exists e'; split; [by right|done]].
    - intros [H|(e' & [->|He']%elem_of_cons & H)]; [by left; left|left; by right|right; by exists e'].
  Qed.

  (** ** The nodes *)
  Record nst (c : gmap nat nat * gmap nat nat) (R : list (nat * nat)) (s : S) : Prop := {
    n_has n : has s n = true <-> n ∈ R.*2;
    n_nd : NoDup R.*2;
    n_num v n d : (v, n) ∈ R -> num_ports (G s) n d = cnt c d v;
    n_rel x y : ~ rel s x y;
  }.
  Lemma gen_nodes_ok c P vs R s nn nl : (forall d v, cnt c d v <= P) -> (N.of_nat P <= N.min (po_max_offset w) 32767)%N ->
    nst c R s -> Good (nn + length vs) (2 * P * length vs) nl s ->
    exists s' R', gen_nodes T c vs R s = Ok (s', R') /\ R'.*1 = R.*1 ++ vs /\ nst c R' s' /\ Good nn 0 nl s'.
  Proof.
    intros HP HPw. revert R s. induction vs as [|v vs IH]; intros R s N Hg.
    { exists s, R. rewrite app_nil_r. split_and!; try done. eapply H_weak; [done|cbn; lia..]. }
    cbn [gen_nodes]. pose proof (HP Incoming v) as P1. pose proof (HP Outgoing v) as P2. cbn [cnt] in P1, P2. set (i := default 0 (c.1 !! v)) in *. set (j := default 0 (c.2 !! v)) in *.
    destruct (H_add (nn + length vs) (2 * P * length vs) nl s i j) as (s1 & n & Ea & Hg' & A1 & A2 & A3 & A4 & A5 & A6 & A7).
    { eapply H_weak; [done|cbn; nia..]. } { lia. } { lia. }
    rewrite Ea. cbn [mbind res_bind]. destruct (IH (R ++ [(v, n)]) s1) as (s' & R' & E1 & E2 & N' & Hg2); [|done|].
    - assert (Hn : n ∉ R.*2) by (intros Hn%(n_has _ _ _ N); congruence). split.
      + intros x. rewrite fmap_app, elem_of_app. cbn. rewrite elem_of_list_singleton. destruct (decide (x = n)) as [->|Hx]; [tauto|]. rewrite A5 by done.
        rewrite (n_has _ _ _ N). tauto.
      + rewrite fmap_app. cbn. apply NoDup_app. split; [apply N|]. split; [intros x Hx ->%elem_of_list_singleton; done|apply NoDup_singleton].
      + intros u x d [Hu|[= -> ->]%elem_of_list_singleton]%elem_of_app.
        * rewrite <- (n_num _ _ _ N _ _ _ Hu), <- !ports_length. assert (Hx : x ∈ R.*2) by (by apply (elem_of_list_fmap_1 snd) in Hu).
          rewrite A6; [done|by intros ->|by apply (n_has _ _ _ N)].
        * by destruct d.
      + intros x y H%A7. by apply (n_rel _ _ _ N) in H.
    - exists s', R'. rewrite E2, fmap_app, <- app_assoc. done.
  Qed.

  (** ** The links *)
  Definition placed (R : list (nat * nat)) (s : S) (e : edge) (k : E' * E') : Prop := exists a b, (e.1.1, a) ∈ R /\ (e.2.1, b) ∈ R /\
    port_at (G s) a Outgoing e.1.2 (endp k.1) /\ port_at (G s) b Incoming e.2.2 (endp k.2).
  Lemma filter_le {A C} (P : A -> Prop) (Q : C -> Prop) `{!forall x, Decision (P x)} `{!forall x, Decision (Q x)} (X : A -> C -> Prop) l k :
    Forall2 X l k -> (forall a c, X a c -> Q c -> P a) -> length (filter Q k) <= length (filter P l).
  Proof.
    intros HF HX. induction HF as [|a c l k Hac HF IH]; [done|]. rewrite !filter_cons.
    destruct (decide (Q c)) as [Hq|Hq].
    - rewrite decide_True by (by eapply HX). cbn. lia.
    - destruct (decide (P a)); cbn; lia.
  Qed.
  Section links.
  Context (R : list (nat * nat)) (HR1 : NoDup R.*1) (HR2 : NoDup R.*2) (s1 : S).
  Context (HR : forall n, has s1 n = true <-> n ∈ R.*2).
  Context (all : list edge) (Hsm : Forall small all) (HB : forall d x, length (filter (fun e => edge_end d e = x) all) <= B).
  Context (Hnum : forall v n d e, (v, n) ∈ R -> e ∈ all -> (edge_end d e).1 = v -> (edge_end d e).2 < num_ports (G s1) n d).
  Context (Hin : forall e d, e ∈ all -> (edge_end d e).1 ∈ R.*1).
  Record lst (done : list edge) (K : list (E' * E')) (s : S) : Prop := {
    l_has n : has s n = has s1 n;
    l_ports n d : has s1 n = true -> ports (G s) n d = ports (G s1) n d;
    l_edges : Forall2 (placed R s) done K;
    l_nd : NoDup (K.*1 ++ K.*2);
    l_rel x y : rel s x y <-> (x, y) ∈ K \/ (y, x) ∈ K;
  }.
  Lemma al_R v : v ∈ R.*1 -> exists n, al_get R v = Some n /\ (v, n) ∈ R.
  Proof. intros ([v' n] & -> & Hn)%elem_of_list_fmap. exists n. split; [|done]. by apply al_get_some. Qed.
  Lemma port_same g n d k p n' d' k' : reach w g -> port_at g n d k p -> port_at g n' d' k' p -> n = n' /\ d = d' /\ k = k'.
  Proof. intros Hr H1 H2. destruct (C02_ports_and_nodes_pf w g Hw Hr) as (_ & _ & _ & _ & _ & HU & _). eapply HU; done. Qed.
  Lemma R_inj v n v' : (v, n) ∈ R -> (v', n) ∈ R -> v = v'.
  Proof.
    intros [i Hi]%elem_of_list_lookup_1 [j Hj]%elem_of_list_lookup_1. assert (i = j) as ->; [|congruence].
    eapply (NoDup_lookup R.*2); [done|by rewrite list_lookup_fmap, Hi|by rewrite list_lookup_fmap, Hj].
  Qed.
  Lemma below_ok d dn e rest K s nn np nl a n : all = dn ++ e :: rest -> lst dn K s -> Good nn np nl s ->
    ((edge_end d e).1, n) ∈ R -> port_at (G s) n d (edge_end d e).2 a -> below s a.
  Proof.
    intros Hall L Hg Hn Ha l Hnd Hl. pose proof (H_reach _ _ _ _ Hg) as Hr.
    set (f := fun k : E' * E' => match d with Outgoing => k.1 | Incoming => k.2 end).
    assert (Hlen : length l <= length (filter (fun k => endp (f k) = a) K)).
    { rewrite <- (fmap_length f). apply submseteq_length, NoDup_submseteq; [done|]. intros z Hz. destruct (Hl z Hz) as [Ez [v Hv]].
      assert (HK : exists k, k ∈ K /\ f k = z).
      { apply (l_rel _ _ _ L) in Hv as [Hv|Hv].
        - destruct d; [exfalso|by exists (z, v)]. pose proof (l_edges _ _ _ L) as HF.
          apply elem_of_list_lookup_1 in Hv as [i Hi]. destruct (Forall2_lookup_r _ _ _ _ _ HF Hi) as (e' & _ & (a' & b' & _ & _ & P1 & _)).
          cbn in P1. rewrite Ez in P1. by destruct (port_same _ _ _ _ _ _ _ _ Hr Ha P1) as (_ & ? & _).
        - destruct d; [by exists (v, z)|exfalso]. pose proof (l_edges _ _ _ L) as HF.
          apply elem_of_list_lookup_1 in Hv as [i Hi]. destruct (Forall2_lookup_r _ _ _ _ _ HF Hi) as (e' & _ & (a' & b' & _ & _ & _ & P1)).
          cbn in P1. rewrite Ez in P1. by destruct (port_same _ _ _ _ _ _ _ _ Hr Ha P1) as (_ & ? & _). }
      destruct HK as (k & Hk & <-). apply elem_of_list_fmap_1, elem_of_list_filter. done. }
    assert (Hle : length (filter (fun k => endp (f k) = a) K) <= length (filter (fun e' => edge_end d e' = edge_end d e) dn)).
    { eapply filter_le; [apply (l_edges _ _ _ L)|]. intros e' k (a' & b' & R1 & R2 & P1 & P2) Ek. unfold f in Ek. destruct d; cbn [edge_end] in *; rewrite Ek in *.
      - destruct (port_same _ _ _ _ _ _ _ _ Hr Ha P2) as (<- & _ & E). pose proof (R_inj _ _ _ Hn R2) as E1. clear - E E1; destruct (e'.2), (e.2); cbn in *; congruence.
      - destruct (port_same _ _ _ _ _ _ _ _ Hr Ha P1) as (<- & _ & E). pose proof (R_inj _ _ _ Hn R1) as E1. clear - E E1; destruct (e'.1), (e.1); cbn in *; congruence. }
    pose proof (HB d (edge_end d e)) as HBe. rewrite Hall, filter_app, app_length, filter_cons in HBe. rewrite decide_True in HBe by done. cbn [length] in HBe. lia.
  Qed.
  Lemma port_index_at n d k o g : (N.of_nat k <= po_max_offset w)%N -> po_new w d (N.of_nat k) = Ok o -> k < num_ports g n d ->
    exists p, port_index w g n o = Ok (Some p) /\ port_at g n d k p.
  Proof.
    intros Hk Ho Hlt. destruct (port_index_eq w g n d (N.of_nat k) ltac:(lia) Hk) as (o' & Ho' & _ & _ & H).
    rewrite Nat2N.id in H. rewrite Ho in Ho'. injection Ho' as <-. rewrite <- ports_length in Hlt.
    destruct (lookup_lt_is_Some_2 _ _ Hlt) as [p Hp]. exists p. rewrite H, Hp. done.
  Qed.
  Lemma gen_links_ok rest ges dn K s nn np : Forall2 ge_of rest ges -> all = dn ++ rest -> lst dn K s -> Good nn np (length rest) s ->
    exists s' K', gen_links w T R ges s = Ok s' /\ lst all K' s' /\ Good nn np 0 s'.
  Proof.
    intros HF. revert dn K s. induction HF as [|e ge rest ges (Q1 & Q2 & Q3 & Q4) HF IH]; intros dn K s Hall L Hg.
    { exists s, K. rewrite app_nil_r in Hall. by subst dn. }
    assert (He : e ∈ all) by (rewrite Hall; apply elem_of_app; right; by left).
    assert (Hsme : small e) by (by eapply Forall_forall in Hsm). pose proof (H_reach _ _ _ _ Hg) as Hr.
    destruct (al_R e.1.1 (Hin e Outgoing He)) as (a & Ea & Ra). destruct (al_R e.2.1 (Hin e Incoming He)) as (b & Eb & Rb).
    assert (Ha : has s1 a = true) by (apply HR; by apply (elem_of_list_fmap_1 snd) in Ra).
    assert (Hb : has s1 b = true) by (apply HR; by apply (elem_of_list_fmap_1 snd) in Rb).
    assert (Hn : forall n d, has s1 n = true -> num_ports (G s) n d = num_ports (G s1) n d).
    { intros n d Hn. by rewrite <- !ports_length, (l_ports _ _ _ L). }
    destruct (port_index_at a Outgoing e.1.2 (te_sp ge) (G s)) as (p & Ep & Pp); [specialize (Hsme Outgoing); cbn in Hsme; lia|done| |].
    { rewrite Hn by done. by apply (Hnum e.1.1 a Outgoing e). }
    destruct (port_index_at b Incoming e.2.2 (te_tp ge) (G s)) as (q & Eq & Pq); [specialize (Hsme Incoming); cbn in Hsme; lia|done| |].
    { rewrite Hn by done. by apply (Hnum e.2.1 b Incoming e). }
    cbn [gen_links]. rewrite Q1, Ea, Q2, Eb. cbn [unwrap mbind res_bind]. unfold t_link_offsets. rewrite Ep. cbn [mbind res_bind]. rewrite Eq. cbn [mbind res_bind].
    destruct (H_link nn np (length rest) s p q a b) as (s2 & r & El & Hg2 & L1 & L2 & x & y & Hx & Hy & Fx & Fy & Hxy & Hrel).
    { eapply H_weak; [done|cbn; lia..]. }
    { by eapply (below_ok Outgoing dn e rest K s _ _ _ p a Hall L Hg). }
    { by eapply (below_ok Incoming dn e rest K s _ _ _ q b Hall L Hg). }
    { by rewrite (l_has _ _ _ L). } { by rewrite (l_has _ _ _ L). }
    { by eapply elem_of_list_lookup_2. } { by eapply elem_of_list_lookup_2. }
    rewrite El. cbn [mbind res_bind]. apply (IH (dn ++ [e]) (K ++ [(x, y)])); [by rewrite <- app_assoc| |done].
    assert (HP : forall n d, has s1 n = true -> ports (G s2) n d = ports (G s) n d) by (intros n d Hn1; apply L2; by rewrite (l_has _ _ _ L)).
    assert (HPl : forall e' k, placed R s e' k -> placed R s2 e' k).
    { intros e' k (a' & b' & R1 & R2 & P1 & P2). exists a', b'. split; [done|]. split; [done|].
      unfold port_at in *. rewrite !HP; [done|apply HR; by apply (elem_of_list_fmap_1 snd) in R2|apply HR; by apply (elem_of_list_fmap_1 snd) in R1]. }
    assert (HKr : forall z, z ∈ K.*1 ++ K.*2 -> exists z', rel s z z').
    { intros z [([u v] & -> & Hz)%elem_of_list_fmap|([u v] & -> & Hz)%elem_of_list_fmap]%elem_of_app; cbn; [exists v|exists u]; apply (l_rel _ _ _ L); tauto. }
    split.
    - intros n. by rewrite L1, (l_has _ _ _ L).
    - intros n d Hn1. by rewrite HP, (l_ports _ _ _ L).
    - apply Forall2_app; [eapply Forall2_impl; [apply (l_edges _ _ _ L)|done]|]. constructor; [|constructor]. apply HPl.
      exists a, b. cbn. rewrite Hx, Hy. done.
    - rewrite !fmap_app. cbn. rewrite (Permutation_app_comm K.*1 [x]), <- app_assoc. cbn. rewrite (app_assoc K.*1), (Permutation_app_comm _ [y]). cbn.
      apply NoDup_cons. split; [intros [->|H%HKr]%elem_of_cons; [done|destruct H as [? H]; by apply Fx in H]|].
      apply NoDup_cons. split; [intros H%HKr; destruct H as [? H]; by apply Fy in H|]. apply (l_nd _ _ _ L).
    - intros u v. rewrite Hrel, (l_rel _ _ _ L), !elem_of_app, !elem_of_list_singleton. split.
      + intros [[H|H]|[[-> ->]|[-> ->]]]; tauto.
      + intros [[H|[= -> ->]]|[H|[= -> ->]]]; tauto.
  Qed.
  End links.

  (** ** All of it *)
  Lemma mk_edge_ok maxn maxp e : (N.of_nat maxn <= 2 ^ 31 - 1)%N -> (N.of_nat maxp <= N.min (po_max_offset w) 32767)%N ->
    (forall d, in_sizes maxn maxp (edge_end d e)) -> exists ge, mk_edge w e = Ok ge /\ ge_of e ge.
  Proof.
    change (2 ^ 31 - 1)%N with 2147483647%N. intros Hn Hp He. destruct (He Outgoing) as [A1 A2], (He Incoming) as [B1 B2]. cbn [edge_end] in *. unfold mk_edge.
    assert (Hix : forall v, v < maxn -> ix_new 32 (N.of_nat v) = Ok (N.of_nat v)).
    { intros v Hv. rewrite ix_new_eq by lia. destruct (N.ltb_spec (umax 32) (N.of_nat v)); [|done]. unfold umax in *. change (2 ^ 32 - 1)%N with 4294967295%N in *. lia. }
    rewrite !Hix by lia. cbn [mbind res_bind].
    destruct (po_new_ok w Outgoing (N.of_nat e.1.2)) as (o1 & E1 & _); [lia|lia|]. destruct (po_new_ok w Incoming (N.of_nat e.2.2)) as (o2 & E2 & _); [lia|lia|].
    rewrite E1. cbn [mbind res_bind]. rewrite E2. cbn [mbind res_bind]. eexists. split; [done|]. unfold ge_of. cbn. by rewrite !Nat2N.id.
  Qed.
  Lemma gen_graph_ok maxn maxp vs outs ins : (1 <= maxn) -> (N.of_nat maxn <= 2 ^ 31 - 1)%N -> (N.of_nat maxp <= N.min (po_max_offset w) 32767)%N ->
    Forall (in_sizes maxn maxp) outs -> Forall (in_sizes maxn maxp) ins -> lists_nodes vs (zip outs ins) ->
    (forall d x, length (filter (fun e => edge_end d e = x) (zip outs ins)) <= B) ->
    Good maxn (2 * maxp * maxn) (length (zip outs ins)) s0 ->
    exists s R K nn np nl, gen_graph w T count s0 vs outs ins = Ok s /\ Good nn np nl s /\
      built vs (zip outs ins) (G s) (fun n => has s n = true) (rel s) endp R K.
  Proof.
    intros Hn1 Hn Hp Ho Hi Hvs HB Hg. set (es := zip outs ins) in *.
    assert (Hf : Forall (fun e => forall d, in_sizes maxn maxp (edge_end d e)) es).
    { rewrite Forall_forall in Ho, Hi. apply Forall_forall. intros e [H1 H2]%zip_elem [|]; cbn [edge_end]; [by apply Hi|by apply Ho]. }
    pose proof (lists_nodes_len _ _ _ _ Hvs Hf) as Hlen. destruct Hvs as [Hnd Hv].
    assert (Hsm : Forall small es). { eapply Forall_impl; [exact Hf|]. intros e He d. destruct (He d) as [_ H]. lia. }
    unfold gen_graph, gen_edges. fold es.
    destruct (mapM_Forall2 (mk_edge w) es ge_of) as (ges & -> & HF).
    { intros e He. rewrite Forall_forall in Hf. apply (mk_edge_ok maxn maxp); auto. }
    cbn [mbind res_bind]. unfold graph_from_edges. destruct (count_ports_ok es ges (∅, ∅) HF Hsm) as (c & -> & Hc). cbn [mbind res_bind].
    assert (Hc0 : forall d v k, k < cnt c d v <-> exists e, e ∈ es /\ (edge_end d e).1 = v /\ k <= (edge_end d e).2).
    { intros d v k. rewrite Hc. split; [intros [H|H]; [|done]|by right]. destruct d; cbn in H; rewrite lookup_empty in H; cbn in H; lia. }
    assert (HcP : forall d v, cnt c d v <= maxp).
    { intros d v. destruct (decide (cnt c d v <= maxp)) as [|Hgt]; [done|exfalso]. assert (maxp < cnt c d v) as (e & He & _ & Hle)%Hc0 by lia.
      rewrite Forall_forall in Hf. destruct (Hf e He d) as [_ H]. lia. }
    destruct (gen_nodes_ok c maxp vs [] s0 1 (length es) HcP Hp) as (s1 & R & -> & HR & N & Hg1).
    { split; [intros n; by rewrite H0n; cbn; rewrite elem_of_nil|constructor|intros v n d []%elem_of_nil|done]. }
    { eapply H_weak; [done|lia|nia|lia]. }
    cbn [fmap list_fmap app] in HR. cbn [mbind res_bind].
    destruct (gen_links_ok R ltac:(by rewrite HR) (n_nd _ _ _ N) s1 (n_has _ _ _ N) es Hsm HB) with (rest := es) (ges := ges) (dn := @nil edge) (K := @nil (E' * E')) (s := s1) (nn := 1) (np := 0)
      as (s2 & K & -> & L & Hg2); [| |done|done| |done|].
    { intros v n d e HvR He Hev. rewrite (n_num _ _ _ N _ _ _ HvR). apply Hc0. by exists e. }
    { intros e d He. rewrite HR. apply Hv. by exists e, d. }
    { split; [done|done|constructor|constructor|]. intros x y. split; [intros H%(n_rel _ _ _ N); done|]. intros [[]%elem_of_nil|[]%elem_of_nil]. }
    cbn [mbind res_bind]. unfold ensure_non_empty. destruct (H_count _ _ _ _ Hg2) as (k & -> & Hk). cbn [mbind res_bind].
    assert (Hhas : forall n, has s2 n = true <-> n ∈ R.*2) by (intros n; rewrite (l_has _ _ _ _ _ L); apply (n_has _ _ _ N)).
    assert (HKl : length K = length es) by (symmetry; apply (Forall2_length _ _ _ (l_edges _ _ _ _ _ L))).
    destruct (decide (k = 0)) as [Hk0|Hk0].
    - rewrite Hk in Hk0. assert (HR0 : R = []). { destruct R as [|[v n] R']; [done|]. assert (n ∈ ((v, n) :: R').*2) as H%Hhas by (cbn; by left). by rewrite Hk0 in H. }
      assert (Hes : es = []). { destruct es as [|e es']; [done|]. assert (e.1.1 ∈ vs) as H by (apply Hv; exists e, Outgoing; split; [by left|done]). rewrite <- HR, HR0 in H. by apply elem_of_nil in H. }
      assert (HK0 : K = []) by (destruct K; [done|rewrite Hes in HKl; done]).
      destruct (H_add 0 0 0 s2 0 0) as (s3 & n & -> & Hg3 & A1 & A2 & A3 & A4 & A5 & A6 & A7).
      { eapply H_weak; [done|lia..]. } { lia. } { lia. }
      cbn [mbind res_bind]. exists s3, R, K, 0, 0, 0. split; [done|]. split; [done|]. rewrite Hes, HR0, HK0. rewrite HR0 in HR. split.
      + done.
      + constructor.
      + intros x []%elem_of_nil.
      + intros v x d k' []%elem_of_nil.
      + done.
      + done.
      + constructor.
      + intros x y. rewrite A7, (l_rel _ _ _ _ _ L), HK0. done.
      + done.
      + intros _. exists n. split; [|by intros []]. intros x. destruct (decide (x = n)) as [->|Hx]; [done|]. rewrite A5, Hk0 by done. done.
    - exists s2, R, K, 1, 0, 0. split; [done|]. split; [done|]. split.
      + done.
      + apply N.
      + intros n. apply Hhas.
      + intros v n d k' HvR. rewrite <- ports_length, (l_ports _ _ _ _ _ L), ports_length, (n_num _ _ _ N _ _ _ HvR); [apply Hc0|].
        apply (n_has _ _ _ N). by apply (elem_of_list_fmap_1 snd) in HvR.
      + intros i e x y He HKi. destruct (Forall2_lookup_lr _ _ _ _ _ _ (l_edges _ _ _ _ _ L) He HKi) as (a & b & R1 & R2 & P1 & P2). by exists a, b.
      + done.
      + apply L.
      + apply L.
      + intros n _. apply Hhas.
      + intros Hes. exfalso. apply Hk0, Hk. intros n. destruct (has s2 n) eqn:E; [|done]. apply Hhas in E.
        assert (vs = []) as Hvs. { destruct vs as [|v vs']; [done|]. assert (v ∈ v :: vs') as (e & d & He & _)%Hv by (by left). rewrite Hes in He. by apply elem_of_nil in He. }
        rewrite Hvs in HR. destruct R; [by apply elem_of_nil in E|done].
  Qed.
End gen.

(** ** Sizes *)
Section sizes.
  Context (w : N) (Hw : (1 < w <= 63)%N) {E : Type} (vs : list nat) (es : list ((nat * nat) * (nat * nat))) (g : pg) (Hr : reach w g).
  Context (has : nat -> Prop) (rel : E -> E -> Prop) (endp : E -> nat) (R : list (nat * nat)) (K : list (E * E)) (Hb : built vs es g has rel endp R K).
  Context (maxn maxp : nat) (Hn1 : 1 <= maxn) (Hf : Forall (fun e => forall d, in_sizes maxn maxp (edge_end d e)) es) (Hvs : lists_nodes vs es).
  Lemma built_nodes k : card has k -> 1 <= k <= maxn.
  Proof.
    intros Hc. destruct es as [|e es'] eqn:Ees.
    - destruct (b_one _ _ _ _ _ _ _ _ Hb eq_refl) as (n & Hn & _). assert (k = 1) as ->; [|lia]. eapply card_unique; [exact Hc|]. exists [n].
      split; [apply NoDup_singleton|]. split; [|done]. intros x. by rewrite elem_of_list_singleton.
    - pose proof (lists_nodes_len _ _ _ _ Hvs Hf) as Hl. assert (k = length R.*2) as ->.
      { eapply card_unique; [exact Hc|]. exists R.*2. split; [apply Hb|]. split; [|done]. intros x. split; [apply Hb|]. by apply (b_only _ _ _ _ _ _ _ _ Hb). }
      rewrite fmap_length, <- (fmap_length fst R), (b_nodes _ _ _ _ _ _ _ _ Hb). split; [|lia].
      destruct vs; [|cbn; lia]. exfalso. assert (e.1.1 ∈ @nil nat) as []%elem_of_nil. apply Hvs. exists e, Outgoing. split; [by left|done].
  Qed.
  Lemma built_max n d : has n -> num_ports g n d <= maxp.
  Proof.
    intros Hh. destruct (decide (num_ports g n d <= maxp)) as [|Hgt]; [done|exfalso]. destruct es as [|e es'] eqn:Ees.
    - destruct (b_one _ _ _ _ _ _ _ _ Hb eq_refl) as (n0 & Hn & H0). apply Hn in Hh as ->. rewrite H0 in Hgt. lia.
    - apply (b_only _ _ _ _ _ _ _ _ Hb) in Hh as ([v n'] & -> & HvR)%elem_of_list_fmap; [|done]. cbn in Hgt.
      assert (Hlt : maxp < num_ports g n' d) by lia. apply (b_ports _ _ _ _ _ _ _ _ Hb v n' d maxp HvR) in Hlt as (e' & He' & _ & Hle).
      rewrite Forall_forall in Hf. destruct (Hf e' He' d) as [_ H]. lia.
  Qed.
  Lemma built_ports kn kp (cp : nat -> Prop) : card has kn -> card cp kp -> (forall p, cp p -> exists n d, has n /\ p ∈ ports g n d) -> kp <= 2 * maxp * kn.
  Proof.
    intros (Ln & _ & HLn & <-) (Lp & Hnd & HLp & <-) Hcp.
    set (f := fun n => ports g n Incoming ++ ports g n Outgoing).
    assert (Hl : forall L, (forall n, n ∈ L -> has n) -> length (concat (f <$> L)) <= 2 * maxp * length L).
    { induction L as [|n L IH]; intros HL; [cbn; lia|]. rewrite fmap_cons. cbn [concat length]. rewrite app_length.
      assert (Hh : has n) by (apply HL; by left). pose proof (built_max n Incoming Hh). pose proof (built_max n Outgoing Hh).
      assert (length (f n) <= 2 * maxp) by (unfold f; rewrite app_length, !ports_length; lia).
      assert (length (concat (f <$> L)) <= 2 * maxp * length L) by (apply IH; intros x Hx; apply HL; by right). nia. }
    etransitivity; [|apply Hl; intros n; by apply HLn]. apply submseteq_length, NoDup_submseteq; [done|].
    intros p Hp%HLp. destruct (Hcp p Hp) as (n & d & Hn%HLn & Hp'). apply elem_of_list_In, in_concat.
    exists (f n). split; apply elem_of_list_In; [by apply elem_of_list_fmap_1|].
    apply elem_of_app. destruct d; tauto.
  Qed.
  Lemma built_card : card (fun z => rel z.1 z.2 /\ port_direction g (endp z.1) = Some Outgoing) (length es).
  Proof.
    exists K. pose proof (b_ends _ _ _ _ _ _ _ _ Hb) as Hnd. apply NoDup_app in Hnd as (Hnd & _ & _). split; [by apply NoDup_fmap_1 in Hnd|]. split; [|apply Hb].
    assert (Hd : forall x y, (x, y) ∈ K -> port_direction g (endp x) = Some Outgoing /\ port_direction g (endp y) = Some Incoming).
    { intros x y [i Hi]%elem_of_list_lookup_1. destruct (lookup_lt_is_Some_2 es i) as [e He].
      { rewrite <- (b_len _ _ _ _ _ _ _ _ Hb). by eapply lookup_lt_Some. }
      destruct (b_edges _ _ _ _ _ _ _ _ Hb i e x y He Hi) as (a & b & _ & _ & P1 & P2).
      destruct (C02_ports_and_nodes_pf w g Hw Hr) as (_ & _ & _ & HP & _). split; [apply (HP _ _ _ _ P1)|apply (HP _ _ _ _ P2)]. }
    intros [x y]. rewrite (b_links _ _ _ _ _ _ _ _ Hb). cbn. split.
    - intros H. split; [by left|]. apply (Hd _ _ H).
    - intros [[H|H] Hx]; [done|]. apply Hd in H as [_ H]. congruence.
  Qed.
End sizes.
