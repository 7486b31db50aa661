(** The loops of [insert_graph], for any graph and any inserted view. *)
From Verif Require Export InsertSpec BoundCopy ViewProofs.

(** The call returns a value with property [Q], or panics and [cp] holds. *)
Definition ret {A} (cp : Prop) (r : res A) (Q : A -> Prop) : Prop := match r with Ok a => Q a | Panic => cp end.
Definition hret {A} (cp : Prop) (r : hres A) (Q : A -> Prop) : Prop := match r with HOk a => Q a | HPanic => cp | HLoop => False end.

Lemma nodup_fst {A B} (l : list (A * B)) a b b' : NoDup l.*1 -> (a, b) ∈ l -> (a, b') ∈ l -> b = b'.
Proof.
  intros Hnd [i Hi]%elem_of_list_lookup_1 [j Hj]%elem_of_list_lookup_1.
  assert (i = j) as ->; [|congruence].
  eapply NoDup_lookup; [exact Hnd| |]; rewrite list_lookup_fmap; [by rewrite Hi|by rewrite Hj].
Qed.
Lemma nodup_snd {A B} (l : list (A * B)) a a' b : NoDup l.*2 -> (a, b) ∈ l -> (a', b) ∈ l -> a = a'.
Proof.
  intros Hnd [i Hi]%elem_of_list_lookup_1 [j Hj]%elem_of_list_lookup_1.
  assert (i = j) as ->; [|congruence].
  eapply NoDup_lookup; [exact Hnd| |]; rewrite list_lookup_fmap; [by rewrite Hi|by rewrite Hj].
Qed.
Lemma in_fst {A B} (l : list (A * B)) a : a ∈ l.*1 <-> exists b, (a, b) ∈ l.
Proof. rewrite elem_of_list_fmap. split; [intros ([x y] & -> & H); eauto|intros [b H]; exists (a, b); done]. Qed.
Lemma in_snd {A B} (l : list (A * B)) b : b ∈ l.*2 <-> exists a, (a, b) ∈ l.
Proof. rewrite elem_of_list_fmap. split; [intros ([x y] & -> & H); eauto|intros [a H]; exists (a, b); done]. Qed.

Section loops.
  Context {S E E' : Type} (w : N) (Hw : (1 < w <= 63)%N) (T : target S (E' * E')).
  (** What is visible of the extended graph *)
  Context (has : S -> nat -> bool) (rel : S -> E' -> E' -> Prop) (endp : E' -> nat).
  (** The inserted view *)
  Context (V : lview E) (Nn : nat -> Prop) (Rl : E -> E -> Prop) (og : pg).
  Context (HS : shows V Nn Rl) (HV : view_over V og) (Hro : reach w og).
  Context (Hmax : forall n d, Nn n -> (N.of_nat (num_ports og n d) <= po_max_offset w)%N).
  Context (L : list nat) (HL : lv_nodes V = HOk L) (HLnd : NoDup L) (HLn : forall n, n ∈ L <-> Nn n).
  (** What is known of the calls *)
  Context (cp multi : Prop) (Good : list (nat * nat) -> nat -> S -> Prop).
  (** Bounds on the links of the view: at one port, and all of them *)
  Context (B KL : nat).
  Context (HB : multi -> forall p l, NoDup l -> (forall x, x ∈ l -> lv_port V x = p /\ exists y, Rl x y) -> length l <= B).
  Context (HKL : multi -> forall K, NoDup K -> (forall x y, (x, y) ∈ K -> Rl x y /\ (y, x) ∉ K) -> length K <= KL).
  Notation G s := (t_graph T s).
  Context (H_reach : forall R j s, Good R j s -> reach w (G s)).
  Context (H_add : forall R j s old, Good R j s -> Nn old -> old ∉ R.*1 -> R.*1 ++ [old] ⊆+ L ->
    ret cp (t_add T s (num_ports og old Incoming) (num_ports og old Outgoing)) (fun '(s', n) =>
      Good (R ++ [(old, n)]) j s' /\ has s n = false /\ has s' n = true /\ (forall d, num_ports (G s') n d = num_ports og old d) /\
      (forall x, x <> n -> has s' x = has s x) /\ (forall x d, x <> n -> has s x = true -> ports (G s') x d = ports (G s) x d) /\
      (forall x y, rel s' x y <-> rel s x y))).
  Notation below s a := (multi -> forall l, NoDup l -> (forall z, z ∈ l -> endp z = a /\ exists v, rel s z v) -> length l < B).
  Context (H_link : forall R j s a b na nb d, Good R j s -> (multi -> j < KL) -> below s a -> below s b -> has s na = true -> has s nb = true ->
    a ∈ ports (G s) na d -> b ∈ ports (G s) nb (rev_dir d) ->
    ret cp (t_link T s a b) (fun '(s', r) => (forall x, has s' x = has s x) /\
      (forall x d, has s x = true -> ports (G s') x d = ports (G s) x d) /\
      match r with
      | inr _ => Good R (j + 1) s' /\ exists x y, endp x = a /\ endp y = b /\ (forall z, ~ rel s x z) /\ (forall z, ~ rel s y z) /\ x <> y /\
          forall u v, rel s' u v <-> rel s u v \/ (u = x /\ v = y) \/ (u = y /\ v = x)
      | inl e => Good R j s' /\ ~ multi /\ (exists p, e = AlreadyLinked p) /\ (forall x y, rel s' x y <-> rel s x y) /\
          exists x y, rel s x y /\ (endp x = a \/ endp x = b)
      end)).
  Context (H_end : forall R j s x y, Good R j s -> rel s x y -> exists n d, has s n = true /\ endp x ∈ ports (G s) n d).
  Context (s0 : S) (H0 : Good [] 0 s0).

  Notation cop R s p p' := (port_copy og (G s) R p p').

  Record vins (R : list (nat * nat)) (K : list (E * E)) (M : list (E * E')) (s : S) : Prop := {
    vi_good : Good R (length K) s;
    vi_old n : has s0 n = true -> n ∉ R.*2 /\ forall d, ports (G s) n d = ports (G s0) n d;
    vi_has n : has s n = true <-> has s0 n = true \/ n ∈ R.*2;
    vi_num o n d : (o, n) ∈ R -> num_ports (G s) n d = num_ports og o d;
    vi_nd1 : NoDup R.*1;
    vi_nd2 : NoDup R.*2;
    vi_src o : o ∈ R.*1 -> Nn o;
    vi_M1 : NoDup M.*1;
    vi_M2 : NoDup M.*2;
    vi_M x x' : (x, x') ∈ M -> cop R s (lv_port V x) (endp x');
    vi_MK x : x ∈ M.*1 <-> exists y, (x, y) ∈ K \/ (y, x) ∈ K;
    vi_K x y : (x, y) ∈ K -> Rl x y;
    vi_Kn : NoDup K;
    vi_Ka x y : (x, y) ∈ K -> (y, x) ∉ K;
    vi_rel a b : rel s a b <-> rel s0 a b \/ exists x y, ((x, y) ∈ K \/ (y, x) ∈ K) /\ (x, a) ∈ M /\ (y, b) ∈ M;
  }.

  Lemma og_at p n : lv_pnode V p = Some n -> Nn n -> exists d k, port_at og n d k p /\ lv_pdir V p = Some d.
  Proof.
    intros Hp Hn. destruct HV as (V1 & V2 & V3). destruct (lv_pdir V p) as [d|] eqn:Ed; [|by destruct (lvs_dir _ _ _ HS p ltac:(congruence))].
    assert (p ∈ lv_ports V n d) as Hin by (by apply (lvs_ports _ _ _ HS n d Hn)). rewrite V1 in Hin.
    apply elem_of_list_lookup_1 in Hin as [k Hk]. by exists d, k.
  Qed.
  Lemma og_node p n d k : port_at og n d k p -> lv_pnode V p = Some n /\ lv_pdir V p = Some d.
  Proof.
    intros Hp. destruct HV as (V1 & V2 & V3). destruct (C02_ports_and_nodes_pf w og Hw Hro) as (_ & _ & _ & H & _).
    destruct (H _ _ _ _ Hp) as (_ & H1 & H2). by rewrite V2, V3.
  Qed.
  Lemma at_inj g n d k n' d' k' p : reach w g -> port_at g n d k p -> port_at g n' d' k' p -> n = n' /\ d = d' /\ k = k'.
  Proof. intros Hr. destruct (C02_ports_and_nodes_pf w g Hw Hr) as (_ & _ & _ & _ & _ & H & _). eauto. Qed.
  Lemma cop_total R K M s p n : vins R K M s -> lv_pnode V p = Some n -> n ∈ R.*1 -> exists p', cop R s p p'.
  Proof.
    intros X Hp Hn. destruct (og_at p n Hp (vi_src _ _ _ _ X _ Hn)) as (d & k & Hk & _). apply in_fst in Hn as [n' HR].
    assert (Hlt : k < length (ports (G s) n' d)).
    { rewrite ports_length, (vi_num _ _ _ _ X _ _ _ HR), <- ports_length. by eapply lookup_lt_Some. }
    apply lookup_lt_is_Some_2 in Hlt as [p' Hp']. exists p', n, n', d, k. done.
  Qed.
  Lemma cop_fun R K M s p p' q' : vins R K M s -> cop R s p p' -> cop R s p q' -> p' = q'.
  Proof.
    intros X (o & n & d & k & HR & Hp & Hp') (o2 & n2 & d2 & k2 & HR2 & Hq & Hq').
    destruct (at_inj _ _ _ _ _ _ _ _ Hro Hp Hq) as (<- & <- & <-).
    pose proof (nodup_fst _ _ _ _ (vi_nd1 _ _ _ _ X) HR HR2) as <-. unfold port_at in *. congruence.
  Qed.
  Lemma cop_inj R K M s p q p' : vins R K M s -> cop R s p p' -> cop R s q p' -> p = q.
  Proof.
    intros X (o & n & d & k & HR & Hp & Hp') (o2 & n2 & d2 & k2 & HR2 & Hq & Hq').
    destruct (at_inj _ _ _ _ _ _ _ _ (H_reach _ _ _ (vi_good _ _ _ _ X)) Hp' Hq') as (<- & <- & <-).
    pose proof (nodup_snd _ _ _ _ (vi_nd2 _ _ _ _ X) HR HR2) as <-. unfold port_at in *. congruence.
  Qed.
  (** Old links do not end at copies. *)
  Lemma cop_old R K M s x p z : vins R K M s -> cop R s p (endp x) -> ~ rel s0 x z.
  Proof.
    intros X (o & n & d & k & HR & Hp & Hp') Hz. destruct (H_end _ _ _ _ _ H0 Hz) as (n' & d' & Hn' & [k' Hin]%elem_of_list_lookup_1).
    destruct (vi_old _ _ _ _ X n' Hn') as [Hno E1]. rewrite <- E1 in Hin.
    destruct (at_inj _ _ _ _ _ _ _ _ (H_reach _ _ _ (vi_good _ _ _ _ X)) Hp' Hin) as (<- & _).
    apply Hno. apply in_snd. eauto.
  Qed.

  Lemma vins_nil : vins [] [] [] s0.
  Proof.
    split; try done.
    - intros n Hn. split; [apply not_elem_of_nil|done].
    - intros n. cbn. rewrite elem_of_nil. tauto.
    - intros o n d []%elem_of_nil.
    - constructor.
    - constructor.
    - intros o []%elem_of_nil.
    - constructor.
    - constructor.
    - intros x x' []%elem_of_nil.
    - intros x. cbn. rewrite elem_of_nil. split; [done|]. intros [y [[]%elem_of_nil|[]%elem_of_nil]].
    - intros x y []%elem_of_nil.
    - constructor.
    - intros x y []%elem_of_nil.
    - intros a b. split; [tauto|]. intros [?|(x & y & [[]%elem_of_nil|[]%elem_of_nil] & _)]. done.
  Qed.

  Lemma vins_add R K M s old : vins R K M s -> Nn old -> old ∉ R.*1 -> R.*1 ++ [old] ⊆+ L ->
    ret cp (t_add T s (num_ports og old Incoming) (num_ports og old Outgoing)) (fun '(s', n) => vins (R ++ [(old, n)]) K M s').
  Proof.
    intros X Hn Hold Hsub. pose proof (H_add R _ s old (vi_good _ _ _ _ X) Hn Hold Hsub) as HA.
    destruct (t_add T s _ _) as [[s' n]|]; [|done]. cbn in *. destruct HA as (HG & Hf & Hh & Hnum & Hhas & Hports & Hrel).
    assert (HnR : n ∉ R.*2). { intros Hc. assert (has s n = true) by (apply (vi_has _ _ _ _ X); tauto). congruence. }
    assert (Hp : forall o x d, (o, x) ∈ R -> ports (G s') x d = ports (G s) x d).
    { intros o x d Hx. assert (x ∈ R.*2) by (apply in_snd; eauto). apply Hports; [congruence|]. apply (vi_has _ _ _ _ X). by right. }
    split.
    - done.
    - intros x Hx. destruct (vi_old _ _ _ _ X x Hx) as [E1 E2].
      assert (Hsx : has s x = true) by (apply (vi_has _ _ _ _ X); tauto). assert (x <> n) by congruence.
      rewrite fmap_app, not_elem_of_app. cbn. rewrite not_elem_of_cons. split; [split_and!; [done|done|apply not_elem_of_nil]|].
      intros d. by rewrite Hports.
    - intros x. rewrite fmap_app, elem_of_app. cbn. rewrite elem_of_list_singleton.
      destruct (decide (x = n)) as [->|Hne]; [tauto|]. rewrite Hhas by done. rewrite (vi_has _ _ _ _ X). tauto.
    - intros o x d [HR|[= -> ->]%elem_of_list_singleton]%elem_of_app; [|done].
      rewrite <- (vi_num _ _ _ _ X _ _ _ HR), <- !ports_length. by erewrite Hp.
    - rewrite fmap_app. apply NoDup_app. split_and!; [apply X| |apply NoDup_singleton]. intros x Hx ->%elem_of_list_singleton. done.
    - rewrite fmap_app. apply NoDup_app. split_and!; [apply X| |apply NoDup_singleton]. intros x Hx ->%elem_of_list_singleton. done.
    - intros o. rewrite fmap_app, elem_of_app. cbn. rewrite elem_of_list_singleton. intros [?| ->]; [by apply (vi_src _ _ _ _ X)|done].
    - apply X.
    - apply X.
    - intros x x' HM. destruct (vi_M _ _ _ _ X x x' HM) as (o & y & d & k & HR & H1 & H2). exists o, y, d, k.
      rewrite elem_of_app. split; [by left|]. split; [done|]. unfold port_at. by erewrite Hp.
    - apply X.
    - apply X.
    - apply X.
    - apply X.
    - intros a b. rewrite Hrel. apply X.
  Qed.

  Lemma vins_link R K M s x y o n o2 n2 : vins R K M s -> Rl x y -> (x, y) ∉ K -> (y, x) ∉ K ->
    lv_pnode V (lv_port V x) = Some o -> (o, n) ∈ R -> lv_pnode V (lv_port V y) = Some o2 -> (o2, n2) ∈ R ->
    exists ox oy, port_offset w og (lv_port V x) = Ok (Some ox) /\ port_offset w og (lv_port V y) = Ok (Some oy) /\
      ret cp (t_link_offsets w T s n ox n2 oy) (fun '(s', r) =>
        match r with
        | inr _ => exists M', vins R (K ++ [(x, y)]) M' s'
        | inl e => (~ multi /\ ~ one_link V Rl /\ exists p, e = AlreadyLinked p) /\ vins R K M s'
        end).
  Proof.
    intros X Hl HK1 HK2 Hp HR Hq HR2. pose proof (vi_good _ _ _ _ X) as HG.
    assert (HoR : o ∈ R.*1) by (apply in_fst; eauto). assert (HoR2 : o2 ∈ R.*1) by (apply in_fst; eauto).
    destruct (cop_total _ _ _ _ _ _ X Hp HoR) as (p' & Hcp). destruct (cop_total _ _ _ _ _ _ X Hq HoR2) as (q' & Hcq).
    pose proof Hcp as (o' & n' & d & k & HR' & Hpk & Hpk'). pose proof Hcq as (o2' & n2' & d2 & k2 & HR2' & Hqk & Hqk').
    destruct (og_node _ _ _ _ Hpk) as [E1 Ed]. destruct (og_node _ _ _ _ Hqk) as [E2 Ed2].
    rewrite Hp in E1. injection E1 as <-. rewrite Hq in E2. injection E2 as <-.
    pose proof (nodup_fst _ _ _ _ (vi_nd1 _ _ _ _ X) HR HR') as <-. pose proof (nodup_fst _ _ _ _ (vi_nd1 _ _ _ _ X) HR2 HR2') as <-.
    assert (d2 = rev_dir d) as ->. { pose proof (lvs_opp _ _ _ HS _ _ _ Hl Ed). congruence. }
    assert (Hk : (N.of_nat k <= po_max_offset w)%N).
    { specialize (Hmax o d (vi_src _ _ _ _ X _ HoR)). assert (k < num_ports og o d) by (rewrite <- ports_length; by eapply lookup_lt_Some). lia. }
    assert (Hk2 : (N.of_nat k2 <= po_max_offset w)%N).
    { specialize (Hmax o2 (rev_dir d) (vi_src _ _ _ _ X _ HoR2)). assert (k2 < num_ports og o2 (rev_dir d)) by (rewrite <- ports_length; by eapply lookup_lt_Some). lia. }
    destruct (port_offset_eq w og o d k _ Hw Hro Hpk Hk) as (ox & _ & Hox & Hoxi).
    destruct (port_offset_eq w og o2 _ k2 _ Hw Hro Hqk Hk2) as (oy & _ & Hoy & Hoyi).
    exists ox, oy. split; [done|]. split; [done|]. unfold t_link_offsets. rewrite Hoxi, bind_Ok, Hpk', Hoyi, bind_Ok, Hqk'.
    assert (hasn : has s n = true) by (apply (vi_has _ _ _ _ X); right; apply in_snd; eauto).
    assert (hasn2 : has s n2 = true) by (apply (vi_has _ _ _ _ X); right; apply in_snd; eauto).
    assert (Hxy : x <> y). { intros <-. assert (d = rev_dir d); [congruence|]. by destruct d. }
    assert (HxM : x ∉ M.*1).
    { intros [z [HK|HK]]%(vi_MK _ _ _ _ X); pose proof (vi_K _ _ _ _ X _ _ HK) as Hz.
      - pose proof (lvs_fun _ _ _ HS _ _ _ Hl Hz) as <-. done.
      - pose proof (lvs_fun _ _ _ HS _ _ _ Hl (lvs_sym _ _ _ HS _ _ Hz)) as <-. done. }
    assert (HyM : y ∉ M.*1).
    { intros [z [HK|HK]]%(vi_MK _ _ _ _ X); pose proof (vi_K _ _ _ _ X _ _ HK) as Hz.
      - pose proof (lvs_fun _ _ _ HS _ _ _ (lvs_sym _ _ _ HS _ _ Hl) Hz) as <-. done.
      - pose proof (lvs_fun _ _ _ HS _ _ _ (lvs_sym _ _ _ HS _ _ Hl) (lvs_sym _ _ _ HS _ _ Hz)) as <-. done. }
    assert (HM2 : forall a', a' ∈ M.*2 -> exists z, rel s a' z).
    { intros a' [a Ha]%in_snd. assert (a ∈ M.*1) as Ha1 by (apply in_fst; eauto). apply (vi_MK _ _ _ _ X) in Ha1 as [b Hb].
      assert (b ∈ M.*1) as [b' Hb']%in_fst by (apply (vi_MK _ _ _ _ X); exists a; tauto).
      exists b'. apply (vi_rel _ _ _ _ X). right. exists a, b. done. }
    assert (Hbelow : forall z t, z ∉ M.*1 -> (exists v, Rl z v) -> cop R s (lv_port V z) t -> below s t).
    { intros z t HzM Hz Hc Hm l Hlnd Hl'.
      assert (Hsrc : exists l', length l' = length l /\ NoDup l' /\ forall a, a ∈ l' -> lv_port V a = lv_port V z /\ (exists b, Rl a b) /\ a ∈ M.*1 /\ exists a', a' ∈ l /\ (a, a') ∈ M).
      { induction l as [|u l IHl]; [exists []; split_and!; [done|constructor|intros a []%elem_of_nil]|].
        apply NoDup_cons in Hlnd as [Hu Hlnd]. destruct IHl as (l' & L1 & L2 & L3); [done|intros; apply Hl'; by right|].
        destruct (Hl' u) as [<- [v Huv]]; [by left|].
        apply (vi_rel _ _ _ _ X) in Huv as [Huv|(a & b & HK & HMa & HMb)]; [by eapply cop_old in Hc|].
        pose proof (cop_inj _ _ _ _ _ _ _ X Hc (vi_M _ _ _ _ X _ _ HMa)) as Ez.
        assert (Hab : Rl a b). { destruct HK as [HK|HK]; apply (vi_K _ _ _ _ X) in HK; [done|by apply (lvs_sym _ _ _ HS)]. }
        exists (a :: l'). split; [cbn; by rewrite L1|]. split.
        - constructor; [|done]. intros (_ & _ & _ & a' & Ha' & HMa')%L3. pose proof (nodup_fst _ _ _ _ (vi_M1 _ _ _ _ X) HMa HMa') as <-. done.
        - intros c [->|Hc']%elem_of_cons.
          + split; [done|]. split; [eauto|]. split; [apply in_fst; eauto|]. exists u. split; [by left|done].
          + destruct (L3 c Hc') as (Q1 & Q2 & Q3 & a' & Q4 & Q5). split; [done|]. split; [done|]. split; [done|]. exists a'. split; [by right|done]. }
      destruct Hsrc as (l' & L1 & L2 & L3). rewrite <- L1.
      apply (HB Hm (lv_port V z) (z :: l')).
      - constructor; [|done]. intros (_ & _ & ? & _)%L3. done.
      - intros a [->|Ha]%elem_of_cons; [done|]. destruct (L3 a Ha) as (Q1 & Q2 & _). done. }
    assert (HKn : NoDup (K ++ [(x, y)])).
    { apply NoDup_app. split_and!; [apply X| |apply NoDup_singleton]. intros a Ha ->%elem_of_list_singleton. done. }
    assert (HKa : forall a b, (a, b) ∈ K ++ [(x, y)] -> Rl a b /\ (b, a) ∉ K ++ [(x, y)]).
    { intros a b. rewrite elem_of_app, elem_of_list_singleton, not_elem_of_app, elem_of_list_singleton. intros [HK|[= -> ->]].
      - split; [by apply (vi_K _ _ _ _ X)|]. split; [by apply (vi_Ka _ _ _ _ X)|]. intros [= -> ->]. done.
      - split; [done|]. split; [done|]. intros [= -> _]. done. }
    assert (Hcnt : multi -> length K < KL).
    { intros Hm. pose proof (HKL Hm _ HKn HKa) as H. rewrite app_length in H. cbn in H. lia. }
    pose proof (H_link R _ s p' q' n n2 d HG Hcnt ltac:(by apply (Hbelow x); eauto) ltac:(apply (Hbelow y); [done|exists x; by apply (lvs_sym _ _ _ HS)|done]) hasn hasn2 ltac:(by eapply elem_of_list_lookup_2) ltac:(by eapply elem_of_list_lookup_2)) as HLk.
    destruct (t_link T s p' q') as [[s' r]|]; [|done]. cbn in *. destruct HLk as (Hhas & Hports & Hr).
    assert (HpR : forall o n d, (o, n) ∈ R -> ports (G s') n d = ports (G s) n d).
    { intros a b c Hab. apply Hports, (vi_has _ _ _ _ X). right. apply in_snd. eauto. }
    assert (Hcop : forall p p', cop R s' p p' <-> cop R s p p').
    { intros a b. unfold port_copy, port_at. split; intros (u & v & c & j & F1 & F2 & F3); exists u, v, c, j; (split; [done|]; split; [done|]);
        by rewrite (HpR _ _ _ F1) in *. }
    assert (Hnum : forall o n d, (o, n) ∈ R -> num_ports (G s') n d = num_ports og o d).
    { intros a b c Hab. rewrite <- (vi_num _ _ _ _ X _ _ _ Hab), <- !ports_length. by erewrite HpR. }
    assert (Hold : forall n, has s0 n = true -> n ∉ R.*2 /\ forall d, ports (G s') n d = ports (G s0) n d).
    { intros a Ha. destruct (vi_old _ _ _ _ X a Ha) as [F1 F2]. split; [done|]. intros c. rewrite <- F2. apply Hports, (vi_has _ _ _ _ X). by left. }
    destruct r as [e|[x' y']].
    - destruct Hr as (HG' & Hmu & He & Hrel & u & v & Huv & Hu). split.
      + split; [done|]. split; [|done]. intros Hone.
        assert (Hu' : exists z z2, Rl z z2 /\ cop R s (lv_port V z) (endp u) /\ (z = x \/ z = y)).
        { destruct Hu as [-> | ->]; [exists x, y|exists y, x]; (split; [|tauto]); [done|]. by apply (lvs_sym _ _ _ HS). }
        destruct Hu' as (z & z2 & Hz & Hcz & Hzxy).
        apply (vi_rel _ _ _ _ X) in Huv as [Huv|(a & b & HK & HMa & HMb)]; [by eapply cop_old in Hcz|].
        pose proof (vi_M _ _ _ _ X _ _ HMa) as Hca. pose proof (cop_inj _ _ _ _ _ _ _ X Hcz Hca) as Ez.
        assert (Hab : Rl a b). { destruct HK as [HK|HK]; apply (vi_K _ _ _ _ X) in HK; [done|by apply (lvs_sym _ _ _ HS)]. }
        destruct (Hone _ _ _ _ Hz Hab Ez) as [<- <-].
        destruct Hzxy as [-> | ->].
        * pose proof (lvs_fun _ _ _ HS _ _ _ Hl Hz) as <-. tauto.
        * pose proof (lvs_fun _ _ _ HS _ _ _ (lvs_sym _ _ _ HS _ _ Hl) Hz) as <-. tauto.
      + split; try apply X; try done.
        * intros a. rewrite Hhas. apply X.
        * intros a a' Ha. apply Hcop. by apply (vi_M _ _ _ _ X).
        * intros a b. rewrite Hrel. apply X.
    - destruct Hr as (HG' & u & v & <- & <- & Nu & Nv & Huv & Hrel). exists (M ++ [(x, u); (y, v)]).
      assert (HuM : u ∉ M.*2) by (intros [z Hz]%HM2; by eapply Nu).
      assert (HvM : v ∉ M.*2) by (intros [z Hz]%HM2; by eapply Nv).
      assert (HMin : forall a a', (a, a') ∈ M ++ [(x, u); (y, v)] <-> (a, a') ∈ M \/ (a = x /\ a' = u) \/ (a = y /\ a' = v)).
      { intros a a'. rewrite elem_of_app, !elem_of_cons, elem_of_nil. split; [|naive_solver]. intros [?|[[= -> ->]|[[= -> ->]|[]]]]; tauto. }
      assert (HKin : forall a b, (a, b) ∈ K ++ [(x, y)] <-> (a, b) ∈ K \/ (a = x /\ b = y)).
      { intros a b. rewrite elem_of_app, elem_of_list_singleton. split; [|naive_solver]. intros [?|[= -> ->]]; tauto. }
      split; try apply X; try done.
      + rewrite app_length. exact HG'.
      + intros a. rewrite Hhas. apply X.
      + rewrite fmap_app. cbn. apply NoDup_app. split; [apply X|]. split.
        * intros a Ha. rewrite !not_elem_of_cons. split_and!; [congruence|congruence|apply not_elem_of_nil].
        * repeat constructor; rewrite ?not_elem_of_cons; try apply not_elem_of_nil. split; [done|apply not_elem_of_nil].
      + rewrite fmap_app. cbn. apply NoDup_app. split; [apply X|]. split.
        * intros a Ha. rewrite !not_elem_of_cons. split_and!; [congruence|congruence|apply not_elem_of_nil].
        * repeat constructor; rewrite ?not_elem_of_cons; try apply not_elem_of_nil. split; [done|apply not_elem_of_nil].
      + intros a a' [HM|[[-> ->]|[-> ->]]]%HMin; apply Hcop; [by apply (vi_M _ _ _ _ X)|done|done].
      + intros a. rewrite in_fst. setoid_rewrite HMin. setoid_rewrite HKin. split.
        * intros [a' [Ha|[[-> ->]|[-> ->]]]]; [|by exists y; left; right|by exists x; right; right].
          assert (a ∈ M.*1) as [b Hb]%(vi_MK _ _ _ _ X) by (apply in_fst; eauto). exists b. tauto.
        * intros [b [[Hb|[-> ->]]|[Hb|[-> ->]]]]; [|exists u; tauto| |exists v; tauto].
          -- assert (a ∈ M.*1) as [a' Ha]%in_fst by (apply (vi_MK _ _ _ _ X); eauto). eauto.
          -- assert (a ∈ M.*1) as [a' Ha]%in_fst by (apply (vi_MK _ _ _ _ X); eauto). eauto.
      + intros a b [HK|[-> ->]]%HKin; [by apply (vi_K _ _ _ _ X)|done].
      + intros a b Hab. by apply HKa.
      + intros a b. rewrite Hrel, (vi_rel _ _ _ _ X). setoid_rewrite HMin. setoid_rewrite HKin. split.
        * intros [[H|(a0 & b0 & H)]|[[-> ->]|[-> ->]]]; [by left|right; exists a0, b0; tauto|right; exists x, y; tauto|right; exists y, x; tauto].
        * intros [H|(a0 & b0 & HK & HMa & HMb)]; [tauto|].
          assert (Ha0 : forall c, (c, b0) ∈ K \/ (b0, c) ∈ K -> b0 ∈ M.*1) by (intros c Hc; apply (vi_MK _ _ _ _ X); exists c; tauto).
          assert (Hb0 : forall c, (a0, c) ∈ K \/ (c, a0) ∈ K -> a0 ∈ M.*1) by (intros c Hc; apply (vi_MK _ _ _ _ X); exists c; tauto).
          destruct HK as [[HK|[-> ->]]|[HK|[-> ->]]].
          -- assert (a0 ∈ M.*1) by (eapply Hb0; eauto). assert (b0 ∈ M.*1) by (eapply Ha0; eauto).
             destruct HMa as [HMa|[[-> _]|[-> _]]]; [|done|done]. destruct HMb as [HMb|[[-> _]|[-> _]]]; [|done|done].
             left. right. exists a0, b0. tauto.
          -- destruct HMa as [HMa|[[_ ->]|[Eq _]]]; [by exfalso; apply HxM, in_fst; eauto| |done].
             destruct HMb as [HMb|[[Eq _]|[_ ->]]]; [by exfalso; apply HyM, in_fst; eauto|by destruct Hxy|]. tauto.
          -- assert (a0 ∈ M.*1) by (eapply Hb0; eauto). assert (b0 ∈ M.*1) by (eapply Ha0; eauto).
             destruct HMa as [HMa|[[-> _]|[-> _]]]; [|done|done]. destruct HMb as [HMb|[[-> _]|[-> _]]]; [|done|done].
             left. right. exists a0, b0. tauto.
          -- destruct HMa as [HMa|[[Eq _]|[_ ->]]]; [by exfalso; apply HyM, in_fst; eauto|by destruct Hxy|].
             destruct HMb as [HMb|[[_ ->]|[Eq _]]]; [by exfalso; apply HxM, in_fst; eauto| |done]. tauto.
  Qed.

  Lemma al_get_some R o n : NoDup R.*1 -> (o, n) ∈ R -> al_get R o = Some n.
  Proof.
    intros Hnd HR. destruct (al_get R o) as [n'|] eqn:Eg.
    - apply al_get_in in Eg. f_equal. by eapply nodup_fst.
    - apply al_get_none in Eg. exfalso. apply Eg, in_fst. eauto.
  Qed.

  (** The links of one node *)
  Definition fails (e : link_error) : Prop := ~ multi /\ ~ one_link V Rl /\ exists p, e = AlreadyLinked p.
  Lemma t_links_ok R new old ls : forall K M s, vins R K M s -> (old, new) ∈ R ->
    (forall x y, (x, y) ∈ ls -> Rl x y /\ lv_pnode V (lv_port V x) = Some old /\ (x, y) ∉ K /\ (y, x) ∉ K /\ (y, x) ∉ ls) ->
    NoDup ls ->
    ret cp (t_insert_links w T V og R new ls s) (fun '(s', e) =>
      match e with
      | Some e => fails e /\ exists K' M', vins R K' M' s'
      | None => exists K' M', vins R (K ++ K') M' s' /\ NoDup K' /\
          forall x y, (x, y) ∈ K' <-> (x, y) ∈ ls /\ exists o, o ∈ R.*1 /\ lv_pnode V (lv_port V y) = Some o
      end).
  Proof.
    induction ls as [|[x y] ls IH]; intros K M s X HR Hls Hnd.
    { cbn. exists [], M. rewrite app_nil_r. split; [done|]. split; [constructor|].
      intros x y. split; [intros []%elem_of_nil|intros [[]%elem_of_nil _]]. }
    cbn [t_insert_links]. apply NoDup_cons in Hnd as [Hnin Hnd].
    destruct (Hls x y) as (Hl & Hp & K1 & K2 & Hsym); [by left|]. apply not_elem_of_cons in Hsym as [Hsym0 Hsym].
    destruct (lvs_end2 _ _ _ HS _ _ Hl) as (o2 & Hq & _). rewrite Hq. cbn [unwrap]. rewrite bind_Ok.
    destruct (al_get R o2) as [n2|] eqn:Eg.
    - apply al_get_in in Eg.
      destruct (vins_link R K M s x y old new o2 n2 X Hl K1 K2 Hp HR Hq Eg) as (ox & oy & Eox & Eoy & Elk).
      rewrite Eox, bind_Ok. cbn [unwrap]. rewrite bind_Ok, Eoy, bind_Ok. cbn [unwrap]. rewrite bind_Ok.
      destruct (t_link_offsets w T s new ox n2 oy) as [[s1 r]|]; [|done]. rewrite bind_Ok. cbn in Elk.
      destruct r as [e|u]; [destruct Elk as [F X1]; cbn; eauto|]. destruct Elk as [M1 X1].
      assert (Hls' : forall a b, (a, b) ∈ ls -> Rl a b /\ lv_pnode V (lv_port V a) = Some old /\ (a, b) ∉ K ++ [(x, y)] /\ (b, a) ∉ K ++ [(x, y)] /\ (b, a) ∉ ls).
      { intros a b Hab. destruct (Hls a b) as (H1 & H2 & H3 & H4 & H5); [by right|]. apply not_elem_of_cons in H5 as [H5 H5'].
        rewrite !not_elem_of_app, !elem_of_list_singleton. split_and!; try done. intros [= -> ->]. done. }
      pose proof (IH _ _ _ X1 HR Hls' Hnd) as HI.
      destruct (t_insert_links w T V og R new ls s1) as [[s2 [e|]]|]; [done| |done]. cbn in *.
      destruct HI as (K' & M' & X' & N' & HK'). exists ((x, y) :: K'), M'. rewrite <- app_assoc in X'. split; [done|]. split.
      + constructor; [|done]. intros [H _]%HK'. done.
      + intros a b. rewrite !elem_of_cons, HK'. split.
        * intros [[= -> ->]|[H1 H2]]; [|tauto]. split; [by left|]. exists o2. split; [|done]. apply in_fst. eauto.
        * intros [[H1|H1] H2]; [by left|right; done].
    - assert (Hls' : forall a b, (a, b) ∈ ls -> Rl a b /\ lv_pnode V (lv_port V a) = Some old /\ (a, b) ∉ K /\ (b, a) ∉ K /\ (b, a) ∉ ls).
      { intros a b Hab. destruct (Hls a b) as (H1 & H2 & H3 & H4 & H5); [by right|]. apply not_elem_of_cons in H5 as [_ H5]. done. }
      pose proof (IH _ _ _ X HR Hls' Hnd) as HI.
      destruct (t_insert_links w T V og R new ls s) as [[s2 [e|]]|]; [done| |done]. cbn in *.
      destruct HI as (K' & M' & X' & N' & HK'). exists K', M'. split; [done|]. split; [done|].
      intros a b. rewrite HK', elem_of_cons. split; [tauto|].
      intros [[[= -> ->]|H1] H2]; [|done]. exfalso. destruct H2 as (o & Ho & Ho'). rewrite Hq in Ho'. injection Ho' as ->.
      by apply al_get_none in Eg.
  Qed.

  (** All links between copied nodes have been copied, once. *)
  Definition vfull (R : list (nat * nat)) (K : list (E * E)) : Prop :=
    forall x y, Rl x y -> (exists o, o ∈ R.*1 /\ lv_pnode V (lv_port V x) = Some o) ->
      (exists o, o ∈ R.*1 /\ lv_pnode V (lv_port V y) = Some o) -> (x, y) ∈ K \/ (y, x) ∈ K.

  Lemma t_nodes_ok ns : forall R K M s, vins R K M s -> vfull R K -> R.*1 ++ ns = L ->
    (forall x y, (x, y) ∈ K -> exists o, o ∈ R.*1 /\ lv_pnode V (lv_port V x) = Some o) ->
    (forall x y, (x, y) ∈ K -> exists o, o ∈ R.*1 /\ lv_pnode V (lv_port V y) = Some o) ->
    hret cp (t_insert_nodes w T V og ns R s) (fun '(s', r) =>
      match r with
      | inl e => fails e /\ exists R' K' M', vins R' K' M' s'
      | inr R' => exists K' M', vins R' K' M' s' /\ vfull R' K' /\ R'.*1 = L
      end).
  Proof.
    induction ns as [|old ns IH]; intros R K M s X HF HLs HKx HKy.
    { cbn. rewrite app_nil_r in HLs. eauto. }
    cbn [t_insert_nodes]. assert (Hnd : NoDup (R.*1 ++ old :: ns)) by (by rewrite HLs).
    assert (Hold : old ∉ R.*1). { apply NoDup_app in Hnd as (_ & Hd & _). intros H. apply (Hd _ H). by left. }
    assert (Hn : Nn old). { apply HLn. rewrite <- HLs, elem_of_app, elem_of_cons. tauto. }
    assert (Hsub : R.*1 ++ [old] ⊆+ L). { rewrite <- HLs. apply submseteq_app; [done|]. apply submseteq_skip, submseteq_nil_l. }
    pose proof (vins_add R K M s old X Hn Hold Hsub) as HA.
    destruct (t_add T s _ _) as [[s1 new]|]; [|done]. cbn in HA. cbn [lift]. rewrite hbind_Ok.
    destruct (lvs_all_links _ _ _ HS old Hn) as (_ & _ & l & _ & _ & _ & _ & _ & El & _). rewrite El, hbind_Ok.
    destruct (lvs_all_elem _ _ _ HS old l Hn El) as [Hlnd Hl].
    assert (HnoK : forall x y, (x, y) ∈ K -> lv_pnode V (lv_port V x) <> Some old /\ lv_pnode V (lv_port V y) <> Some old).
    { intros x y HK. destruct (HKx _ _ HK) as (o & Ho & Eo), (HKy _ _ HK) as (o2 & Ho2 & Eo2). split; congruence. }
    assert (HR1 : (old, new) ∈ R ++ [(old, new)]) by (rewrite elem_of_app, elem_of_list_singleton; by right).
    assert (Hsym : forall x y, (x, y) ∈ l -> (y, x) ∉ l).
    { intros x y (H1 & H2 & H3)%Hl (H4 & H5 & H6)%Hl.
      destruct (lv_pdir V (lv_port V x)) as [[]|] eqn:Ed; [tauto| |by destruct (lvs_dir _ _ _ HS (lv_port V x) ltac:(congruence))].
      pose proof (lvs_opp _ _ _ HS _ _ _ H1 Ed) as Ed2. tauto. }
    assert (Hls : forall x y, (x, y) ∈ l -> Rl x y /\ lv_pnode V (lv_port V x) = Some old /\ (x, y) ∉ K /\ (y, x) ∉ K /\ (y, x) ∉ l).
    { intros x y Hxy. pose proof Hxy as (H1 & H2 & _)%Hl. split_and!; [done|done|..].
      - intros [? _]%HnoK. done.
      - intros [_ ?]%HnoK. done.
      - by apply Hsym. }
    pose proof (t_links_ok (R ++ [(old, new)]) new old l K M s1 HA HR1 Hls Hlnd) as HK.
    destruct (t_insert_links w T V og _ new l s1) as [[s2 [e|]]|]; [cbn in *; naive_solver| |done].
    cbn in HK. cbn [lift]. rewrite hbind_Ok. destruct HK as (K' & M2 & X2 & NK' & HK').
    assert (HR' : forall o, o ∈ (R ++ [(old, new)]).*1 <-> o ∈ R.*1 \/ o = old).
    { intros o. rewrite fmap_app, elem_of_app. cbn. by rewrite elem_of_list_singleton. }
    apply (IH _ _ _ _ X2).
    - intros x y HRl (o1 & Ho1 & H1) (o2 & Ho2 & H2). apply HR' in Ho1, Ho2. rewrite !elem_of_app, !HK'.
        assert (Hrs : Rl y x) by (by apply (lvs_sym _ _ _ HS)).
        destruct (decide (o1 = old)) as [->|N1].
        * assert (In : forall a b, Rl a b -> lv_pnode V (lv_port V a) = Some old -> lv_pdir V (lv_port V a) = Some Outgoing -> (a, b) ∈ l).
          { intros a b Q1 Q2 Q3. apply Hl. split; [done|]. split; [done|]. intros [Q4 _]. congruence. }
          destruct (lv_pdir V (lv_port V x)) as [[]|] eqn:Ed; [| |by destruct (lvs_dir _ _ _ HS (lv_port V x) ltac:(congruence))].
          -- destruct (decide (o2 = old)) as [->|N2].
             ++ right. right. split; [|exists old; rewrite HR'; tauto]. apply In; [done|done|]. apply (lvs_opp _ _ _ HS _ _ _ HRl Ed).
             ++ left. right. split; [|exists o2; rewrite HR'; tauto]. apply Hl. split; [done|]. split; [done|]. intros [_ ?]. congruence.
          -- left. right. split; [by apply In|]. exists o2. rewrite HR'. tauto.
        * destruct (decide (o2 = old)) as [->|N2].
          -- right. right. split; [|exists o1; rewrite HR'; tauto]. apply Hl. split; [done|]. split; [done|]. intros [_ ?]. congruence.
          -- destruct (HF x y HRl) as [Q|Q]; [exists o1|exists o2|tauto|tauto]; (split; [|done]); tauto.
    - rewrite fmap_app, <- app_assoc. done.
    - intros x y [(o & Ho & Eo)%HKx|[(_ & H & _)%Hl _]%HK']%elem_of_app; [exists o|exists old]; rewrite HR'; tauto.
    - intros x y [(o & Ho & Eo)%HKy|[_ H]%HK']%elem_of_app; [exists o; rewrite HR'; tauto|done].
  Qed.

  Lemma t_insert_ok : hret cp (t_insert w T V og s0) (fun '(s', r) =>
    match r with
    | inl e => fails e /\ exists R' K' M', vins R' K' M' s'
    | inr R' => exists K' M', vins R' K' M' s' /\ vfull R' K' /\ R'.*1 = L
    end).
  Proof.
    unfold t_insert. rewrite HL, hbind_Ok. apply (t_nodes_ok L [] [] [] s0 vins_nil); [|done|by intros ? ? []%elem_of_nil..].
    by intros ? ? ? (? & []%elem_of_nil & _).
  Qed.

  (** The facts about the result *)
  Lemma vins_nodes R K M s : vins R K M s -> R.*1 = L ->
    nodes_copied L og (G s0) (G s) (fun n => has s0 n = true) (fun n => has s n = true) R.
  Proof.
    intros X HR. split; [done|apply X|apply X|intros n Hn; by apply (vi_old _ _ _ _ X)| |apply X].
    intros n d Hn. by apply (vi_old _ _ _ _ X).
  Qed.
  Context `{!EqDecision E} (dflt : E').
  Definition map_end (M : list (E * E')) (x : E) : E' :=
    match list_find (fun z => z.1 = x) M with Some (_, z) => z.2 | None => dflt end.
  Lemma map_end_in M x x' : NoDup M.*1 -> (x, x') ∈ M -> map_end M x = x'.
  Proof.
    intros Hnd HM. unfold map_end. destruct (list_find _ M) as [[i [a b]]|] eqn:Ef.
    - apply list_find_Some in Ef as (Hi & Ha & _). cbn in *. subst a. apply elem_of_list_lookup_2 in Hi. by eapply nodup_fst.
    - rewrite list_find_None, Forall_forall in Ef. exfalso. by apply (Ef (x, x')).
  Qed.
  Lemma vins_links R K M s : vins R K M s -> vfull R K -> R.*1 = L ->
    links_copied V Rl og (G s) endp (rel s0) (rel s) R (map_end M).
  Proof.
    intros X HF HR.
    assert (HK : forall x y, Rl x y -> (x, y) ∈ K \/ (y, x) ∈ K).
    { intros x y Hxy. apply HF; [done|..].
      - destruct (lvs_end _ _ _ HS _ _ Hxy) as (n & H1 & H2). exists n. by rewrite HR, HLn.
      - destruct (lvs_end2 _ _ _ HS _ _ Hxy) as (n & H1 & H2). exists n. by rewrite HR, HLn. }
    assert (HM : forall x y, Rl x y -> (x, map_end M x) ∈ M).
    { intros x y Hxy. assert (x ∈ M.*1) as [x' Hx]%in_fst by (apply (vi_MK _ _ _ _ X); exists y; by apply HK).
      by rewrite (map_end_in _ _ _ (vi_M1 _ _ _ _ X) Hx). }
    split.
    - intros x y Hxy. eapply vi_M; [done|]. by eapply HM.
    - intros x y x' y' H1%HM H2%HM Ef. rewrite Ef in H1. by eapply (nodup_snd M), H2; [apply X|].
    - intros x y z Hxy. eapply cop_old; [done|]. eapply vi_M; [done|]. by eapply HM.
    - intros a b. rewrite (vi_rel _ _ _ _ X). split; (intros [H|(x & y & H)]; [by left|right; exists x, y]).
      + destruct H as (H1 & H2 & H3). rewrite (map_end_in _ _ _ (vi_M1 _ _ _ _ X) H2), (map_end_in _ _ _ (vi_M1 _ _ _ _ X) H3).
        split; [|done]. destruct H1 as [H1|H1]; apply (vi_K _ _ _ _ X) in H1; [done|by apply (lvs_sym _ _ _ HS)].
      + destruct H as (H1 & -> & ->). split; [by apply HK|]. split; [by eapply HM|]. eapply HM. by apply (lvs_sym _ _ _ HS).
  Qed.
  (** What is left of the graph, also after an error *)
  Lemma vins_kept R K M s : vins R K M s ->
    (forall n, has s0 n = true -> has s n = true /\ forall d, ports (G s) n d = ports (G s0) n d) /\
    (forall a b, (exists n d, has s0 n = true /\ endp a ∈ ports (G s0) n d) -> rel s a b <-> rel s0 a b).
  Proof.
    intros X. split.
    - intros n Hn. split; [apply (vi_has _ _ _ _ X); by left|]. by apply (vi_old _ _ _ _ X).
    - intros a b (n & d & Hn & [k Hk]%elem_of_list_lookup_1). rewrite (vi_rel _ _ _ _ X). split; [|by left].
      intros [H|(x & y & _ & H & _)]; [done|]. exfalso. destruct (vi_M _ _ _ _ X _ _ H) as (o & n' & d' & k' & HR & _ & Hp').
      destruct (vi_old _ _ _ _ X n Hn) as [Hno E1]. rewrite <- E1 in Hk.
      destruct (at_inj _ _ _ _ _ _ _ _ (H_reach _ _ _ (vi_good _ _ _ _ X)) Hp' Hk) as (<- & _). apply Hno, in_snd. eauto.
  Qed.
End loops.

(** ** Inserting into a [PortGraph] *)
Definition n_ports (og : pg) (n : nat) : nat := num_ports og n Incoming + num_ports og n Outgoing.
Definition pg_good (w : N) (ops : list op) (og : pg) (R : list (nat * nat)) (g : pg) : Prop :=
  exists ops', hist w (ops ++ ops') g /\ sum_list (node_cost <$> ops') = length R /\
    sum_list (port_cost <$> ops') = sum_list (n_ports og <$> R.*1).

Lemma linked_add w g i j g' n : reach w g -> (N.of_nat i <= 65534 /\ N.of_nat (i + j) <= 65535)%N ->
  add_node (po_max_offset w) g i j = Ok (g', n) -> reach w g' -> forall x y, linked g' x y <-> linked g x y.
Proof.
  intros Hr Hb Ea Hr' x y. destruct (C04_add_node_pf w g i j g' n Hr Hb Ea) as (_ & _ & _ & _ & Hnew & _ & Hsp & _).
  destruct (decide (port_node g' x = Some n)) as [Hx|Hx].
  - pose proof (reach_inv _ _ Hr) as (f & F & I). pose proof (reach_inv _ _ Hr') as (f' & F' & I').
    apply port_node_iff in Hx as [d Hd]. destruct (pmeta_port_at _ _ _ I' _ _ _ Hd) as [k Hk].
    destruct (Hnew d x ltac:(by eapply elem_of_list_lookup_2)) as (H1 & H2 & _). split; intros H; exfalso.
    + unfold linked, unlinked in *. congruence.
    + apply (linked_iff _ _ _ I) in H as [H _]. apply contains_port_true in H. congruence.
  - destruct (Hsp x Hx) as (_ & _ & _ & E). unfold linked. by rewrite E.
Qed.
Lemma linked_link w g a b g' x' : reach w g -> link_ports g a b = Ok (g', inr x') ->
  a <> b /\ unlinked g a /\ unlinked g b /\
  (forall x y, linked g' x y <-> linked g x y \/ (x = a /\ y = b) \/ (x = b /\ y = a)).
Proof.
  intros Hr E. destruct (C07_link_ports_pf w g a b Hr) as (g1 & r & E1 & Hiff & Hok & _). rewrite E in E1. injection E1 as <- <-.
  destruct (proj1 Hiff ltac:(eauto)) as ((d & Da & Db) & Ua & Ub). destruct (Hok _ eq_refl) as (_ & La & Lb & Hsp & _).
  assert (a <> b) by (intros <-; rewrite Da in Db; injection Db; by destruct d). split_and!; [done..|].
  intros x y. destruct (decide (x = a)) as [->|Na].
  - unfold linked, unlinked in *. rewrite La, Ua. split; [intros [= ->]; tauto|]. intros [|[[_ ->]|[? _]]]; done.
  - destruct (decide (x = b)) as [->|Nb].
    + unfold linked, unlinked in *. rewrite Lb, Ub. split; [intros [= ->]; tauto|]. intros [|[[? _]|[_ ->]]]; done.
    + destruct (Hsp x Na Nb) as (_ & _ & _ & Ex). unfold linked. rewrite Ex. tauto.
Qed.

Section into_pg.
  Context (w : N) (Hw : (1 < w <= 63)%N) (ops : list op) (g : pg) (Hh : hist w ops g).
  Context {E : Type} (V : lview E) (Nn : nat -> Prop) (Rl : E -> E -> Prop) (og : pg).
  Context (HS : shows V Nn Rl) (HV : view_over V og) (Hro : reach w og).
  Context (Hmax : forall n d, Nn n -> (N.of_nat (num_ports og n d) <= po_max_offset w)%N).
  Context (L : list nat) (HL : lv_nodes V = HOk L).
  Context (Hb1 : (N.of_nat (sum_list (node_cost <$> ops) + length L) <= 2 ^ 31 - 1)%N).
  Context (Hb2 : (N.of_nat (sum_list (port_cost <$> ops) + sum_list (n_ports og <$> L)) <= 2 ^ 31 - 1)%N).

  Lemma og_small n : (N.of_nat (num_ports og n Incoming) <= 65534 /\ N.of_nat (num_ports og n Incoming + num_ports og n Outgoing) <= 65535)%N.
  Proof.
    pose proof (reach_inv _ _ Hro) as (f & F & I). unfold num_ports. destruct (nmeta og n) as [m|] eqn:Hm; [|done].
    pose proof (inv_meta_ok _ _ _ I _ _ Hm) as Hok. unfold meta_ok in Hok. cbn [nm_num]. clear Hb1 Hb2. lia.
  Qed.

  Lemma pg_H_add R s old : pg_good w ops og R s -> Nn old -> old ∉ R.*1 -> R.*1 ++ [old] ⊆+ L ->
    ret False (t_add (t_pg w) s (num_ports og old Incoming) (num_ports og old Outgoing)) (fun '(s', n) =>
      pg_good w ops og (R ++ [(old, n)]) s' /\ contains_node s n = false /\ contains_node s' n = true /\ (forall d, num_ports s' n d = num_ports og old d) /\
      (forall x, x <> n -> contains_node s' x = contains_node s x) /\ (forall x d, x <> n -> contains_node s x = true -> ports s' x d = ports s x d) /\
      (forall x y, linked s' x y <-> linked s x y)).
  Proof.
    intros (ops' & Hh' & C1 & C2) Hn Hold Hsub. change (2 ^ 31 - 1)%N with 2147483647%N in *.
    pose proof (og_small old) as Hsm. assert (Hal : allowed s (OAdd (num_ports og old Incoming) (num_ports og old Outgoing))) by (exact Hsm).
    assert (Hlen : length R + 1 <= length L). { apply submseteq_length in Hsub. rewrite app_length, fmap_length in Hsub. cbn in Hsub. lia. }
    assert (Hsum : sum_list (n_ports og <$> R.*1) + n_ports og old <= sum_list (n_ports og <$> L)).
    { apply submseteq_Permutation in Hsub as [k Hk]. assert (HP : sum_list (n_ports og <$> L) = sum_list (n_ports og <$> ((R.*1 ++ [old]) ++ k))) by (by rewrite Hk).
      rewrite HP, !fmap_app, !sum_list_with_app. cbn. unfold sum_list_with. lia. }
    destruct (C06_no_panic_pf w _ s _ Hh' Hal) as (s' & r & Es).
    { split; by apply Hmax. }
    { change (2 ^ 31 - 1)%N with 2147483647%N. rewrite !fmap_app, !sum_list_with_app. cbn. unfold sum_list_with in *. lia. }
    { change (2 ^ 31 - 1)%N with 2147483647%N. rewrite !fmap_app, !sum_list_with_app. cbn. unfold sum_list_with, n_ports in *. lia. }
    pose proof (hist_step w _ _ _ _ _ Hh' Hal Es) as Hh2. cbn [step] in Es. cbn [t_pg t_add].
    destruct (add_node _ s _ _) as [[s2 n]|] eqn:Ea; [|done]. cbn in Es. injection Es as -> <-. cbn.
    assert (Hr : reach w s) by (by eexists).
    destruct (C04_add_node_pf w s _ _ s' n Hr Hsm Ea) as (H1 & H2 & H3 & H4 & _ & H5 & _).
    split_and!; [|done|done|by intros []| | |].
    - eexists. rewrite app_assoc. split; [exact Hh2|]. rewrite !fmap_app, !sum_list_with_app, app_length. cbn. unfold sum_list_with, n_ports in *. lia.
    - intros x Hx. by apply H5.
    - intros x d Hx _. by apply H5.
    - apply (linked_add w _ _ _ _ _ Hr Hsm Ea). by eexists.
  Qed.
  Lemma pg_H_link R s a b na nb d : pg_good w ops og R s -> contains_node s na = true -> contains_node s nb = true ->
    a ∈ ports s na d -> b ∈ ports s nb (rev_dir d) ->
    ret False (t_link (t_pg w) s a b) (fun '(s', r) => (forall x, contains_node s' x = contains_node s x) /\
      (forall x d, contains_node s x = true -> ports s' x d = ports s x d) /\
      match r with
      | inr _ => pg_good w ops og R s' /\ exists x y, id x = a /\ id y = b /\ (forall z, ~ linked s x z) /\ (forall z, ~ linked s y z) /\ x <> y /\
          forall u v, linked s' u v <-> linked s u v \/ (u = x /\ v = y) \/ (u = y /\ v = x)
      | inl e => pg_good w ops og R s' /\ ~ False /\ (exists p, e = AlreadyLinked p) /\ (forall x y, linked s' x y <-> linked s x y) /\
          exists x y, linked s x y /\ (id x = a \/ id x = b)
      end).
  Proof.
    intros (ops' & Hh' & C1 & C2) _ _ [ka Ha]%elem_of_list_lookup_1 [kb Hb]%elem_of_list_lookup_1.
    assert (Hr : reach w s) by (by eexists).
    destruct (C02_ports_and_nodes_pf w s Hw Hr) as (_ & _ & _ & HP & _). destruct (HP _ _ _ _ Ha) as (A1 & A2 & A3), (HP _ _ _ _ Hb) as (B1 & B2 & B3).
    destruct (C07_link_ports_pf w s a b Hr) as (s' & r & El & Hiff & Hok & Herr). cbn [t_pg t_link]. rewrite El. cbn.
    assert (Hst : step w s (OLink a b) = Ok (s', RLink r)) by (cbn; by rewrite El).
    assert (HG : pg_good w ops og R s').
    { exists (ops' ++ [OLink a b]). rewrite app_assoc. split; [by econstructor|]. rewrite !fmap_app, !sum_list_with_app. cbn. unfold sum_list_with in *. lia. }
    destruct r as [e|x].
    - destruct (Herr e eq_refl) as [-> He]. split; [done|]. split; [done|]. split; [done|]. split; [tauto|].
      destruct e as [port|port|? ? ?|? ? ?]; try done.
      + destruct He as (He & q & Hq). split; [eauto|]. split; [done|]. exists port, q. cbn. naive_solver.
      + destruct He; congruence.
      + destruct He as (_ & _ & E1 & E2). rewrite A3 in E1. rewrite B3 in E2. injection E1 as <-. injection E2. by destruct d.
    - destruct (Hok x eq_refl) as (_ & _ & _ & _ & Hn & _). split; [apply Hn|]. split; [intros; apply Hn|]. split; [done|].
      destruct (linked_link w s a b s' x Hr El) as (H1 & H2 & H3 & H4). exists a, b. split_and!; try done.
      + intros z Hz. unfold linked, unlinked in *. congruence.
      + intros z Hz. unfold linked, unlinked in *. congruence.
  Qed.
  Lemma pg_H_end s x y : reach w s -> linked s x y -> exists n d, contains_node s n = true /\ id x ∈ ports s n d.
  Proof.
    intros Hr Hl. pose proof (reach_inv _ _ Hr) as (f & F & I). apply (linked_iff _ _ _ I) in Hl as [[[n d] Hx] _].
    destruct (pmeta_port_at _ _ _ I _ _ _ Hx) as [k Hk]. destruct (pmeta_nmeta _ _ _ I _ _ _ Hx) as [m Hm].
    exists n, d. split; [by apply contains_node_true; eauto|]. by eapply elem_of_list_lookup_2.
  Qed.
  Lemma pg_good_reach R s : pg_good w ops og R s -> reach w s.
  Proof. intros (ops' & H & _). by eexists. Qed.
  Lemma pg_good_nil : pg_good w ops og [] g.
  Proof. exists []. by rewrite app_nil_r. Qed.
End into_pg.
