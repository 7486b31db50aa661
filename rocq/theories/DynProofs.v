(** The dynamic order: invariant along histories, searches, and reordering. *)
From Verif Require Export DynSpec BfsProofs ConvexPG PG1Thms.

(** ** Positions *)
Lemma dt_number_ok l m : NoDup l -> forall n i,
  dt_number l m !! n = Some i <-> l !! i = Some n \/ n ∉ l /\ m !! n = Some i.
Proof.
  intros Hnd. unfold dt_number, enumerate.
  assert (H : forall k l' (m' : gmap nat nat), NoDup l' -> forall n i,
    foldl (fun (m : gmap nat nat) (x : nat * nat) => <[x.2 := x.1]> m) m' (imap (fun i x => (k + i, x)) l') !! n = Some i <->
      (exists j, i = k + j /\ l' !! j = Some n) \/ n ∉ l' /\ m' !! n = Some i).
  { intros k l'. revert k. induction l' as [|x l' IH]; intros k m' Hnd' n i.
    - cbn. split; [intros; right; split; [apply not_elem_of_nil|done]|]. intros [(j & _ & ?)|[_ ?]]; done.
    - apply NoDup_cons in Hnd' as [Hx Hnd']. cbn [imap foldl].
      change (imap ((λ i0 (x0 : nat), (k + i0, x0)) ∘ S) l') with (imap (fun i0 x0 => (k + S i0, x0)) l').
      rewrite (imap_ext _ (fun i0 x0 => (S k + i0, x0))) by (intros; f_equal; lia).
      rewrite IH by done. split.
      + intros [(j & -> & Hj)|[Hn Hm]].
        * left. exists (S j). split; [lia|done].
        * cbn in Hm. rewrite lookup_insert_Some in Hm. destruct Hm as [[<- <-]|[Hne Hm]].
          -- left. exists 0. split; [lia|done].
          -- right. split; [|done]. rewrite not_elem_of_cons. done.
      + intros [([|j] & -> & Hj)|[Hn Hm]].
        * cbn in Hj. injection Hj as ->. right. split; [done|]. cbn. rewrite lookup_insert. f_equal. 
        * cbn in Hj. left. exists j. split; [lia|done].
        * apply not_elem_of_cons in Hn as [Hne Hn]. right. split; [done|]. cbn. by rewrite lookup_insert_ne. }
  intros n i. rewrite (H 0 l m Hnd n i). split; [|intros [?|?]; [left; by exists i|by right]].
  intros [(j & -> & Hj)|?]; [by left|by right].
Qed.

Definition dgood (g : pg) (t : dts) : Prop := topo_order g (dt_order t) /\ dt_sync t.

Lemma before_delete l k a b : before l a b -> (forall i, l !! i = Some a -> i <> k) -> (forall i, l !! i = Some b -> i <> k) ->
  before (delete k l) a b.
Proof.
  intros (i & j & Hij & Hi & Hj) Ha Hb. pose proof (Ha _ Hi). pose proof (Hb _ Hj).
  exists (if decide (i < k) then i else i - 1), (if decide (j < k) then j else j - 1).
  split; [repeat case_decide; lia|].
  split.
  - case_decide; [by rewrite lookup_delete_lt|]. rewrite lookup_delete_ge by lia. replace (S (i - 1)) with i by lia. done.
  - case_decide; [by rewrite lookup_delete_lt|]. rewrite lookup_delete_ge by lia. replace (S (j - 1)) with j by lia. done.
Qed.

(** ** Edges under the calls *)
Section edges.
  Context (w : N) (g : pg) (Hr : reach w g).
  Lemma in_ports_iff p n d : p ∈ ports g n d <-> port_node g p = Some n /\ port_direction g p = Some d.
  Proof.
    destruct (reach_inv _ _ Hr) as (fnl & F & I). rewrite (elem_ports _ _ _ I). unfold port_node, port_direction.
    destruct (pmeta g p) as [[n' d']|]; cbn; naive_solver.
  Qed.
  Lemma pedge_unlink p g' r a b : unlink_port g p = Ok (g', r) -> pedge g' Outgoing a b -> pedge g Outgoing a b.
  Proof.
    intros E. destruct (C09_unlink_port_pf w g p Hr) as (g1 & r1 & E1 & H1 & H2 & H3). rewrite E1 in E. injection E as -> ->.
    destruct r as [q|]; [|by rewrite H2]. destruct (H3 q eq_refl) as (Hp & Hq & Hs & _ & Hn & _).
    intros (x & y & Hx & Hl & Hy). destruct (Hn a) as [_ Ha]. destruct (Hn b) as [_ Hb]. rewrite Ha in Hx. rewrite Hb in Hy.
    exists x, y. split; [done|]. split; [|done]. unfold linked, unlinked in *.
    destruct (decide (x = p)) as [->|]; [congruence|]. destruct (decide (x = q)) as [->|]; [congruence|].
    destruct (Hs x) as (_ & _ & _ & <-); done.
  Qed.
  Lemma pedge_link p q g' x a b : link_ports g p q = Ok (g', inr x) -> port_direction g p = Some Outgoing ->
    pedge g' Outgoing a b <-> pedge g Outgoing a b \/ port_node g p = Some a /\ port_node g q = Some b.
  Proof.
    intros E Hd. destruct (C07_link_ports_pf w g p q Hr) as (g1 & r1 & E1 & H1 & H2 & _). rewrite E1 in E. injection E as -> ->.
    destruct (H2 x eq_refl) as (_ & Hl1 & Hl2 & Hs & Hn & Hp & _). destruct H1 as [H1 _].
    destruct H1 as ((d & Hd1 & Hd2) & Hu1 & Hu2); [by exists x|]. rewrite Hd in Hd1. injection Hd1 as <-. cbn in Hd2.
    destruct (Hn a) as [_ Ha]. destruct (Hn b) as [_ Hb].
    unfold pedge, plink_via. setoid_rewrite Ha. setoid_rewrite Hb. unfold linked, unlinked in *. split.
    - intros (y & z & Hy & Hl & Hz). destruct (decide (y = p)) as [->|].
      + right. apply in_ports_iff in Hy as [? _]. split; [done|]. assert (z = q) as -> by congruence. by apply in_ports_iff in Hz as [? _].
      + destruct (decide (y = q)) as [->|].
        * exfalso. apply in_ports_iff in Hy as [_ Hy]. congruence.
        * left. exists y, z. split; [done|]. split; [|done]. destruct (Hs y) as (_ & _ & _ & <-); done.
    - intros [(y & z & Hy & Hl & Hz)|[Hpa Hqb]].
      + exists y, z. split; [done|]. split; [|done]. destruct (decide (y = p)) as [->|]; [congruence|].
        destruct (decide (y = q)) as [->|]; [congruence|]. destruct (Hs y) as (_ & _ & _ & ->); done.
      + exists p, q. split; [by apply in_ports_iff|]. split; [done|]. by apply in_ports_iff.
  Qed.
End edges.
Lemma pedge_add w g i j g' n a b : reach w g -> (N.of_nat i <= 65534 /\ N.of_nat (i + j) <= 65535)%N ->
  add_node (po_max_offset w) g i j = Ok (g', n) -> pedge g' Outgoing a b -> pedge g Outgoing a b.
Proof.
  intros Hr Hij E (p & q & Hp & Hl & Hq).
  assert (Hr' : reach w g') by (apply (reach_step w g (OAdd i j) g' (RNode n) Hr); [done|cbn; by rewrite E]).
  destruct (C04_add_node_pf w g i j g' n Hr Hij E) as (_ & _ & _ & _ & Hnew & Hn & Hs & _).
  destruct (decide (a = n)) as [->|].
  { exfalso. destruct (Hnew _ _ Hp) as (_ & Hu & _). unfold unlinked, linked in *. congruence. }
  destruct (decide (b = n)) as [->|].
  { exfalso. destruct (Hnew _ _ Hq) as (_ & Hu & _).
    destruct (C01_links_symmetric_pf w g' p q Hr' Hl) as [Hl' _]. unfold unlinked, linked in *. congruence. }
  destruct (Hn a) as [_ Ha]; [done|]. destruct (Hn b) as [_ Hb]; [done|]. rewrite Hb in Hq.
  exists p, q. split; [by rewrite <- Ha|]. split; [|done]. apply (in_ports_iff w g' Hr') in Hp as [Hp _].
  destruct (Hs p) as (_ & _ & _ & E'); [congruence|]. unfold linked in *. congruence.
Qed.
Lemma pedge_remove w g n g' a b : reach w g -> contains_node g n = true -> remove_node g n = Ok g' ->
  pedge g' Outgoing a b -> pedge g Outgoing a b /\ a <> n /\ b <> n.
Proof.
  intros Hr Hc E (p & q & Hp & Hl & Hq).
  assert (Hr' : reach w g') by (apply (reach_step w g (ORemove n) g' RUnit Hr); [done|cbn; by rewrite E]).
  destruct (C05_remove_node_pf w g n Hr) as (g1 & E1 & _ & H). rewrite E1 in E. injection E as ->.
  destruct (H Hc) as (Hc' & Hn & _ & _ & Hlk & _).
  assert (Ha' : forall x d y, y ∈ ports g' x d -> x <> n).
  { intros x d y Hy ->. destruct (reach_inv _ _ Hr') as (fnl & F & I). apply (elem_ports _ _ _ I) in Hy.
    eapply pmeta_nmeta in Hy; [|exact I]. apply contains_node_true in Hy. congruence. }
  pose proof (Ha' _ _ _ Hp) as Ha. pose proof (Ha' _ _ _ Hq) as Hb. split; [|done].
  destruct (Hn a Ha) as [_ Ea]. destruct (Hn b Hb) as [_ Eb]. rewrite Ea in Hp. rewrite Eb in Hq. exists p, q.
  split; [done|]. split; [|done]. by apply Hlk.
Qed.

(** ** Topological orders *)
Lemma before_trans l a b c : NoDup l -> before l a b -> before l b c -> before l a c.
Proof.
  intros Hnd (i & j & Hij & Hi & Hj) (j' & k & Hjk & Hj' & Hk).
  assert (j = j') as -> by exact (NoDup_lookup _ _ _ _ Hnd Hj Hj'). exists i, k. split; [lia|done].
Qed.
Lemma before_irrefl l a : NoDup l -> ~ before l a a.
Proof.
  intros Hnd (i & j & Hij & Hi & Hj). assert (i = j) by exact (NoDup_lookup _ _ _ _ Hnd Hi Hj). lia.
Qed.
Lemma topo_order_tc g l a b : topo_order g l -> tc (pedge g Outgoing) a b -> before l a b.
Proof.
  intros (Hnd & _ & Ho). induction 1 as [x y Hxy|x y z Hxy _ IH]; [by apply Ho|]. eapply before_trans; [done|by apply Ho|done].
Qed.
Lemma topo_order_acyclic g l : topo_order g l -> pacyclic g.
Proof. intros Ht a Ha%(topo_order_tc _ _ _ _ Ht). destruct Ht as [Hnd _]. by apply (before_irrefl l a). Qed.

Lemma dgood_pos g t n : dgood g t -> (is_Some (dt_pos t !! n) <-> contains_node g n = true).
Proof.
  intros [(Hnd & Hn & _) Hs]. rewrite <- Hn, elem_of_list_lookup. split.
  - intros [i Hi]. exists i. by apply Hs.
  - intros [i Hi]. exists i. by apply Hs.
Qed.
Lemma dgood_lt g t a b i j : dgood g t -> before (dt_order t) a b -> dt_pos t !! a = Some i -> dt_pos t !! b = Some j -> i < j.
Proof.
  intros [(Hnd & _ & _) Hs] Hb Hi%Hs Hj%Hs. eapply before_lt; done.
Qed.
Lemma dgood_edge g t a b : dgood g t -> pedge g Outgoing a b -> exists i j, dt_pos t !! a = Some i /\ dt_pos t !! b = Some j /\ i < j.
Proof.
  intros [(Hnd & _ & Ho) Hs] (i & j & Hij & Hi & Hj)%Ho. exists i, j. split; [by apply Hs|]. split; [by apply Hs|done].
Qed.
Lemma dgood_rtc g t a b i j : dgood g t -> rtc (pedge g Outgoing) a b -> dt_pos t !! a = Some i -> dt_pos t !! b = Some j -> i <= j.
Proof.
  intros Hg Hab Hi Hj. apply rtc_tc in Hab as [->|Hab]; [rewrite Hi in Hj; injection Hj as ->; lia|].
  pose proof (topo_order_tc _ _ _ _ (proj1 Hg) Hab) as Hb. pose proof (dgood_lt _ _ _ _ _ _ Hg Hb Hi Hj). lia.
Qed.

Lemma dgood_new w g : reach w g -> pacyclic g -> exists c N, (forall fuel, N < fuel -> dc_new fuel g = HOk c) /\
  dc_graph c = g /\ dgood g (dc_topo c).
Proof.
  intros Hr Hac. destruct (cc_topsort_ok w g Hr Hac) as (l & Hrun & Hnd & Hall & Hord).
  exists (DC (DTS l (dt_number l ∅)) g), (length l). split.
  { intros fuel Hf. unfold dc_new, dt_with_graph. rewrite Hrun by done. done. }
  split; [done|]. split; [done|]. intros n i. cbn. rewrite dt_number_ok by done. rewrite lookup_empty. naive_solver.
Qed.
Lemma topo_collect_mono v d nf pf f1 f2 s l : f1 <= f2 -> topo_collect v d nf pf f1 s = HOk l -> topo_collect v d nf pf f2 s = HOk l.
Proof.
  revert f2 s l. induction f1 as [|f1 IH]; intros f2 s l Hle; [done|]. destruct f2 as [|f2]; [lia|]. cbn [topo_collect].
  destruct (lift (topo_next v d nf pf s)) as [[o s']| |]; cbn [mbind hres_bind]; [|done|done].
  destruct o; [|done]. destruct (topo_collect v d nf pf f1 s') as [l'| |] eqn:E; cbn [mbind hres_bind]; [|done|done].
  intros [= <-]. rewrite (IH f2 s' l') by (done || lia). done.
Qed.
Lemma dc_new_det fuel fuel' g c : fuel <= fuel' -> dc_new fuel g = HOk c -> dc_new fuel' g = HOk c.
Proof.
  intros Hle. unfold dc_new, dt_with_graph, cc_topsort.
  destruct (lift (rfilter _ _)) as [src| |]; cbn [mbind hres_bind]; [|done|done].
  destruct (topo_collect (gv_of g) Outgoing _ _ fuel _) as [l| |] eqn:E; cbn [mbind hres_bind]; [|done|done].
  rewrite (topo_collect_mono _ _ _ _ _ fuel' _ _ Hle E). done.
Qed.
Lemma dgood_new' w fuel g c : reach w g -> pacyclic g -> dc_new fuel g = HOk c -> dc_graph c = g /\ dgood g (dc_topo c).
Proof.
  intros Hr Hac E. destruct (dgood_new w g Hr Hac) as (c' & N & Hnew & H1 & H2).
  apply (dc_new_det _ (S (fuel `max` N))) in E; [|lia]. rewrite Hnew in E by lia. by injection E as ->.
Qed.

Lemma dgood_add w g i j g' n t : reach w g -> (N.of_nat i <= 65534 /\ N.of_nat (i + j) <= 65535)%N ->
  add_node (po_max_offset w) g i j = Ok (g', n) -> dgood g t -> dgood g' (dt_add_node t n).
Proof.
  intros Hr Hij E Hg. pose proof (dgood_pos g t) as Hp.
  pose proof (fun a b => pedge_add w g i j g' n a b Hr Hij E) as He.
  destruct (C04_add_node_pf w g i j g' n Hr Hij E) as (Hn0 & Hn1 & _ & _ & _ & Hn & _).
  unfold dt_add_node. destruct (dt_pos t !! n) eqn:En.
  { exfalso. specialize (Hp n Hg). rewrite En, Hn0 in Hp. destruct Hp as [Hp _]. by specialize (Hp ltac:(eauto)). }
  destruct Hg as [(Hnd & Hel & Ho) Hs]. split.
  - split; [|split]; cbn [dt_order].
    + apply NoDup_app. split; [done|]. split; [|apply NoDup_singleton]. intros x Hx ->%elem_of_list_singleton. apply Hel in Hx. congruence.
    + intros x. rewrite elem_of_app, elem_of_list_singleton, Hel. destruct (decide (x = n)) as [->|Hne]; [tauto|].
      destruct (Hn x Hne) as [-> _]. tauto.
    + intros a b Hab%He. destruct (Ho _ _ Hab) as (k & l & Hkl & Hk & Hl). exists k, l. split; [done|].
      split; by apply lookup_app_l_Some.
  - intros x k. cbn. rewrite lookup_insert_Some. destruct (decide (n = x)) as [->|Hne].
    + split.
      * intros [[_ <-]|[? ?]]; [|done]. by rewrite lookup_app_r, Nat.sub_diag.
      * intros Hk. left. split; [done|]. apply lookup_app_Some in Hk as [Hk|[Hk Hk']].
        -- apply Hs in Hk. congruence.
        -- destruct (k - length (dt_order t)) eqn:Ek; [lia|done].
    + split.
      * intros [[? _]|[_ Hk]]; [done|]. apply lookup_app_l_Some. by apply Hs.
      * intros Hk. right. split; [done|]. apply lookup_app_Some in Hk as [Hk|[Hk Hk']]; [by apply Hs|].
        destruct (k - length (dt_order t)) eqn:Ek; cbn in Hk'; [congruence|done].
Qed.
Lemma dgood_remove w g n g' t : reach w g -> dgood g t -> contains_node g n = true -> remove_node g n = Ok g' ->
  exists t', dt_remove_node t n = Ok (t', None) /\ dgood g' t'.
Proof.
  intros Hr Hg Hc E. pose proof (fun a b => pedge_remove w g n g' a b Hr Hc E) as He.
  destruct (C05_remove_node_pf w g n Hr) as (g1 & E1 & _ & H). rewrite E1 in E. injection E as ->.
  destruct (H Hc) as (Hc' & Hn & _). clear H.
  destruct (proj2 (dgood_pos g t n Hg) Hc) as [pos Hpos]. destruct Hg as [(Hnd & Hel & Ho) Hs].
  pose proof (proj1 (Hs _ _) Hpos) as Hat.
  unfold dt_remove_node. rewrite Hpos. rewrite decide_True by (by eapply lookup_lt_Some). eexists. split; [done|].
  assert (HP : dt_order t ≡ₚ n :: delete pos (dt_order t)).
  { apply delete_Permutation. done. }
  assert (Hnd' : NoDup (delete pos (dt_order t))).
  { rewrite HP in Hnd. by apply NoDup_cons in Hnd as [_ ?]. }
  assert (Hnn : n ∉ delete pos (dt_order t)).
  { rewrite HP in Hnd. by apply NoDup_cons in Hnd as [? _]. }
  assert (Hel' : forall x, x ∈ delete pos (dt_order t) <-> x ∈ dt_order t /\ x <> n).
  { intros x. rewrite HP at 2. rewrite elem_of_cons. split; [|tauto]. intros Hx. split; [by right|]. by intros ->. }
  split.
  - split; [|split]; cbn [dt_order]; [done| |].
    + intros x. rewrite Hel', Hel. destruct (decide (x = n)) as [->|Hne].
      * rewrite Hc'. split; [tauto|done].
      * destruct (Hn x Hne) as [-> _]. tauto.
    + intros a b Hab. destruct (He _ _ Hab) as (Hab' & Ha & Hb). apply before_delete; [by apply Ho| |].
      * intros i Hi ->. congruence.
      * intros i Hi ->. congruence.
  - intros x i. cbn. rewrite dt_number_ok by done. split; [|by left]. intros [?|[Hx Hd]]; [done|].
    exfalso. apply lookup_delete_Some in Hd as [Hne Hd]. apply Hx, Hel'. split; [|done]. eapply elem_of_list_lookup_2. by apply Hs.
Qed.
Lemma dgood_sub g g' t : dgood g t -> (forall n, contains_node g' n = contains_node g n) ->
  (forall a b, pedge g' Outgoing a b -> before (dt_order t) a b) -> dgood g' t.
Proof.
  intros [(Hnd & Hel & Ho) Hs] Hn He. split; [|done]. split; [done|]. split; [|done]. intros n. by rewrite Hn, Hel.
Qed.
