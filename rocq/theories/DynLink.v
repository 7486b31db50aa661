(** [link_ports] of the dynamic checker. *)
From Verif Require Export DynSearch.

Lemma place_ok l order pos k : k + length l <= length order ->
  exists s, rfold dt_place l (order, pos, k) = Ok s.
Proof.
  revert order pos k. induction l as [|x l IH]; intros order pos k Hle; cbn [rfold length] in *; [eauto|].
  assert (Es : dt_place (order, pos, k) x = Ok (<[k := x]> order, <[x := k]> pos, k + 1)).
  { unfold dt_place, vset. by rewrite decide_True by lia. }
  rewrite Es. cbn [mbind res_bind]. apply IH. rewrite insert_length. lia.
Qed.
Lemma distinct_le l (f : nat -> option nat) lo n : NoDup l -> (forall x, x ∈ l -> exists k, f x = Some k /\ lo <= k < lo + n) ->
  (forall x y k, f x = Some k -> f y = Some k -> x = y) -> length l <= n.
Proof.
  intros Hnd Hk Hinj. rewrite <- (seq_length n lo).
  assert (H : exists ks, Forall2 (fun x k => f x = Some k) l ks /\ forall k, k ∈ ks -> lo <= k < lo + n).
  { clear Hnd. induction l as [|x l IH]; [exists []; split; [done|]; intros ? ?%elem_of_nil; done|].
    destruct IH as (ks & H1 & H2); [intros y Hy; apply Hk; by right|]. destruct (Hk x) as (k & Hx & ?); [by left|].
    exists (k :: ks). split; [by constructor|]. intros k' [->|?]%elem_of_cons; [done|auto]. }
  destruct H as (ks & HF & Hks). rewrite (Forall2_length _ _ _ HF). apply submseteq_length, NoDup_submseteq.
  - clear Hk Hks. induction HF as [|x k l ks Hxk HF IH]; [apply NoDup_nil_2|]. apply NoDup_cons in Hnd as [Hx Hnd].
    constructor; [|by apply IH]. intros Hk'. destruct (F2_r _ _ _ _ HF Hk') as (y & Hy & Hyk). by rewrite (Hinj x y k) in Hx.
  - intros k Hkk%Hks. by apply elem_of_seq.
Qed.

Section link.
  Context (w : N) (g : pg) (Hr : reach w g) (t : dts) (Hg : dgood g t).
  Let E := pedge g Outgoing.

  Lemma E_nodes a b : E a b -> contains_node g a = true /\ contains_node g b = true.
  Proof.
    intros Hab. destruct (reach_inv _ _ Hr) as (fnl & F & I). destruct (pedge_nodes g fnl F I _ _ _ Hab) as [?%nodes_iter_elem ?%nodes_iter_elem]. done.
  Qed.
  (** In the unchanged graph, or after the link [from -> b]. *)
  Lemma cycle_good g' from to : reach w g' -> contains_node g from = true ->
    (forall x y, x <> from -> pedge g' Outgoing x y <-> E x y) ->
    exists N, forall fuel, N < fuel -> exists r,
      dt_would_create_cycle (neighbours g') fuel t from to = HOk r /\ (r = true <-> rtc E to from).
  Proof.
    intros Hr' Hf He. destruct (cycle_ok w g' Hr' t from to) as [N HN]. exists N. intros fuel Hfuel.
    destruct (HN fuel Hfuel) as (r & Hrun & Hrr). exists r. split; [done|]. rewrite Hrr. split.
    - apply rtc_subrel. intros x y (H1 & H2 & _). by apply He.
    - clear Hrr Hrun HN Hfuel. intros Hp. remember from as z eqn:Ez in Hp. induction Hp as [x|x y z Hxy Hyz IH]; subst; [done|].
      destruct (decide (x = from)) as [->|Hxz]; [done|]. eapply rtc_l; [|by apply IH]. split; [done|]. split; [by apply He|].
      destruct (dgood_edge _ _ _ _ Hg Hxy) as (i & j & Hi & Hj & Hij). destruct (proj2 (dgood_pos _ _ _ Hg) Hf) as [k Hk].
      unfold dt_posx. rewrite Hj, Hk. apply posx_le_Some. by eapply dgood_rtc.
  Qed.

  Context (p q a b : nat) (Hp : p ∈ ports g a Outgoing) (Hq : q ∈ ports g b Incoming).
  Lemma link_nodes_ab : contains_node g a = true /\ contains_node g b = true.
  Proof.
    destruct (reach_inv _ _ Hr) as (fnl & F & I).
    split; apply contains_node_true; eapply pmeta_nmeta; [exact I|by apply (elem_ports _ _ _ I)|exact I|by apply (elem_ports _ _ _ I)].
  Qed.
  Lemma linked_edges g' x : link_ports g p q = Ok (g', inr x) ->
    reach w g' /\ (forall y z, pedge g' Outgoing y z <-> E y z \/ y = a /\ z = b) /\ (forall n, contains_node g' n = contains_node g n).
  Proof.
    intros El. apply (in_ports_iff w g Hr) in Hp as [Hp1 Hp2]. apply (in_ports_iff w g Hr) in Hq as [Hq1 Hq2].
    split; [apply (reach_step w g (OLink p q) g' (RLink (inr x)) Hr); [done|cbn; by rewrite El]|]. split.
    - intros y z. rewrite (pedge_link w g Hr _ _ _ _ _ _ El Hp2). rewrite Hp1, Hq1. naive_solver.
    - destruct (C07_link_ports_pf w g p q Hr) as (g1 & r1 & E1 & _ & H2 & _). rewrite E1 in El. injection El as -> ->.
      destruct (H2 x eq_refl) as (_ & _ & _ & _ & Hn & _). intros n. by destruct (Hn n).
  Qed.
  Lemma linked_acyclic g' x : link_ports g p q = Ok (g', inr x) -> pacyclic g' <-> ~ rtc E b a.
  Proof.
    intros El. destruct (linked_edges g' x El) as (Hr' & He & _). split.
    - intros Hac Hba. apply (Hac a). eapply tc_rtc_r; [|eapply (rtc_subrel E); [|exact Hba]].
      + apply tc_once, He. by right.
      + intros y z Hyz. apply He. by left.
    - intros Hn y Hy.
      (* a cycle uses the new edge, or is an old one *)
      assert (H : forall y z, tc (pedge g' Outgoing) y z -> tc E y z \/ rtc E y a /\ rtc E b z).
      { clear y Hy. induction 1 as [y z Hyz|y y' z Hyz _ IH].
        - apply He in Hyz as [?|[-> ->]]; [left; by apply tc_once|by right].
        - apply He in Hyz as [Hyz|[-> ->]].
          + destruct IH as [IH|[IH1 IH2]]; [left; by eapply tc_l|]. right. split; [by eapply rtc_l|done].
          + right. split; [done|]. destruct IH as [IH|[IH1 IH2]]; [by apply tc_rtc|done]. }
      destruct (H _ _ Hy) as [Ht|[H1 H2]]; [by apply (topo_order_acyclic _ _ (proj1 Hg) y)|].
      apply Hn. by etrans.
  Qed.

  Lemma update_ok g' x i j : link_ports g p q = Ok (g', inr x) -> ~ rtc E b a ->
    dt_pos t !! a = Some i -> dt_pos t !! b = Some j -> j <= i ->
    exists N, forall fuel, N < fuel -> exists t', dt_update_order (neighbours g') fuel t a b = HOk t'.
  Proof.
    intros El Hno Hi Hj Hji. destruct (linked_edges g' x El) as (Hr' & He & Hn). destruct Hg as [(Hnd & Hel & Ho) Hs].
    destruct (reach_inv _ _ Hr') as (fnl & F & I).
    assert (Hinj : forall x y k, dt_pos t !! x = Some k -> dt_pos t !! y = Some k -> x = y).
    { intros y z k Hy%Hs Hz%Hs. congruence. }
    assert (Hpos : forall n k, dt_pos t !! n = Some k -> k < length (dt_order t)) by (intros n k ?%Hs; by eapply lookup_lt_Some).
    exists (S (i + j)). intros fuel Hf.
    destruct (cone_ok (neighbours g') t Outgoing i E) with (fuel := fuel) (start := b) (i := j) as (df & Hdf & Hndf & Hinf).
    { intros n k Hk Hin. cbn in Hin. destruct (nb_ok w g' Hr' n Outgoing) as (l & -> & Hl). exists l. split; [done|].
      intros m Hm%Hl. apply He in Hm as [Hm|[-> _]]; [|rewrite Hi in Hk; injection Hk as ->; lia].
      destruct (dgood_edge _ _ _ _ Hg Hm) as (k' & k2 & Hk' & Hk2 & Hlt). exists k2. split; [done|]. split; [|done]. cbn.
      rewrite Hk in Hk'. by injection Hk' as ->. }
    { done. }
    { cbn. lia. }
    destruct (cone_ok (neighbours g') t Incoming j (fun x y => E y x)) with (fuel := fuel) (start := a) (i := i) as (db & Hdb & Hndb & Hinb).
    { intros n k Hk Hin. cbn in Hin. destruct (nb_ok w g' Hr' n Incoming) as (l & -> & Hl). exists l. split; [done|].
      intros m Hm%Hl. apply (pedge_rev _ _ _ I) in Hm. cbn in Hm. apply He in Hm as [Hm|[_ ->]]; [|rewrite Hj in Hk; injection Hk as ->; lia].
      destruct (dgood_edge _ _ _ _ Hg Hm) as (k' & k2 & Hk' & Hk2 & Hlt). exists k'. split; [done|]. split; [|done]. cbn.
      rewrite Hk in Hk2. by injection Hk2 as ->. }
    { done. }
    { cbn. lia. }
    assert (HEr : forall x y, rtc (fun x y => E y x) x y -> rtc E y x).
    { intros y z. induction 1 as [|y z' z H1 _ IH]; [done|]. by eapply rtc_r. }
    destruct (place_ok (db ++ df) (dt_order t) (dt_pos t) j) as [[[o' m'] k'] Hpl].
    { assert (length (db ++ df) <= i - j + 1).
      { apply (distinct_le _ (fun n => dt_pos t !! n) j); [| |done].
        - apply NoDup_app. split; [done|]. split; [|done]. intros y Hy1 Hy2. destruct (Hinb _ Hy1) as [H1%HEr _]. destruct (Hinf _ Hy2) as [H2 _].
          apply Hno. by etrans.
        - intros y [Hy|Hy]%elem_of_app.
          + destruct (Hinb _ Hy) as [H1%HEr (k & Hk & Hb)]. exists k. split; [done|]. cbn in Hb.
            pose proof (dgood_rtc _ _ _ _ _ _ Hg H1 Hk Hi). lia.
          + destruct (Hinf _ Hy) as [H1 (k & Hk & Hb)]. exists k. split; [done|]. cbn in Hb.
            pose proof (dgood_rtc _ _ _ _ _ _ Hg H1 Hj Hk). lia. }
      specialize (Hpos _ _ Hi). lia. }
    unfold dt_update_order. rewrite Hi, Hj. cbn [unwrap lift mbind hres_bind]. rewrite decide_False by lia.
    rewrite Hdf. cbn [mbind hres_bind]. rewrite Hdb. cbn [mbind hres_bind]. rewrite Hpl. cbn [lift mbind hres_bind]. by eexists.
  Qed.

  Lemma port_ab : port_node g p = Some a /\ port_node g q = Some b.
  Proof. apply (in_ports_iff w g Hr) in Hp as [? _]. by apply (in_ports_iff w g Hr) in Hq as [? _]. Qed.

  Lemma link_reaching : rtc E a b -> exists N, forall fuel, N < fuel -> dc_link_ports fuel (DC t g) p q = HPanic.
  Proof.
    intros Hab. destruct port_ab as [Ha Hb]. destruct link_nodes_ab as [_ Hcb].
    destruct (cycle_good g b a Hr Hcb) as [N HN]; [done|]. exists N. intros fuel Hf.
    destruct (HN fuel Hf) as (r & Hrun & Hrr). unfold dc_link_ports. cbn [dc_graph dc_topo]. rewrite Ha, Hb, Hrun. cbn [mbind hres_bind].
    by rewrite (proj2 Hrr Hab).
  Qed.
  Lemma link_cases : ~ rtc E a b -> exists N, forall fuel, N < fuel ->
    exists g' r, link_ports g p q = Ok (g', r) /\
    match r with
    | inl e => dc_link_ports fuel (DC t g) p q = HOk (DC t g', inl e)
    | inr x => (rtc E b a -> dc_link_ports fuel (DC t g) p q = HPanic) /\
               (~ rtc E b a -> exists t', dc_link_ports fuel (DC t g) p q = HOk (DC t' g', inr x) /\
                 (before (dt_order t) a b -> t' = t))
    end.
  Proof.
    intros Hab. destruct port_ab as [Ha Hb]. destruct link_nodes_ab as [Hca Hcb].
    destruct (cycle_good g b a Hr Hcb) as [N HN]; [done|].
    assert (Hpre : forall fuel, N < fuel -> dt_would_create_cycle (neighbours g) fuel t b a = HOk false).
    { intros fuel Hf. destruct (HN fuel Hf) as ([] & Hrun & Hrr); [|done]. exfalso. by apply Hab, Hrr. }
    destruct (C07_link_ports_pf w g p q Hr) as (g' & r & El & _). destruct r as [e|x].
    { exists N. intros fuel Hf. exists g', (inl e). split; [done|]. unfold dc_link_ports. cbn [dc_graph dc_topo]. rewrite Ha, Hb, Hpre by done.
      cbn [mbind hres_bind]. rewrite El. done. }
    destruct (linked_edges g' x El) as (Hr' & He & Hn).
    destruct (cycle_good g' a b Hr' Hca) as [N2 HN2].
    { intros y z Hy. rewrite He. split; [intros [?|[? _]]; done|by left]. }
    destruct (proj2 (dgood_pos _ _ _ Hg) Hca) as [i Hi]. destruct (proj2 (dgood_pos _ _ _ Hg) Hcb) as [j Hj].
    assert (Hupd : exists N3, forall fuel, N3 < fuel -> ~ rtc E b a -> j <= i -> exists t', dt_update_order (neighbours g') fuel t a b = HOk t').
    { destruct (decide (j <= i)) as [Hji|Hji]; [|exists 0; intros; lia].
      assert (Hdec : rtc E b a \/ ~ rtc E b a).
      { destruct (HN2 (S N2)) as ([] & _ & Hrr); [lia|left; by apply Hrr|right]. intros Hx%Hrr. done. }
      destruct Hdec as [Hx|Hx]; [exists 0; done|].
      destruct (update_ok g' x i j El Hx Hi Hj Hji) as [N3 H3]. exists N3. intros fuel Hf _ _. by apply H3. }
    destruct Hupd as [N3 HN3]. exists (N `max` N2 `max` N3). intros fuel Hf. exists g', (inr x). split; [done|].
    destruct (HN2 fuel) as (r & Hrun & Hrr); [lia|].
    unfold dc_link_ports. cbn [dc_graph dc_topo]. rewrite Ha, Hb, Hpre by lia. cbn [mbind hres_bind]. rewrite El. cbn [lift mbind hres_bind].
    unfold dt_connect. rewrite Hi, Hj, Hrun. cbn [mbind hres_bind]. split.
    - intros Hba. by rewrite (proj2 Hrr Hba).
    - intros Hba. destruct r; [by exfalso; apply Hba, Hrr|]. destruct (decide (j <= i)) as [Hji|Hji].
      + destruct (HN3 fuel) as (t' & Ht'); [lia|done|done|]. rewrite Ht'. cbn [mbind hres_bind]. exists t'. split; [done|].
        intros Hbef. pose proof (dgood_lt _ _ _ _ _ _ Hg Hbef Hi Hj). lia.
      + exists t. done.
  Qed.

  (** Input port first: the new link runs from [b] to [a], or the check fails. *)
  Lemma reversed_panics g' x : link_ports g q p = Ok (g', inr x) -> exists N, forall fuel, N < fuel -> dc_link_ports fuel (DC t g) q p = HPanic.
  Proof.
    intros El. destruct port_ab as [Ha Hb]. destruct link_nodes_ab as [Hca Hcb].
    assert (Hr' : reach w g') by (apply (reach_step w g (OLink q p) g' (RLink (inr x)) Hr); [done|cbn; by rewrite El]).
    assert (Hnew : pedge g' Outgoing a b).
    { destruct (C07_link_ports_pf w g q p Hr) as (g1 & r1 & E1 & _ & H2 & _). rewrite E1 in El. injection El as -> ->.
      destruct (H2 x eq_refl) as (_ & Hl & Hl' & _ & Hn & _). destruct (Hn a) as [_ Na]. destruct (Hn b) as [_ Nb].
      exists p, q. split; [by rewrite Na|]. split; [done|]. by rewrite Nb. }
    destruct (cycle_good g a b Hr Hca) as [N1 HN1]; [done|].
    destruct (cycle_ok w g' Hr' t b a) as [N2 HN2]. exists (N1 `max` N2). intros fuel Hf.
    unfold dc_link_ports. cbn [dc_graph dc_topo]. rewrite Ha, Hb. destruct (HN1 fuel) as (r & -> & _); [lia|]. cbn [mbind hres_bind].
    destruct r; [done|]. rewrite El. cbn [lift mbind hres_bind]. unfold dt_connect.
    destruct (proj2 (dgood_pos _ _ _ Hg) Hca) as [i Hi]. destruct (proj2 (dgood_pos _ _ _ Hg) Hcb) as [j Hj]. rewrite Hi, Hj.
    destruct (HN2 fuel) as (r & -> & Hrr); [lia|]. cbn [mbind hres_bind]. rewrite (proj2 Hrr); [done|].
    destruct (decide (a = b)) as [->|Hne]; [done|]. apply rtc_once. split; [done|]. split; [done|]. unfold dt_posx. rewrite Hj. by apply posx_le_Some.
  Qed.
End link.
