(** Reordering in the dynamic checker: when it gives a topological order. *)
From Verif Require Export DynLink.

Lemma before_app l1 l2 a b : before (l1 ++ l2) a b <-> before l1 a b \/ (a ∈ l1 /\ b ∈ l2) \/ before l2 a b.
Proof.
  split.
  - intros (i & j & Hij & Hi & Hj). rewrite lookup_app in Hi, Hj.
    destruct (l1 !! i) as [x|] eqn:Ei.
    + injection Hi as ->. destruct (l1 !! j) as [y|] eqn:Ej.
      * injection Hj as ->. left. by exists i, j.
      * right. left. split; by eapply elem_of_list_lookup_2.
    + apply lookup_ge_None in Ei. rewrite (lookup_ge_None_2 l1 j) in Hj by lia.
      right. right. exists (i - length l1), (j - length l1). split; [lia|done].
  - intros [(i & j & Hij & Hi & Hj)|[[[i Hi]%elem_of_list_lookup [j Hj]%elem_of_list_lookup]|(i & j & Hij & Hi & Hj)]].
    + exists i, j. split; [done|]. split; by apply lookup_app_l_Some.
    + exists i, (length l1 + j). pose proof (lookup_lt_Some _ _ _ Hi). split; [lia|]. split; [by apply lookup_app_l_Some|].
      rewrite lookup_app_r by lia. by replace (length l1 + j - length l1) with j by lia.
    + exists (length l1 + i), (length l1 + j). split; [lia|]. rewrite !lookup_app_r by lia.
      replace (length l1 + i - length l1) with i by lia. by replace (length l1 + j - length l1) with j by lia.
Qed.
Lemma before_elem l a b : before l a b -> a ∈ l /\ b ∈ l.
Proof. intros (i & j & _ & Hi & Hj). split; by eapply elem_of_list_lookup_2. Qed.

Lemma place_exact l : forall o1 o2 pos, length l <= length o2 ->
  exists m', rfold dt_place l (o1 ++ o2, pos, length o1) = Ok (o1 ++ l ++ drop (length l) o2, m', length o1 + length l) /\
    (NoDup l -> forall x k, m' !! x = Some k <-> (exists j, l !! j = Some x /\ k = length o1 + j) \/ (x ∉ l /\ pos !! x = Some k)).
Proof.
  induction l as [|x l IH]; intros o1 o2 pos Hle; cbn [rfold length] in *.
  - exists pos. split; [by rewrite Nat.add_0_r|]. intros _ y k. split; [intros ?; right; split; [apply not_elem_of_nil|done]|].
    intros [(j & Hj & _)|[_ ?]]; [by rewrite lookup_nil in Hj|done].
  - destruct o2 as [|y o2]; [cbn in Hle; lia|]. cbn [length] in Hle.
    assert (Es : dt_place (o1 ++ y :: o2, pos, length o1) x = Ok ((o1 ++ [x]) ++ o2, <[x := length o1]> pos, length (o1 ++ [x]))).
    { unfold dt_place, vset. rewrite decide_True by (rewrite app_length; cbn; lia). cbn [mbind res_bind].
      rewrite insert_app_r_alt, Nat.sub_diag by lia. cbn. rewrite <- app_assoc, app_length. cbn. done. }
    rewrite Es. cbn [mbind res_bind]. destruct (IH (o1 ++ [x]) o2 (<[x := length o1]> pos)) as (m' & -> & Hm); [lia|].
    exists m'. split; [rewrite <- app_assoc, app_length; cbn [app length drop]; by rewrite <- Nat.add_assoc|].
    intros [Hx Hnd]%NoDup_cons z k. rewrite (Hm Hnd), app_length. cbn [length]. split.
    + intros [(j & Hj & ->)|[Hz Hk]].
      * left. exists (S j). split; [done|lia].
      * rewrite lookup_insert_Some in Hk. destruct Hk as [[<- <-]|[Hne Hk]]; [left; exists 0; split; [done|lia]|].
        right. split; [by rewrite not_elem_of_cons|done].
    + intros [([|j] & Hj & ->)|[Hz Hk]].
      * cbn in Hj. injection Hj as ->. right. split; [done|]. rewrite lookup_insert. f_equal. lia.
      * cbn in Hj. left. exists j. split; [done|lia].
      * apply not_elem_of_cons in Hz as [Hne Hz]. right. split; [done|]. by rewrite lookup_insert_ne.
Qed.

Section tree.
  Context (nb : nat -> dir -> res (list nat)) (t : dts) (d : dir) (bound : nat) (R : nat -> nat -> Prop).
  Context (Hnb : forall n i, dt_pos t !! n = Some i -> inb d bound i -> exists l, nb n d = Ok l /\ forall m, m ∈ l <-> R n m).
  (** The new nodes of a search come after one that leads to them, and the search
      misses none. *)
  Lemma dfs_tree fuel : forall vc n i vc', dt_pos t !! n = Some i -> dt_dfs nb fuel t bound d vc n = HOk vc' ->
    (forall x, x ∈ vc.1 <-> x ∈ vc.2) ->
    exists new, vc'.2 = vc.2 ++ new /\ (forall x, x ∈ vc'.1 <-> x ∈ vc'.2) /\ (inb d bound i -> n ∈ vc'.2) /\
      (forall new1 x new2, new = new1 ++ x :: new2 -> x = n \/ exists y, y ∈ new1 /\ R y x) /\
      (forall x m k, x ∈ new -> R x m -> dt_pos t !! m = Some k -> inb d bound k -> m ∈ vc'.2).
  Proof.
    induction fuel as [|fuel IH]; intros vc n i vc' Hi E Hv; [done|]. cbn [dt_dfs] in E. rewrite Hi in E.
    cbn [unwrap lift mbind hres_bind] in E.
    destruct (decide (n ∈ vc.1)) as [Hn|Hn].
    { injection E as <-. exists []. split; [by rewrite app_nil_r|]. split; [done|]. split; [intros _; by apply Hv|].
      split; [by intros [] ? ?|]. by intros ? ? ? ?%elem_of_nil. }
    set (oob := match d with Outgoing => bool_decide (bound ≤ i) | Incoming => bool_decide (i ≤ bound) end) in E.
    assert (Ho : oob = false <-> inb d bound i).
    { unfold oob, inb. destruct d; rewrite bool_decide_eq_false; lia. }
    destruct oob.
    { injection E as <-. exists []. split; [by rewrite app_nil_r|]. split; [done|]. split; [intros ?%Ho; done|].
      split; [by intros [] ? ?|]. by intros ? ? ? ?%elem_of_nil. }
    assert (Hin : inb d bound i) by by apply Ho. clear Ho.
    destruct (Hnb n i Hi Hin) as (l & El & Hl). rewrite El in E. cbn [lift mbind hres_bind] in E.
    assert (Hloop : forall l vc1 vc', (forall m, m ∈ l -> R n m) -> (forall x, x ∈ vc1.1 <-> x ∈ vc1.2) ->
      foldl (fun s m => vc ← s; dt_dfs nb fuel t bound d vc m) (HOk vc1) l = HOk vc' ->
      exists new, vc'.2 = vc1.2 ++ new /\ (forall x, x ∈ vc'.1 <-> x ∈ vc'.2) /\
        (forall m k, m ∈ l -> dt_pos t !! m = Some k -> inb d bound k -> m ∈ vc'.2) /\
        (forall new1 x new2, new = new1 ++ x :: new2 -> R n x \/ exists y, y ∈ new1 /\ R y x) /\
        (forall x m k, x ∈ new -> R x m -> dt_pos t !! m = Some k -> inb d bound k -> m ∈ vc'.2)).
    { clear Hl El l E vc'. induction l as [|m l IHl]; intros vc1 vc' Hl Hv1 E; cbn [foldl] in E.
      - injection E as <-. exists []. split; [by rewrite app_nil_r|]. split; [done|]. split; [by intros ? ? ?%elem_of_nil|].
        split; [by intros [] ? ?|]. by intros ? ? ? ?%elem_of_nil.
      - change (mbind ?f (HOk vc1)) with (f vc1) in E. cbn [mbind hres_bind] in E.
        destruct (dt_dfs nb fuel t bound d vc1 m) as [vc2| |] eqn:E1.
        2,3: exfalso; clear -E; induction l as [|x l IHl]; cbn in E; [done|by apply IHl].
        assert (Hm : exists j, dt_pos t !! m = Some j).
        { destruct fuel; [done|]. cbn [dt_dfs] in E1. destruct (dt_pos t !! m); [eauto|done]. }
        destruct Hm as [j Hj]. destruct (IH vc1 m j vc2 Hj E1 Hv1) as (n1 & H1 & Hv2 & Hm & Hp1 & Hc1).
        destruct (IHl vc2 vc') as (n2 & H2 & Hv3 & Hm2 & Hp2 & Hc2); [intros x Hx; apply Hl; by right|done|done|].
        exists (n1 ++ n2). split; [by rewrite H2, H1, app_assoc|]. split; [done|]. split; [|split].
        + intros m' k [->|Hm']%elem_of_cons Hk Hb; [|by eapply Hm2]. rewrite H2. apply elem_of_app. left.
          rewrite Hj in Hk. injection Hk as ->. by apply Hm.
        + intros a1 x a2 Ha. apply app_eq_app in Ha as (l' & [[-> Ha]|[-> Ha]]).
          * destruct l' as [|x' l']; cbn in Ha.
            -- destruct (Hp2 [] x a2) as [?|(y & ?%elem_of_nil & _)]; [by rewrite Ha|by left|done].
            -- injection Ha as <- ->. destruct (Hp1 a1 x l') as [->|(y & Hy & Hyx)]; [done|left; apply Hl; by left|right; by exists y].
          * destruct (Hp2 l' x a2 Ha) as [?|(y & Hy & Hyx)]; [by left|]. right. exists y. split; [|done]. apply elem_of_app. by right.
        + intros x m' k [Hx|Hx]%elem_of_app HR Hk Hb; [|by eapply Hc2]. rewrite H2. apply elem_of_app. left. by eapply Hc1. }
    destruct (Hloop l ({[n]} ∪ vc.1, vc.2 ++ [n]) vc') as (new & H1 & Hv' & Hm & Hp & Hc).
    - intros m Hm. by apply Hl.
    - intros x. cbn. rewrite elem_of_union, elem_of_singleton, elem_of_app, elem_of_list_singleton, Hv. tauto.
    - done.
    - exists (n :: new). cbn [snd] in H1. split; [by rewrite H1, <- app_assoc|]. split; [done|]. split; [|split].
      + intros _. rewrite H1, !elem_of_app, elem_of_list_singleton. tauto.
      + intros [|z a1] x a2 [= -> Ha]; [by left|]. right. destruct (Hp a1 x a2 Ha) as [HR|(y & Hy & HR)].
        * exists z. split; [by left|done].
        * exists y. split; [by right|done].
      + intros x m k [->|Hx]%elem_of_cons HR Hk Hb; [|by eapply Hc]. eapply Hm; [by apply Hl|done|done].
  Qed.
  Lemma cone_tree fuel start i l : dt_pos t !! start = Some i -> inb d bound i -> dt_cone nb fuel t start bound d = HOk l ->
    (exists l', l = start :: l') /\
    (forall l1 x l2, l = l1 ++ x :: l2 -> x = start \/ exists y, y ∈ l1 /\ R y x) /\
    (forall x m k, x ∈ l -> R x m -> dt_pos t !! m = Some k -> inb d bound k -> m ∈ l).
  Proof.
    intros Hi Hb E. unfold dt_cone in E. destruct (dt_dfs _ _ _ _ _ _ _) as [[V l0]| |] eqn:E1; [|done|done].
    cbn [mbind hres_bind] in E. injection E as ->.
    destruct (dfs_tree fuel (∅, []) start i (V, l) Hi E1) as (new & H1 & _ & Hm & Hp & Hc).
    { intros x. cbn. rewrite elem_of_nil, elem_of_empty. done. }
    cbn in H1, Hm, Hc. subst new. split; [|done]. destruct l as [|x l]; [by apply Hm, elem_of_nil in Hb|].
    destruct (Hp [] x l) as [->|(y & ?%elem_of_nil & _)]; [done|by exists l|done].
  Qed.
End tree.

Section reorder.
  Context (w : N) (g : pg) (Hr : reach w g) (t : dts) (Hg : dgood g t).
  Let E := pedge g Outgoing.
  Context (p q a b : nat) (Hp : p ∈ ports g a Outgoing) (Hq : q ∈ ports g b Incoming).
  Context (l1 mid l2 : list nat) (Hl : dt_order t = l1 ++ b :: mid ++ a :: l2).
  Context (g' : pg) (x : nat * nat) (El : link_ports g p q = Ok (g', inr x)) (Hno : ~ rtc E b a).

  Lemma pos_b : dt_pos t !! b = Some (length l1).
  Proof. destruct Hg as [_ Hs]. apply Hs. rewrite Hl. by apply list_lookup_middle. Qed.
  Lemma pos_a : dt_pos t !! a = Some (length l1 + S (length mid)).
  Proof.
    destruct Hg as [_ Hs]. apply Hs. rewrite Hl. change (b :: mid ++ a :: l2) with ((b :: mid) ++ a :: l2). rewrite app_assoc.
    apply list_lookup_middle. rewrite app_length. done.
  Qed.
  Lemma pos_seg y k : dt_pos t !! y = Some k -> length l1 <= k < length l1 + S (length mid) <-> y ∈ b :: mid.
  Proof.
    destruct Hg as [(Hnd & _) Hs]. intros Hk%Hs. split.
    - intros Hb. rewrite Hl, lookup_app_r in Hk by lia. change (b :: mid ++ a :: l2) with ((b :: mid) ++ a :: l2) in Hk.
      rewrite lookup_app_l in Hk by (cbn; lia). by eapply elem_of_list_lookup_2.
    - intros [i Hi]%elem_of_list_lookup. pose proof (lookup_lt_Some _ _ _ Hi) as Hlt. cbn in Hlt.
      assert (Hi' : dt_order t !! (length l1 + i) = Some y).
      { rewrite Hl, lookup_app_r by lia. replace (length l1 + i - length l1) with i by lia.
        change (b :: mid ++ a :: l2) with ((b :: mid) ++ a :: l2). by apply lookup_app_l_Some. }
      rewrite (NoDup_lookup _ _ _ _ Hnd Hk Hi'). lia.
  Qed.
  Lemma reorder_run fuel t' : length l1 + S (length mid) + length l1 < fuel ->
    dt_update_order (neighbours g') fuel t a b = HOk t' -> exists df db,
    (exists df', df = b :: df') /\ (exists db', db = a :: db') /\
    NoDup (db ++ df) /\ (forall y, y ∈ df -> y ∈ b :: mid /\ rtc E b y) /\
    (forall u y v, df = u ++ y :: v -> y = b \/ exists z, z ∈ u /\ E z y) /\
    (forall y, y ∈ mid -> tc E b y -> y ∈ df) /\ (forall y, y ∈ mid -> E y a -> y ∈ db) /\
    (forall y, y ∈ db -> y <> a -> exists z, z ∈ mid /\ E z a) /\
    length (db ++ df) <= S (S (length mid)) /\
    dt_order t' = l1 ++ (db ++ df) ++ drop (length (db ++ df)) (b :: mid ++ a :: l2) /\
    (forall y k, dt_pos t' !! y = Some k <->
       (exists j, (db ++ df) !! j = Some y /\ k = length l1 + j) \/ (y ∉ db ++ df /\ dt_pos t !! y = Some k)).
  Proof.
    intros Hfuel Eu. destruct (linked_edges w g Hr p q a b Hp Hq g' x El) as (Hr' & He & Hn). pose proof Hg as [(Hnd & Hel & Ho) Hs].
    destruct (reach_inv _ _ Hr') as (fnl & F & I). pose proof pos_a as Hi. pose proof pos_b as Hj. pose proof pos_seg as Hseg.
    set (i := length l1 + S (length mid)) in *. set (j := length l1) in *.
    assert (Hij : i = j + S (length mid)) by done.
    assert (Hinj : forall x y k, dt_pos t !! x = Some k -> dt_pos t !! y = Some k -> x = y).
    { intros y z k Hy%Hs Hz%Hs. congruence. }
    assert (Hnb1 : forall n k, dt_pos t !! n = Some k -> inb Outgoing i k -> exists l, neighbours g' n Outgoing = Ok l /\ forall m, m ∈ l <-> E n m).
    { intros n k Hk Hin. cbn in Hin. destruct (nb_ok w g' Hr' n Outgoing) as (l & -> & Hm). exists l. split; [done|].
      intros m. rewrite Hm. rewrite He. split; [|by left]. intros [?|[-> _]]; [done|]. rewrite Hi in Hk. injection Hk as ->. lia. }
    assert (Hnb2 : forall n k, dt_pos t !! n = Some k -> inb Incoming j k -> exists l, neighbours g' n Incoming = Ok l /\ forall m, m ∈ l <-> E m n).
    { intros n k Hk Hin. cbn in Hin. destruct (nb_ok w g' Hr' n Incoming) as (l & -> & Hm). exists l. split; [done|].
      intros m. rewrite Hm. assert (Hrev : pedge g' Incoming n m <-> pedge g' Outgoing m n) by (split; intros Hx; by apply (pedge_rev _ _ _ I) in Hx).
      rewrite Hrev, He. split; [|by left]. intros [?|[_ ->]]; [done|]. rewrite Hj in Hk. injection Hk as ->. lia. }
    assert (Hlt : forall y z k, dt_pos t !! y = Some k -> E y z -> exists k', dt_pos t !! z = Some k' /\ k < k').
    { intros y z k Hk Hyz. destruct (dgood_edge _ _ _ _ Hg Hyz) as (k1 & k2 & Hk1 & Hk2 & Hlt). exists k2. rewrite Hk in Hk1. by injection Hk1 as ->. }
    assert (Hgt : forall y z k, dt_pos t !! z = Some k -> E y z -> exists k', dt_pos t !! y = Some k' /\ k' < k).
    { intros y z k Hk Hyz. destruct (dgood_edge _ _ _ _ Hg Hyz) as (k1 & k2 & Hk1 & Hk2 & Hlt'). exists k1. rewrite Hk in Hk2. by injection Hk2 as ->. }
    destruct (cone_ok (neighbours g') t Outgoing i E) with (fuel := fuel) (start := b) (i := j) as (df & Edf & Hndf & Hinf).
    { intros n k Hk Hb. destruct (Hnb1 n k Hk Hb) as (l & -> & Hm). exists l. split; [done|]. intros m HEm%Hm.
      destruct (Hlt _ _ _ Hk HEm) as (k' & ? & ?). by exists k'. }
    { done. }
    { cbn. lia. }
    destruct (cone_ok (neighbours g') t Incoming j (fun x y => E y x)) with (fuel := fuel) (start := a) (i := i) as (db & Edb & Hndb & Hinb).
    { intros n k Hk Hb. destruct (Hnb2 n k Hk Hb) as (l & -> & Hm). exists l. split; [done|]. intros m HEm%Hm.
      destruct (Hgt _ _ _ Hk HEm) as (k' & ? & ?). by exists k'. }
    { done. }
    { cbn. lia. }
    assert (HEr : forall x y, rtc (fun x y => E y x) x y -> rtc E y x).
    { intros y z. induction 1 as [|y z' z H1 _ IH]; [done|]. by eapply rtc_r. }
    destruct (cone_tree (neighbours g') t Outgoing i E Hnb1 fuel b j df Hj ltac:(cbn; lia) Edf) as (Hf1 & Hf2 & Hf3).
    destruct (cone_tree (neighbours g') t Incoming j (fun x y => E y x) Hnb2 fuel a i db Hi ltac:(cbn; lia) Edb) as (Hb1 & Hb2 & Hb3).
    assert (Hnd2 : NoDup (db ++ df)).
    { apply NoDup_app. split; [done|]. split; [|done]. intros y Hy1 Hy2. destruct (Hinb _ Hy1) as [H1%HEr _]. destruct (Hinf _ Hy2) as [H2 _].
      apply Hno. by etrans. }
    assert (Hlen : length (db ++ df) <= S (S (length mid))).
    { apply (distinct_le _ (fun n => dt_pos t !! n) j); [done| |done]. intros y [Hy|Hy]%elem_of_app.
      - destruct (Hinb _ Hy) as [H1%HEr (k & Hk & Hb)]. exists k. split; [done|]. cbn in Hb.
        pose proof (dgood_rtc _ _ _ _ _ _ Hg H1 Hk Hi). lia.
      - destruct (Hinf _ Hy) as [H1 (k & Hk & Hb)]. exists k. split; [done|]. cbn in Hb.
        pose proof (dgood_rtc _ _ _ _ _ _ Hg H1 Hj Hk). lia. }
    unfold dt_update_order in Eu. rewrite Hi, Hj in Eu. cbn [unwrap lift mbind hres_bind] in Eu. rewrite decide_False in Eu by lia.
    rewrite Edf in Eu. cbn [mbind hres_bind] in Eu. rewrite Edb in Eu. cbn [mbind hres_bind] in Eu.
    destruct (place_exact (db ++ df) l1 (b :: mid ++ a :: l2) (dt_pos t)) as (m' & Epl & Hm').
    { cbn [length]. rewrite (app_length mid). cbn. lia. }
    rewrite Hl in Eu. unfold j in Eu. rewrite Epl in Eu. cbn [lift mbind hres_bind] in Eu. injection Eu as <-.
    exists df, db. split; [done|]. split; [done|]. split; [done|]. split; [|split; [done|split; [|split; [|split]]]].
    - intros y Hy. destruct (Hinf y Hy) as [Hby (k & Hk & Hb)]. split; [|done]. apply (Hseg y k Hk). cbn in Hb.
      pose proof (dgood_rtc _ _ _ _ _ _ Hg Hby Hj Hk). lia.
    - intros y Hy Hby. assert (Hyp : exists k, dt_pos t !! y = Some k /\ k < i).
      { destruct (proj2 (dgood_pos g t y Hg)) as [k Hk].
        - apply Hel. rewrite Hl. apply elem_of_app. right. right. apply elem_of_app. by left.
        - exists k. split; [done|]. apply (Hseg y k Hk). by right. }
      destruct Hyp as (k & Hk & Hki). apply tc_rtc in Hby. revert k Hk Hki. clear Hy.
      revert y Hby. apply (rtc_ind_r (fun y => forall k, dt_pos t !! y = Some k -> k < i -> y ∈ df)).
      + intros _ _ _. destruct Hf1 as [df' ->]. by left.
      + intros y z Hby Hyz IH k Hk Hki. destruct (Hgt _ _ _ Hk Hyz) as (k' & Hk' & ?). eapply Hf3; [by eapply IH; [exact Hk'|lia]|done|done|done].
    - intros y Hy Hya. destruct (Hgt _ _ _ Hi Hya) as (k & Hk & ?). apply (Hb3 a y k); [|done|done|].
      + destruct Hb1 as [db' ->]. by left.
      + cbn. assert (Hx : y ∈ b :: mid) by by right. apply (Hseg y k Hk) in Hx.
        destruct (decide (k = j)) as [->|]; [|lia]. exfalso. rewrite (Hinj _ _ _ Hk Hj) in Hy.
        rewrite Hl in Hnd. apply NoDup_app in Hnd as (_ & _ & [Hx' _]%NoDup_cons). apply Hx', elem_of_app. by left.
    - intros y Hy Hya. destruct (Hinb y Hy) as [H1 (k & Hk & Hb)]. apply rtc_inv in H1 as [->|(z & Hz & H1)]; [done|].
      exists z. split; [|done]. apply HEr in H1. destruct (Hgt _ _ _ Hi Hz) as (k' & Hk' & ?).
      pose proof (dgood_rtc _ _ _ _ _ _ Hg H1 Hk Hk'). cbn in Hb.
      assert (Hx : z ∈ b :: mid) by (apply (Hseg z k' Hk'); lia). apply elem_of_cons in Hx as [->|?]; [|done].
      rewrite Hj in Hk'. injection Hk' as <-. lia.
    - split; [done|]. split; [done|]. exact (Hm' Hnd2).
  Qed.

  Lemma reorder_needed fuel t' : length l1 + S (length mid) + length l1 < fuel ->
    dt_update_order (neighbours g') fuel t a b = HOk t' -> topo_order g' (dt_order t') ->
    (forall y, y ∈ mid -> ~ E y a) /\ (forall y, y ∈ mid -> tc E b y).
  Proof.
    intros Hfuel Eu (Hnd' & _ & Ho').
    destruct (linked_edges w g Hr p q a b Hp Hq g' x El) as (Hr' & He & Hn).
    destruct (reorder_run fuel t' Hfuel Eu) as (df & db & [df' Hdf] & [db' Hdb] & Hnd2 & Hin & Hpar & Hf & Hb & Hb' & Hlen & Hord & _).
    assert (H1 : forall y, y ∈ mid -> ~ E y a).
    { intros y Hy Hya. apply (before_irrefl (dt_order t') a Hnd'). eapply before_trans; [done| |apply Ho', He; by left].
      rewrite Hord, before_app. right. right. rewrite before_app. left. rewrite before_app. left.
      pose proof (Hb y Hy Hya) as Hyb. rewrite Hdb in Hyb |- *. apply elem_of_cons in Hyb as [->|Hyb].
      - exfalso. apply (topo_order_acyclic g _ (proj1 Hg) a). by apply tc_once.
      - change (a :: db') with ([a] ++ db'). apply before_app. right. left. split; [by left|done]. }
    split; [done|]. intros y Hy.
    assert (db' = []) as ->.
    { destruct db' as [|z db']; [done|]. exfalso. destruct (Hb' z) as (u & Hu & Hua).
      - rewrite Hdb. right. by left.
      - intros ->. rewrite Hdb in Hnd2. cbn in Hnd2. apply NoDup_cons in Hnd2 as [Hx _]. apply Hx. by left.
      - by apply (H1 u). }
    destruct (decide (y ∈ df)) as [Hyd|Hyd].
    { apply Hin in Hyd as [_ Hyd]. apply rtc_tc in Hyd as [->|?]; [|done]. exfalso. destruct Hg as [(Hnd & _) _]. rewrite Hl in Hnd.
      apply NoDup_app in Hnd as (_ & _ & [Hx' _]%NoDup_cons). apply Hx', elem_of_app. by left. }
    exfalso. assert (Hlt : length df < length (b :: mid)).
    { destruct (decide (length df < length (b :: mid))) as [|Hge]; [done|]. exfalso. apply Hyd.
      assert (Hperm : df ≡ₚ b :: mid).
      { apply NoDup_app in Hnd2 as (_ & _ & Hnd2). apply submseteq_Permutation_length_le; [lia|]. apply NoDup_submseteq; [done|]. intros z Hz. by apply Hin. }
      rewrite Hperm. by right. }
    rewrite Hord, Hdb in Hnd'. apply NoDup_app in Hnd' as (_ & _ & Hnd').
    change ([a] ++ df) with (a :: df) in Hnd'. cbn [length app] in Hnd'. apply NoDup_cons in Hnd' as [Hx _]. apply Hx.
    apply elem_of_app. right. change (b :: mid ++ a :: l2) with ((b :: mid) ++ a :: l2). rewrite drop_app_le by lia.
    apply elem_of_app. right. by left.
  Qed.

  Lemma reorder_good fuel t' : length l1 + S (length mid) + length l1 < fuel ->
    dt_update_order (neighbours g') fuel t a b = HOk t' ->
    (forall y, y ∈ mid -> ~ E y a) -> (forall y, y ∈ mid -> tc E b y) ->
    (forall y u v, y ∈ mid -> u ∈ b :: mid -> v ∈ b :: mid -> E u y -> E v y -> u = v) -> dgood g' t'.
  Proof.
    intros Hfuel Eu H1 H2 H3.
    destruct (linked_edges w g Hr p q a b Hp Hq g' x El) as (Hr' & He & Hn). pose proof Hg as [(Hnd & Hel & Ho) Hs].
    destruct (reorder_run fuel t' Hfuel Eu) as (df & db & [df' Hdf] & [db' Hdb] & Hnd2 & Hin & Hpar & Hf & Hb & Hb' & Hlen & Hord & Hpos).
    assert (db' = []) as ->.
    { destruct db' as [|z db']; [done|]. exfalso. destruct (Hb' z) as (u & Hu & Hua).
      - rewrite Hdb. right. by left.
      - intros ->. rewrite Hdb in Hnd2. cbn in Hnd2. apply NoDup_cons in Hnd2 as [Hx _]. apply Hx. by left.
      - by apply (H1 u). }
    subst db. change ([a] ++ df) with (a :: df) in *. clear Hb Hb'.
    assert (Hndm : NoDup (b :: mid)).
    { rewrite Hl in Hnd. apply NoDup_app in Hnd as (_ & _ & Hnd). change (b :: mid ++ a :: l2) with ((b :: mid) ++ a :: l2) in Hnd.
      by apply NoDup_app in Hnd as (Hnd & _). }
    assert (Hperm : df ≡ₚ b :: mid).
    { apply NoDup_Permutation; [by apply NoDup_cons in Hnd2 as [_ ?]|done|]. intros y. split; [intros Hy; by apply Hin|].
      intros [->|Hy]%elem_of_cons; [rewrite Hdf; by left|]. by apply Hf, H2. }
    assert (Hdrop : drop (length (a :: df)) (b :: mid ++ a :: l2) = l2).
    { cbn [length]. rewrite (Permutation_length Hperm). change (b :: mid ++ a :: l2) with ((b :: mid) ++ a :: l2).
      change (S (length (b :: mid))) with (1 + length (b :: mid)). rewrite Nat.add_comm, <- drop_drop, drop_app. done. }
    rewrite Hdrop in Hord.
    assert (Hpo : dt_order t' ≡ₚ dt_order t).
    { rewrite Hord, Hl. change (b :: mid ++ a :: l2) with ((b :: mid) ++ a :: l2). rewrite <- Hperm. cbn.
      apply Permutation_app_head. apply Permutation_middle. }
    assert (Hnd' : NoDup (dt_order t')) by by rewrite Hpo.
    split; [split; [done|split]|].
    - intros n. rewrite Hpo, Hn. apply Hel.
    - intros y z [Hyz|[-> ->]]%He.
      + specialize (Ho y z Hyz). rewrite Hl in Ho. change (b :: mid ++ a :: l2) with ((b :: mid) ++ [a] ++ l2) in Ho.
        rewrite Hord. change ((a :: df) ++ l2) with ([a] ++ df ++ l2). rewrite !before_app, !elem_of_app in Ho. rewrite !before_app, !elem_of_app.
        assert (Hdm : forall u, u ∈ df <-> u ∈ b :: mid) by (intros u; by rewrite Hperm). rewrite !Hdm. clear -Ho Hyz H1 H2 H3 Hpar Hin Hdf Hno Hndm Hperm. 
        assert (Hseg : before (b :: mid) y z -> before df y z).
        { intros Hbf. assert (Hz : z ∈ mid).
          { destruct Hbf as (i & j & Hij & Hi & Hj). destruct j as [|j]; [lia|]. cbn in Hj. by eapply elem_of_list_lookup_2. }
          destruct (before_elem _ _ _ Hbf) as [Hym _]. assert (Hzd : z ∈ df) by (rewrite Hperm; by right).
          apply elem_of_list_split in Hzd as (u & v & Huv). destruct (Hpar u z v Huv) as [->|(y' & Hy' & Hyz')].
          - exfalso. apply NoDup_cons in Hndm as [? _]. done.
          - assert (y = y') as ->.
            { eapply H3; [exact Hz|done| |done|done]. rewrite <- Hperm, Huv. apply elem_of_app. by left. }
            rewrite Huv. apply before_app. right. left. split; [done|]. by left. }
        assert (Ha : y ∈ b :: mid -> z = a -> False).
        { intros Hy ->. apply elem_of_cons in Hy as [->|Hy]; [by apply Hno, rtc_once|by apply (H1 y)]. }
        assert (Hone : forall u, before [a] u z -> False).
        { intros u (i & j & ? & Hi & Hj). destruct i, j; cbn in *; try lia; done. }
        rewrite !elem_of_list_singleton in *.
        destruct Ho as [Ho|[[Ho1 [Ho2|[Ho2|Ho2]]]|[Ho|[[Ho1 [Ho2|Ho2]]|[Ho|[[Ho1 Ho2]|Ho]]]]]].
        * by left.
        * right. left. split; [done|]. right. left. done.
        * right. left. split; [done|]. by left.
        * right. left. split; [done|]. by right; right.
        * do 4 right. left. by apply Hseg.
        * exfalso. by apply Ha.
        * do 5 right. left. done.
        * exfalso. by eapply Hone.
        * do 3 right. left. split; [done|]. by right.
        * by do 6 right.
      + rewrite Hord. apply before_app. right. right. cbn. change (a :: df ++ l2) with ([a] ++ (df ++ l2)). apply before_app. right. left.
        split; [by left|]. apply elem_of_app. left. rewrite Hdf. by left.
    - intros y k. rewrite Hpos, Hord. split.
      + intros [(j & Hj & ->)|[Hy Hk]].
        * rewrite lookup_app_r by lia. replace (length l1 + j - length l1) with j by lia. by apply lookup_app_l_Some.
        * apply Hs in Hk. rewrite Hl in Hk. destruct (decide (k < length l1)) as [Hk1|Hk1].
          { rewrite lookup_app_l in Hk |- * by done. done. }
          rewrite lookup_app_r in Hk |- * by lia. change (b :: mid ++ a :: l2) with ((b :: mid) ++ [a] ++ l2) in Hk. rewrite app_assoc in Hk.
          assert (Hlm : length ((b :: mid) ++ [a]) = length (a :: df)) by (rewrite app_length; cbn; rewrite Hdf; cbn; apply Permutation_length in Hperm; rewrite Hdf in Hperm; cbn in Hperm; lia).
          destruct (decide (k - length l1 < length (a :: df))) as [Hk2|Hk2].
          { exfalso. rewrite lookup_app_l in Hk by lia. apply elem_of_list_lookup_2 in Hk. apply Hy. rewrite Hperm.
            apply elem_of_app in Hk as [?| ->%elem_of_list_singleton]; [by right|by left]. }
          rewrite lookup_app_r in Hk |- * by lia. by rewrite <- Hlm.
      + intros Hk. destruct (decide (y ∈ a :: df)) as [Hy|Hy].
        * left. apply elem_of_list_lookup in Hy as [j Hj]. exists j. split; [done|].
          assert (Hj' : (l1 ++ (a :: df) ++ l2) !! (length l1 + j) = Some y).
          { rewrite lookup_app_r by lia. replace (length l1 + j - length l1) with j by lia. by apply lookup_app_l_Some. }
          rewrite Hord in Hnd'. exact (NoDup_lookup _ _ _ _ Hnd' Hk Hj').
        * right. split; [done|]. apply Hs. rewrite Hl. destruct (decide (k < length l1)) as [Hk1|Hk1].
          { rewrite lookup_app_l in Hk |- * by done. done. }
          rewrite lookup_app_r in Hk |- * by lia. change (b :: mid ++ a :: l2) with ((b :: mid) ++ [a] ++ l2). rewrite app_assoc.
          assert (Hlm : length ((b :: mid) ++ [a]) = length (a :: df)) by (rewrite app_length; cbn; rewrite Hdf; cbn; apply Permutation_length in Hperm; rewrite Hdf in Hperm; cbn in Hperm; lia).
          destruct (decide (k - length l1 < length (a :: df))) as [Hk2|Hk2].
          { exfalso. rewrite lookup_app_l in Hk by lia. apply elem_of_list_lookup_2 in Hk. done. }
          rewrite lookup_app_r in Hk |- * by lia. by rewrite Hlm.
  Qed.
End reorder.

(** ** Calls that keep the nodes *)
Section keep.
  Context (w : N) (g : pg) (Hr : reach w g).
  Lemma set_ports_keep n i j g' log : set_num_ports g n i j = Ok (g', log) ->
    reach w g' /\ (forall x, contains_node g' x = contains_node g x) /\ forall a b, pedge g' Outgoing a b -> pedge g Outgoing a b.
  Proof.
    intros E. assert (Hr' : reach w g') by (apply (reach_step w g (OSetPorts n i j) g' (RMoves log) Hr); [done|cbn; by rewrite E]).
    split; [done|]. destruct (contains_node g n) eqn:Ec.
    - destruct (C10_set_num_ports_pf w g n i j g' log Hr Ec E) as (_ & _ & Hc & Hs & Ho & _ & Hl & _). split.
      { intros x. destruct (decide (x = n)) as [->|Hx]; [congruence|]. by destruct (Hs x Hx). }
      intros a b (p' & q' & Hp & Hpq & Hq). destruct (Hl p' q' Hpq) as (p & q & Sp & Sq & Hpq0).
      assert (Hback : forall p p' m d, survives g g' n p p' -> p' ∈ ports g' m d -> p ∈ ports g m d).
      { clear -Hs Hr' Hr Ho. intros p p' m d [(d' & k & Hp & Hp')|(Hc & Hne & ->)] Hin.
        - unfold port_at in *. apply elem_of_list_lookup_2 in Hp, Hp'.
          apply (in_ports_iff w g' Hr') in Hin as [H1 H2]. apply (in_ports_iff w g' Hr') in Hp' as [H3 H4].
          rewrite H1 in H3. rewrite H2 in H4. injection H3 as ->. injection H4 as ->. done.
        - destruct (decide (m = n)) as [->|Hmn]; [|destruct (Hs m Hmn) as [_ H1]; by rewrite <- H1].
          exfalso. assert (Hm : exists m d0, m <> n /\ p ∈ ports g m d0).
          { unfold contains_port in Hc. destruct (pmeta g p) as [[m d0]|] eqn:Ep; [|done]. exists m, d0.
            assert (Hpm : port_node g p = Some m /\ port_direction g p = Some d0) by (unfold port_node, port_direction; by rewrite Ep).
            split; [intros ->; by destruct Hpm|]. by apply (in_ports_iff w g Hr). }
          destruct Hm as (m & d0 & Hmn & Hm). destruct (Hs m Hmn) as [_ H1]. rewrite <- H1 in Hm.
          apply (in_ports_iff w g' Hr') in Hm as [Hm _]. apply (in_ports_iff w g' Hr') in Hin as [Hin _]. congruence. }
      exists p, q. split; [by eapply Hback|]. split; [done|]. by eapply Hback.
    - assert (g' = g) as ->; [|done]. unfold set_num_ports in E. apply bind_inv in E as ([] & _ & E). apply bind_inv in E as ([] & _ & E).
      unfold contains_node in Ec. apply bool_decide_eq_false in Ec. destruct (nmeta g n); [by destruct Ec|]. by injection E as <- <-.
  Qed.
  Lemma compact_ports_keep g' log : (forall n, ~ hollow g n) -> compact_ports g = Ok (g', log) ->
    reach w g' /\ (forall x, contains_node g' x = contains_node g x) /\ forall a b, pedge g' Outgoing a b -> pedge g Outgoing a b.
  Proof.
    intros Hh E. destruct (C13_compact_ports_pf w g Hr Hh) as (g1 & log1 & E1 & Hr' & H1 & H2 & _ & Hel & Hc & Hn & _ & Hat & Hl & _).
    rewrite E1 in E. injection E as -> ->. split; [done|]. split; [done|].
    assert (Hold : forall p', contains_port g' p' = true -> exists p, (p, p') ∈ log).
    { intros p' Hp%Hc. assert (Hin : p' ∈ log.*2) by (rewrite H2; apply elem_of_seq; lia).
      apply elem_of_list_fmap in Hin as ([p p2] & -> & Hin). by exists p. }
    assert (Hcp : forall n d p, p ∈ ports g' n d -> contains_port g' p = true).
    { intros n d p Hp%(in_ports_iff w g' Hr'). destruct Hp as [Hp _]. unfold port_node, contains_port in *. by destruct (pmeta g' p). }
    assert (Hback : forall p p' n d, (p, p') ∈ log -> p' ∈ ports g' n d -> p ∈ ports g n d).
    { intros p p' n d Hin [k Hk]%elem_of_list_lookup. eapply elem_of_list_lookup_2. by apply (Hat p p' n d k Hin). }
    intros a b (p' & q' & Hp & Hpq & Hq). destruct (Hold p') as [p Hpp]; [by eapply Hcp|]. destruct (Hold q') as [q Hqq]; [by eapply Hcp|].
    exists p, q. split; [by eapply Hback|]. split; [by apply (Hl p p' q q' Hpp Hqq)|by eapply Hback].
  Qed.
  Lemma compact_nodes_keep g' log : (forall o n, (o, n) ∈ log -> o = n) -> compact_nodes g = Ok (g', log) ->
    reach w g' /\ (forall x, contains_node g' x = contains_node g x) /\ forall a b, pedge g' Outgoing a b -> pedge g Outgoing a b.
  Proof.
    intros Hid E. destruct (C12_compact_nodes_pf w g Hr) as (g1 & log1 & E1 & Hr' & H1 & H2 & _ & Hel & Hc & Hports & Hpl & _).
    rewrite E1 in E. injection E as -> ->. split; [done|].
    assert (Hlog : log.*1 = log.*2).
    { clear -Hid. induction log as [|[o n] log IH]; [done|]. cbn. f_equal; [apply Hid; by left|]. apply IH. intros o' n' Hin. apply Hid. by right. }
    assert (Hcc : forall x, contains_node g' x = true <-> contains_node g x = true).
    { intros x. rewrite <- Hel, Hlog, H2, elem_of_seq, Hc. lia. }
    split.
    { intros x. specialize (Hcc x). destruct (contains_node g' x), (contains_node g x); try done; [by symmetry; apply Hcc|by apply Hcc]. }
    assert (Hpp : forall x d, contains_node g' x = true -> ports g' x d = ports g x d).
    { intros x d Hx%Hcc%Hel. apply elem_of_list_fmap in Hx as ([o n] & -> & Hin). pose proof (Hid o n Hin) as <-. by apply Hports. }
    assert (Hn : forall x d p, p ∈ ports g' x d -> contains_node g' x = true).
    { intros x d p Hp. destruct (reach_inv _ _ Hr') as (fnl & F & I). apply contains_node_true. eapply pmeta_nmeta; [exact I|]. by apply (elem_ports _ _ _ I). }
    intros a b (p & q & Hp & Hpq & Hq). exists p, q. rewrite (Hpp a) in Hp by (by eapply Hn). rewrite (Hpp b) in Hq by (by eapply Hn). split; [done|]. split; [|done].
    unfold linked in *. destruct (Hpl p) as (_ & _ & <-). done.
  Qed.
End keep.
