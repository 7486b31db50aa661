(** The searches of dynamic.rs. *)
From Verif Require Export DynProofs.

Lemma posx_le_Some a b : posx_le (Some a) (Some b) = true <-> a <= b.
Proof. cbn. by rewrite bool_decide_eq_true. Qed.

Section search.
  Context (w : N) (g : pg) (Hr : reach w g) (t : dts).
  Let nbl (n : nat) : list nat := match neighbours g n Outgoing with Ok l => l | Panic => [] end.
  Lemma nbl_ok n : neighbours g n Outgoing = Ok (nbl n) /\ forall m, m ∈ nbl n <-> pedge g Outgoing n m.
  Proof. unfold nbl. destruct (nb_ok w g Hr n Outgoing) as (N & -> & HN). done. Qed.
  Lemma nbl_node n m : m ∈ nbl n -> m ∈ nodes_iter g.
  Proof.
    intros Hm%(proj2 (nbl_ok n)). destruct (reach_inv _ _ Hr) as (fnl & F & I). by destruct (pedge_nodes g fnl F I _ _ _ Hm).
  Qed.

  Lemma cycle_ok from to : exists N, forall fuel, N < fuel -> exists r,
    dt_would_create_cycle (neighbours g) fuel t from to = HOk r /\
    (r = true <-> rtc (fun x y => x <> from /\ pedge g Outgoing x y /\ posx_le (dt_posx t y) (dt_posx t from) = true) to from).
  Proof.
    set (stop n := bool_decide (n = from)).
    set (ex n := filter (fun m => posx_le (dt_posx t m) (dt_posx t from) = true) (nbl n)).
    destruct (gbfs_ok stop ex (to :: nodes_iter g)) with (start := to) as [N HN].
    { intros n m _ [_ Hm]%elem_of_list_filter. right. by eapply nbl_node. }
    { by left. }
    exists N. intros fuel Hf. destruct (HN fuel Hf) as (r & Hg & Hrr).
    assert (E : forall fuel q V, dt_cycle_loop (neighbours g) fuel t from q V = gbfs stop ex fuel q V).
    { clear N HN fuel Hf r Hg Hrr. induction fuel as [|fuel IH]; intros q V; [done|]. cbn [dt_cycle_loop gbfs]. destruct q as [|n q]; [done|].
      unfold stop at 1. destruct (decide (n = from)) as [->|Hne]; [by rewrite bool_decide_eq_true_2|].
      rewrite bool_decide_eq_false_2 by done. destruct (decide (n ∈ V)); [done|].
      destruct (nbl_ok n) as [-> _]. cbn [lift mbind hres_bind]. apply IH. }
    exists r. split; [unfold dt_would_create_cycle; by rewrite E|]. rewrite Hrr.
    assert (Hx : forall x y, exr stop ex x y <-> (x <> from /\ pedge g Outgoing x y /\ posx_le (dt_posx t y) (dt_posx t from) = true)).
    { intros x y. unfold exr, stop, ex. rewrite bool_decide_eq_false, elem_of_list_filter. rewrite (proj2 (nbl_ok x)). tauto. }
    split.
    - intros (z & Hz & Hs). unfold stop in Hs. apply bool_decide_eq_true in Hs as ->.
      eapply (rtc_subrel _ _ _ _ (fun x y => proj1 (Hx x y))). done.
    - intros Hz. exists from. split; [|by apply bool_decide_eq_true].
      eapply (rtc_subrel _ _ _ _ (fun x y => proj2 (Hx x y))). done.
  Qed.

  Lemma outside_ok start stopn lo hi nodes : exists N, forall fuel, N < fuel -> exists r,
    dt_has_path_outside (neighbours g) fuel t start stopn lo hi nodes = HOk r /\
    (r = true <-> exists z, rtc (fun x y => (x ∈ nodes \/ x = start) /\ x <> stopn /\ pedge g Outgoing x y /\
         exists i, dt_pos t !! y = Some i /\ lo <= i <= hi) start z /\ z ∉ nodes /\ z <> start).
  Proof.
    set (stop n := bool_decide (n ∉ nodes /\ n <> start)).
    set (ex n := if decide (n = stopn) then [] else
                 filter (fun m => posx_le (Some lo) (dt_posx t m) && posx_le (dt_posx t m) (Some hi) = true) (nbl n)).
    destruct (gbfs_ok stop ex (start :: nodes_iter g)) with (start := start) as [N HN].
    { intros n m _. unfold ex. destruct (decide (n = stopn)); [by intros ?%elem_of_nil|].
      intros [_ Hm]%elem_of_list_filter. right. by eapply nbl_node. }
    { by left. }
    exists N. intros fuel Hf. destruct (HN fuel Hf) as (r & Hg & Hrr).
    (* the loop never marks [stopn], which has no successors in [ex] *)
    assert (E : forall fuel q V V', (forall x, x <> stopn -> x ∈ V <-> x ∈ V') ->
      dt_outside_loop (neighbours g) fuel t start stopn lo hi nodes q V = gbfs stop ex fuel q V').
    { clear N HN fuel Hf r Hg Hrr. induction fuel as [|fuel IH]; intros q V V' HV; [done|]. cbn [dt_outside_loop gbfs]. destruct q as [|n q]; [done|].
      unfold stop at 1. destruct (decide (n ∉ nodes /\ n <> start)) as [H|H]; [by rewrite bool_decide_eq_true_2|].
      rewrite bool_decide_eq_false_2 by done. destruct (decide (n = stopn)) as [->|Hne].
      - destruct (decide (stopn ∈ V')); [by apply IH|].
        unfold ex at 2. rewrite decide_True by done. rewrite app_nil_r. apply IH. intros x Hx. rewrite HV by done. set_solver.
      - destruct (decide (n ∈ V)) as [Hv|Hv].
        + rewrite decide_True by (by apply HV). by apply IH.
        + rewrite decide_False by (by rewrite <- HV). destruct (nbl_ok n) as [-> _]. cbn [lift mbind hres_bind].
          unfold ex at 2. rewrite decide_False by done. apply IH. intros x Hx. rewrite !elem_of_union, HV by done. done. }
    exists r. split; [unfold dt_has_path_outside; by rewrite (E _ _ _ ∅)|]. rewrite Hrr.
    assert (Hx : forall x y, exr stop ex x y <-> ((x ∈ nodes \/ x = start) /\ x <> stopn /\ pedge g Outgoing x y /\
         exists i, dt_pos t !! y = Some i /\ lo <= i <= hi)).
    { intros x y. unfold exr, stop, ex. rewrite bool_decide_eq_false. destruct (decide (x = stopn)) as [->|Hne].
      - rewrite elem_of_nil. tauto.
      - rewrite elem_of_list_filter, (proj2 (nbl_ok x)). unfold dt_posx.
        assert (Hb : posx_le (Some lo) (dt_pos t !! y) && posx_le (dt_pos t !! y) (Some hi) = true <-> exists i, dt_pos t !! y = Some i /\ lo <= i <= hi).
        { destruct (dt_pos t !! y) as [i|]; [|cbn; naive_solver]. rewrite andb_true_iff, !posx_le_Some.
          split; [intros ?; by exists i|]. by intros (? & [= <-] & ?). }
        rewrite Hb. destruct (decide (x ∈ nodes)); destruct (decide (x = start)); tauto. }
    split.
    - intros (z & Hz & Hs). unfold stop in Hs. apply bool_decide_eq_true in Hs. exists z. split; [|done].
      eapply (rtc_subrel _ _ _ _ (fun x y => proj1 (Hx x y))). done.
    - intros (z & Hz & Hs). exists z. split; [|by apply bool_decide_eq_true].
      eapply (rtc_subrel _ _ _ _ (fun x y => proj2 (Hx x y))). done.
  Qed.
End search.

Definition inb (d : dir) (bound i : nat) : Prop := match d with Outgoing => i < bound | Incoming => bound < i end.
Definition later (d : dir) (i j : nat) : Prop := match d with Outgoing => i < j | Incoming => j < i end.
Section cone.
  Context (nb : nat -> dir -> res (list nat)) (t : dts) (d : dir) (bound : nat) (R : nat -> nat -> Prop).
  Context (Hnb : forall n i, dt_pos t !! n = Some i -> inb d bound i -> exists l, nb n d = Ok l /\
    forall m, m ∈ l -> exists j, dt_pos t !! m = Some j /\ later d i j /\ R n m).
  Definition cmeas (i : nat) : nat := match d with Outgoing => bound - i | Incoming => i - bound end.
  Lemma dfs_ok fuel vc n i : dt_pos t !! n = Some i -> cmeas i < fuel -> NoDup vc.2 -> (forall x, x ∈ vc.1 <-> x ∈ vc.2) ->
    exists vc', dt_dfs nb fuel t bound d vc n = HOk vc' /\ NoDup vc'.2 /\ (forall x, x ∈ vc'.1 <-> x ∈ vc'.2) /\
      forall x, x ∈ vc'.2 -> x ∈ vc.2 \/ rtc R n x /\ exists k, dt_pos t !! x = Some k /\ inb d bound k.
  Proof.
    revert vc n i. induction fuel as [|fuel IH]; intros vc n i Hi Hf Hnd Hv; [lia|]. cbn [dt_dfs]. rewrite Hi.
    cbn [unwrap lift mbind hres_bind]. destruct (decide (n ∈ vc.1)) as [Hn|Hn].
    { exists vc. split; [done|]. split; [done|]. split; [done|]. by left. }
    set (oob := match d with Outgoing => bool_decide (bound ≤ i) | Incoming => bool_decide (i ≤ bound) end).
    assert (Ho : oob = false <-> inb d bound i).
    { unfold oob, inb. destruct d; rewrite bool_decide_eq_false; lia. }
    destruct oob.
    { exists vc. split; [done|]. split; [done|]. split; [done|]. by left. }
    assert (Hin : inb d bound i) by by apply Ho. clear Ho.
    destruct (Hnb n i Hi Hin) as (l & -> & Hl). cbn [lift mbind hres_bind].
    assert (Hloop : forall l vc1, (forall m, m ∈ l -> exists j, dt_pos t !! m = Some j /\ later d i j /\ R n m) ->
      NoDup vc1.2 -> (forall x, x ∈ vc1.1 <-> x ∈ vc1.2) ->
      exists vc', foldl (fun s m => vc ← s; dt_dfs nb fuel t bound d vc m) (HOk vc1) l = HOk vc' /\ NoDup vc'.2 /\ (forall x, x ∈ vc'.1 <-> x ∈ vc'.2) /\
      forall x, x ∈ vc'.2 -> x ∈ vc1.2 \/ rtc R n x /\ exists k, dt_pos t !! x = Some k /\ inb d bound k).
    { clear Hl l. induction l as [|m l IHl]; intros vc1 Hl Hnd1 Hv1; cbn [foldl].
      - exists vc1. split; [done|]. split; [done|]. split; [done|]. by left.
      - destruct (Hl m) as (j & Hj & Hij & HR); [by left|]. change (mbind ?f (HOk vc1)) with (f vc1). cbn [mbind hres_bind].
        destruct (IH vc1 m j Hj) as (vc2 & -> & Hnd2 & Hv2 & H2); [|done|done|].
        { unfold cmeas, later, inb in *. destruct d; lia. }
        destruct (IHl vc2) as (vc3 & -> & Hnd3 & Hv3 & H3); [intros x Hx; apply Hl; by right|done|done|].
        exists vc3. split; [done|]. split; [done|]. split; [done|]. intros x Hx.
        destruct (H3 x Hx) as [Hx2|?]; [|by right]. destruct (H2 x Hx2) as [?|[Hmx ?]]; [by left|]. right. split; [|done].
        by eapply rtc_l. }
    destruct (Hloop l ({[n]} ∪ vc.1, vc.2 ++ [n])) as (vc' & -> & Hnd' & Hv' & H'); [done| | |].
    - cbn. apply NoDup_app. split; [done|]. split; [|apply NoDup_singleton]. intros x Hx ->%elem_of_list_singleton. by apply Hn, Hv.
    - intros x. cbn. rewrite elem_of_union, elem_of_singleton, elem_of_app, elem_of_list_singleton, Hv. tauto.
    - exists vc'. split; [done|]. split; [done|]. split; [done|]. intros x Hx. destruct (H' x Hx) as [Hx'|?]; [|by right].
      cbn in Hx'. apply elem_of_app in Hx' as [?| ->%elem_of_list_singleton]; [by left|]. right. split; [done|]. by exists i.
  Qed.
  Lemma cone_ok fuel start i : dt_pos t !! start = Some i -> cmeas i < fuel ->
    exists l, dt_cone nb fuel t start bound d = HOk l /\ NoDup l /\
      forall x, x ∈ l -> rtc R start x /\ exists k, dt_pos t !! x = Some k /\ inb d bound k.
  Proof.
    intros Hi Hf. destruct (dfs_ok fuel (∅, []) start i Hi Hf) as ([V l] & E & Hnd & _ & H); [apply NoDup_nil_2| |].
    - intros x. cbn. rewrite elem_of_nil, elem_of_empty. done.
    - exists l. unfold dt_cone. rewrite E. cbn [mbind hres_bind]. split; [done|]. split; [done|].
      intros x Hx. destruct (H x Hx) as [?%elem_of_nil|?]; done.
  Qed.
End cone.
