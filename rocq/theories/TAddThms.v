(** Proofs of properties C90 and C91. *)
From Verif Require Export TAddProofs TopoThms.

Lemma C90_portless_refuted_pf :
exists g, reach 16 g /\ contains_node g 1 = true
  /\ (forall k, exists os s, topo_cmds (gv_of g) Outgoing (fun _ => true) (fun _ _ => true) (TAdd [1] :: TNext :: replicate k TNext)
        (topo_new (gv_of g) Outgoing (fun _ => true) [0]) = Ok (Some 0 :: os, s) /\ yielded os = [])
  /\ topo_collect (gv_of g) Outgoing (fun _ => true) (fun _ _ => true) 9 (topo_new (gv_of g) Outgoing (fun _ => true) [0; 1]) = HOk [0; 1].
Proof.
  set (ops := [OAdd 0 1; OAdd 0 0]). exists (default pg_new (run 16 ops pg_new)).
  split; [exists ops; apply run_hist; vm_compute; reflexivity|]. split; [vm_compute; reflexivity|]. split; [|vm_compute; reflexivity].
  assert (E : forall v d nf pf V m k, exists os, topo_cmds v d nf pf (replicate k TNext) (TS V [] m) = Ok (os, TS V [] m) /\ yielded os = []).
  { clear. intros v d nf pf V m. induction k as [|k (os & E & Y)]; [by exists []|]. cbn [replicate topo_cmds topo_next ts_cand mbind res_bind].
    rewrite E. by exists (None :: os). }
  intros k. cbn [topo_cmds].
  assert (H : exists V, topo_next (gv_of (default pg_new (run 16 ops pg_new))) Outgoing (fun _ => true) (fun _ _ => true)
    (topo_add_sources (gv_of (default pg_new (run 16 ops pg_new))) Outgoing (fun _ => true)
      (topo_new (gv_of (default pg_new (run 16 ops pg_new))) Outgoing (fun _ => true) [0]) [1]) = Ok (Some 0, TS V [] 1)).
  { eexists. vm_compute. reflexivity. }
  destruct H as [V H]. rewrite H. cbn [mbind res_bind].
  destruct (E (gv_of (default pg_new (run 16 ops pg_new))) Outgoing (fun _ => true) (fun _ _ => true) V 1 k) as (os & E1 & E2).
  rewrite E1. by exists os, (TS V [] 1).
Qed.

Lemma C90_duplicates_refuted_pf :
exists g s, reach 16 g
  /\ topo_cmds (gv_of g) Outgoing (fun _ => true) (fun _ _ => true) [TNext; TNext] (topo_new (gv_of g) Outgoing (fun _ => true) [0; 0])
       = Ok ([Some 0; Some 0], s)
  /\ topo_size_hint (gv_of g) s = Panic.
Proof.
  set (ops := [OAdd 0 1]). exists (default pg_new (run 16 ops pg_new)). eexists.
  split; [exists ops; apply run_hist; vm_compute; reflexivity|]. split; [vm_compute; reflexivity|vm_compute; reflexivity].
Qed.

Section pgadd.
  Context (w : N) (g : pg) (Hr : reach w g) (d : dir) (nf : nat -> bool) (pf : nat -> nat -> bool).
  Context (src : list nat) (Hnd : NoDup src).
  Notation src0 := (filter (fun n => nf n = true) src).
  Lemma tadd_run cs : exists os V C k s', topo_cmds (gv_of g) d nf pf cs (topo_new (gv_of g) d nf src) = Ok (os, TS V C k)
    /\ K (gv_of g) d nf pf s' (yielded os) C V /\ good_src (gv_of g) nf src0 (added cs) (yielded os) C s'.
  Proof.
    destruct (reach_inv _ _ Hr) as (fnl & F & I). pose proof (gv_wf g fnl F I) as W.
    destruct (cmds_ok (gv_of g) d nf pf W cs src0 [] src0 _ 0 (init_ok (gv_of g) d nf pf W src0 (NoDup_filter _ _ Hnd)))
      as (os & V & C & s' & k & E & HK & G & _). exists os, V, C, k, s'. done.
  Qed.
  Lemma has_port_iff n : (exists dd, gv_ports (gv_of g) n dd <> []) <-> has_port g n.
  Proof.
    split.
    - intros (dd & H). cbn in H. destruct (ports g n dd) as [|p l] eqn:E; [done|]. exists p, dd. rewrite E. by left.
    - intros (p & dd & H). exists dd. cbn. intros E. rewrite E in H. by apply elem_of_nil in H.
  Qed.
End pgadd.

Lemma C90_add_sources_partial_pf :
forall w g d nf pf src cs, reach w g -> NoDup src ->
  exists os s, topo_cmds (gv_of g) d nf pf cs (topo_new (gv_of g) d nf src) = Ok (os, s)
  /\ NoDup (yielded os)
  /\ (forall n u p q, n ∈ yielded os -> n ∉ src -> n ∉ added cs -> plink_via g d u p q n -> pf n q = true ->
        before (yielded os) u n)
  /\ (exists k os' s', topo_cmds (gv_of g) d nf pf (cs ++ replicate k TNext) (topo_new (gv_of g) d nf src) = Ok (os ++ os', s')
        /\ topo_next (gv_of g) d nf pf s' = Ok (None, s'))
  /\ (topo_next (gv_of g) d nf pf s = Ok (None, s) -> forall n, n ∈ yielded os <-> nf n = true /\
        (n ∈ src \/ (n ∈ added cs /\ has_port g n) \/
          (exists u p q, u ∈ yielded os /\ plink_via g d u p q n /\ pf u p = true)
          /\ forall u p q, plink_via g d u p q n -> pf n q = true -> u ∈ yielded os /\ pf u p = true)).
Proof.
  intros w g d nf pf src cs Hr Hnd.
  destruct (tadd_run w g Hr d nf pf src Hnd cs) as (os & V & C & k & s' & E & HK & G1 & G2 & G3).
  destruct (reach_inv _ _ Hr) as (fnl & F & I). pose proof (gv_wf g fnl F I) as W. pose proof (gv_single g fnl F I (rev_dir d)) as Sg.
  exists os, (TS V C k). split; [done|]. pose proof HK as ((A & HJ & HA) & HV). set (Y := yielded os) in *.
  assert (HS : forall u p q n u' p', glink (gv_of g) d u p q n -> glink (gv_of g) d u' p' q n -> u = u' /\ p = p').
  { intros u p q n u' p' (A1 & A2 & A3) (B1 & B2 & B3). destruct (wf_sym _ W _ _ _ _ A1 A2) as [A4 _]. destruct (wf_sym _ W _ _ _ _ B1 B2) as [B _].
    assert (p = p') as -> by (by eapply (Sg n q)). by destruct (wf_own _ W _ _ _ _ _ A1 B1) as [-> _]. }
  pose proof (j6 _ _ _ _ _ _ _ _ HJ) as HndL. apply NoDup_app in HndL as (HndY & Hdis & _).
  split; [done|]. split; [|split].
  - intros n u p q Hn Hns Hna Hl Hq. apply elem_of_list_split in Hn as (L1 & L2 & HY). rewrite HY. apply before_app.
    apply (glink_iff g fnl F I) in Hl. pose proof Hl as (B1 & B2 & B3). destruct (wf_sym _ W _ _ _ _ B1 B2) as [B4 _].
    destruct (j8 _ _ _ _ _ _ _ _ HJ L1 n (L2 ++ C)) as [_ H].
    { by rewrite HY, <- app_assoc. }
    { intros [[_ ?]%elem_of_list_filter|[? _]]%G2; done. }
    destruct (H q p B3 B4 Hq) as (u' & p' & Hl' & _ & Hu'). by destruct (HS _ _ _ _ _ _ Hl Hl') as [-> _].
  - edestruct (drain_ok (gv_of g) d nf pf W) as (os' & V' & m' & E'); [exact HK|reflexivity|].
    eexists _, os', (TS V' [] m'). rewrite topo_cmds_app, E. cbn [mbind res_bind]. rewrite E'. cbn [mbind res_bind]. done.
  - intros HN n. assert (C = []) as ->.
    { destruct C as [|c C]; [done|]. exfalso. destruct (next_ok (gv_of g) d nf pf W _ _ _ _ _ k HK) as (V1 & C1 & E1 & _). congruence. }
    rewrite app_nil_r in HJ, G3. split.
    + intros Hn. apply (j5 _ _ _ _ _ _ _ _ HJ) in Hn as [[[? ?]%elem_of_list_filter|(? & ? & ?)]%G2|(H1 & (q & Hq & HqA) & H3)].
      * split; [done|by left].
      * split; [done|]. right. left. split; [done|]. by apply has_port_iff.
      * split; [done|]. right. right. destruct (j7 _ _ _ _ _ _ _ _ HJ _ _ HqA Hq) as (u & p & Hl & Hp & Hu). split.
        { exists u, p, q. split; [done|]. split; [|done]. by apply (glink_iff g fnl F I). }
        intros u' p' q' Hl'%(glink_iff g fnl F I) Hq'. pose proof Hl' as (B1 & B2 & B3). destruct (wf_sym _ W _ _ _ _ B1 B2) as [B4 _].
        pose proof (H3 q' p' B3 B4 Hq') as HA'. destruct (j7 _ _ _ _ _ _ _ _ HJ _ _ HA' B3) as (u2 & p2 & Hl2 & Hp2 & Hu2).
        by destruct (HS _ _ _ _ _ _ Hl' Hl2) as [-> ->].
    + intros [H1 [Hs|[[Ha Hp]|[(u & p & q & Hu & Hl & Hp) H3]]]].
      * apply (j5 _ _ _ _ _ _ _ _ HJ). left. apply G1, elem_of_list_filter. done.
      * apply G3; [done|done|]. by apply has_port_iff.
      * apply (j5 _ _ _ _ _ _ _ _ HJ). right. split; [done|]. split.
        -- exists q. split; [apply Hl|]. apply HA. apply (glink_iff g fnl F I) in Hl as (B1 & B2 & B3). by exists u, p.
        -- intros q' p' Hq' Hl' Hpq. destruct (wf_sym _ W _ _ _ _ Hq' Hl') as [B1 [m Hm]]. rewrite rev_dir_invol in Hm.
           destruct (H3 m p' q') as [Hm' Hp']; [by apply (glink_iff g fnl F I)|done|]. apply HA. by exists m, p'.
Qed.

Lemma before_trans (l : list nat) a b c : NoDup l -> before l a b -> before l b c -> before l a c.
Proof.
  intros Hnd (i & j & Hij & Hi & Hj) (j' & k & Hjk & Hj' & Hk). exists i, k.
  assert (j = j') as <- by (by eapply NoDup_lookup). split; [lia|done].
Qed.
Lemma before_irrefl (l : list nat) a : NoDup l -> ~ before l a a.
Proof. intros Hnd (i & j & Hij & Hi & Hj). assert (i = j) as -> by (by eapply NoDup_lookup). lia. Qed.

Lemma C91_ports_remaining_pf :
forall w g d src cs os s, reach w g -> NoDup src ->
  topo_cmds (gv_of g) d (fun _ => true) (fun _ _ => true) cs (topo_new (gv_of g) d (fun _ => true) src) = Ok (os, s) ->
  topo_next (gv_of g) d (fun _ => true) (fun _ _ => true) s = Ok (None, s) ->
  (forall n, (exists p dd, p ∈ topo_ports_remaining (ports_iter g) s /\ p ∈ ports g n dd) <-> has_port g n /\ n ∉ yielded os)
  /\ (topo_ports_remaining (ports_iter g) s <> [] ->
      (forall n, contains_node g n = true -> (~ exists a, pedge g d a n) -> n ∈ src \/ n ∈ added cs) -> ~ pacyclic g)
  /\ (topo_ports_remaining (ports_iter g) s = [] ->
      (forall n, n ∈ src \/ n ∈ added cs -> ~ exists a, pedge g d a n) -> pacyclic g).
Proof.
  intros w g d src cs os s Hr Hnd E HN.
  destruct (tadd_run w g Hr d tt1 tt2 src Hnd cs) as (os1 & V & C & k & s' & E1 & HK & G1 & G2 & G3).
  destruct (C90_add_sources_partial_pf w g d tt1 tt2 src cs Hr Hnd) as (os2 & s2 & E2 & HndY & Hord & _ & Hel).
  unfold tt1, tt2 in E1, E2. rewrite E in E1, E2. injection E1 as <- ->. injection E2 as <- <-. specialize (Hel HN).
  destruct (reach_inv _ _ Hr) as (fnl & F & I). pose proof (gv_wf g fnl F I) as W.
  assert (C = []) as ->.
  { destruct C as [|c C]; [done|]. exfalso. destruct (next_ok (gv_of g) d tt1 tt2 W _ _ _ _ _ k HK) as (V1 & C1 & E1 & _).
    unfold tt1, tt2 in E1. congruence. }
  rewrite app_nil_r in G3. set (Y := yielded os) in *. pose proof HK as ((A & HJ & HA) & HV). rewrite app_nil_r in HJ.
  assert (Hrem : forall p, p ∈ topo_ports_remaining (ports_iter g) (TS V [] k) <-> p ∉ V /\ p ∈ ports_iter g).
  { intros p. unfold topo_ports_remaining. by rewrite elem_of_list_filter. }
  assert (Hpi : forall p, p ∈ ports_iter g <-> exists x, pmeta g p = Some x).
  { intros p. by rewrite ports_iter_eq, port_ids_elem. }
  assert (Hit : forall p n dd, p ∈ ports g n dd -> p ∈ ports_iter g).
  { intros p n dd Hp%(elem_ports _ _ _ I). apply Hpi. eauto. }
  assert (Hti : forall p, p ∈ ports_iter g -> exists n dd, p ∈ ports g n dd).
  { intros p [[n dd] Hp]%Hpi. exists n, dd. by apply (elem_ports _ _ _ I). }
  assert (Hdd : forall dd, dd = d \/ dd = rev_dir d) by (intros []; destruct d; auto).
  assert (H1 : forall n, (exists p dd, p ∈ topo_ports_remaining (ports_iter g) (TS V [] k) /\ p ∈ ports g n dd) <-> has_port g n /\ n ∉ Y).
  { intros n. split.
    - intros (p & dd & [Hv _]%Hrem & Hp). split; [by exists p, dd|]. intros HnY. apply Hv.
      destruct (Hdd dd) as [-> | ->]; [by apply (HV p n)|by apply (j3 _ _ _ _ _ _ _ _ HJ n p)].
    - intros [(p & dd & Hp) HnY]. destruct (Hdd dd) as [-> | ->].
      + exists p, d. split; [|done]. apply Hrem. split; [|by eapply Hit]. intros Hv. by apply HnY, (HV p n).
      + destruct (K_unvis (gv_of g) d tt1 tt2 s' Y [] V n p HK) as (q & Hq & Hqv); [by rewrite app_nil_r|done|done|].
        exists q, (rev_dir d). split; [|done]. apply Hrem. split; [done|]. exact (Hit q n (rev_dir d) Hq). }
  split; [exact H1|]. split.
  - intros Hne Hroots Hac. apply Hne. destruct (topo_ports_remaining _ _) as [|p l] eqn:Er; [done|]. exfalso.
    destruct (proj1 (Hrem p)) as [_ Hpi']; [by left|]. destruct (Hti p Hpi') as (n & dd & Hpn).
    assert (Hn : has_port g n /\ n ∉ Y) by (apply H1; exists p, dd; split; [by left|done]).
    destruct Hn as [Hn HnY]. clear p l Er Hrem H1 Hpi' dd Hpn Hne. revert Hn HnY.
    pose proof (pedge_acc g fnl F I d Hac n) as Hacc. induction Hacc as [n _ IH]. intros Hn HnY.
    assert (Hns : n ∉ src /\ n ∉ added cs).
    { split; intros Hs; apply HnY, Hel; (split; [done|]); [by left|right; left; by split]. }
    assert (Hpred : ~ ~ exists a, pedge g d a n).
    { intros Hno. destruct Hns as [Hn1 Hn2]. destruct (Hroots n) as [?|?]; [|done|done|done].
      destruct Hn as (p & dd & Hp). apply (nodes_iter_elem g). by eapply (wf_nodes _ W p n dd). }
    apply Hpred. intros (a & p & q & Hpq). apply HnY, Hel. split; [done|]. right. right.
    assert (Hall : forall u p q, plink_via g d u p q n -> u ∈ Y).
    { intros u p' q' Hl. destruct (decide (u ∈ Y)) as [|Hu]; [done|]. exfalso. apply (IH u); [by exists p', q'| |done].
      exists p', d. apply Hl. }
    split; [exists a, p, q; split_and!; [by eapply Hall|done|done]|]. intros u p' q' Hl _. split; [by eapply Hall|done].
  - intros He Hroots.
    assert (HallY : forall n, has_port g n -> n ∈ Y).
    { intros n Hn. destruct (decide (n ∈ Y)) as [|HnY]; [done|]. exfalso. destruct (proj2 (H1 n) (conj Hn HnY)) as (p & dd & Hp & _).
      rewrite He in Hp. by apply elem_of_nil in Hp. }
    assert (Hstep : forall a b, pedge g d a b -> before Y a b).
    { intros a b Hab. pose proof Hab as (p & q & Hl).
      apply (Hord b a p q); [apply HallY; exists q, (rev_dir d); apply Hl| | |exact Hl|done];
        intros Hs; (apply (Hroots b); [tauto|by exists a]). }
    assert (Htc : forall a b, tc (pedge g d) a b -> before Y a b).
    { intros a b Ht. induction Ht as [a b H|a b c H _ IH]; [by apply Hstep|]. eapply before_trans; [done|by apply Hstep|done]. }
    intros a Ha. destruct (decide (d = Outgoing)) as [->|Hd]; [by eapply (before_irrefl Y a), Htc|].
    assert (d = Incoming) as -> by (by destruct d). apply (before_irrefl Y a); [done|]. apply Htc.
    assert (Hrev : forall x y, tc (pedge g Outgoing) x y -> tc (pedge g Incoming) y x); [|by apply Hrev].
    intros x y Hxy. induction Hxy as [x y H|x y z H _ IH]; [apply tc_once; by apply (pedge_rev g fnl F I Outgoing)|].
    eapply tc_r; [exact IH|]. by apply (pedge_rev g fnl F I Outgoing).
Qed.
