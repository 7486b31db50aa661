(** Theorems about [MultiPortGraph]. *)
From Verif Require Export MultiOps9 MultiRun.

(** Nodes 0 and 1 with ports 0 | 1 2 and 3 4 | 5; the links 1-3 (twice), 1-4, 2-3. *)
Definition mx_ops : list mop := [MAdd 1 2; MAdd 2 1; MLink 1 3; MLink 1 3; MLink 1 4; MLink 2 3].
Definition mx : mpg := default m_new (mrun 16 mx_ops m_new).
Lemma mx_reach : mreach 16 mx.
Proof. exists mx_ops. apply mrun_hist. vm_compute. reflexivity. Qed.

(** The multigraph of C54: port 0 lost its mark when its index was reused. *)
Definition lost_ops : list mop := [MAdd 1 1; MAdd 0 1; MAdd 1 0; MLink 2 0; MLink 2 0; MLink 1 3; MLink 1 3; MSetPorts 0 0 1].
Definition unwrap_m (r : res mpg) : mpg := match r with Ok m => m | Panic => m_new end.
Definition lost_m : mpg := unwrap_m (mplay 16 lost_ops).

Section facts.
  Context (w : N) (Hw : (2 < w <= 63)%N).
  Lemma w1 : (1 < w <= 63)%N.
  Proof. lia. Qed.
  Lemma vsame_same m m' : vsame m m' -> m_same_shape m m'.
  Proof.
    intros V. split.
    - intros n. assert (E : m_contains_node m' n = m_contains_node m n).
      { apply eq_true_iff_eq. rewrite !contains_node_m. apply (vs_cn _ _ V). }
      split; [done|]. intros [H1 H2]%contains_node_m d. by apply (vs_ports _ _ V).
    - intros p. assert (E : m_contains_port m' p = m_contains_port m p).
      { apply eq_true_iff_eq. rewrite <- !vis_contains. split; intros (n & d & H); exists n, d; by apply (vs_pm _ _ V). }
      split; [done|]. intros (n & d & M & C)%vis_contains. destruct (proj2 (vs_pm _ _ V p n d) (conj M C)) as [M' _].
      unfold port_node, port_direction. by rewrite M, M'.
  Qed.
  Lemma shrink_vsame m m' P : shrink w m m' P -> vsame m m'.
  Proof. intros S. split; apply S. Qed.
  Lemma mreach_step m o m' r : mreach w m -> mallowed w m o -> mstep w m o = Ok (m', r) -> mreach w m'.
  Proof. intros [ops H] Ha E. exists (ops ++ [o]). by econstructor. Qed.
  Lemma visible_not_internal m p : m_contains_port m p = true -> ~ internal m p.
  Proof. intros H [_ H']. congruence. Qed.
  Lemma len_elem_card {A} (l : list A) (P : A -> Prop) : NoDup l -> (forall x, x ∈ l <-> P x) -> card P (length l).
  Proof. intros N H. eapply card_ext; [apply H|by apply card_list]. Qed.
End facts.

Lemma C54_multi_links_refuted_pf :
exists ops m p q lp lq, mplay 16 ops = Ok m /\ m_contains_port m p = true /\ m_contains_port m q = true /\
  m_port_links 16 m p = Ok lp /\ m_port_links 16 m q = Ok lq /\ times q lp = 0 /\ times p lq = 2 /\ times p lp = 1 /\
  exists m' r n x l, m_link_ports 16 m p q = Ok (m', inr r) /\ m_contains_node m' n = true /\
    m_neighbours 16 m' n Outgoing = Ok l /\ x ∈ l /\ m_contains_node m' x = false.
Proof.
  exists lost_ops, lost_m, 0, 3, [((0, 0), (0, 0))], [((3, 0), (0, 0)); ((3, 1), (0, 1))].
  do 8 (split; [vm_compute; reflexivity|]).
  destruct (m_link_ports 16 lost_m 0 3) as [[m' [e|r]]|] eqn:E; [exfalso; vm_compute in E; discriminate E| |exfalso; vm_compute in E; discriminate E].
  exists m', r, 0, 4, [4; 2]. vm_compute in E. injection E as <- _. split; [reflexivity|].
  split; [vm_compute; reflexivity|]. split; [vm_compute; reflexivity|]. split; [left|]. vm_compute; reflexivity.
Qed.

Lemma C54_multi_links_partial_pf :
forall w m, (2 < w <= 63)%N -> mreach w m ->
  (forall p, m_contains_port m p = true -> exists l, m_port_links w m p = Ok l /\ NoDup l /\
     forall x y, (x, y) ∈ l -> x.1 = p /\ mlinked w m y x /\ m_contains_port m y.1 = true /\
       exists d, port_direction (m_graph m) p = Some d /\ port_direction (m_graph m) y.1 = Some (rev_dir d)) /\
  (forall p q lp lq, m_contains_port m p = true -> m_contains_port m q = true ->
     m_port_links w m p = Ok lp -> m_port_links w m q = Ok lq -> times q lp = times p lq) /\
  (forall x y z, mlinked w m x y -> mlinked w m x z -> y = z) /\
  (forall n, n ∈ m_nodes_iter m <-> m_contains_node m n = true) /\
  (exists l, m_ports_iter m = Ok l /\ forall p, p ∈ l <-> m_contains_port m p = true) /\
  (forall p, m_contains_port m p = true -> exists n, port_node (m_graph m) p = Some n /\ m_contains_node m n = true) /\
  (forall n d, m_contains_node m n = true -> exists l, m_neighbours w m n d = Ok l /\
     forall x, x ∈ l <-> m_contains_node m x = true /\
       exists p q, mlinked w m p q /\ port_node (m_graph m) p.1 = Some n /\ port_direction (m_graph m) p.1 = Some d /\
         port_node (m_graph m) q.1 = Some x).
Proof.
  intros w m Hw Hr. pose proof (w1 w Hw) as Hw1. pose proof (mreach_minv w Hw m Hr) as I. pose proof (mi_reach _ _ _ I) as R. split_and!.
  - intros p V%vis_contains. exists (plinks w m p). split; [by apply port_links_eq|]. split; [by apply plinks_nodup|].
    intros x y H. apply plinks_elem in H as [<- H]; [|done|done|done]. split; [done|]. split; [apply mlinked_iff; try done; by apply (rlink_sym w)|].
    split; [by apply vis_contains, H|]. destruct (rlink_dir w Hw1 m I x y H) as (n & d & n' & M & M' & _).
    exists d. split; by eapply pm_dir.
  - intros p q lp lq V%vis_contains V'%vis_contains. rewrite !port_links_eq by done. intros [= <-] [= <-]. by apply times_sym.
  - intros x y z H1 H2. apply mlinked_iff in H1, H2; try done. by eapply (rlink_fun w).
  - intros n. by apply (nodes_iter_elem w Hw1 m I).
  - destruct (ports_iter_ok w m I) as (l & E & H & _). eauto.
  - intros p (n & d & M & C)%vis_contains. exists n. split; [by eapply pm_node|]. apply contains_node_m. split; [by eapply (r_node w _ R)|done].
  - intros n d [Hn Cn]%contains_node_m. destruct (neighbours_ok w Hw1 m I n d Cn) as (l & r & El & Er & HF). exists r. split; [done|].
    rewrite links_eq in El by done. injection El as <-. intros x. split.
    + intros Hx. apply elem_of_list_lookup_1 in Hx as [k Hk]. destruct (Forall2_lookup_r _ _ _ _ _ HF Hk) as ([p q] & Hpq & Ho).
      apply elem_of_list_lookup_2 in Hpq. apply elem_of_list_In, in_concat in Hpq as (l & (a & <- & Ha)%in_map_iff & Hpq).
      apply elem_of_list_In in Ha, Hpq. assert (V : vis m a) by (by eapply (vis_port w)).
      apply plinks_elem in Hpq as [<- Hpq]; [|done|done|done]. apply (r_elem w _ R) in Ha.
      destruct (rlink_dir w Hw1 m I p q Hpq) as (n1 & d1 & n2 & M1 & M2 & C1 & C2). unfold other_node in Ho. cbn in Ho.
      rewrite (pm_node _ _ _ _ M2) in Ho. injection Ho as ->. split.
      * apply contains_node_m. split; [by eapply (r_node w _ R)|done].
      * exists p, q. split; [by apply mlinked_iff|]. split; [by eapply pm_node|]. split; [by eapply pm_dir|by eapply pm_node].
    + intros [_ (p & q & Hpq & Hp & Hd & Hq)]. apply mlinked_iff in Hpq; [|done|done].
      assert (Hin : (p, q) ∈ concat (map (plinks w m) (ports (m_graph m) n d))).
      { apply elem_of_list_In, in_concat. exists (plinks w m p.1). split.
        - apply in_map, elem_of_list_In, (r_elem w _ R). by apply pm_of.
        - apply elem_of_list_In, plinks_elem; [done|done|apply Hpq|done]. }
      apply elem_of_list_lookup_1 in Hin as [k Hk]. destruct (Forall2_lookup_l _ _ _ _ _ HF Hk) as (x' & Hx' & Ho).
      unfold other_node in Ho. cbn in Ho. rewrite Hq in Ho. injection Ho as ->. by eapply elem_of_list_lookup_2.
Qed.

Lemma C55_multi_counts_refuted_pf :
exists ops m l, mplay 16 ops = Ok m /\ m_ports_iter m = Ok l /\ length l = 3 /\ m_port_count m = Ok 2.
Proof.
  exists [MAdd 0 1; MAdd 1 0; MLink 0 1; MLink 0 2], (unwrap_m (mplay 16 [MAdd 0 1; MAdd 1 0; MLink 0 1; MLink 0 2])), [1; 5; 6].
  do 3 (split; [vm_compute; reflexivity|]). vm_compute; reflexivity.
Qed.

Lemma C55_multi_counts_partial_pf :
forall w m, (2 < w <= 63)%N -> mreach w m ->
  exists kn kp kl lp, m_node_count m = Ok kn /\ m_port_count m = Ok kp /\ m_link_count m = Ok kl /\
    card (fun n => m_contains_node m n = true) kn /\ card (fun p => m_contains_port m p = true) kp /\
    card (fun x => mlinked w m x.1 x.2 /\ port_direction (m_graph m) x.1.1 = Some Outgoing) kl /\
    length (m_nodes_iter m) = kn /\ m_ports_iter m = Ok lp /\ length lp = kp /\
    exists e, m_is_empty m = Ok e /\ (e = true <-> forall n, m_contains_node m n = false).
Proof.
  intros w m Hw Hr. pose proof (w1 w Hw) as Hw1. pose proof (mreach_minv w Hw m Hr) as I.
  destruct (node_count_ok w m I) as (kn & En & Cn). destruct (port_count_ok w Hw1 m I) as (kp & Ep & Cp). destruct (link_count_ok w Hw1 m I) as (kl & El & Cl).
  destruct (ports_iter_ok w m I) as (lp & Elp & Hlp & Slp). exists kn, kp, kl, lp.
  assert (Hk : length (m_nodes_iter m) = kn).
  { eapply card_unique; [|exact Cn]. apply len_elem_card; [apply sorted_lt_nodup; by apply (nodes_iter_sorted w)|]. intros n. by apply (nodes_iter_elem w Hw1 m I). }
  split_and!; try done.
  - eapply card_unique; [|exact Cp]. apply len_elem_card; [by apply sorted_lt_nodup|done].
  - unfold m_is_empty. rewrite En, bind_Ok. eexists. split; [done|]. rewrite bool_decide_eq_true. split.
    + intros -> n. pose proof (card_zero _ n Cn). by apply not_true_is_false.
    + intros H. eapply card_unique; [exact Cn|]. apply card_empty. intros n. by rewrite H.
Qed.

Lemma link_case w m a b : (2 < w <= 63)%N -> mreach w m ->
    m_contains_port m a = true -> m_contains_port m b = true ->
    exists na da nb db, pmeta (m_graph m) a = Some (na, da) /\ is_copy m na = false /\ pmeta (m_graph m) b = Some (nb, db) /\ is_copy m nb = false /\
      port_direction (m_graph m) a = Some da /\ port_direction (m_graph m) b = Some db /\
      (room w m a -> roomy w m a) /\ (room w m b -> roomy w m b) /\
      (room w m a -> room w m b -> forall m' r, m_link_ports w m a b = Ok (m', r) -> mreach w m').
Proof.
  intros Hw Hr Va Vb. pose proof (w1 w Hw) as Hw1. pose proof (mreach_minv w Hw m Hr) as I.
  pose proof Va as (na & da & Ma & Ca)%vis_contains. pose proof Vb as (nb & db & Mb & Cb)%vis_contains. exists na, da, nb, db.
  apply vis_contains in Va as Va', Vb as Vb'.
  do 4 (split; [done|]). split; [by eapply pm_dir|]. split; [by eapply pm_dir|].
  split; [by apply (room_roomy w Hw1 m I)|]. split; [by apply (room_roomy w Hw1 m I)|].
  intros Ra Rb m' r E. eapply (mreach_step w m (MLink a b) m' (QLink r) Hr); [|cbn; by rewrite E].
  cbn. split; [by apply visible_not_internal|]. split; [by apply visible_not_internal|]. done.
Qed.

Lemma C56_multi_link_partial_pf :
forall w m a b d, (2 < w <= 63)%N -> mreach w m ->
  m_contains_port m a = true -> m_contains_port m b = true ->
  port_direction (m_graph m) a = Some d -> port_direction (m_graph m) b = Some (rev_dir d) ->
  room w m a -> room w m b ->
  (forall m' r, m_link_ports w m a b = Ok (m', r) ->
    mreach w m' /\ m_same_shape m m' /\
    exists x y, r = inr (x, y) /\ x.1 = a /\ y.1 = b /\
      (forall z, ~ mlinked w m x z) /\ (forall z, ~ mlinked w m y z) /\
      (forall s t, mlinked w m' s t <-> mlinked w m s t \/ (s = x /\ t = y) \/ (s = y /\ t = x)) /\
      m_subport_link w m' x = Ok (Some y) /\ m_subport_link w m' y = Ok (Some x)) /\
  ((forall l, m_port_subports m a = Ok l -> (N.of_nat (length l) <= 32766)%N) ->
   (forall l, m_port_subports m b = Ok l -> (N.of_nat (length l) <= 32766)%N) ->
   space 2 m -> exists m' r, m_link_ports w m a b = Ok (m', r)).
Proof.
  intros w m a b d Hw Hr Va Vb Da Db Ra Rb. pose proof (w1 w Hw) as Hw1. pose proof (mreach_minv w Hw m Hr) as I.
  destruct (link_case w m a b Hw Hr Va Vb) as (na & da & nb & db & Ma & Ca & Mb & Cb & Da' & Db' & Ra' & Rb' & HR).
  rewrite Da in Da'. injection Da' as <-. rewrite Db in Db'. injection Db' as <-. split.
  - intros m' r E. pose proof (HR Ra Rb m' r E) as Hr'. split; [done|].
    destruct (m_link_ok w Hw m a b na d nb (rev_dir d) m' r I Ma Ca Mb Cb (Ra' Ra) (Rb' Rb) E) as (I' & V & H). split; [by apply vsame_same|].
    destruct r as [e|[x y]]; [destruct H as [H _]; by apply eq_sym, rev_ne in H|]. destruct H as (_ & Hx & Hy & Nx & Ny & RL).
    exists x, y. split; [done|]. split; [done|]. split; [done|].
    split; [intros z Hz%mlinked_iff; try done; by eapply Nx|]. split; [intros z Hz%mlinked_iff; try done; by eapply Ny|].
    split; [intros s t; rewrite !mlinked_iff by done; apply RL|].
    split; apply (subport_link_rlink w Hw1 m' I'), RL; tauto.
  - intros Fa Fb Sp. specialize (Fa _ (subports_eq w Hw1 m I a ltac:(by apply vis_contains))). specialize (Fb _ (subports_eq w Hw1 m I b ltac:(by apply vis_contains))).
    rewrite subs_len in Fa, Fb. destruct (m_link_total w Hw m a b na d nb (rev_dir d) I Ma Ca Mb Cb (Ra' Ra) (Rb' Rb) Fa Fb Sp) as [[m' r] E]. eauto.
Qed.

Lemma link_number w m a b m' x y : m_link_ports w m a b = Ok (m', inr (x, y)) -> (N.of_nat x.2 < 65535)%N.
Proof.
  assert (HG : forall m p m' (s : subport) i, m_get_free w m p = Ok (m', inr (s, i)) -> (N.of_nat s.2 < 65535)%N).
  { clear. intros m p m' s i E. assert (Hs : forall p o t, sp_multi p o = Ok t -> (N.of_nat t.2 < 65535)%N).
    { intros p0 o t Et. unfold sp_multi, assert in Et. destruct (N.ltb_spec o 65535); [|done]. cbn in Et. injection Et as <-. cbn. by rewrite N2Nat.id. }
    unfold m_get_free in E. destruct (port_direction (m_graph m) p) as [d|]; [|done].
    destruct (port_link (m_graph m) p) as [l|]; [|done]. cbn in E. destruct (is_multi m p), l as [q|]; try done.
    - destruct (unwrap (port_node (m_graph m) q)) as [c|]; [|done]. cbn in E. destruct (first_free (m_graph m) 0 (ports (m_graph m) c d)) as [[[off sub]|]|]; [| |done]; cbn in E.
      + destruct (sp_multi p (N.of_nat off)) as [t|] eqn:Et; [|done]. cbn in E. injection E as _ <- _. by eapply Hs.
      + destruct (m_add_port w m c d) as [[m1 sub]|]; [|done]. cbn in E. destruct (sp_multi p _) as [t|] eqn:Et; [|done]. cbn in E. injection E as _ <- _. by eapply Hs.
    - repeat match type of E with (mbind _ ?r = Ok _) => let F := fresh "F" in destruct r as [?|] eqn:F; [|done]; cbn [mbind res_bind] in E
        | context [let '(_, _) := ?x in _] => destruct x | (match ?x with _ => _ end = Ok _) => destruct x; try done end.
      injection E as _ <- _. cbn. lia.
    - injection E as _ <- _. cbn. lia. }
  intros E. unfold m_link_ports in E. destruct (m_get_free w m a) as [[m1 [e|[sa ia]]]|] eqn:Ea; [done| |done]. cbn in E.
  destruct (m_get_free w m1 b) as [[m2 [e|[sb ib]]]|] eqn:Eb; [done| |done]. cbn in E. destruct (link_ports (m_graph m2) ia ib) as [[g [e|r]]|]; [done| |done].
  cbn in E. injection E as _ <- _. by eapply HG.
Qed.
Lemma room32 m p : mreach 32 m -> m_contains_port m p = true -> room 32 m p.
Proof.
  intros Hr Hp l El. left. assert (Hw : (2 < 32 <= 63)%N) by lia. pose proof (w1 32 Hw) as Hw1. pose proof (mreach_minv 32 Hw m Hr) as I. apply vis_contains in Hp.
  rewrite (subports_eq 32 Hw1 m I p Hp) in El. injection El as <-. rewrite subs_len. destruct (decide (length (raws m p) = 0)) as [->|Hz]; [done|].
  destruct (lookup_lt_is_Some_2 (raws m p) (length (raws m p) - 1)) as [s Hs]; [lia|]. destruct Hp as (n & d & M & C).
  destruct (raws_some 32 Hw1 m I p _ s n d M C Hs) as (_ & _ & _ & Hi). assert (100000 <= po_max_offset 32)%N by (vm_compute; discriminate). lia.
Qed.
Definition pair_m : mpg := default m_new (mrun 32 [MAdd 0 1; MAdd 1 0] m_new).
Lemma pair_reach : mreach 32 pair_m.
Proof. exists [MAdd 0 1; MAdd 1 0]. apply mrun_hist. vm_compute. reflexivity. Qed.
Lemma pair_links k : let P m := mreach 32 m /\ m_contains_port m 0 = true /\ m_contains_port m 1 = true /\
    port_direction (m_graph m) 0 = Some Outgoing /\ port_direction (m_graph m) 1 = Some Incoming in
  (exists m, P m /\ m_link_ports 32 m 0 1 = Panic) \/
  exists m (xs : list subport), P m /\ length xs = k /\ NoDup xs /\ forall x, x ∈ xs -> x.1 = 0 /\ (N.of_nat x.2 < 65535)%N /\ exists y, mlinked 32 m x y.
Proof.
  intros P. induction k as [|k [IH|(m & xs & HP & Hl & Hnd & Hx)]].
  - right. exists pair_m, []. split; [split; [exact pair_reach|vm_compute; repeat split]|]. split; [done|]. split; [constructor|]. by intros x ?%elem_of_nil.
  - by left.
  - destruct (m_link_ports 32 m 0 1) as [[m' r]|] eqn:E; [|left; by exists m]. right. destruct HP as (Hr & C0 & C1 & D0 & D1).
    destruct (C56_multi_link_partial_pf 32 m 0 1 Outgoing) as [HL _]; try done; [by apply room32..|].
    destruct (HL _ _ E) as (Hr' & [_ Hsh] & x & y & -> & Ex & Ey & Nx & _ & Hlk & _).
    assert (HS : forall p, m_contains_port m p = true -> m_contains_port m' p = true /\ port_direction (m_graph m') p = port_direction (m_graph m) p).
    { intros p Hp. destruct (Hsh p) as [-> H2]. split; [done|]. by apply H2. }
    exists m', (x :: xs). split_and!.
    + split; [done|]. destruct (HS 0 C0) as [-> ->], (HS 1 C1) as [-> ->]. done.
    + cbn. by rewrite Hl.
    + constructor; [|done]. intros Hin. destruct (Hx _ Hin) as (_ & _ & z & Hz). by eapply Nx.
    + intros z [->|Hz]%elem_of_cons.
      * split; [done|]. split; [by eapply link_number|]. exists y. apply Hlk. auto.
      * destruct (Hx z Hz) as (H1 & H2 & u & H3). split; [done|]. split; [done|]. exists u. apply Hlk. auto.
Qed.

Lemma C56_multi_link_refuted_pf :
exists m a b, mreach 32 m /\ m_contains_port m a = true /\ m_contains_port m b = true /\
  port_direction (m_graph m) a = Some Outgoing /\ port_direction (m_graph m) b = Some Incoming /\
  room 32 m a /\ room 32 m b /\ m_link_ports 32 m a b = Panic.
Proof.
  destruct (pair_links (S (N.to_nat 65535))) as [(m & (Hr & C0 & C1 & D0 & D1) & E)|(m & xs & _ & Hl & Hnd & Hx)].
  { exists m, 0, 1. split_and!; try done; by apply room32. }
  exfalso. assert (length (map snd xs) <= length (seq 0 (N.to_nat 65535))) as Hle.
  { apply submseteq_length, NoDup_submseteq.
    - apply NoDup_fmap_2_strong; [|done]. intros [a i] [b j] Ha Hb E. cbn in E. destruct (Hx _ Ha) as [Ea _], (Hx _ Hb) as [Eb _]. cbn in *. congruence.
    - intros i ([a j] & -> & Ha)%elem_of_list_fmap. destruct (Hx _ Ha) as (_ & Hj & _). cbn in *. apply elem_of_seq. lia. }
  assert (Hl' : length (map snd xs) = S (N.to_nat 65535)) by (rewrite map_length; exact Hl). rewrite Hl', seq_length in Hle. lia.
Qed.

Definition two_ops : list mop := [MAdd 0 1; MAdd 1 0; MLink 0 1; MLink 0 1].
Definition two_m : mpg := default m_new (mrun 16 two_ops m_new).
Lemma two_reach : mreach 16 two_m.
Proof. exists two_ops. apply mrun_hist. vm_compute. reflexivity. Qed.

Lemma C57_multi_unlink_refuted_pf :
exists m p m' r l, mreach 16 m /\ m_contains_port m p = true /\ m_port_links 16 m p = Ok l /\ length l = 2 /\
  m_unlink_port 16 m p = Ok (m', Some r) /\ r.1 = p /\ m_port_links 16 m' p = Ok [].
Proof.
  exists two_m, 0. destruct (m_unlink_port 16 two_m 0) as [[m' [r|]]|] eqn:E; [|exfalso; vm_compute in E; discriminate E|exfalso; vm_compute in E; discriminate E].
  exists m', r, [((0, 0), (1, 0)); ((0, 1), (1, 1))]. split; [apply two_reach|]. split; [vm_compute; reflexivity|]. split; [vm_compute; reflexivity|].
  split; [reflexivity|]. split; [reflexivity|]. vm_compute in E. injection E as <- <-. split; [reflexivity|]. vm_compute; reflexivity.
Qed.

Lemma C57_multi_unlink_partial_pf :
forall w m p, (2 < w <= 63)%N -> mreach w m -> m_contains_port m p = true ->
  exists m' r, m_unlink_port w m p = Ok (m', r) /\ mreach w m' /\ m_same_shape m m' /\
    (forall x y, mlinked w m' x y <-> mlinked w m x y /\ x.1 <> p /\ y.1 <> p) /\
    (m_port_subports m p = Ok [(p, 0)] ->
       (r = None <-> forall y, ~ mlinked w m (p, 0) y) /\
       (forall q, m_port_subports m q = Ok [(q, 0)] -> mlinked w m (p, 0) (q, 0) -> r = Some (q, 0))).
Proof.
  intros w m p Hw Hr V. pose proof (w1 w Hw) as Hw1. pose proof (mreach_minv w Hw m Hr) as I. pose proof (mi_reach _ _ _ I) as R.
  pose proof V as (n & d & Mp & Cn)%vis_contains.
  assert (HM : forall m' r, m_unlink_port w m p = Ok (m', r) -> mreach w m').
  { intros m' r E. eapply (mreach_step w m (MUnlink p) m' (QUnlink r) Hr); [by apply visible_not_internal|cbn; by rewrite E]. }
  destruct (is_multi m p) eqn:Fp.
  - destruct (unlink_multi w Hw1 m I p ltac:(by apply vis_contains) Fp) as (m' & E & S). exists m', (Some (p, 0)).
    split; [done|]. split; [by eapply HM|]. split; [apply vsame_same; by eapply shrink_vsame|]. pose proof (sh_minv _ _ _ _ S) as I'.
    split; [intros x y; rewrite !mlinked_iff by done; apply S|].
    intros Es. rewrite (subports_eq w Hw1 m I p ltac:(by apply vis_contains)) in Es. injection Es as Es.
    destruct (flag_vis w m I p n d Fp Mp Cn) as (q & c & _ & _ & _ & _ & _ & _ & Hraw & H2 & _).
    apply (f_equal length) in Es. rewrite subs_len, Hraw, ports_length in Es. cbn in Es. lia.
  - destruct (unlink_single w Hw1 m I p Fp) as (m' & E & S); [intros; congruence|]. exists m', (option_map sp_unique (lk (m_graph m) p)).
    split; [done|]. split; [by eapply HM|]. split; [apply vsame_same; by eapply shrink_vsame|]. pose proof (sh_minv _ _ _ _ S) as I'.
    split; [intros x y; rewrite !mlinked_iff by done; apply S|]. intros _. split.
    + destruct (lk (m_graph m) p) as [q|] eqn:L; cbn; split; try done.
      * intros H. exfalso. destruct (lk_psub w Hw1 m I p q L Fp) as (_ & V' & Ht). apply (H (psub w m q)), mlinked_iff; [done|done|].
        split; [by apply vis_contains|]. split; [done|]. exists p, q. cbn. by rewrite raws_single.
      * intros _ y Hy%mlinked_iff; try done. destruct Hy as (_ & _ & s & t & Hs & _ & L'). cbn in Hs. rewrite raws_single in Hs by done. cbn in Hs. congruence.
    + intros q Eq Hy%mlinked_iff; try done. destruct Hy as (_ & V' & s & t & Hs & Ht & L'). cbn in *. rewrite raws_single in Hs by done. cbn in Hs. injection Hs as <-.
      rewrite L'. cbn. unfold sp_unique. do 2 f_equal.
      destruct (is_multi m q) eqn:Fq; [|rewrite raws_single in Ht by done; cbn in Ht; congruence]. pose proof V' as (n' & d' & Mq & Cq).
      destruct (flag_vis w m I q n' d' Fq Mq Cq) as (q' & c & _ & _ & _ & _ & _ & _ & Hraw & H2 & _).
      rewrite (subports_eq w Hw1 m I q V') in Eq. injection Eq as Eq. apply (f_equal length) in Eq. rewrite subs_len, Hraw, ports_length in Eq. cbn in Eq. lia.
Qed.

Lemma C58_multi_set_num_ports_refuted_pf :
exists m n i j m' log p q, mreach 16 m /\ m_contains_node m n = true /\ m_set_num_ports 16 m n i j = Ok (m', log) /\
  survives (m_graph m) (m_graph m') n p q /\ port_node (m_graph m) 3 <> Some n /\
  (exists l, m_port_links 16 m p = Ok l /\ times 3 l = 2) /\ (exists l, m_port_links 16 m' q = Ok l /\ times 3 l = 0).
Proof.
  exists (default m_new (mrun 16 (removelast lost_ops) m_new)), 0, 0, 1, lost_m, [(0, Removed (Some 9)); (1, Moved 0)], 1, 0.
  split; [exists (removelast lost_ops); apply mrun_hist; vm_compute; reflexivity|]. split; [vm_compute; reflexivity|]. split; [vm_compute; reflexivity|].
  split; [left; exists Outgoing, 0; split; vm_compute; reflexivity|]. split; [vm_compute; discriminate|].
  split; eexists; (split; [vm_compute; reflexivity|]); reflexivity.
Qed.

Lemma C58_multi_set_num_ports_partial_pf :
forall w m n i j, (2 < w <= 63)%N -> mreach w m -> m_contains_node m n = true -> no_reuse m n i j ->
  (forall m' log, m_set_num_ports w m n i j = Ok (m', log) ->
    mreach w m' /\ num_ports (m_graph m') n Incoming = i /\ num_ports (m_graph m') n Outgoing = j /\
    (forall x, m_contains_node m' x = m_contains_node m x) /\ (forall x, x <> n -> m_same_node m m' x) /\
    (forall x y, mlinked w m' x y <-> exists p q, survives (m_graph m) (m_graph m') n p x.1 /\
       survives (m_graph m) (m_graph m') n q y.1 /\ mlinked w m (p, x.2) (q, y.2)) /\
    exists g', set_num_ports (m_graph m) n i j = Ok (g', log) /\ forall d, ports (m_graph m') n d = ports g' n d) /\
  (set_num_ports (m_graph m) n i j <> Panic -> m_set_num_ports w m n i j <> Panic).
Proof.
  intros w m n i j Hw Hr [Hn Cn]%contains_node_m HR. pose proof (w1 w Hw) as Hw1. pose proof (mreach_minv w Hw m Hr) as I. pose proof (mi_reach _ _ _ I) as R.
  destruct (set_num_ports (m_graph m) n i j) as [[g' log']|] eqn:Eg; [|split; [|done]; intros m' log E; unfold m_set_num_ports in E; by rewrite Eg in E].
  destruct (m_snp_ok w Hw1 m I n i j g' log' Hn Cn Eg HR) as (m1 & E1 & I1 & HP & HN & HPo & RL). split; [|intros _; by rewrite E1].
  intros m' log E. rewrite E1 in E. injection E as -> ->.
  destruct (C10_set_num_ports_pf w _ n i j g' log R Hn Eg) as (Hi & Hj & _ & Hoth & _).
  split. { eapply (mreach_step w m (MSetPorts n i j) m' (QMoves log) Hr); [by split|cbn; by rewrite E1]. }
  split; [by rewrite <- ports_length, HPo, ports_length by done|]. split; [by rewrite <- ports_length, HPo, ports_length by done|].
  assert (HC : forall x, m_contains_node m' x = m_contains_node m x). { intros x. apply eq_true_iff_eq. rewrite !contains_node_m. apply HN. }
  split; [done|]. split.
  { intros x Hx. split; [done|]. intros [Hc1 Hc2]%contains_node_m d. rewrite HPo by done. by apply Hoth. }
  split; [|exists g'; split; [done|]; intros d; by apply HPo].
  intros x y. rewrite mlinked_iff by done. rewrite RL. split.
  - intros (p & q & S1 & S2 & L). exists p, q. split_and!; [| |by apply mlinked_iff].
    + unfold survives, port_at in *. by setoid_rewrite (fun d => HPo n d Cn).
    + unfold survives, port_at in *. by setoid_rewrite (fun d => HPo n d Cn).
  - intros (p & q & S1 & S2 & L). exists p, q. apply mlinked_iff in L; [|done|done]. split_and!; [| |done].
    + unfold survives, port_at in *. by setoid_rewrite (fun d => HPo n d Cn) in S1.
    + unfold survives, port_at in *. by setoid_rewrite (fun d => HPo n d Cn) in S2.
Qed.

Definition one_ops : list mop := [MAdd 0 1; MAdd 1 1; MLink 0 1].
Definition one_m : mpg := default m_new (mrun 16 one_ops m_new).
Lemma one_reach : mreach 16 one_m.
Proof. exists one_ops. apply mrun_hist. vm_compute. reflexivity. Qed.
Lemma one_dir : port_direction (m_graph one_m) 0 = port_direction (m_graph one_m) 2.
Proof. vm_compute. reflexivity. Qed.

Lemma C72_multi_link_errors_refuted_pf :
(exists m a b m' r, mreach 16 m /\ m_contains_port m a = true /\ m_contains_port m b = false /\ ~ internal m b /\
   m_link_ports 16 m a b = Ok (m', inr r) /\ num_ports (m_graph m') 0 Incoming <> num_ports (m_graph m) 0 Incoming) /\
(exists m a b m' e, mreach 16 m /\ m_contains_port m a = true /\ m_contains_port m b = true /\
   port_direction (m_graph m) a = port_direction (m_graph m) b /\ m_link_ports 16 m a b = Ok (m', inl e) /\
   m_port_subports m a = Ok [(a, 0)] /\ m_port_subports m' a = Ok [(a, 0); (a, 1)]).
Proof.
  split.
  - exists one_m, 0, 3. destruct (m_link_ports 16 one_m 0 3) as [[m' [e|r]]|] eqn:E; [exfalso; vm_compute in E; discriminate E| |exfalso; vm_compute in E; discriminate E].
    exists m', r. split; [apply one_reach|]. split; [vm_compute; reflexivity|]. split; [vm_compute; reflexivity|].
    split; [apply internalb_sound; vm_compute; reflexivity|]. split; [reflexivity|]. vm_compute in E. injection E as <- _. vm_compute. discriminate.
  - exists one_m, 0, 2. destruct (m_link_ports 16 one_m 0 2) as [[m' [e|r]]|] eqn:E; [|exfalso; vm_compute in E; discriminate E|exfalso; vm_compute in E; discriminate E].
    exists m', e. split; [apply one_reach|]. split; [vm_compute; reflexivity|]. split; [vm_compute; reflexivity|]. split; [apply one_dir|]. split; [reflexivity|].
    split; [vm_compute; reflexivity|]. vm_compute in E. injection E as <- _. vm_compute. reflexivity.
Qed.

Lemma C72_multi_link_errors_partial_pf :
forall w m a b, (2 < w <= 63)%N -> mreach w m -> ~ internal m a -> ~ internal m b ->
  (m_contains_port m a = false -> m_link_ports w m a b = Ok (m, inl (UnknownPort a))) /\
  (m_contains_port m a = true -> m_contains_port m b = false ->
     (exists l s, m_port_subports m a = Ok l /\ s ∈ l /\ m_subport_link w m s = Ok None) ->
     m_link_ports w m a b = Ok (m, inl (UnknownPort b))) /\
  (forall m' r, m_contains_port m a = true -> m_contains_port m b = true ->
     port_direction (m_graph m) a = port_direction (m_graph m) b -> room w m a -> room w m b ->
     m_link_ports w m a b = Ok (m', r) ->
     mreach w m' /\ m_same_shape m m' /\ (exists e, r = inl e) /\ forall x y, mlinked w m' x y <-> mlinked w m x y).
Proof.
  intros w m a b Hw Hr Na Nb. pose proof (w1 w Hw) as Hw1. pose proof (mreach_minv w Hw m Hr) as I.
  assert (Hd : forall p, ~ internal m p -> m_contains_port m p = false -> pmeta (m_graph m) p = None).
  { intros p Np V. destruct (pmeta (m_graph m) p) as [[n d]|] eqn:M; [|done]. pose proof (not_internal m p n d Np M) as C.
    assert (vis m p) as V'%vis_contains by (by exists n, d). congruence. }
  split_and!.
  - intros V. unfold m_link_ports. by rewrite gf_unknown by (by apply Hd).
  - intros V V' (l & s & El & Hs & Ls). pose proof V as Va%vis_contains. pose proof Va as (na & da & Ma & Ca).
    rewrite (subports_eq w Hw1 m I a Va) in El. injection El as <-. apply (subs_elem w Hw1) in Hs as [Hs1 Hs2]. destruct s as [p k]. cbn in *. subst p.
    apply lookup_lt_is_Some in Hs2 as [i Hi]. rewrite (subport_link_eq w Hw1 m I a k i Va Hi) in Ls. destruct (lk (m_graph m) i) eqn:L; [done|].
    assert (Ra : roomy w m a). { right. exists i. split; [by eapply elem_of_list_lookup_2|done]. }
    unfold m_link_ports. pose proof (gf_main w Hw m a na da 0 I Ma Ca Ra) as G.
    destruct (is_multi m a) eqn:Fa.
    + destruct (gf_C w Hw1 m I a na da Ma Ca Fa) as [(k' & i' & Hi' & Li' & E)|(q & c & _ & _ & _ & _ & H & _)].
      * rewrite E, bind_Ok. by rewrite gf_unknown by (by apply Hd).
      * destruct (H i); [by eapply elem_of_list_lookup_2|done].
    + rewrite raws_single in Hi by done. apply list_lookup_singleton_Some in Hi as [-> <-].
      destruct (gf_A w m I a na da Ma Fa L) as [E _]. rewrite E, bind_Ok. by rewrite gf_unknown by (by apply Hd).
  - intros m' r Va Vb D Ra Rb E.
    destruct (link_case w m a b Hw Hr Va Vb) as (na & da & nb & db & Ma & Ca & Mb & Cb & Da & Db & Ra' & Rb' & HR).
    rewrite Da, Db in D. injection D as <-. split; [by eapply HR|].
    destruct (m_link_ok w Hw m a b na da nb da m' r I Ma Ca Mb Cb (Ra' Ra) (Rb' Rb) E) as (I' & V & H). split; [by apply vsame_same|].
    destruct r as [e|[x y]]; [|destruct H as [H _]; by apply eq_sym, rev_ne in H]. destruct H as [_ H].
    split; [by exists e|]. intros x y. by rewrite !mlinked_iff by done.
Qed.

Lemma Forall2_map_r {A B} (P : A -> B -> Prop) (f : A -> B) l : (forall x, x ∈ l -> P x (f x)) -> Forall2 P l (map f l).
Proof. intros H. induction l as [|x l IH]; constructor; [apply H; by left|]. apply IH. intros; apply H; by right. Qed.
Lemma concat_plinks_nodup w m ps : (1 < w <= 63)%N -> minv w m [] -> NoDup ps -> (forall p, p ∈ ps -> vis m p) -> NoDup (concat (map (plinks w m) ps)).
Proof.
  intros Hw I N H. induction N as [|p ps Hp N IH]; [apply NoDup_nil_2|]. cbn [map concat]. apply NoDup_app. split_and!.
  - by apply (plinks_nodup w).
  - intros [x y] Hx Hin. apply plinks_elem in Hx as [<- _]; [|done|done|apply H; by left].
    apply elem_of_list_In, in_concat in Hin as (l & (q & <- & Hq)%in_map_iff & Hin). apply elem_of_list_In in Hq, Hin.
    apply plinks_elem in Hin as [Hq' _]; [|done|done|apply H; by right]. congruence.
  - apply IH. intros; apply H; by right.
Qed.

Lemma C73_multi_iterators_pf :
forall w m n, (2 < w <= 63)%N -> mreach w m -> m_contains_node m n = true ->
  (forall d, exists ll, Forall2 (fun p l => m_port_links w m p = Ok l) (ports (m_graph m) n d) ll /\
     m_links w m n d = Ok (concat ll) /\
     exists ns, m_neighbours w m n d = Ok ns /\ Forall2 (fun x k => port_node (m_graph m) x.2.1 = Some k) (concat ll) ns) /\
  (exists ll, Forall2 (fun p l => m_port_links w m p = Ok l) (ports (m_graph m) n Incoming ++ ports (m_graph m) n Outgoing) ll /\
     let l := filter (fun x : subport * subport => x.2.1 ∉ ports (m_graph m) n Outgoing) (concat ll) in
     m_all_links w m n = Ok l /\
     exists ns, m_all_neighbours w m n = Ok ns /\ Forall2 (fun x k => port_node (m_graph m) x.2.1 = Some k) l ns) /\
  (forall b, exists l, m_get_connections w m n b = Ok l /\ NoDup l /\
     forall x y, (x, y) ∈ l <-> mlinked w m x y /\ port_node (m_graph m) x.1 = Some n /\
       port_direction (m_graph m) x.1 = Some Outgoing /\ port_node (m_graph m) y.1 = Some b) /\
  (forall p, m_contains_port m p = true -> exists k, 1 <= k /\ m_port_subports m p = Ok (map (fun i => (p, i)) (seq 0 k)) /\
     (forall x y, x.1 = p -> mlinked w m x y -> x.2 < k) /\
     forall i, i < k -> exists r, m_subport_link w m (p, i) = Ok r /\ forall y, r = Some y <-> mlinked w m (p, i) y) /\
  (forall d, exists ll, Forall2 (fun p l => m_port_subports m p = Ok l) (ports (m_graph m) n d) ll /\ m_subports m n d = Ok (concat ll)) /\
  (exists ll, Forall2 (fun p l => m_port_subports m p = Ok l) (ports (m_graph m) n Incoming ++ ports (m_graph m) n Outgoing) ll /\
     m_all_subports m n = Ok (concat ll)).
Proof.
  intros w m n Hw Hr [Hn Cn]%contains_node_m. pose proof (w1 w Hw) as Hw1. pose proof (mreach_minv w Hw m Hr) as I. pose proof (mi_reach _ _ _ I) as R.
  assert (HV : forall p d, p ∈ ports (m_graph m) n d -> vis m p) by (intros p d Hp; by eapply (vis_port w m I n d)).
  assert (HV' : forall p, p ∈ ports (m_graph m) n Incoming ++ ports (m_graph m) n Outgoing -> vis m p) by (intros p [Hp|Hp]%elem_of_app; by eapply HV).
  split_and!.
  - intros d. exists (map (plinks w m) (ports (m_graph m) n d)). split; [apply Forall2_map_r; intros p Hp; apply port_links_eq; eauto|].
    destruct (neighbours_ok w Hw1 m I n d Cn) as (l & r & El & Er & HF). rewrite links_eq in El by done. injection El as <-.
    split; [by apply links_eq|]. by exists r.
  - exists (map (plinks w m) (ports (m_graph m) n Incoming ++ ports (m_graph m) n Outgoing)). split; [apply Forall2_map_r; intros p Hp; apply port_links_eq; eauto|].
    destruct (all_neighbours_ok w Hw1 m I n Cn) as (l & r & El & Er & HF). rewrite all_links_eq in El by done. rewrite all_ports_app in El. injection El as <-. cbn zeta.
    split; [rewrite all_links_eq by done; by rewrite all_ports_app|]. by exists r.
  - intros b. unfold m_get_connections. rewrite links_eq by done. rewrite bind_Ok. eexists. split; [done|]. split.
    + apply NoDup_filter, concat_plinks_nodup; [done|done|apply r_nodup|]. intros p Hp. by eapply HV.
    + intros x y. rewrite elem_of_list_filter. rewrite mlinked_iff by done. cbn. split.
      * intros [Hy Hin]. apply elem_of_list_In, in_concat in Hin as (l & (p & <- & Hp)%in_map_iff & Hin). apply elem_of_list_In in Hp, Hin.
        apply plinks_elem in Hin as [<- Hin]; [|done|done|by eapply HV]. apply (r_elem w _ R) in Hp. split; [done|].
        split; [by eapply pm_node|]. split; [by eapply pm_dir|done].
      * intros (L & Hx & Hd & Hy). split; [done|]. apply elem_of_list_In, in_concat. exists (plinks w m x.1). split.
        -- apply in_map, elem_of_list_In, (r_elem w _ R). by apply pm_of.
        -- apply elem_of_list_In, plinks_elem; [done|done|apply L|done].
  - intros p V%vis_contains. exists (length (raws m p)). pose proof V as (n' & d & Mp & Cp). split_and!.
    + destruct (is_multi m p) eqn:Fp; [|by rewrite raws_single].
      destruct (flag_vis w m I p n' d Fp Mp Cp) as (q & c & _ & _ & _ & _ & _ & _ & -> & H2 & _). rewrite ports_length. lia.
    + by apply (subports_eq w).
    + intros x y <- L%mlinked_iff; try done. destruct L as (_ & _ & s & t & Hs & _). by eapply lookup_lt_Some.
    + intros i Hi. apply lookup_lt_is_Some in Hi as [s Hs]. rewrite (subport_link_eq w Hw1 m I p i s V Hs). eexists. split; [done|].
      intros y. rewrite mlinked_iff by done. destruct (raws_some w Hw1 m I _ _ _ _ _ Mp Cp Hs) as (Fs & _). split.
      * intros E. destruct (lk (m_graph m) s) as [t|] eqn:L; [|done]. cbn in E. injection E as <-.
        destruct (lk_psub w Hw1 m I s t L Fs) as (_ & V' & Ht). split; [done|]. split; [done|]. by exists s, t.
      * intros (_ & V' & s' & t & Hs' & Ht & L). cbn in Hs'. assert (s' = s) as -> by congruence. rewrite L. cbn. f_equal. destruct y. by apply psub_raw.
  - intros d. exists (map (subs m) (ports (m_graph m) n d)). split; [apply Forall2_map_r; intros p Hp; apply (subports_eq w); eauto|].
    unfold m_subports. by rewrite (subs_all w Hw1 m I) by (intros; by eapply HV).
  - exists (map (subs m) (ports (m_graph m) n Incoming ++ ports (m_graph m) n Outgoing)). split; [apply Forall2_map_r; intros p Hp; apply (subports_eq w); eauto|].
    unfold m_all_subports. rewrite all_ports_app. by rewrite (subs_all w Hw1 m I) by (intros; by eapply HV').
Qed.

Lemma C74_multi_add_remove_pf :
forall w m, (2 < w <= 63)%N -> mreach w m ->
  (forall i j m' n, (N.of_nat i <= 65534)%N -> (N.of_nat (i + j) <= 65535)%N -> m_add_node w m i j = Ok (m', n) ->
     mreach w m' /\ m_contains_node m n = false /\ m_contains_node m' n = true /\
     num_ports (m_graph m') n Incoming = i /\ num_ports (m_graph m') n Outgoing = j /\
     (forall x, x <> n -> m_same_node m m' x) /\
     (forall p, m_contains_port m' p = true <-> m_contains_port m p = true \/ port_node (m_graph m') p = Some n) /\
     (forall p, m_contains_port m p = true -> m_same_port m m' p) /\
     (forall x y, mlinked w m' x y <-> mlinked w m x y)) /\
  (forall n, m_contains_node m n = true -> exists m', m_remove_node w m n = Ok m' /\ mreach w m' /\
     (forall x, m_contains_node m' x = true <-> m_contains_node m x = true /\ x <> n) /\
     (forall x, x <> n -> m_same_node m m' x) /\
     (forall p, m_contains_port m' p = true <-> m_contains_port m p = true /\ port_node (m_graph m) p <> Some n) /\
     (forall p, port_node (m_graph m) p <> Some n -> m_same_port m m' p) /\
     (forall x y, mlinked w m' x y <-> mlinked w m x y /\ port_node (m_graph m) x.1 <> Some n /\ port_node (m_graph m) y.1 <> Some n)) /\
  (forall n, is_copy m n = false -> m_contains_node m n = false -> m_remove_node w m n = Ok m).
Proof.
  intros w m Hw Hr. pose proof (w1 w Hw) as Hw1. pose proof (mreach_minv w Hw m Hr) as I. pose proof (mi_reach _ _ _ I) as R.
  split_and!.
  - intros i j m' n Hi Hj E. destruct (m_add_ok w m I i j m' n Hi Hj E) as (I' & Cn & HC & HF & Nn & Nn' & HN & Ni & Nj & HP & HM & HM' & RL).
    split. { eapply (mreach_step w m (MAdd i j) m' (QNode n) Hr); [by split|cbn; by rewrite E]. }
    split. { unfold m_contains_node. by rewrite Nn. }
    split. { apply contains_node_m. by rewrite HC. }
    split; [done|]. split; [done|]. split.
    { intros x Hx. split; [|intros _ d; by apply HP]. unfold m_contains_node. by rewrite HN, HC. }
    assert (HM2 : forall p, m_contains_port m p = true -> pmeta (m_graph m') p = pmeta (m_graph m) p).
    { intros p (k & d & M & C)%vis_contains. assert (k <> n). { intros ->. apply (r_node w _ R) in M. congruence. } rewrite M. by apply HM. }
    split.
    { intros p. rewrite <- !vis_contains. split.
      - intros (k & d & M & C). destruct (decide (k = n)) as [->|Hk]; [right; by eapply pm_node|left]. exists k, d. rewrite <- HC. split; [by apply HM|done].
      - intros [V|H].
        + pose proof V as V'%vis_contains. destruct V as (k & d & M & C). exists k, d. rewrite HC, (HM2 p V'). done.
        + unfold port_node in H. destruct (pmeta (m_graph m') p) as [[k d]|] eqn:M; [|done]. cbn in H. injection H as ->. exists n, d. by rewrite HC. }
    split.
    { intros p V. pose proof V as (k & d & M & C)%vis_contains. split.
      - rewrite V. apply vis_contains. exists k, d. rewrite HC, (HM2 p V). done.
      - intros _. unfold port_node, port_direction. by rewrite (HM2 p V). }
    intros x y. by rewrite !mlinked_iff by done.
  - intros n [Hn Cn]%contains_node_m. destruct (m_remove_ok w Hw1 m I n Cn Hn) as (m' & E & I' & HM & HN & HP & RL).
    exists m'. split; [done|]. split. { eapply (mreach_step w m (MRemove n) m' QUnit Hr); [done|cbn; by rewrite E]. }
    assert (H1 : forall x, m_contains_node m' x = true <-> m_contains_node m x = true /\ x <> n).
    { intros x. rewrite !contains_node_m, HN. tauto. }
    split; [done|]. split.
    { intros x Hx. split; [apply eq_true_iff_eq; rewrite H1; tauto|]. intros [Hc1 Hc2]%contains_node_m d. by apply HP. }
    assert (H2 : forall p, m_contains_port m' p = true <-> m_contains_port m p = true /\ port_node (m_graph m) p <> Some n).
    { intros p. rewrite <- !vis_contains. split.
      - intros (k & d & MC). apply HM in MC as (M & C & Hk). split; [by exists k, d|]. rewrite (pm_node _ _ _ _ M). congruence.
      - intros [(k & d & M & C) Hk]. rewrite (pm_node _ _ _ _ M) in Hk. exists k, d. apply HM. split_and!; congruence. }
    split; [done|]. split.
    { intros p Hp. split; [apply eq_true_iff_eq; rewrite H2; tauto|]. intros (k & d & M & C)%vis_contains.
      rewrite (pm_node _ _ _ _ M) in Hp. destruct (proj2 (HM p k d)) as [M' _]; [split_and!; congruence|]. unfold port_node, port_direction. by rewrite M, M'. }
    intros x y. rewrite !mlinked_iff by done. apply RL.
  - intros n Cn H. apply m_remove_none; [done|done|]. unfold m_contains_node in H. rewrite Cn, andb_true_r in H. done.
Qed.

Lemma C75_multi_renumber_pf :
forall w m, (2 < w <= 63)%N -> mreach w m ->
  (forall a b, allowed (m_graph m) (OSwap a b) -> exists m', m_swap_nodes m a b = Ok m' /\ mreach w m' /\
     let f := fun n => if decide (n = a) then b else if decide (n = b) then a else n in
     (forall n, m_contains_node m' n = m_contains_node m (f n)) /\
     (forall n d, ports (m_graph m') n d = ports (m_graph m) (f n) d) /\
     (forall p, m_contains_port m' p = m_contains_port m p) /\
     (forall p, port_direction (m_graph m') p = port_direction (m_graph m) p) /\
     (forall x y, mlinked w m' x y <-> mlinked w m x y)) /\
  (exists m' log, m_compact_nodes m = Ok (m', log) /\ mreach w m' /\
     (forall n, m_contains_node m n = true -> exists n', (n, n') ∈ log) /\
     (forall n', m_contains_node m' n' = true -> exists n, (n, n') ∈ log) /\
     NoDup log.*1 /\ NoDup log.*2 /\ (forall n', n' ∈ log.*2 <-> n' < length log) /\
     (forall n n', (n, n') ∈ log -> m_contains_node m' n' = m_contains_node m n /\ forall d, ports (m_graph m') n' d = ports (m_graph m) n d) /\
     (forall p, m_contains_port m' p = m_contains_port m p) /\
     (forall p, port_direction (m_graph m') p = port_direction (m_graph m) p) /\
     (forall x y, mlinked w m' x y <-> mlinked w m x y)) /\
  ((forall n, ~ hollow (m_graph m) n) -> exists m' log, m_compact_ports m = Ok (m', log) /\ mreach w m' /\
     (forall p, m_contains_port m p = true -> exists p', (p, p') ∈ log) /\
     (forall p', m_contains_port m' p' = true -> exists p, (p, p') ∈ log) /\
     NoDup log.*1 /\ NoDup log.*2 /\ (forall p', p' ∈ log.*2 <-> p' < length log) /\
     (forall p p', (p, p') ∈ log -> m_contains_port m' p' = m_contains_port m p) /\
     (forall n, m_contains_node m' n = m_contains_node m n) /\
     (forall n d, Forall2 (fun p p' => (p, p') ∈ log) (ports (m_graph m) n d) (ports (m_graph m') n d)) /\
     (forall x y, mlinked w m' x y <-> exists p q, (p, x.1) ∈ log /\ (q, y.1) ∈ log /\ mlinked w m (p, x.2) (q, y.2))).
Proof.
  intros w m Hw Hr. pose proof (w1 w Hw) as Hw1. pose proof (mreach_minv w Hw m Hr) as I. pose proof (mi_reach _ _ _ I) as R.
  assert (VE : forall m' p, (vis m' p <-> vis m p) -> m_contains_port m' p = m_contains_port m p).
  { intros m' p H. apply eq_true_iff_eq. by rewrite <- !vis_contains. }
  split_and!.
  - intros a b Ha. destruct (m_swap_ok w m I a b Ha) as (m' & E & I' & HN & HC & HP & HM & HV & RL). exists m'. split; [done|].
    split. { eapply (mreach_step w m (MSwap a b) m' QUnit Hr); [done|cbn; by rewrite E]. }
    cbn zeta. split; [intros n; unfold m_contains_node; by rewrite HN, HC|]. split; [done|]. split; [intros p; by apply VE|].
    split; [intros p; unfold port_direction; rewrite HM; by destruct (pmeta (m_graph m) p) as [[]|]|].
    intros x y. by rewrite !mlinked_iff by done.
  - destruct (m_compact_nodes_ok w Hw1 m I) as (m' & log & E & I' & Eg & HC & HV & RL). exists m', log. split; [done|].
    split. { eapply (mreach_step w m MCompactNodes m' (QRekey log) Hr); [done|cbn; by rewrite E]. }
    destruct (C12_compact_nodes_pf w _ R) as (g' & log' & E2 & R' & L1 & L2 & L3 & L4 & HN & HP & Hpt & Hpn & _). rewrite Eg in E2. injection E2 as <- <-.
    assert (Hlen : node_count (m_graph m) = length log). { rewrite <- (fmap_length snd log), L2. by rewrite seq_length. }
    assert (A1 : forall n, contains_node (m_graph m) n = true -> exists n', (n, n') ∈ log).
    { intros n Hn. apply L4, elem_of_list_fmap in Hn as ([o n'] & -> & Hin). by exists n'. }
    split; [intros n [Hn _]%contains_node_m; by apply A1|].
    split. { intros n' [Hn' _]%contains_node_m. apply HN in Hn'. assert (n' ∈ log.*2) as Hin by (rewrite L2; apply elem_of_seq; lia).
      apply elem_of_list_fmap in Hin as ([o ?] & -> & Hin). by exists o. }
    split; [by apply sorted_lt_nodup|]. split; [rewrite L2; apply NoDup_seq|]. split; [intros n'; rewrite L2, elem_of_seq; lia|].
    split. { intros n n' Hin. split; [|intros d; by apply HP]. unfold m_contains_node. rewrite (HC n n' Hin). f_equal.
      assert (contains_node (m_graph m) n = true) as -> by (apply L4, elem_of_list_fmap; by exists (n, n')).
      apply HN. assert (n' ∈ log.*2) as Hin2 by (apply elem_of_list_fmap; by exists (n, n')). rewrite L2 in Hin2. apply elem_of_seq in Hin2. lia. }
    split; [intros p; by apply VE|]. split; [intros p; apply Hpt|]. intros x y. by rewrite !mlinked_iff by done.
  - intros Hh. destruct (m_compact_ports_ok w Hw1 m I Hh) as (m' & log & E & I' & Eg & HC & HF & HV & RL). exists m', log. split; [done|].
    split. { eapply (mreach_step w m MCompactPorts m' (QRekey log) Hr); [done|cbn; by rewrite E]. }
    destruct (C13_compact_ports_pf w _ R Hh) as (g' & log' & E2 & R' & L1 & L2 & L3 & L4 & HP & HN & Hnp & Hat & Hlk & _). rewrite Eg in E2. injection E2 as <- <-.
    assert (Hlen : port_count (m_graph m) = length log). { rewrite <- (fmap_length snd log), L2. by rewrite seq_length. }
    assert (A1 : forall p, is_Some (pmeta (m_graph m) p) -> exists p', (p, p') ∈ log).
    { intros p Hp%contains_port_true. apply L4, elem_of_list_fmap in Hp as ([o p'] & -> & Hin). by exists p'. }
    split; [intros p (n & d & M & _)%vis_contains; apply A1; eauto|].
    split. { intros p' (n & d & M & _)%vis_contains. assert (contains_port (m_graph m') p' = true) as Hp by (apply contains_port_true; eauto). apply HP in Hp.
      assert (p' ∈ log.*2) as Hin by (rewrite L2; apply elem_of_seq; lia). apply elem_of_list_fmap in Hin as ([o ?] & -> & Hin). by exists o. }
    split; [by apply sorted_lt_nodup|]. split; [rewrite L2; apply NoDup_seq|]. split; [intros n'; rewrite L2, elem_of_seq; lia|].
    split. { intros p p' Hin. apply eq_true_iff_eq. rewrite <- !vis_contains. by apply HV. }
    split; [intros n; unfold m_contains_node, is_copy; by rewrite HN, HC|]. split.
    { intros n d. apply Forall2_same_length_lookup. split; [by rewrite !r_len, Hnp|].
      intros k x y Hx Hy. destruct (A1 x) as [x' Hx']; [rewrite (r_look w _ R _ _ _ _ Hx); eauto|].
      pose proof (proj2 (Hat x x' n d k Hx') Hx) as Hy'. unfold port_at in Hy'. rewrite Hy in Hy'. by injection Hy' as ->. }
    intros x y. rewrite mlinked_iff by done. rewrite RL. split; intros (p & q & ? & ? & L); exists p, q; (split; [done|]); (split; [done|]); by apply (mlinked_iff w Hw1 m I).
Qed.

Lemma C76_multi_subport_ops_pf :
forall w m, (2 < w <= 63)%N -> mreach w m ->
  (forall a b la lb, m_contains_port m a.1 = true -> m_contains_port m b.1 = true ->
     m_port_subports m a.1 = Ok la -> a ∈ la -> m_port_subports m b.1 = Ok lb -> b ∈ lb ->
     exists m' r, m_link_subports w m a b = Ok (m', r) /\ mreach w m' /\ m_same_shape m m' /\
       (r = None <-> (exists d, port_direction (m_graph m) a.1 = Some d /\ port_direction (m_graph m) b.1 = Some (rev_dir d)) /\
          (forall y, ~ mlinked w m a y) /\ (forall y, ~ mlinked w m b y)) /\
       (r <> None -> m' = m) /\
       (r = None -> forall x y, mlinked w m' x y <-> mlinked w m x y \/ (x = a /\ y = b) \/ (x = b /\ y = a))) /\
  (forall s l, m_contains_port m s.1 = true -> m_port_subports m s.1 = Ok l -> s ∈ l ->
     exists m' r, m_unlink_subport w m s = Ok (m', r) /\ mreach w m' /\ m_same_shape m m' /\
       (forall y, r = Some y <-> mlinked w m s y) /\
       (forall p, m_contains_port m p = true -> m_port_subports m' p = m_port_subports m p) /\
       forall x y, mlinked w m' x y <-> mlinked w m x y /\ x <> s /\ y <> s).
Proof.
  intros w m Hw Hr. pose proof (w1 w Hw) as Hw1. pose proof (mreach_minv w Hw m Hr) as I. pose proof (mi_reach _ _ _ I) as R.
  assert (HS : forall s l, m_contains_port m s.1 = true -> m_port_subports m s.1 = Ok l -> s ∈ l ->
    ~ internal m s.1 /\ (N.of_nat s.2 <= po_max_offset w)%N /\ nrm m s = s /\ is_Some (rawof m s)).
  { intros [p k] l V El Hs. split; [by apply visible_not_internal|]. pose proof V as V'%vis_contains. cbn in V'. pose proof V' as (n & d & Mp & Cn).
    cbn [fst] in *. rewrite (subports_eq w Hw1 m I p V') in El. injection El as <-. apply (subs_elem w Hw1) in Hs as [_ Hk]. cbn in Hk.
    assert (Hlk : is_Some (raws m p !! k)) by (by apply lookup_lt_is_Some). pose proof Hlk as [i Hi].
    split; [by destruct (raws_some w Hw1 m I _ _ _ _ _ Mp Cn Hi) as (_ & _ & ? & _)|]. split; [|done].
    unfold nrm. cbn. destruct (is_multi m p) eqn:F; [done|]. rewrite raws_single in Hi by done. apply list_lookup_singleton_Some in Hi as [<- _]. done. }
  split.
  - intros a b la lb Va Vb Ela Ha Elb Hb. destruct (HS a la Va Ela Ha) as (Na & Ka & Ea & Sa). destruct (HS b lb Vb Elb Hb) as (Nb & Kb & Eb & Sb).
    assert (exists m' r, m_link_subports w m a b = Ok (m', r)) as (m' & r & E).
    { destruct (sub_raw w Hw1 m I a Na Ka) as (ra & E1 & _ & Hra & _). destruct (sub_raw w Hw1 m I b Nb Kb) as (rb & E2 & _ & Hrb & _).
      rewrite Hra in E1 by (by apply vis_contains). rewrite Hrb in E2 by (by apply vis_contains). rewrite Ea in E1. rewrite Eb in E2.
      destruct Sa as [ia Sa], Sb as [ib Sb]. rewrite Sa in E1. rewrite Sb in E2. unfold m_link_subports. rewrite E1, bind_Ok. cbn [unwrap]. rewrite bind_Ok, E2, bind_Ok. cbn [unwrap]. rewrite bind_Ok.
      destruct (v_link_any w _ R ia ib) as (g' & r' & E & _). rewrite E, bind_Ok. eauto. }
    exists m', r. split; [done|].
    split. { eapply (mreach_step w m (MLinkSub a b) m' (QLinkSub r) Hr); [done|cbn; by rewrite E]. }
    destruct (m_link_sub_ok w Hw1 m I a b m' r Na Nb Ka Kb E) as (I' & V & _ & H). rewrite Ea, Eb in H. split; [by apply vsame_same|]. split_and!.
    + split.
      * intros ->. destruct H as (_ & _ & H1 & H2 & RL). assert (L : rlink m' a b) by (apply RL; tauto).
        destruct (rlink_dir w Hw1 m' I' a b L) as (n & d & n' & M1 & M2 & C1 & C2). split.
        -- exists d. destruct (proj1 (vs_pm _ _ V a.1 n d) (conj M1 C1)) as [M1' _]. destruct (proj1 (vs_pm _ _ V b.1 n' (rev_dir d)) (conj M2 C2)) as [M2' _].
           split; by eapply pm_dir.
        -- split; intros y L'%mlinked_iff; try done; [by eapply H1|by eapply H2].
      * intros ((d & D1 & D2) & H1 & H2). pose proof Va as (n & d1 & M1 & C1)%vis_contains. pose proof Vb as (n' & d2 & M2 & C2)%vis_contains.
        rewrite (pm_dir _ _ _ _ M1) in D1. injection D1 as ->. rewrite (pm_dir _ _ _ _ M2) in D2. injection D2 as ->.
        destruct (m_link_sub_total w Hw1 m I a b d n n' M1 C1 M2 C2) as [m2 E2]; rewrite ?Ea, ?Eb; try done.
        -- intros y L. apply (H1 y). by apply mlinked_iff.
        -- intros y L. apply (H2 y). by apply mlinked_iff.
        -- rewrite E2 in E. by injection E as _ <-.
    + intros Hrn. by destruct r.
    + intros -> x y. rewrite !mlinked_iff by done. apply H.
  - intros s l Vs El Hs. destruct (HS s l Vs El Hs) as (Ns & Ks & Es & _).
    destruct (m_unlink_sub_ok w Hw1 m I s Ns Ks) as (m' & r & E & I' & V & HR & Hy & RL). rewrite Es in Hy, RL. exists m', r. split; [done|].
    split. { eapply (mreach_step w m (MUnlinkSub s) m' (QUnlink r) Hr); [done|cbn; by rewrite E]. }
    split; [by apply vsame_same|]. split_and!.
    + intros y. rewrite mlinked_iff by done. apply Hy. by apply vis_contains.
    + intros p Vp%vis_contains. rewrite (subports_eq w Hw1 m I p Vp), (subports_eq w Hw1 m' I' p) by (by apply (vsame_vis m)). unfold subs. by rewrite HR.
    + intros x y. rewrite !mlinked_iff by done. apply RL.
Qed.
