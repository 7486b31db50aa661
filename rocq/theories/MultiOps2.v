(** [add_node], [remove_node] and the calls on subports. *)
From Verif Require Export MultiOps1.

Section ops.
  Context (w : N) (Hw : (1 < w <= 63)%N) (m : mpg) (I : minv w m []).
  Notation g := (m_graph m).
  Let R := mi_reach _ _ _ I.

  Lemma m_add_ok i j m' n : (N.of_nat i <= 65534)%N -> (N.of_nat (i + j) <= 65535)%N -> m_add_node w m i j = Ok (m', n) ->
    minv w m' [] /\ is_copy m n = false /\ (forall x, is_copy m' x = is_copy m x) /\ (forall x, is_multi m' x = is_multi m x) /\
    contains_node g n = false /\ contains_node (m_graph m') n = true /\
    (forall x, x <> n -> contains_node (m_graph m') x = contains_node g x) /\
    num_ports (m_graph m') n Incoming = i /\ num_ports (m_graph m') n Outgoing = j /\
    (forall x d, x <> n -> ports (m_graph m') x d = ports g x d) /\
    (forall x n' d, n' <> n -> (pmeta (m_graph m') x = Some (n', d) <-> pmeta g x = Some (n', d))) /\
    (forall x d, pmeta (m_graph m') x = Some (n, d) -> pmeta g x = None) /\
    (forall x y, rlink m' x y <-> rlink m x y).
  Proof.
    intros Hi Hij E. unfold m_add_node in E. destruct (add_node _ _ _ _) as [[g' n0]|] eqn:Ea; [|done].
    rewrite bind_Ok in E. injection E as <- <-.
    destruct (v_add w g R i j g' n0 Hi Hij Ea) as (R' & Hdead & Hlive & Hcn & Ni & Nj & Hpo & Hpm & Hnew & Hlk).
    change (is_copy (m_with_graph m g')) with (is_copy m). change (is_multi (m_with_graph m g')) with (is_multi m). cbn [m_graph m_with_graph].
    assert (Hn0 : is_copy m n0 = false).
    { destruct (is_copy m n0) eqn:E; [|done]. apply (copy_live w m _ I) in E. congruence. }
    assert (Hpm' : forall x n' d, n' <> n0 -> (pmeta g' x = Some (n', d) <-> pmeta g x = Some (n', d))).
    { intros x n' d Hne. split; intros Hx.
      - rewrite <- (Hpm x); [done|]. intros d'. congruence.
      - rewrite Hpm; [done|]. intros d' Hd'. apply Hnew in Hd'. congruence. }
    assert (Hold : forall x n' d, pmeta g x = Some (n', d) -> pmeta g' x = Some (n', d) /\ n' <> n0).
    { intros x n' d Hx. assert (n' <> n0). { intros ->. apply (r_node w g R) in Hx. congruence. } split; [by apply Hpm'|done]. }
    assert (I' : minv w (m_with_graph m g') []).
    { pose proof I as [_ Hfl Hcp Hd N1 N2 Hcc Hsc].
      split; cbn [m_graph m_with_graph m_ccount m_scount]; try done;
        change (is_copy (m_with_graph m g')) with (is_copy m); change (is_multi (m_with_graph m g')) with (is_multi m).
      - intros x Hx. right. right. destruct (flag_paired w m I x Hx) as (n & d & y & n' & H1 & H2 & H3 & H4 & H5).
        exists n, d, y, n'. cbn [m_graph m_with_graph]. rewrite Hlk. split_and!; try done; by apply Hold.
      - intros c Hc. destruct (Hcp c Hc) as (q & d & ? & ? & ? & ? & ?). exists q, d.
        assert (c <> n0) by congruence. rewrite !Hpo by done.
        replace (num_ports g' c (rev_dir d)) with (num_ports g c (rev_dir d)) by (by rewrite <- !ports_length, Hpo). done.
      - intros p q H. by apply elem_of_nil in H.
      - eapply card_ext; [|exact Hsc]. intros s. cbn. split.
        + intros (c & d & S1 & S2 & S3). exists c, d. split_and!; try done. by apply Hold.
        + intros (c & d & S1 & S2 & S3). exists c, d. split_and!; try done. apply Hpm'; [congruence|done]. }
    assert (Hv : forall x n d, pmeta g x = Some (n, d) -> raws (m_with_graph m g') x = raws m x).
    { intros x n d Hx. unfold raws. change (is_multi (m_with_graph m g')) with (is_multi m). cbn [m_graph m_with_graph].
      rewrite Hlk, (proj1 (Hold _ _ _ Hx)), Hx. destruct (is_multi m x); [|done]. destruct (lk g x) as [q|] eqn:Eq; [|done].
      destruct (r_lk_meta w g R _ _ Eq) as (? & ? & c & ? & Mq). rewrite Mq. destruct (Hold _ _ _ Mq) as [-> ?]. by apply Hpo. }
    assert (Hfree : forall x d i s, pmeta g' x = Some (n0, d) -> raws (m_with_graph m g') x !! i = Some s -> lk g' s = None).
    { intros x d k s Hx Hs. rewrite raws_single in Hs.
      - apply list_lookup_singleton_Some in Hs as [-> <-]. rewrite Hlk. apply (r_lk_none w g R). by eapply Hnew.
      - destruct (is_multi (m_with_graph m g') x) eqn:E; [|done]. apply Hnew in Hx.
        destruct (flag_live w m x I E). congruence. }
    split_and!; try done. intros x y. split.
    - intros ((nx & dx & Mx & Cx) & (ny & dy & My & Cy) & s & t & Hs & Ht & El). cbn [m_graph m_with_graph] in *.
      change (is_copy (m_with_graph m g')) with (is_copy m) in *.
      assert (nx <> n0). { intros ->. rewrite (Hfree _ _ _ _ Mx Hs) in El. done. }
      assert (ny <> n0). { intros ->. apply (r_lk_sym w g' R') in El. rewrite (Hfree _ _ _ _ My Ht) in El. done. }
      apply Hpm' in Mx, My; [|done..]. rewrite (Hv _ _ _ Mx) in Hs. rewrite (Hv _ _ _ My) in Ht. rewrite Hlk in El.
      split; [by exists nx, dx|]. split; [by exists ny, dy|]. by exists s, t.
    - intros ((nx & dx & Mx & Cx) & (ny & dy & My & Cy) & s & t & Hs & Ht & El).
      split; [exists nx, dx; split; [by apply Hold|done]|]. split; [exists ny, dy; split; [by apply Hold|done]|].
      exists s, t. rewrite (Hv _ _ _ Mx), (Hv _ _ _ My). cbn [m_graph m_with_graph]. by rewrite Hlk.
  Qed.

  (** ** Removing a node *)
  Lemma remove_loop n : is_copy m n = false -> forall l, (forall x, x ∈ l -> port_node g x = Some n) ->
    exists m', rfold (fun m p => if is_multi m p then '(m, _) ← m_unlink_port w m p; Ok m else Ok m) l m = Ok m' /\
      shrink w m m' (fun x => x ∈ l /\ is_multi m x = true).
  Proof.
    intros Hn l Hl.
    destruct (rfold_ok (fun m p => if is_multi m p then '(m, _) ← m_unlink_port w m p; Ok m else Ok m)
      (fun done m' => shrink w m m' (fun x => x ∈ done /\ is_multi m x = true)) l m) as (m' & E & S).
    - apply shrink_refl; [done|]. intros x [H _]. by apply elem_of_nil in H.
    - intros don x rest s -> S. assert (V : vis m x).
      { assert (port_node g x = Some n) as Hx by (apply Hl; set_solver). unfold port_node in Hx.
        destruct (pmeta g x) as [[n' d]|] eqn:E; [|done]. cbn in Hx. injection Hx as ->. by exists n, d. }
      destruct (is_multi s x) eqn:Fs.
      + destruct (unlink_multi w Hw s (sh_minv _ _ _ _ S) x) as (s' & E & S'); [by apply (shrink_vis _ _ _ _ _ S)|done|].
        exists s'. rewrite E, bind_Ok. split; [done|]. eapply shrink_trans; [exact S|exact S'|].
        intros y. cbn. rewrite elem_of_app, elem_of_list_singleton. apply (sh_fl _ _ _ _ S) in Fs as [Fs _]; [|done].
        split; [|naive_solver]. intros [[?| ->] ?]; tauto.
      + exists s. split; [done|]. eapply shrink_trans; [exact S|apply (shrink_refl w s (fun _ => False)); [apply S|]; by intros y []|].
        intros y. cbn. rewrite elem_of_app, elem_of_list_singleton. split; [|tauto].
        intros [[?| ->] Fy]; [tauto|]. destruct (decide (x ∈ don)) as [Hd|Hd]; [tauto|]. exfalso.
        assert (is_multi s x = true); [|congruence]. apply (sh_fl _ _ _ _ S); tauto.
    - by exists m'.
  Qed.
  Lemma all_ports_node n x : x ∈ all_ports g n <-> port_node g x = Some n.
  Proof.
    destruct (C02_ports_and_nodes_pf w g Hw R) as (_ & _ & _ & _ & _ & _ & H). destruct (H n) as [<- _].
    rewrite elem_of_app, !(r_elem w g R). unfold port_node. destruct (pmeta g x) as [[n' []]|]; cbn; naive_solver.
  Qed.
  Lemma m_remove_ok n : is_copy m n = false -> contains_node g n = true ->
    exists m', m_remove_node w m n = Ok m' /\ minv w m' [] /\
      (forall x n' d, (pmeta (m_graph m') x = Some (n', d) /\ is_copy m' n' = false) <->
                      (pmeta g x = Some (n', d) /\ is_copy m n' = false /\ n' <> n)) /\
      (forall n', (contains_node (m_graph m') n' = true /\ is_copy m' n' = false) <->
                  (contains_node g n' = true /\ is_copy m n' = false /\ n' <> n)) /\
      (forall n' d, contains_node g n' = true -> is_copy m n' = false -> n' <> n -> ports (m_graph m') n' d = ports g n' d) /\
      (forall x y, rlink m' x y <-> rlink m x y /\ port_node g x.1 <> Some n /\ port_node g y.1 <> Some n).
  Proof.
    intros Hn Hlive. destruct (remove_loop n Hn (all_ports g n)) as (m1 & E1 & S); [intros x; apply all_ports_node|].
    pose proof (sh_minv _ _ _ _ S) as I1. pose proof (mi_reach _ _ _ I1) as R1.
    destruct (proj2 (sh_node _ _ _ _ S n)) as [L1 C1]; [done|].
    destruct (v_remove w (m_graph m1) R1 n L1) as (g' & Eg & R' & Hdead & Hcn & Hpo & Hpm & Hlk).
    exists (m_with_graph m1 g'). split; [unfold m_remove_node; by rewrite E1, bind_Ok, Eg|].
    assert (Hunf : forall x d, pmeta (m_graph m1) x = Some (n, d) -> is_multi m1 x = false).
    { intros x d Hx. destruct (is_multi m1 x) eqn:Fx; [|done]. exfalso.
      destruct (proj1 (sh_vis _ _ _ _ S x n d)) as [Hx0 _]; [done|].
      apply (sh_fl _ _ _ _ S) in Fx as [Fx Hnot]; [|by exists n, d]. apply Hnot. split; [|done]. apply all_ports_node. by eapply pm_node. }
    change (is_copy (m_with_graph m1 g')) with (is_copy m1).
    assert (Hfn : forall x n' d, pmeta (m_graph m1) x = Some (n', d) -> is_multi m1 x = true -> n' <> n).
    { intros x n' d Hx Fx ->. by rewrite (Hunf _ _ Hx) in Fx. }
    assert (I' : minv w (m_with_graph m1 g') []).
    { pose proof I1 as [_ Hfl Hcp Hd N1 N2 Hcc Hsc].
      split; cbn [m_graph m_with_graph m_ccount m_scount]; try done;
        change (is_copy (m_with_graph m1 g')) with (is_copy m1); change (is_multi (m_with_graph m1 g')) with (is_multi m1).
      - intros x Hx. right. right. destruct (flag_paired w m1 I1 x Hx) as (n1 & d & y & n2 & H1 & H2 & H3 & H4 & H5).
        exists n1, d, y, n2. cbn [m_graph m_with_graph].
        pose proof (Hfn _ _ _ H1 Hx). pose proof (Hfn _ _ _ H4 H3).
        split_and!; [by apply Hpm| |done|by apply Hpm|done]. apply Hlk.
        rewrite (pm_node _ _ _ _ H1), (pm_node _ _ _ _ H4). split_and!; congruence.
      - intros c Hc. destruct (Hcp c Hc) as (q & d & ? & ? & ? & ? & ?). exists q, d.
        assert (c <> n) by congruence. rewrite !Hpo by done.
        replace (num_ports g' c (rev_dir d)) with (num_ports (m_graph m1) c (rev_dir d)) by (by rewrite <- !ports_length, Hpo). done.
      - intros p q H. by apply elem_of_nil in H.
      - eapply card_ext; [|exact Hsc]. intros s. cbn. split.
        + intros (c & d & S1 & S2 & S3). exists c, d. split_and!; try done. apply Hpm. split; [done|congruence].
        + intros (c & d & [S1 ?]%Hpm & S2 & S3). exists c, d. done. }
    split; [done|]. cbn [m_graph m_with_graph].
    assert (Hv : forall x n' d, (pmeta g' x = Some (n', d) /\ is_copy m1 n' = false) <-> (pmeta g x = Some (n', d) /\ is_copy m n' = false /\ n' <> n)).
    { intros x n' d. rewrite Hpm. pose proof (sh_vis _ _ _ _ S x n' d). tauto. }
    split; [done|]. split.
    { intros n'. pose proof (sh_node _ _ _ _ S n') as Hs. destruct (decide (n' = n)) as [->|Hne].
      - rewrite Hdead. naive_solver.
      - rewrite Hcn by done. tauto. }
    split.
    { intros n' d H1 H2 H3. rewrite Hpo by done. by apply S. }
    assert (Hr : forall x n' d, pmeta (m_graph m1) x = Some (n', d) -> n' <> n -> raws (m_with_graph m1 g') x = raws m1 x).
    { intros x n' d Hx Hne. unfold raws. change (is_multi (m_with_graph m1 g')) with (is_multi m1). cbn [m_graph m_with_graph].
      destruct (is_multi m1 x) eqn:Fx; [|done].
      destruct (flag_paired w m1 I1 x Fx) as (n1 & d1 & y & n2 & H1 & H2 & H3 & H4 & H5). pose proof (Hfn _ _ _ H4 H3) as H6.
      rewrite (proj2 (Hlk x y)), (proj2 (Hpm x n' d) (conj Hx Hne)), H2, Hx, H4, (proj2 (Hpm y _ _) (conj H4 H6)). 1: by apply Hpo.
      rewrite (pm_node _ _ _ _ Hx), (pm_node _ _ _ _ H4). split_and!; congruence. }
    intros x y. split.
    - intros ((nx & dx & Mx & Cx) & (ny & dy & My & Cy) & s & t & Hs & Ht & El). cbn [m_graph m_with_graph] in *.
      change (is_copy (m_with_graph m1 g')) with (is_copy m1) in *.
      destruct (proj1 (Hv x.1 nx dx)) as (Mx0 & Cx0 & Nx); [done|]. destruct (proj1 (Hv y.1 ny dy)) as (My0 & Cy0 & Ny); [done|].
      apply Hpm in Mx as [Mx _]. apply Hpm in My as [My _].
      rewrite (Hr _ _ _ Mx Nx) in Hs. rewrite (Hr _ _ _ My Ny) in Ht. apply Hlk in El as [El _].
      rewrite (pm_node _ _ _ _ Mx0), (pm_node _ _ _ _ My0). split; [|split; congruence].
      apply (sh_rlink _ _ _ _ S). split; [by exists nx, dx|]. split; [by exists ny, dy|]. by exists s, t.
    - intros [HL [Hx Hy]]. pose proof HL as ((nx & dx & Mx0 & Cx0) & (ny & dy & My0 & Cy0) & _).
      rewrite (pm_node _ _ _ _ Mx0) in Hx. rewrite (pm_node _ _ _ _ My0) in Hy.
      assert (HL1 : rlink m1 x y).
      { apply (sh_rlink _ _ _ _ S). split; [done|]. rewrite !all_ports_node, (pm_node _ _ _ _ Mx0), (pm_node _ _ _ _ My0). split; intros [? _]; congruence. }
      destruct HL1 as (_ & _ & s & t & Hs & Ht & El).
      destruct (proj2 (Hv x.1 nx dx)) as [Mx Cx]; [naive_solver|]. destruct (proj2 (Hv y.1 ny dy)) as [My Cy]; [naive_solver|].
      destruct (proj1 (Hpm _ _ _) Mx) as [Mx1 Nx]. destruct (proj1 (Hpm _ _ _) My) as [My1 Ny].
      split; [by exists nx, dx|]. split; [by exists ny, dy|]. exists s, t.
      rewrite (Hr _ _ _ Mx1 Nx), (Hr _ _ _ My1 Ny). split_and!; try done. apply Hlk. split; [done|].
      assert (Hout : forall z u n' d', pmeta (m_graph m1) z.1 = Some (n', d') -> is_copy m1 n' = false -> n' <> n -> raws m1 z.1 !! z.2 = Some u -> port_node (m_graph m1) u <> Some n).
      { intros z u n' d' Mz Cz Nz Hu Hun.
        destruct (raws_some w Hw m1 I1 _ _ _ _ _ Mz Cz Hu) as (Fu & (c1 & Mu) & _).
        rewrite (pm_node _ _ _ _ Mu) in Hun. injection Hun as ->.
        assert (raws m1 u !! 0 = Some u) as H0 by (by rewrite raws_single).
        destruct (raws_inj w Hw m1 I1 _ _ _ _ _ ltac:(by exists n', d') ltac:(by exists n, d') Hu H0) as [Ez _]. rewrite Ez in Mz. congruence. }
      split; [by apply (Hout x s nx dx)|by apply (Hout y t ny dy)].
  Qed.
  Lemma m_remove_none n : is_copy m n = false -> contains_node g n = false -> m_remove_node w m n = Ok m.
  Proof.
    intros Hn Hc. unfold m_remove_node.
    assert (all_ports g n = []) as ->. { unfold all_ports. apply contains_node_false in Hc. by rewrite Hc. }
    cbn [rfold]. rewrite bind_Ok. destruct (C05_remove_node_pf w g n R) as (g' & E & H & _). rewrite E, (H Hc), bind_Ok.
    by destruct m.
  Qed.

  (** ** Linking and unlinking underlying ports *)
  Definition rawof (x : subport) : option nat := raws m x.1 !! x.2.
  Lemma link_raw ia ib g' z : is_multi m ia = false -> is_multi m ib = false -> link_ports g ia ib = Ok (g', inr z) ->
    minv w (m_with_graph m g') [] /\ same_shape g g' /\ (forall x, is_multi m x = true -> lk g' x = lk g x) /\
    (forall x y, rlink (m_with_graph m g') x y <-> rlink m x y \/
       (vis m x.1 /\ vis m y.1 /\ (rawof x = Some ia /\ rawof y = Some ib \/ rawof x = Some ib /\ rawof y = Some ia))) /\
    (forall x, lk g' x = if decide (x = ia) then Some ib else if decide (x = ib) then Some ia else lk g x).
  Proof.
    intros Fa Fb E. destruct (v_link_inv w g R ia ib g' z E) as (-> & La & Lb & d & na & nb & Ma & Mb).
    destruct (v_link w g R ia ib d na nb Ma Mb La Lb) as (g1 & E1 & R' & Sh & Hlk). rewrite E in E1. injection E1 as <-.
    assert (Hl : forall x, is_multi m x = true -> lk g' x = lk g x).
    { intros x Fx. rewrite Hlk, !decide_False by congruence. done. }
    split; [by apply minv_relink|]. split; [done|]. split; [done|]. split; [|done]. intros x y. rewrite (relink_rlink m g' Sh Hl).
    unfold rlink, rawof. split.
    - intros (Vx & Vy & s & t & Hs & Ht & El). rewrite Hlk in El. destruct (decide (s = ia)) as [->|Hsa].
      { injection El as <-. right. tauto. }
      destruct (decide (s = ib)) as [->|Hsb]; [injection El as <-; right; tauto|]. left. eauto 10.
    - intros [(Vx & Vy & s & t & Hs & Ht & El)|(Vx & Vy & [[Hs Ht]|[Hs Ht]])].
      + split; [done|]. split; [done|]. exists s, t. split_and!; try done. rewrite Hlk, !decide_False by congruence. done.
      + split; [done|]. split; [done|]. exists ia, ib. split_and!; try done. by rewrite Hlk, decide_True.
      + split; [done|]. split; [done|]. exists ib, ia. split_and!; try done. rewrite Hlk. destruct (decide (ib = ia)) as [->|]; [done|]. by rewrite decide_True.
  Qed.
  Lemma unlink_raw i : is_multi m i = false ->
    exists g', unlink_port g i = Ok (g', lk g i) /\ minv w (m_with_graph m g') [] /\ same_shape g g' /\
    (forall x, is_multi m x = true -> lk g' x = lk g x) /\
    (forall x y, rlink (m_with_graph m g') x y <-> rlink m x y /\ rawof x <> Some i /\ rawof y <> Some i).
  Proof.
    intros Fi. destruct (v_unlink w g R i) as (g' & E & R' & Sh & Hlk). exists g'.
    assert (Hl : forall x, is_multi m x = true -> lk g' x = lk g x).
    { intros x Hx. rewrite Hlk. destruct (decide _) as [[->|Hl]|]; [congruence| |done].
      pose proof (lk_unflagged w m I _ _ Hl Fi). congruence. }
    split; [done|]. split; [by apply minv_relink|]. split; [done|]. split; [done|]. intros x y. rewrite (relink_rlink m g' Sh Hl).
    unfold rlink, rawof. split.
    - intros (Vx & Vy & s & t & Hs & Ht & El). rewrite Hlk in El. destruct (decide _) as [|Hne]; [done|].
      split; [eauto 10|]. rewrite Hs, Ht. split; intros [= ->]; [tauto|]. apply (r_lk_sym w g R) in El. tauto.
    - intros [(Vx & Vy & s & t & Hs & Ht & El) [H1 H2]]. split; [done|]. split; [done|]. exists s, t. split_and!; try done.
      rewrite Hlk, decide_False; [done|]. intros [->|Hi]; [done|]. apply (r_lk_sym w g R) in Hi. congruence.
  Qed.
  (** A subport that is not internal resolves to an unflagged port. *)
  Lemma sub_unflagged p i : (forall n d, pmeta g p = Some (n, d) -> is_copy m n = false) -> (N.of_nat i <= po_max_offset w)%N ->
    exists r, sub_to_port w m (p, i) = Ok r /\ (forall s, r = Some s -> is_multi m s = false) /\
      (vis m p -> r = if is_multi m p then raws m p !! i else Some p).
  Proof.
    intros Hn Hi. destruct (pmeta g p) as [[n d]|] eqn:Mp.
    - assert (V : vis m p) by (exists n, d; split; [done|by eapply Hn]). rewrite raws_sub_to_port by done. eexists.
      split; [done|]. split; [|done]. intros s. destruct (is_multi m p) eqn:Fp; [|congruence]. intros Hs.
      by destruct (raws_some w Hw m I p i s n d Mp (Hn _ _ eq_refl) Hs).
    - assert (Fp : is_multi m p = false).
      { destruct (is_multi m p) eqn:E; [|done]. destruct (flag_live w m p I E). congruence. }
      exists (Some p). unfold sub_to_port. cbn [fst snd]. rewrite Fp. split_and!; [done|congruence|done].
  Qed.
End ops.
