(** The loop of [port_ordering]. *)
From Verif Require Export PordProofs.

Lemma add_sources_cong v v' d nf ns : (forall n dd, n ∈ ns -> gv_ports v n dd = gv_ports v' n dd) ->
  forall s, topo_add_sources v d nf s ns = topo_add_sources v' d nf s ns.
Proof.
  unfold topo_add_sources. induction ns as [|n ns IH]; intros HP s; cbn [foldl]; [done|].
  assert (topo_add_source v d nf s n = topo_add_source v' d nf s n) as ->.
  { unfold topo_add_source. by rewrite !(HP n) by (by left). }
  apply IH. intros; apply HP. by right.
Qed.
Lemma topo_new_cong v v' d nf ns : (forall n dd, n ∈ ns -> gv_ports v n dd = gv_ports v' n dd) ->
  topo_new v d nf ns = topo_new v' d nf ns.
Proof.
  intros HP. unfold topo_new. f_equal.
  assert (Hs : forall n, n ∈ filter (fun n => nf n = true) ns -> n ∈ ns) by (intros n [_ Hn]%elem_of_list_filter; done).
  revert Hs. generalize (filter (fun n => nf n = true) ns). intros l Hl. generalize (∅ : gset nat). induction l as [|n l IH]; intros V; cbn [foldl]; [done|].
  rewrite (HP n) by (apply Hl; by left). apply IH. intros; apply Hl. by right.
Qed.

Section loop.
  Context {E : Type} (V : lview E) (N : nat -> Prop) (R : E -> E -> Prop) (H : shows V N R) (One : one_link V R).
  Context (B : boundary) (order : list nat -> list nat) (Hord : forall l, order l ≡ₚ l).
  Context (Hni : NoDup (bd_inputs B)) (Hno : NoDup (bd_outputs B)).
  Context (Hp : forall p, p ∈ bd_ports B -> port_in V N p).
  Context (Hun : forall x y, R x y -> lv_port V x ∉ bd_ports B).
  Context (Hac : forall n, ~ tc (vedge V R) n n).
  Notation edge := (vedge V R).
  Notation pf := (po_filter B).
  Notation tt := (fun _ : nat => true).
  Notation KK := (K (gvis V) Outgoing tt pf).

  Lemma in_bd p : p ∈ bd_inputs B -> p ∈ bd_ports B. Proof. intros. apply elem_of_app. by left. Qed.
  Lemma out_bd p : p ∈ bd_outputs B -> p ∈ bd_ports B. Proof. intros. apply elem_of_app. by right. Qed.

  Definition RS (p n : nat) : Prop := p ∈ bd_inputs B /\ exists k, lv_pnode V p = Some k /\ rtc edge k n.
  Lemma RS_step p m : RS p m <-> p ∈ bd_inputs B /\ lv_pnode V p = Some m \/ exists n, edge n m /\ RS p n.
  Proof.
    split.
    - intros (Hin & k & Hk & Hr). apply rtc_inv_r in Hr as [->|(n & H1 & H2)]; [by left|]. right. exists n. split; [done|]. split; [done|]. by exists k.
    - intros [[Hin Hk]|(n & He & Hin & k & Hk & Hr)]; (split; [done|]); [by exists m|]. exists k. split; [done|]. by eapply rtc_r.
  Qed.

  Definition onb (n : nat) : list nat := match lv_neigh V n Outgoing with HOk r => r | _ => [] end.
  Definition rem (Y : list nat) (n : nat) : nat := length (filter (fun u => u ∉ Y) (onb n)).
  Definition good (mp : gmap nat (nat * gset nat)) (f : nat -> nat) : Prop :=
    forall n, 0 < f n -> exists s, mp !! n = Some (f n, s) /\ forall p, p ∈ s <-> RS p n.

  Lemma neigh_fold l : forall mp (ports : gset nat) f, good mp f -> (forall n, cnt n l <= f n) ->
    exists mp' ports', hfold po_neigh_step l (mp, ports) = HOk (mp', ports') /\ good mp' (fun n => f n - cnt n l) /\
      forall p, p ∈ ports' <-> p ∈ ports \/ exists n, n ∈ l /\ RS p n.
  Proof.
    induction l as [|a l IH]; intros mp ports f Hg Hc; cbn [hfold].
    - exists mp, ports. split; [done|]. split; [|intros p; split; [by left|intros [?|(n & ?%elem_of_nil & _)]; done]].
      intros n. unfold cnt. cbn. rewrite Nat.sub_0_r. apply Hg.
    - pose proof (Hc a) as Ha. rewrite cnt_cons, decide_True in Ha by done. destruct (Hg a ltac:(lia)) as (s & Es & Hs).
      set (f' := fun n => if decide (n = a) then f n - 1 else f n).
      assert (Hst : exists mp1, po_neigh_step (mp, ports) a = HOk (mp1, s ∪ ports) /\ good mp1 f').
      { unfold po_neigh_step. rewrite Es. cbn [lift unwrap mbind hres_bind]. unfold usub. rewrite decide_True by lia. cbn [lift mbind hres_bind].
        eexists. split; [done|]. intros n Hn. unfold f' in Hn |- *. destruct (decide (n = a)) as [->|Hne].
        - exists s. split; [|done]. rewrite decide_False by lia. by rewrite lookup_insert.
        - destruct (Hg n Hn) as (s' & Es' & Hs'). exists s'. split; [|done]. destruct (decide _); [by rewrite lookup_delete_ne by done|by rewrite lookup_insert_ne by done]. }
      destruct Hst as (mp1 & -> & Hg1). cbn [mbind hres_bind]. destruct (IH mp1 (s ∪ ports) f' Hg1) as (mp' & ports' & -> & Hg' & Hp').
      { intros n. unfold f'. pose proof (Hc n) as Hn. rewrite cnt_cons in Hn. destruct (decide (n = a)) as [->|]; [rewrite decide_True in Hn by done; lia|].
        rewrite decide_False in Hn by done. lia. }
      exists mp', ports'. split; [done|]. split.
      + intros n Hn. assert (En : f n - cnt n (a :: l) = f' n - cnt n l).
        { unfold f'. rewrite cnt_cons. destruct (decide (n = a)) as [->|]; [rewrite decide_True by done; lia|rewrite decide_False by done; lia]. }
        rewrite En in Hn |- *. by apply Hg'.
      + intros p. rewrite Hp', elem_of_union, Hs. split.
        * intros [[?|?]|(n & ? & ?)]; [right; exists a; split; [by left|done]|by left|right; exists n; split; [by right|done]].
        * intros [?|(n & [->|?]%elem_of_cons & ?)]; [left; by right|left; by left|right; by exists n].
  Qed.

  (** the maps from nodes to boundary ports *)
  Definition at_node (ps : list nat) (n : nat) : list nat := filter (fun p => lv_pnode V p = Some n) ps.
  Definition nmap (ps : list nat) (n : nat) : option (list nat) := match at_node ps n with [] => None | l => Some l end.
  Lemma nmap_default ps n : default [] (nmap ps n) = at_node ps n.
  Proof. unfold nmap. by destruct (at_node ps n). Qed.
  Lemma nmap_None ps n : nmap ps n = None <-> forall p, p ∈ ps -> lv_pnode V p <> Some n.
  Proof.
    unfold nmap, at_node. destruct (filter _ ps) as [|q l] eqn:El.
    - split; [|done]. intros _ p Hps Hn. assert (Hx : p ∈ filter (fun p => lv_pnode V p = Some n) ps) by (by apply elem_of_list_filter). rewrite El in Hx. by apply elem_of_nil in Hx.
    - split; [done|]. intros Hx. exfalso. assert (Hq : q ∈ filter (fun p => lv_pnode V p = Some n) ps) by (rewrite El; by left).
      apply elem_of_list_filter in Hq as [Hq Hq']. by apply (Hx q).
  Qed.
  Lemma pn_map_ok ps2 : forall ps1 m, (forall p, p ∈ ps2 -> is_Some (lv_pnode V p)) -> (forall n, m !! n = nmap ps1 n) ->
    exists m', hfold (fun m p => n ← lift (unwrap (lv_pnode V p)); HOk (pn_push m n p)) ps2 m = HOk m' /\ forall n, m' !! n = nmap (ps1 ++ ps2) n.
  Proof.
    induction ps2 as [|p ps2 IH]; intros ps1 m Hs Hm; cbn [hfold].
    - exists m. split; [done|]. by rewrite app_nil_r.
    - destruct (Hs p) as [k Hk]; [by left|]. rewrite Hk. cbn [lift unwrap mbind hres_bind].
      destruct (IH (ps1 ++ [p]) (pn_push m k p)) as (m' & -> & Hm'); [intros; apply Hs; by right| |].
      + intros n. unfold pn_push. assert (Ha : at_node (ps1 ++ [p]) n = at_node ps1 n ++ (if decide (n = k) then [p] else [])).
        { unfold at_node. rewrite filter_app. f_equal. rewrite filter_cons, filter_nil, Hk. destruct (decide (n = k)) as [->|]; [by rewrite decide_True|rewrite decide_False; [done|congruence]]. }
        destruct (decide (n = k)) as [->|Hne].
        * rewrite lookup_insert, Hm, nmap_default. unfold nmap. rewrite Ha. destruct (at_node ps1 k ++ [p]) eqn:Ex; [by destruct (at_node ps1 k)|done].
        * rewrite lookup_insert_ne, Hm by done. unfold nmap. by rewrite Ha, app_nil_r.
      + exists m'. split; [done|]. by rewrite <- app_assoc in Hm'.
  Qed.

  Definition Q (Y : list nat) (i j : nat) : Prop := exists p q k, bd_inputs B !! i = Some p /\ bd_outputs B !! j = Some q /\ lv_pnode V q = Some k /\ k ∈ Y /\ RS p k.

  Record inv (src Y C : list nat) (Vs : gset nat) (im om : gmap nat (list nat)) (rc : gmap nat (nat * gset nat)) (o : pord) : Prop := Inv {
    i_K : KK src Y C Vs;
    i_src : forall n, n ∈ src -> forall u, ~ edge u n;
    i_N : forall n, n ∈ Y ++ C -> N n;
    i_im : forall n, im !! n = if decide (n ∈ Y) then None else nmap (bd_inputs B) n;
    i_om : forall n, om !! n = if decide (n ∈ Y) then None else nmap (bd_outputs B) n;
    i_rc : good rc (fun n => if decide (n ∈ Y) then rem Y n else 0);
    i_o : holds_order o (length (bd_inputs B)) (length (bd_outputs B)) (Q Y);
  }.

  Lemma edge_glink u n : edge u n -> exists p q, glink (gvis V) Outgoing u p q n /\ p ∉ bd_ports B /\ q ∉ bd_ports B.
  Proof.
    intros (x & y & Hr & Hx & Hd & Hy). exists (lv_port V x), (lv_port V y). split; [apply (gvis_glink V N R H); by exists x, y|].
    split; [by eapply Hun|]. eapply Hun. by apply H.
  Qed.
  Lemma glink_edge u p q n : glink (gvis V) Outgoing u p q n -> edge u n.
  Proof. intros (x & y & Hr & <- & <- & Hx & Hd & Hy)%(gvis_glink V N R H). by exists x, y. Qed.
  Lemma glink_uniq u p q n u' p' : glink (gvis V) Outgoing u p q n -> glink (gvis V) Outgoing u' p' q n -> u = u'.
  Proof.
    intros (x & y & Hr & <- & Ey & Hx & Hd & Hy)%(gvis_glink V N R H) (x' & y' & Hr' & <- & Ey' & Hx' & Hd' & Hy')%(gvis_glink V N R H).
    destruct (One y x y' x') as [_ ->]; [by apply H|by apply H|congruence|]. congruence.
  Qed.
  Lemma pf_true u p : p ∉ bd_ports B -> pf u p = true.
  Proof. intros. by apply bool_decide_eq_true_2. Qed.

  Lemma preds src Y C Vs im om rc o L1 n L2 u : inv src Y C Vs im om rc o -> Y ++ C = L1 ++ n :: L2 -> edge u n -> u ∈ L1.
  Proof.
    intros X EL He. destruct (i_K _ _ _ _ _ _ _ _ X) as ((A & HJ & HA) & _).
    destruct (decide (n ∈ src)) as [Hs|Hs]; [exfalso; by eapply (i_src _ _ _ _ _ _ _ _ X n)|].
    destruct (j8 _ _ _ _ _ _ _ _ HJ L1 n L2 EL Hs) as [_ H8]. destruct (edge_glink _ _ He) as (p & q & Hg & _ & Hq).
    pose proof Hg as (G1 & G2 & G3). destruct (wf_sym _ (gvis_wf V N R H) _ _ _ _ G1 G2) as [G4 _].
    destruct (H8 q p G3 G4 (pf_true _ _ Hq)) as (u' & p' & Hg' & _ & Hu'). by rewrite (glink_uniq _ _ _ _ _ _ Hg Hg').
  Qed.
  Lemma preds_Y src Y C Vs im om rc o n u : inv src Y C Vs im om rc o -> n ∈ Y -> edge u n -> u ∈ Y.
  Proof.
    intros X Hn He. apply elem_of_list_split in Hn as (L1 & L2 & ->). assert (u ∈ L1); [|set_solver].
    eapply (preds _ _ _ _ _ _ _ _ L1 n (L2 ++ C)); [exact X| |done]. by rewrite <- app_assoc.
  Qed.

  Lemma ports_eq n dd : N n -> gv_ports (gv_of_lv V) n dd = gv_ports (gvis V) n dd.
  Proof. intros Hn. cbn. by rewrite (proj2 (has_N V N R H n) Hn). Qed.
  Lemma next_eq Vs C k : (forall c, c ∈ C -> N c) -> po_topo_next V B (TS Vs C k) = topo_next (gvis V) Outgoing tt pf (TS Vs C k).
  Proof.
    intros HC. unfold po_topo_next. apply (next_cong (gv_of_lv V) (gvis V) N); [done| |intros n p q Hn Hpp Hl|done].
    - intros n dd. apply ports_eq.
    - rewrite ports_eq in Hpp by done. apply (vis_ports' V N R H) in Hpp as (_ & Hpn & _).
      change (glk (gv_of_lv V) p q) with (glk (gvis V) p q) in Hl. apply (vis_glk' V N R H) in Hl as (x & y & Hr & Hx & Hy); [|by exists n].
      destruct (lvs_end _ _ _ H _ _ (lvs_sym _ _ _ H _ _ Hr)) as (m & Hm & HNm). rewrite Hy in Hm. cbn. rewrite Hm, (proj2 (has_N V N R H m) HNm).
      split; [done|]. by intros t [= <-].
  Qed.

  Lemma step_ok src Y m C Vs im om rc o k : inv src Y (m :: C) Vs im om rc o ->
    exists Vs' C' ns outs rc1 rp o', po_topo_next V B (TS Vs (m :: C) k) = Ok (Some m, TS Vs' C' (k + 1)) /\
      lv_neigh V m Incoming = HOk ns /\
      hfold po_neigh_step ns (rc, list_to_set (default [] (im !! m))) = HOk (rc1, rp) /\
      hfold (po_out_step B order rp) (default [] (om !! m)) o = HOk o' /\
      lv_neigh V m Outgoing = HOk outs /\
      inv src (Y ++ [m]) C' Vs' (delete m im) (delete m om) (<[m := (length outs, rp)]> rc1) o' /\ (exists x, C' = C ++ x).
  Proof.
    intros X. pose proof (i_K _ _ _ _ _ _ _ _ X) as HK. assert (Hm : N m) by (apply (i_N _ _ _ _ _ _ _ _ X); set_solver).
    destruct (next_ok _ _ _ _ (gvis_wf V N R H) src Y m C Vs k HK) as (Vs' & C' & En & HK' & x & Hx).
    destruct (neigh_ok V N R H m Incoming Hm) as (_ & ns & Ens & _ & _ & _ & Hns).
    destruct (neigh_ok V N R H m Outgoing Hm) as (_ & outs & Eouts & _ & _ & _ & Houts).
    assert (HmY : m ∉ Y).
    { destruct HK as ((A & HJ & _) & _). pose proof (j6 _ _ _ _ _ _ _ _ HJ) as Hnd. apply NoDup_app in Hnd as (_ & Hd & _). intros Hy. apply (Hd m Hy). by left. }
    assert (HnsY : forall n, n ∈ ns -> n ∈ Y) by (intros n Hn%Hns; eapply (preds _ _ _ _ _ _ _ _ Y m C n X); done).
    assert (HYN : forall n, n ∈ Y -> N n) by (intros n Hn; apply (i_N _ _ _ _ _ _ _ _ X), elem_of_app; by left).
    assert (Hcnt : forall n, n ∈ Y -> cnt m (onb n) = cnt n ns).
    { intros n Hn. unfold onb. destruct (neigh_ok V N R H n Outgoing (HYN n Hn)) as (_ & r & Er & _). rewrite Er. exact (neigh_count V N R H n m r ns (HYN n Hn) Hm Er Ens). }
    destruct (neigh_fold ns rc (list_to_set (default [] (im !! m))) (fun n => if decide (n ∈ Y) then rem Y n else 0) (i_rc _ _ _ _ _ _ _ _ X)) as (rc1 & rp & Erc & Hg1 & Hrp).
    { intros n. destruct (decide (n ∈ Y)) as [Hn|Hn].
      - rewrite <- (Hcnt n Hn). unfold rem. rewrite (cnt_not_in m Y (onb n) HmY). lia.
      - destruct (Nat.eq_0_gt_0_cases (cnt n ns)) as [?|Hgt]; [lia|]. exfalso. apply Hn, HnsY. by apply cnt_pos. }
    assert (Hrp' : forall p, p ∈ rp <-> RS p m).
    { intros p. rewrite Hrp, (RS_step p m), elem_of_list_to_set, (i_im _ _ _ _ _ _ _ _ X m), decide_False, nmap_default by done.
      unfold at_node. rewrite elem_of_list_filter. split.
      - intros [[? ?]|(n & Hn%Hns & ?)]; [by left|right; by exists n].
      - intros [[? ?]|(n & Hn & ?)]; [by left|right; exists n; split; [by apply Hns|done]]. }
    destruct (out_step_ok B order Hord Hni Hno rp (default [] (om !! m))) with (o := o) (Q := Q Y) as (o' & Eo & Ho').
    { intros p [? _]%Hrp'. done. }
    { intros q. rewrite (i_om _ _ _ _ _ _ _ _ X m), decide_False, nmap_default by done. unfold at_node. by intros [_ ?]%elem_of_list_filter. }
    { apply X. }
    exists Vs', C', ns, outs, rc1, rp, o'. split.
    { rewrite next_eq; [done|]. intros c Hc. apply (i_N _ _ _ _ _ _ _ _ X), elem_of_app. by right. }
    split; [done|]. split; [done|]. split; [done|]. split; [done|]. split; [|by exists x]. split.
    - done.
    - apply X.
    - intros n Hn. destruct HK' as ((A & HJ & _) & _). apply (j5 _ _ _ _ _ _ _ _ HJ) in Hn as [Hn|(_ & (q & Hq & _) & _)].
      + apply (i_N _ _ _ _ _ _ _ _ X). eapply K_src_mem; [exact HK|done].
      + by apply (vis_ports' V N R H) in Hq as (? & _).
    - intros n. destruct (decide (n = m)) as [->|Hne].
      + rewrite lookup_delete, decide_True by set_solver. done.
      + rewrite lookup_delete_ne, (i_im _ _ _ _ _ _ _ _ X) by done. destruct (decide (n ∈ Y)); [rewrite decide_True by set_solver|rewrite decide_False by set_solver]; done.
    - intros n. destruct (decide (n = m)) as [->|Hne].
      + rewrite lookup_delete, decide_True by set_solver. done.
      + rewrite lookup_delete_ne, (i_om _ _ _ _ _ _ _ _ X) by done. destruct (decide (n ∈ Y)); [rewrite decide_True by set_solver|rewrite decide_False by set_solver]; done.
    - intros n. destruct (decide (n ∈ Y ++ [m])) as [Hn|Hn]; [|lia]. intros Hpos. destruct (decide (n = m)) as [->|Hne].
      + exists rp. rewrite lookup_insert. split; [|done]. f_equal. f_equal. unfold rem, onb. rewrite Eouts. f_equal. symmetry. apply filter_all.
        intros u Hu%Houts [Hu'| ->%elem_of_list_singleton]%elem_of_app; cbn in Hu; [apply HmY; by eapply preds_Y|]. by apply (Hac m), tc_once.
      + assert (HnY : n ∈ Y) by set_solver. rewrite lookup_insert_ne by done. specialize (Hg1 n). cbn beta in Hg1. rewrite decide_True in Hg1 by done.
        assert (Er : rem (Y ++ [m]) n = rem Y n - cnt n ns).
        { unfold rem. rewrite (cnt_not_in m Y (onb n) HmY), (Hcnt n HnY). lia. }
        rewrite Er in Hpos |- *. by apply Hg1.
    - eapply holds_iff; [|exact Ho']. intros i j. cbn beta. unfold Q. rewrite (i_om _ _ _ _ _ _ _ _ X m), decide_False, nmap_default by done. unfold at_node. setoid_rewrite elem_of_list_filter. split.
      + intros [(p & q & k' & ? & ? & ? & ? & ?)|(p & q & ?%Hrp' & [? ?] & ? & ?)]; [exists p, q, k'; split_and!; try done; set_solver|].
        exists p, q, m. split_and!; try done. set_solver.
      + intros (p & q & k' & ? & Hj & ? & [?| ->%elem_of_list_singleton]%elem_of_app & ?); [left; by exists p, q, k'|]. right. exists p, q.
        split_and!; try done; [by apply Hrp'|]. by eapply elem_of_list_lookup_2.
  Qed.

  (** when both maps are empty *)
  Lemma empty_done src Y C Vs im om rc o : inv src Y C Vs im om rc o -> im = ∅ /\ om = ∅ ->
    holds_order o (length (bd_inputs B)) (length (bd_outputs B)) (port_path V R B).
  Proof.
    intros X [-> ->]. eapply holds_iff; [|apply X]. intros i j. unfold Q, port_path, RS. split.
    - intros (p & q & k & H1 & H2 & H3 & H4 & H5 & n & H6 & H7). by exists p, q, n, k.
    - intros (p & q & n & k & H1 & H2 & H3 & H4 & H5). exists p, q, k. split; [done|]. split; [done|]. split; [done|]. split.
      + pose proof (i_om _ _ _ _ _ _ _ _ X k) as Hk. rewrite lookup_empty in Hk. destruct (decide (k ∈ Y)); [done|]. symmetry in Hk.
        exfalso. eapply (proj1 (nmap_None _ _) Hk q); [by eapply elem_of_list_lookup_2|done].
      + split; [by eapply elem_of_list_lookup_2|]. by exists n.
  Qed.

  Context (Li : list nat) (Ki : nat) (ELi : forall fuel, Ki < fuel -> internal_nodes V fuel B = HOk Li)
    (HLi : forall n, n ∈ Li <-> induced V N R (bd_ports B) n) (HLiN : forall n, n ∈ Li -> N n).
  Context (Ln : list nat) (HLn : forall n, n ∈ Ln <-> N n).

  Lemma Y_len src Y C Vs im om rc o : inv src Y C Vs im om rc o -> length (Y ++ C) <= length Ln.
  Proof.
    intros X. apply submseteq_length, NoDup_submseteq.
    - destruct (i_K _ _ _ _ _ _ _ _ X) as ((A & HJ & _) & _). apply HJ.
    - intros n Hn. by apply HLn, (i_N _ _ _ _ _ _ _ _ X).
  Qed.

  Lemma all_in src Y Vs im om rc o : inv src Y [] Vs im om rc o -> (forall n, n ∈ Li -> (forall u, ~ edge u n) -> n ∈ Y) -> bd_ports B <> [] -> forall n, n ∈ Li -> n ∈ Y.
  Proof.
    intros X Hroot Hne n. pose proof (fin_acc edge Ln) as Hfin.
    assert (Hacc : Acc edge n).
    { apply Hfin; [|done]. intros x y Hxy. destruct (edge_N V N R H x y Hxy). split; by apply HLn. }
    induction Hacc as [n _ IH]. intros Hn. pose proof (HLiN n Hn) as HNn.
    destruct (neigh_ok V N R H n Incoming HNn) as (_ & r & _ & _ & _ & _ & Hr).
    assert (Hpred : forall u, edge u n -> u ∈ Y).
    { intros u Hu. apply IH; [done|]. apply HLi in Hn as [[? _]|(p & k & Hpb & Hk & Hrt)]; [done|]. apply HLi. right. exists p, k. split; [done|]. split; [done|].
      eapply rtc_r; [exact Hrt|]. destruct Hu as (x & y & HR & Hx & _ & Hy). exists y, x. split; [by apply H|]. split; [done|]. split; [done|].
      split; eapply Hun; [by apply H|done]. }
    destruct r as [|u r].
    - apply Hroot; [done|]. intros u Hu. apply (Hr u) in Hu. by apply elem_of_nil in Hu.
    - assert (Hu : edge u n) by (apply (Hr u); by left). destruct (i_K _ _ _ _ _ _ _ _ X) as ((A & HJ & HA) & _). rewrite app_nil_r in HJ.
      apply (j5 _ _ _ _ _ _ _ _ HJ). right. split; [done|].
      assert (Hedge : forall u p q, glink (gvis V) Outgoing u p q n -> q ∈ A).
      { intros u' p q Hg. pose proof (Hpred u' (glink_edge _ _ _ _ Hg)) as Hu'. apply HA. pose proof Hg as (G1 & G2 & G3). exists u', p. split; [done|]. split; [done|]. split; [done|].
        apply pf_true. apply (gvis_glink V N R H) in Hg as (x & y & HR & <- & _). by eapply Hun. }
      split.
      + destruct (edge_glink _ _ Hu) as (p & q & Hg & _). exists q. split; [apply Hg|by eapply Hedge].
      + intros q z Hq Hz _. destruct (wf_sym _ (gvis_wf V N R H) _ _ _ _ Hq Hz) as [Hz' [u' Hu']]. eapply (Hedge u' z q). split; [done|]. split; [done|done].
  Qed.

  Lemma bd_in_Li p n : p ∈ bd_ports B -> lv_pnode V p = Some n -> n ∈ Li.
  Proof. intros Hb Hn. apply HLi. right. exists p, n. split; [done|]. split; [done|apply rtc_refl]. Qed.

  Lemma nil_done src Y Vs im om rc o : inv src Y [] Vs im om rc o -> (forall n, n ∈ Li -> (forall u, ~ edge u n) -> n ∈ Y ++ []) -> bd_ports B <> [] ->
    im = ∅ /\ om = ∅.
  Proof.
    intros X Hroot Hne. rewrite app_nil_r in Hroot. pose proof (all_in _ _ _ _ _ _ _ X Hroot Hne) as Hall.
    split; apply map_eq; intros n; rewrite lookup_empty; [rewrite (i_im _ _ _ _ _ _ _ _ X n)|rewrite (i_om _ _ _ _ _ _ _ _ X n)];
      (destruct (decide (n ∈ Y)) as [|HnY]; [done|]; apply nmap_None; intros p Hb Hn; apply HnY, Hall; eapply bd_in_Li; [|done]).
    - by apply in_bd.
    - by apply out_bd.
  Qed.

  Lemma phase2 k : forall src Y C Vs im om rc o t, inv src Y C Vs im om rc o -> (forall n, n ∈ Li -> (forall u, ~ edge u n) -> n ∈ Y ++ C) -> bd_ports B <> [] ->
    length Ln - length Y <= k ->
    exists o' K, (forall ifuel fuel, K < fuel -> po_loop V B order ifuel fuel im om rc o (TS Vs C t) true = HOk o') /\
      holds_order o' (length (bd_inputs B)) (length (bd_outputs B)) (port_path V R B).
  Proof.
    induction k as [|k IH]; intros src Y C Vs im om rc o t X Hroot Hne Hk.
    all: destruct C as [|m C];
      [pose proof (nil_done _ _ _ _ _ _ _ X Hroot Hne) as Hemp; exists o, 0; split; [|by eapply empty_done]; intros ifuel [|fuel] Hf; [lia|];
       cbn [po_loop]; unfold po_topo_next; rewrite next_nil; cbn [lift mbind hres_bind]; by rewrite decide_True|].
    { exfalso. pose proof (Y_len _ _ _ _ _ _ _ _ X) as Hl. rewrite app_length in Hl. cbn in Hl. lia. }
    destruct (step_ok _ _ _ _ _ _ _ _ _ t X) as (Vs' & C' & ns & outs & rc1 & rp & o' & E1 & E2 & E3 & E4 & E5 & X' & x & Hx).
    destruct (decide (delete m im = ∅ /\ delete m om = ∅)) as [Hd|Hd].
    - exists o', 0. split; [|by eapply empty_done]. intros ifuel [|fuel] Hf; [lia|]. cbn [po_loop]. rewrite E1. cbn [lift mbind hres_bind]. rewrite E2. cbn [mbind hres_bind].
      rewrite E3. cbn [mbind hres_bind]. rewrite E4. cbn [mbind hres_bind]. rewrite E5. cbn [mbind hres_bind]. by rewrite decide_True.
    - destruct (IH _ _ _ _ _ _ _ _ (t + 1) X') as (o2 & K & Hrun & Ho2); [|done| |].
      { intros n Hn Hu. rewrite Hx, app_assoc. apply elem_of_app. left. rewrite <- app_assoc. exact (Hroot n Hn Hu). }
      { rewrite app_length. cbn. lia. }
      exists o2, (S K). split; [|done]. intros ifuel [|fuel] Hf; [lia|]. cbn [po_loop]. rewrite E1. cbn [lift mbind hres_bind]. rewrite E2. cbn [mbind hres_bind].
      rewrite E3. cbn [mbind hres_bind]. rewrite E4. cbn [mbind hres_bind]. rewrite E5. cbn [mbind hres_bind]. rewrite decide_False by done. apply Hrun. lia.
  Qed.

  Lemma initial_ok : exists l, hfilter (po_initial V) Li = HOk l /\ forall n, n ∈ l <-> n ∈ Li /\ forall u, ~ edge u n.
  Proof.
    assert (Hf : forall l, (forall n, n ∈ l -> N n) -> exists l', hfilter (po_initial V) l = HOk l' /\ forall n, n ∈ l' <-> n ∈ l /\ forall u, ~ edge u n).
    { induction l as [|a l IH]; intros HN; cbn [hfilter].
      - exists []. split; [done|]. intros n. rewrite elem_of_nil. tauto.
      - destruct (neigh_ok V N R H a Incoming (HN a ltac:(by left))) as (_ & r & Er & _ & _ & _ & Hr). assert (po_initial V a = HOk (bool_decide (length r = 0))) as -> by (unfold po_initial; by rewrite Er). cbn [mbind hres_bind].
        destruct IH as (l' & -> & Hl'); [intros; apply HN; by right|]. cbn [mbind hres_bind].
        assert (Hb : length r = 0 <-> forall u, ~ edge u a).
        { destruct r as [|u r]; cbn.
          - split; [|done]. intros _ u Hu. apply (Hr u) in Hu. by apply elem_of_nil in Hu.
          - split; [done|]. intros Hu. exfalso. apply (Hu u), (Hr u). by left. }
        case_bool_decide as Hz.
        + exists (a :: l'). split; [done|]. intros n. rewrite !elem_of_cons, Hl'. split; [intros [->|[? ?]]; [split; [by left|by apply Hb]|split; [by right|done]]|].
          intros [[->|?] ?]; [by left|by right].
        + exists l'. split; [done|]. intros n. rewrite elem_of_cons, Hl'. split; [intros [? ?]; split; [by right|done]|]. intros [[->|?] Hu]; [|done]. by apply Hb in Hu. }
    by apply Hf.
  Qed.
  Lemma Li_ports n : bd_ports B <> [] -> n ∈ Li -> exists dd, gv_ports (gvis V) n dd <> [].
  Proof.
    intros Hne Hn. pose proof (HLiN n Hn) as HN. assert (Hex : exists p, lv_pnode V p = Some n).
    { apply HLi in Hn as [[? _]|(p & m & Hb & Hm & Hrt)]; [done|]. apply rtc_inv_r in Hrt as [->|(u & _ & (x & y & _ & _ & Hy & _))]; eauto. }
    destruct Hex as [p Hpn]. destruct (lv_pdir V p) as [d|] eqn:Ed; [|exfalso; eapply (lvs_dir _ _ _ H p); [congruence|done]].
    exists d. assert (Hx : p ∈ gv_ports (gvis V) n d) by (by apply (vis_ports' V N R H)). intros E0. rewrite E0 in Hx. by apply elem_of_nil in Hx.
  Qed.

  Lemma phase1 k : forall src Y C Vs im om rc o t, inv src Y C Vs im om rc o -> length Ln - length Y <= k ->
    exists o' K, (forall ifuel fuel, Ki < ifuel -> K < fuel -> po_loop V B order ifuel fuel im om rc o (TS Vs C t) false = HOk o') /\
      holds_order o' (length (bd_inputs B)) (length (bd_outputs B)) (port_path V R B).
  Proof.
    induction k as [|k IH]; intros src Y C Vs im om rc o t X Hk.
    all: destruct C as [|m C].
    2:{ exfalso. pose proof (Y_len _ _ _ _ _ _ _ _ X) as Hl. rewrite app_length in Hl. cbn in Hl. lia. }
    1,2: destruct (decide (im = ∅ /\ om = ∅)) as [Hd|Hd];
         [exists o, 0; split; [|by eapply empty_done]; intros ifuel [|fuel] Hi Hf; [lia|]; cbn [po_loop]; unfold po_topo_next; rewrite next_nil; cbn [lift mbind hres_bind]; by rewrite decide_True|].
    1,2: assert (Hne : bd_ports B <> []) by (intros E0; apply app_eq_nil in E0 as [E1 E2]; apply Hd; split; apply map_eq; intros n; rewrite lookup_empty;
           [rewrite (i_im _ _ _ _ _ _ _ _ X n), E1|rewrite (i_om _ _ _ _ _ _ _ _ X n), E2]; by destruct (decide _)).
    1,2: destruct initial_ok as (ns & Ens & Hns);
         destruct (add_sources_ok (gvis V) Outgoing tt pf (gvis_wf V N R H) ns src Y [] Vs t (i_K _ _ _ _ _ _ _ _ X)) as (Vs' & C' & s' & Ea & HK' & Hs' & HC' & _ & Hin);
         [intros n [_ Hn]%Hns; by apply (no_in_iff V N R H)|done|].
    1,2: destruct (phase2 (length Ln - length Y) (src ++ s') Y C' Vs' im om rc o t) as (o' & K & Hrun & Ho');
         [split; try apply X; [done|intros n [Hn|Hn%Hs'%Hns]%elem_of_app; [by apply (i_src _ _ _ _ _ _ _ _ X)|apply Hn]|
            intros n [Hn|[?%elem_of_nil|[Hn%HLiN _]%Hns]%HC']%elem_of_app; [apply (i_N _ _ _ _ _ _ _ _ X), elem_of_app; by left|done|done]]
         |intros n Hn Hu; apply Hin; [by apply Hns|by apply Li_ports]|done|lia|].
    1,2: exists o', (S K); split; [|done]; intros ifuel [|fuel] Hi Hf; [lia|]; cbn [po_loop]; unfold po_topo_next; rewrite next_nil; cbn [lift mbind hres_bind]; rewrite decide_False by done;
         rewrite ELi by done; cbn [mbind hres_bind]; rewrite Ens; cbn [mbind hres_bind];
         rewrite (add_sources_cong (gv_of_lv V) (gvis V)) by (intros n dd [Hn%HLiN _]%Hns; by apply ports_eq); rewrite Ea; apply Hrun; lia.
    destruct (step_ok _ _ _ _ _ _ _ _ _ t X) as (Vs' & C' & ns & outs & rc1 & rp & o' & E1 & E2 & E3 & E4 & E5 & X' & x & Hx).
    destruct (decide (delete m im = ∅ /\ delete m om = ∅)) as [Hd|Hd].
    - exists o', 0. split; [|by eapply empty_done]. intros ifuel [|fuel] Hi Hf; [lia|]. cbn [po_loop]. rewrite E1. cbn [lift mbind hres_bind]. rewrite E2. cbn [mbind hres_bind].
      rewrite E3. cbn [mbind hres_bind]. rewrite E4. cbn [mbind hres_bind]. rewrite E5. cbn [mbind hres_bind]. by rewrite decide_True.
    - destruct (IH _ _ _ _ _ _ _ _ (t + 1) X') as (o2 & K & Hrun & Ho2).
      { rewrite app_length. cbn. lia. }
      exists o2, (S K). split; [|done]. intros ifuel [|fuel] Hi Hf; [lia|]. cbn [po_loop]. rewrite E1. cbn [lift mbind hres_bind]. rewrite E2. cbn [mbind hres_bind].
      rewrite E3. cbn [mbind hres_bind]. rewrite E4. cbn [mbind hres_bind]. rewrite E5. cbn [mbind hres_bind]. rewrite decide_False by done. apply Hrun; [done|lia].
  Qed.
End loop.
