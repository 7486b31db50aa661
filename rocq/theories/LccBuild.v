(** The line partition built by the line convexity checker. *)
From Verif Require Export ConvexPG.

Section build.
  Context (w : N) (g : pg) (Hreach : reach w g).
  Notation v := (gv_of g).

  (** The partner of a port. *)
  Definition lk (p : nat) : option nat := match port_link g p with Ok o => o | Panic => None end.
  Lemma lk_linked p q : lk p = Some q <-> linked g p q.
  Proof. unfold lk, linked. destruct (port_link g p) as [o|]; split; congruence. Qed.
  Lemma lk_sym p q : lk p = Some q -> lk q = Some p.
  Proof.
    rewrite !lk_linked. destruct (reach_inv _ _ Hreach) as (fnl & F & I). rewrite !(linked_iff _ _ _ I).
    intros [[[n d] Hp] Hl]. destruct (proj1 (i_links _ _ _ I) _ _ _ _ Hp Hl) as [Hs [m Hm]]. split; [by rewrite Hm|done].
  Qed.
  Lemma lk_inj p p' q : lk p = Some q -> lk p' = Some q -> p = p'.
  Proof. intros H1%lk_sym H2%lk_sym. congruence. Qed.
  Lemma links_lk n d p : p ∈ ports g n d -> gv_links v p = Ok (match lk p with Some q => [q] | None => [] end).
  Proof.
    destruct (reach_inv _ _ Hreach) as (fnl & F & I). intros Hp%(elem_ports _ _ _ I).
    rewrite (gv_links_eq _ _ _ I). unfold lk. rewrite (port_link_eq _ _ _ I), Hp. done.
  Qed.
  Lemma port_other n d p q : p ∈ ports g n d -> lk p = Some q -> exists m, q ∈ ports g m (rev_dir d).
  Proof.
    destruct (reach_inv _ _ Hreach) as (fnl & F & I). intros Hp Hl%lk_linked.
    by destruct (wf_sym _ (gv_wf g fnl F I) p q n d Hp (proj2 (glk_iff g fnl F I p q) Hl)).
  Qed.
  Lemma ports_nd n d : NoDup (ports g n d).
  Proof. destruct (reach_inv _ _ Hreach) as (fnl & F & I). apply (wf_nd _ (gv_wf g fnl F I)). Qed.
  Lemma ports_own p n d n' d' : p ∈ ports g n d -> p ∈ ports g n' d' -> n = n' /\ d = d'.
  Proof. destruct (reach_inv _ _ Hreach) as (fnl & F & I). apply (wf_own _ (gv_wf g fnl F I)). Qed.

  Lemma prev_ok n d : exists prev, rmap (gv_links v) (ports g n d) = Ok prev /\ mjoin prev = omap lk (ports g n d).
  Proof.
    assert (H : forall p, p ∈ ports g n d -> gv_links v p = Ok (match lk p with Some q => [q] | None => [] end)).
    { intros p. apply links_lk. }
    revert H. generalize (ports g n d). intros l. induction l as [|p l IH]; intros H; cbn [rmap].
    - exists []. done.
    - rewrite H by by left. cbn [mbind res_bind]. destruct IH as (prev & -> & E); [intros x Hx; apply H; by right|].
      cbn [mbind res_bind]. eexists. split; [done|].  match goal with |- mjoin (?x :: _) = _ => change (mjoin (x :: prev)) with (x ++ mjoin prev) end. rewrite E. cbn [omap list_omap]. by destruct (lk p).
  Qed.
  Lemma omap_lk_nd n d : NoDup (omap lk (ports g n d)).
  Proof.
    pose proof (ports_nd n d) as H. induction H as [|p l Hp _ IH]; [apply NoDup_nil_2|].
    cbn. destruct (lk p) as [q|] eqn:E; [|done]. constructor; [|done].
    intros (p' & Hp' & E')%elem_of_list_omap. by rewrite (lk_inj _ _ _ E E') in Hp.
  Qed.

  (** Popping the lines that arrive at a node. *)
  Lemma in_steps (kf pf : nat -> nat) P : NoDup P -> forall f ls mx,
    (forall p, p ∈ P -> f !! p = Some (LP [kf p] (pf p))) ->
    exists f' mx', rfold lcc_in_step P (f, ls, mx) = Ok (f', ls ++ map kf P, mx')
      /\ (forall p, p ∈ P -> f' !! p = Some (LP [] (pf p)))
      /\ (forall p, p ∉ P -> f' !! p = f !! p)
      /\ (P = [] -> mx' = mx)
      /\ (forall x, mx = Some x -> exists y, mx' = Some y /\ x <= y)
      /\ (forall p, p ∈ P -> exists y, mx' = Some y /\ pf p <= y).
  Proof.
    induction 1 as [|p P Hp HP IH]; intros f ls mx Hf; cbn [rfold].
    - exists f, mx. rewrite app_nil_r. split; [done|]. split; [by intros p ?%elem_of_nil|]. split; [done|]. split; [done|].
      split; [by eauto|]. by intros p ?%elem_of_nil.
    - unfold lcc_in_step at 2. unfold pop_frontier. rewrite (Hf p) by by left. cbn [lp_lines lp_pos last removelast unwrap mbind res_bind].
      destruct (IH (<[p := LP [] (pf p)]> f) (ls ++ [kf p]) (Some (match mx with Some x => x `max` pf p | None => pf p end)))
        as (f' & mx' & E & H1 & H2 & _ & H4 & H5).
      { intros x Hx. rewrite lookup_insert_ne by (intros ->; done). apply Hf. by right. }
      exists f', mx'. split; [rewrite E; cbn; by rewrite <- app_assoc|]. split; [|split; [|split; [|split]]].
      + intros x [->|Hx]%elem_of_cons; [|by apply H1]. rewrite H2 by done. by rewrite lookup_insert.
      + intros x Hx. rewrite H2 by set_solver. rewrite lookup_insert_ne by set_solver. done.
      + done.
      + intros x ->. destruct (H4 _ eq_refl) as (y & -> & Hy). exists y. split; [done|]. lia.
      + intros x [->|Hx]%elem_of_cons; [|by apply H5]. destruct (H4 _ eq_refl) as (y & -> & Hy). exists y. split; [done|].
        destruct mx; lia.
  Qed.

  (** Handing the lines on to the outgoing ports. *)
  Lemma out_steps n n_in pos O : NoDup O -> (forall p, p ∈ O -> p ∈ ports g n Outgoing) -> forall f k ls free,
    (forall p, p ∈ O -> f !! p = None) ->
    free <= n_in -> n_in <= length ls -> (free < n_in -> length ls = n_in) ->
    exists f' k' ls' free', rfold (lcc_out_port v n_in pos) O (f, k, ls, free) = Ok (f', k', ls', free')
      /\ k <= k' /\ ls' = ls ++ seq k (k' - k)
      /\ (forall p, p ∉ O -> f' !! p = f !! p) /\ (forall p, p ∈ O -> lk p = None -> f' !! p = None)
      /\ (forall j p, filter (fun p => is_Some (lk p)) O !! j = Some p ->
            exists l, f' !! p = Some (LP [l] pos) /\ ls' !! (free + (length ls - n_in) + j) = Some l).
  Proof.
    induction 1 as [|p O Hp HO IH]; intros Hpo f k ls free Hf H1 H2 H3; cbn [rfold].
    - exists f, k, ls, free. split; [done|]. split; [done|]. replace (k - k) with 0 by lia. cbn [seq]. rewrite app_nil_r.
      split; [done|]. split; [done|]. split; [by intros p ?%elem_of_nil|done].
    - unfold lcc_out_port at 2. rewrite (links_lk n Outgoing) by (apply Hpo; by left). cbn [mbind res_bind].
      destruct (lk p) as [q|] eqn:Eq; cbn [rfold mbind res_bind].
      + rewrite (filter_cons_True (fun p => is_Some (lk p)) p O) by (rewrite Eq; eauto).
        unfold lcc_out_step. unfold push_frontier. rewrite (Hf p) by by left. cbn [default lp_default lp_lines app].
        destruct (decide (free < n_in)) as [Hfree|Hfree].
        * destruct (lookup_lt_is_Some_2 ls free) as [l Hl]; [lia|]. unfold vget. rewrite Hl. cbn [unwrap mbind res_bind].
          destruct (IH (fun x Hx => Hpo x (elem_of_list_further _ _ _ Hx)) (<[p := LP [l] pos]> f) k ls (free + 1))
            as (f' & k' & ls' & free' & E & Hk & Hls & G1 & G2 & G3); [|lia|lia|lia|].
          { intros x Hx. rewrite lookup_insert_ne by (intros ->; done). apply Hf. by right. }
          exists f', k', ls', free'. split; [done|]. split; [done|]. split; [done|]. split; [|split].
          -- intros x Hx. rewrite G1 by set_solver. rewrite lookup_insert_ne by set_solver. done.
          -- intros x [->|Hx]%elem_of_cons; [congruence|]. by apply G2.
          -- intros [|j] x; cbn [lookup list_lookup].
             ++ intros [= <-]. exists l. rewrite G1 by done. rewrite lookup_insert. split; [done|]. rewrite Hls, lookup_app_l by lia.
                rewrite <- Hl. f_equal. lia.
             ++ intros Hx. destruct (G3 _ _ Hx) as (l' & ? & Hl'). exists l'. split; [done|]. rewrite <- Hl'. f_equal. lia.
        * destruct (IH (fun x Hx => Hpo x (elem_of_list_further _ _ _ Hx)) (<[p := LP [k] pos]> f) (k + 1) (ls ++ [k]) free)
            as (f' & k' & ls' & free' & E & Hk & Hls & G1 & G2 & G3); [|done|rewrite app_length; cbn; lia|lia|].
          { intros x Hx. rewrite lookup_insert_ne by (intros ->; done). apply Hf. by right. }
          cbn [mbind res_bind]. exists f', k', ls', free'. split; [done|]. split; [lia|].
          assert (Els : ls' = ls ++ seq k (k' - k)).
          { rewrite Hls, <- app_assoc. f_equal. replace (k' - k) with (S (k' - (k + 1))) by lia. cbn. f_equal. f_equal. lia. }
          split; [done|]. split; [|split].
          -- intros x Hx. rewrite G1 by set_solver. rewrite lookup_insert_ne by set_solver. done.
          -- intros x [->|Hx]%elem_of_cons; [congruence|]. by apply G2.
          -- intros [|j] x; cbn [lookup list_lookup].
             ++ intros [= <-]. exists k. rewrite G1 by done. rewrite lookup_insert. split; [done|]. rewrite Els.
                rewrite lookup_app_r by lia. apply lookup_seq. lia.
             ++ intros Hx. destruct (G3 _ _ Hx) as (l' & ? & Hl'). exists l'. split; [done|]. rewrite <- Hl', app_length. cbn. f_equal. lia.
      + rewrite (filter_cons_False (fun p => is_Some (lk p)) p O) by (rewrite Eq; by intros [? ?]).
        destruct (IH (fun x Hx => Hpo x (elem_of_list_further _ _ _ Hx)) f k ls free)
          as (f' & k' & ls' & free' & E & Hk & Hls & G1 & G2 & G3); [|done|done|done|].
        { intros x Hx. apply Hf. by right. }
        exists f', k', ls', free'. split; [done|]. split; [done|]. split; [done|]. split; [|split].
        * intros x Hx. apply G1. set_solver.
        * intros x [->|Hx]%elem_of_cons; [intros _; rewrite G1 by done; apply Hf; by left|]. by apply G2.
        * done.
  Qed.

  (** Appending the node to its lines. *)
  Lemma push_lines b ks m L : NoDup (ks ++ seq (length L) m) -> (forall k, k ∈ ks -> k < length L) ->
    exists L', rfold (lcc_push_line b) (ks ++ seq (length L) m) L = Ok L' /\ length L' = length L + m /\
      forall k, default [] (L' !! k) = default [] (L !! k) ++ (if decide (k ∈ ks ++ seq (length L) m) then [b] else []).
  Proof.
    intros Hnd Hks.
    assert (Hone : forall L k, k <= length L -> exists L', lcc_push_line b L k = Ok L' /\ length L' = length L `max` (k + 1) /\
      forall j, default [] (L' !! j) = default [] (L !! j) ++ (if decide (j = k) then [b] else [])).
    { clear. intros L k Hk. unfold lcc_push_line.
      set (L1 := if decide (length L <= k) then _ else L).
      assert (HL1 : length L1 = length L `max` (k + 1)).
      { unfold L1. destruct (decide _); [|lia]. rewrite app_length, replicate_length. lia. }
      assert (Hd : forall j, default [] (L1 !! j) = default [] (L !! j)).
      { intros j. unfold L1. destruct (decide _) as [Hle|]; [|done]. replace (k - length L + 1) with 1 by lia. cbn [replicate].
        destruct (decide (j < length L)); [by rewrite lookup_app_l|]. rewrite lookup_app_r by lia.
        rewrite (lookup_ge_None_2 L) by lia. by destruct (j - length L). }
      destruct (lookup_lt_is_Some_2 L1 k) as [l Hl]; [lia|]. unfold vget. rewrite Hl. cbn [unwrap mbind res_bind].
      unfold vset. rewrite decide_True by lia. eexists. split; [done|]. rewrite insert_length. split; [done|].
      intros j. destruct (decide (j = k)) as [->|Hj].
      - rewrite list_lookup_insert by lia. rewrite <- Hd, Hl. done.
      - rewrite list_lookup_insert_ne by done. by rewrite Hd, app_nil_r. }
    revert Hnd. clear Hreach.
    assert (Hks' : forall ks, NoDup ks -> (forall k, k ∈ ks -> k < length L) -> forall rest L0, length L0 = length L ->
      exists L', rfold (lcc_push_line b) (ks ++ rest) L0 = rfold (lcc_push_line b) rest L' /\ length L' = length L /\
        forall k, default [] (L' !! k) = default [] (L0 !! k) ++ (if decide (k ∈ ks) then [b] else [])).
    { clear ks Hks. induction 1 as [|k ks Hk _ IH]; intros Hks rest L0 HL0.
      - exists L0. split; [done|]. split; [done|]. intros k. rewrite decide_False by apply not_elem_of_nil. by rewrite app_nil_r.
      - cbn [app rfold]. destruct (Hone L0 k) as (L1 & -> & Hlen & Hd); [specialize (Hks k); set_unfold; rewrite HL0; assert (k < length L) by tauto; lia|].
        cbn [mbind res_bind]. destruct (IH (fun x Hx => Hks x (elem_of_list_further _ _ _ Hx)) rest L1) as (L' & E & HL' & Hd').
        { rewrite Hlen, HL0. assert (k < length L) by (apply Hks; by left). lia. }
        exists L'. split; [done|]. split; [done|]. intros j. rewrite Hd', Hd, <- app_assoc. f_equal.
        destruct (decide (j = k)) as [->|Hj].
        + rewrite decide_False by done. rewrite decide_True by by left. done.
        + cbn [app]. apply decide_ext. set_solver. }
    intros (Hnd1 & Hdis & _)%NoDup_app. destruct (Hks' ks Hnd1 Hks (seq (length L) m) L eq_refl) as (L1 & -> & HL1 & Hd1).
    assert (Hseq : forall m a L0, length L0 = a ->
      exists L', rfold (lcc_push_line b) (seq a m) L0 = Ok L' /\ length L' = a + m /\
        forall k, default [] (L' !! k) = default [] (L0 !! k) ++ (if decide (k ∈ seq a m) then [b] else [])).
    { clear -Hone. induction m as [|m IH]; intros a L0 HL0; cbn [seq rfold].
      - exists L0. split; [done|]. split; [lia|]. intros k. rewrite decide_False by apply not_elem_of_nil. by rewrite app_nil_r.
      - destruct (Hone L0 a) as (L1 & -> & Hlen & Hd); [lia|]. cbn [mbind res_bind].
        destruct (IH (S a) L1) as (L' & E & HL' & Hd'); [lia|]. exists L'. split; [done|]. split; [lia|].
        intros j. rewrite Hd', Hd, <- app_assoc. f_equal. destruct (decide (j = a)) as [->|Hj].
        + rewrite decide_False by (rewrite elem_of_seq; lia). rewrite decide_True by by left. done.
        + cbn [app]. apply decide_ext. rewrite elem_of_cons. tauto. }
    destruct (Hseq m (length L) L1 HL1) as (L' & E & HL' & Hd'). exists L'. split; [done|]. split; [done|].
    intros k. rewrite Hd', Hd1, <- app_assoc. f_equal.
    destruct (decide (k ∈ ks)) as [Hk|Hk].
    - rewrite decide_False by (by apply Hdis). rewrite decide_True by (apply elem_of_app; by left). done.
    - cbn [app]. apply decide_ext. rewrite elem_of_app. tauto.
  Qed.

  Definition kf (f : gmap nat lpos) (p : nat) : nat := match f !! p with Some (LP [k] _) => k | _ => 0 end.
  Definition pf (f : gmap nat lpos) (p : nat) : nat := match f !! p with Some x => lp_pos x | None => 0 end.

  Lemma extend_ok f n b : let P := omap lk (ports g b Incoming) in
    (forall p, p ∈ P -> f !! p = Some (LP [kf f p] (pf f p)) /\ kf f p < n) ->
    (forall p p', p ∈ P -> p' ∈ P -> kf f p = kf f p' -> p = p') ->
    (forall p, p ∈ ports g b Outgoing -> f !! p = None) ->
    (forall p, p ∈ P -> p ∉ ports g b Outgoing) ->
    exists f' m position, let ls := map (kf f) P ++ seq n m in
      lcc_extend v (f, n) b = Ok (LP ls position, (f', n + m))
      /\ ls <> [] /\ NoDup ls
      /\ (forall p, p ∈ P -> pf f p < position)
      /\ (forall p, p ∈ P -> exists x, f' !! p = Some (LP [] x))
      /\ (forall p, p ∉ P -> p ∉ ports g b Outgoing -> f' !! p = f !! p)
      /\ (forall p, p ∈ ports g b Outgoing -> lk p = None -> f' !! p = None)
      /\ (forall p, p ∈ ports g b Outgoing -> is_Some (lk p) -> exists l j, f' !! p = Some (LP [l] position) /\ filter (fun p => is_Some (lk p)) (ports g b Outgoing) !! j = Some p /\ ls !! j = Some l)
      /\ (forall p p' l x x', p ∈ ports g b Outgoing -> p' ∈ ports g b Outgoing -> f' !! p = Some (LP [l] x) -> f' !! p' = Some (LP [l] x') -> p = p').
  Proof.
    intros P HP Hinj Hout Hdis. unfold lcc_extend. change (gv_ports (gv_of g)) with (ports g).
    destruct (prev_ok b Incoming) as (prev & Hprev & Ej).
    rewrite Hprev. cbn [mbind res_bind]. rewrite Ej. fold P.
    destruct (in_steps (kf f) (pf f) P (omap_lk_nd b Incoming) f [] None) as (f1 & mx & -> & H1 & H2 & H3 & _ & H5).
    { intros p Hp. by apply HP. }
    cbn [app mbind res_bind]. set (position := match mx with Some p => p + 1 | None => 0 end).
    assert (Hf1 : forall p, p ∈ ports g b Outgoing -> f1 !! p = None).
    { intros p Hp. rewrite H2; [by apply Hout|]. intros HpP. by apply (Hdis p). }
    destruct (out_steps b (length (map (kf f) P)) position (ports g b Outgoing) (ports_nd b Outgoing) (fun _ H => H) f1 n (map (kf f) P) 0 Hf1)
      as (f2 & n2 & ls & free & E & Hn & Hls & G1 & G2 & G3); [lia|lia|lia|].
    change (lcc_out_port (gv_of g)) with (lcc_out_port v). rewrite E. cbn [mbind res_bind].
    set (m0 := n2 - n) in *. assert (En : n2 = n + m0) by (unfold m0; lia).
    assert (Hndk : forall m, NoDup (map (kf f) P ++ seq n m)).
    { intros m. apply NoDup_app. split; [|split].
      - assert (HndP : NoDup P) by apply omap_lk_nd. revert HndP Hinj. clear. induction 1 as [|p P Hp _ IH]; intros Hinj; [apply NoDup_nil_2|].
        cbn. constructor.
        + rewrite elem_of_list_In, in_map_iff. intros (p' & E & Hp'%elem_of_list_In). apply Hp.
          rewrite (Hinj p p'); [done|by left|by right|done].
        + apply IH. intros x y Hx Hy. apply Hinj; by right.
      - intros k. rewrite elem_of_list_In, in_map_iff. intros (p' & <- & Hp'%elem_of_list_In). rewrite elem_of_seq.
        destruct (HP p' Hp'). lia.
      - apply NoDup_ListNoDup, seq_NoDup. }
    assert (Hpos : forall p, p ∈ P -> pf f p < position).
    { intros p Hp. destruct (H5 p Hp) as (y & -> & Hy). unfold position. lia. }
    exists f2, (if decide (ls = []) then m0 + 1 else m0), position. cbn zeta.
    assert (Els : map (kf f) P ++ seq n (if decide (ls = []) then m0 + 1 else m0) = if decide (ls = []) then [n] else ls).
    { destruct (decide (ls = [])) as [El|El]; [|done]. rewrite El in Hls. symmetry in Hls. apply app_eq_nil in Hls as [Hls1 Hls2].
      rewrite Hls1. destruct m0; [done|done]. }
    rewrite Els. split.
    { rewrite En. destruct (decide (ls = [])) as [El|El]; [|done]. rewrite El in Hls. symmetry in Hls. apply app_eq_nil in Hls as [_ Hls2].
      destruct m0; [|done]. replace (n + 0) with n by lia. done. }
    split; [by destruct (decide (ls = []))|]. split; [rewrite <- Els; apply Hndk|].
    split; [done|]. split.
    { intros p Hp. exists (pf f p). rewrite G1 by (by apply Hdis). by apply H1. }
    split; [intros p Hp1 Hp2; rewrite G1 by done; by apply H2|].
    split; [done|].
    assert (Hk : forall p, p ∈ ports g b Outgoing -> is_Some (lk p) -> exists j l, filter (fun p => is_Some (lk p)) (ports g b Outgoing) !! j = Some p /\ f2 !! p = Some (LP [l] position) /\ ls !! j = Some l).
    { intros p Hp Hl. assert (p ∈ filter (fun p => is_Some (lk p)) (ports g b Outgoing)) as [j Hj]%elem_of_list_lookup by (by apply elem_of_list_filter).
      destruct (G3 _ _ Hj) as (l & Hfl & Hlj). exists j, l. split; [done|]. split; [done|]. rewrite <- Hlj. f_equal. lia. }
    split.
    - intros p Hp Hl. destruct (Hk p Hp Hl) as (j & l & Hj & Hfl & Hlj). exists l, j. split; [done|]. split; [done|].
      rewrite decide_False by (intros ->; done). done.
    - intros p p' l x x' Hp Hp' E1 E2.
      assert (Hs : is_Some (lk p)). { destruct (lk p) eqn:El; [eauto|]. rewrite G2 in E1 by done. done. }
      assert (Hs' : is_Some (lk p')). { destruct (lk p') eqn:El; [eauto|]. rewrite (G2 p') in E2 by done. done. }
      destruct (Hk p Hp Hs) as (j & l1 & Hj & Hf & Hlj). destruct (Hk p' Hp' Hs') as (j' & l2 & Hj' & Hf' & Hlj').
      rewrite Hf in E1. rewrite Hf' in E2. injection E1 as -> _. injection E2 as -> _.
      assert (j = j') as ->; [|congruence]. apply (NoDup_lookup ls j j' l); [|done|done]. rewrite Hls. apply Hndk.
  Qed.

  (** The state after the nodes [D]. *)
  Section inv.
    Context (D : list nat) (f : gmap nat lpos) (n : nat) (pos : umap lpos) (lines : list (list nat)).
    Definition ln x := lp_lines (um_get pos x).
    Definition ps x := lp_pos (um_get pos x).
    Definition line k := default [] (lines !! k).
    (** Port [p], on side [d] of [x], is where line [k] passes. *)
    Definition port_ln x d p k := exists j, filter (fun p => is_Some (lk p)) (ports g x d) !! j = Some p /\ ln x !! j = Some k.
    Record LI : Prop := {
      li_len : length lines = n;
      li_dom : forall p x, f !! p = Some x -> exists a, a ∈ D /\ p ∈ ports g a Outgoing;
      li_pend : forall a p q b, a ∈ D -> p ∈ ports g a Outgoing -> lk p = Some q -> q ∈ ports g b Incoming -> b ∉ D ->
        exists k, f !! p = Some (LP [k] (ps a)) /\ port_ln a Outgoing p k /\ last (line k) = Some a;
      li_inj : forall p p' k x x', f !! p = Some (LP [k] x) -> f !! p' = Some (LP [k] x') -> p = p';
      li_small : forall p k x, f !! p = Some (LP [k] x) -> k < n;
      li_mem : forall k x, x ∈ line k <-> x ∈ D /\ k ∈ ln x;
      li_nd : forall x, x ∈ D -> NoDup (ln x) /\ ln x <> [];
      li_closed : forall a b, b ∈ D -> pedge g Outgoing a b -> a ∈ D;
      li_chain : forall k i x y, line k !! i = Some x -> line k !! S i = Some y -> pedge g Outgoing x y;
      li_edge : forall a b, a ∈ D -> b ∈ D -> pedge g Outgoing a b ->
        ps a < ps b /\ exists k i, line k !! i = Some a /\ line k !! S i = Some b;
      li_port : forall a b p q, a ∈ D -> b ∈ D -> p ∈ ports g a Outgoing -> lk p = Some q -> q ∈ ports g b Incoming ->
        exists k i, port_ln a Outgoing p k /\ port_ln b Incoming q k /\ line k !! i = Some a /\ line k !! S i = Some b;
    }.
  End inv.

  Lemma li_init : LI [] ∅ 0 (um_with_default lp_default) [].
  Proof.
    split; try done.
    all: try by intros *; rewrite lookup_empty.
    all: try by intros a ? ? ? ?%elem_of_nil.
    all: try by intros ? ?%elem_of_nil.
    - intros k x. unfold line. cbn. rewrite !elem_of_nil. tauto.
    - by intros a b ?%elem_of_nil.
    - by intros a b ?%elem_of_nil.
  Qed.
  Lemma port_ln_in pos x d p k : port_ln pos x d p k -> k ∈ ln pos x.
  Proof. intros (j & _ & Hj). by eapply elem_of_list_lookup_2. Qed.
  Lemma omap_filter (l : list nat) (j p : nat) : filter (fun p => is_Some (lk p)) l !! j = Some p -> omap lk l !! j = lk p.
  Proof.
    revert j. induction l as [|q l IH]; intros j; [done|]. cbn [omap list_omap]. destruct (lk q) as [r|] eqn:E.
    - rewrite filter_cons_True by (rewrite E; eauto). destruct j as [|j]; [by intros [= <-]|]. apply IH.
    - rewrite filter_cons_False by (rewrite E; by intros [? ?]). apply IH.
  Qed.
  Lemma add_ok D f n pos lines b : LI D f n pos lines -> b ∉ D -> (forall a, pedge g Outgoing a b -> a ∈ D) ->
    exists f' n' pos' lines', lcc_add v ((f, n), pos, lines) b = Ok ((f', n'), pos', lines') /\ LI (D ++ [b]) f' n' pos' lines'.
  Proof.
    intros L Hb Hpred. set (P := omap lk (ports g b Incoming)).
    assert (HP : forall p, p ∈ P -> exists a q, a ∈ D /\ p ∈ ports g a Outgoing /\ lk p = Some q /\ q ∈ ports g b Incoming /\ pedge g Outgoing a b).
    { intros p (q & Hq & E)%elem_of_list_omap. destruct (port_other _ _ _ _ Hq E) as [a Ha]. apply lk_sym in E.
      assert (pedge g Outgoing a b) as Hab. { exists p, q. split; [done|]. split; [by apply lk_linked|done]. }
      exists a, q. split; [by apply Hpred|done]. }
    assert (Hpk : forall p, p ∈ P -> exists a, a ∈ D /\ p ∈ ports g a Outgoing /\ pedge g Outgoing a b /\ f !! p = Some (LP [kf f p] (ps pos a)) /\ pf f p = ps pos a /\ port_ln pos a Outgoing p (kf f p)
        /\ last (line lines (kf f p)) = Some a).
    { intros p Hp. destruct (HP p Hp) as (a & q & Ha & Hpa & Hl & Hq & Hab). destruct (li_pend _ _ _ _ _ L a p q b) as (k & Hf & Hk & Hlast); try done.
      exists a. unfold kf, pf. rewrite Hf. done. }
    destruct (extend_ok f n b) as (f' & m & position & Hext & Hne & Hnd & Hpos & F1 & F2 & F3 & F4 & F5).
    { intros p Hp. destruct (Hpk p Hp) as (a & _ & _ & _ & E & E' & _). split; [by rewrite E'|]. by eapply (li_small _ _ _ _ _ L). }
    { intros p p' Hp Hp' E. destruct (Hpk p Hp) as (a & _ & _ & _ & E1 & _). destruct (Hpk p' Hp') as (a' & _ & _ & _ & E2 & _).
      rewrite <- E in E2. by eapply (li_inj _ _ _ _ _ L). }
    { intros p Hp. destruct (f !! p) as [x|] eqn:E; [|done]. destruct (li_dom _ _ _ _ _ L _ _ E) as (a & Ha & Hpa).
      destruct (ports_own _ _ _ _ _ Hp Hpa) as [-> _]. done. }
    { intros p Hp Hpb. destruct (Hpk p Hp) as (a & Ha & Hpa & _). destruct (ports_own _ _ _ _ _ Hpb Hpa) as [-> _]. done. }
    fold P in Hext, Hne, Hnd, Hpos, F1, F2. set (ls := map (kf f) P ++ seq n m) in *.
    assert (Hn : length lines = n) by apply L.
    destruct (push_lines b (map (kf f) P) m lines) as (lines' & Hpush & Hlen & Hline).
    { by rewrite Hn. }
    { intros k. rewrite elem_of_list_In, in_map_iff, Hn. intros (p & <- & Hp%elem_of_list_In).
      destruct (Hpk p Hp) as (a & _ & _ & _ & E & _). by eapply (li_small _ _ _ _ _ L). }
    rewrite Hn in Hpush, Hlen, Hline. fold ls in Hpush, Hline.
    destruct (um_set_ok pos b (LP ls position)) as (pos' & Hset & _ & Hget).
    exists f', (n + m), pos', lines'. split.
    { unfold lcc_add. rewrite Hext. cbn [mbind res_bind lp_lines]. rewrite Hpush. cbn [mbind res_bind]. rewrite Hset. done. }
    assert (Hln : forall x, ln pos' x = if decide (x = b) then ls else ln pos x).
    { intros x. unfold ln. rewrite Hget. by destruct (decide (x = b)). }
    assert (Hpl : forall x d p k, x <> b -> port_ln pos' x d p k <-> port_ln pos x d p k).
    { intros x d p k Hx. unfold port_ln. rewrite Hln, decide_False by done. done. }
    assert (Hps : forall x, ps pos' x = if decide (x = b) then position else ps pos x).
    { intros x. unfold ps. rewrite Hget. by destruct (decide (x = b)). }
    assert (HDb : forall x, x ∈ D -> x <> b) by (intros x Hx ->; done).
    assert (Hls : forall k, k ∈ ls <-> (exists p, p ∈ P /\ k = kf f p) \/ n <= k < n + m).
    { intros k. unfold ls. rewrite elem_of_app, elem_of_seq, elem_of_list_In, in_map_iff. setoid_rewrite <- elem_of_list_In. naive_solver. }
    assert (Hsm : forall k x, k ∈ ln pos x -> x ∈ D -> k < n).
    { intros k x Hk Hx. assert (x ∈ line lines k) as Hin by (by apply (li_mem _ _ _ _ _ L)). unfold line in Hin.
      destruct (lines !! k) eqn:E; [|by apply elem_of_nil in Hin]. apply lookup_lt_Some in E. lia. }
    assert (HPo : forall p, p ∈ ports g b Outgoing -> p ∉ P).
    { intros p Hpb Hp. destruct (Hpk p Hp) as (a & Ha & Hpa & _). destruct (ports_own _ _ _ _ _ Hpb Hpa) as [-> _]. done. }
    (* entries of the old frontier whose line is not popped *)
    assert (Hold : forall p k x, f !! p = Some (LP [k] x) -> p ∉ P -> k ∉ ls).
    { intros p k x E Hp [(p' & Hp' & ->)|Hk]%Hls.
      - destruct (Hpk p' Hp') as (a & _ & _ & _ & E' & _). rewrite (li_inj _ _ _ _ _ L _ _ _ _ _ E E') in Hp. done.
      - pose proof (li_small _ _ _ _ _ L _ _ _ E). lia. }
    fold (line lines') in Hline.
    assert (Hline' : forall k, line lines' k = line lines k ++ (if decide (k ∈ ls) then [b] else [])) by exact Hline. clear Hline.
    assert (Hlast : forall k, k ∈ ls -> last (line lines' k) = Some b).
    { intros k Hk. rewrite Hline', decide_True by done. by rewrite last_app. }
    assert (Hnew : forall k, n <= k -> line lines k = []).
    { intros k Hk. unfold line. by rewrite lookup_ge_None_2 by lia. }
    split.
    - lia.
    - intros p x E. destruct (decide (p ∈ P)) as [Hp|Hp].
      { destruct (Hpk p Hp) as (a & Ha & Hpa & _). exists a. split; [set_solver|done]. }
      destruct (decide (p ∈ ports g b Outgoing)) as [Ho|Ho]; [exists b; split; [set_solver|done]|].
      rewrite F2 in E by done. destruct (li_dom _ _ _ _ _ L _ _ E) as (a & Ha & ?). exists a. split; [set_solver|done].
    - intros a p q c Ha Hp Hl Hq Hc. apply not_elem_of_app in Hc as [Hc Hcb]. rewrite elem_of_list_singleton in Hcb.
      apply elem_of_app in Ha as [Ha| ->%elem_of_list_singleton].
      + destruct (li_pend _ _ _ _ _ L a p q c) as (k & E & Hk & Hla); try done.
        assert (HpP : p ∉ P).
        { intros (q' & Hq' & E')%elem_of_list_omap. apply lk_sym in E'. rewrite Hl in E'. injection E' as <-.
          by destruct (ports_own _ _ _ _ _ Hq Hq'). }
        assert (Hpo : p ∉ ports g b Outgoing).
        { intros Hpb. destruct (ports_own _ _ _ _ _ Hp Hpb) as [-> _]. done. }
        exists k. rewrite F2 by done. rewrite Hps, Hpl by (by apply HDb). rewrite !decide_False by (by apply HDb). split; [done|]. split; [done|].
        rewrite Hline', decide_False by (by eapply Hold). by rewrite app_nil_r.
      + destruct (F4 p Hp) as (l & j & E & Hj & Hll); [eauto|]. exists l. rewrite Hps, !decide_True by done. split; [done|]. split.
        * exists j. rewrite Hln, decide_True by done. done.
        * apply Hlast. by eapply elem_of_list_lookup_2.
    - intros p p' k x x' E E'.
      assert (Hcase : forall p x, f' !! p = Some (LP [k] x) -> (p ∈ ports g b Outgoing /\ k ∈ ls) \/ (p ∉ ports g b Outgoing /\ p ∉ P /\ f !! p = Some (LP [k] x))).
      { clear E E'. intros r y E. destruct (decide (r ∈ ports g b Outgoing)) as [Ho|Ho].
        - left. split; [done|]. destruct (lk r) eqn:El; [|by rewrite F3 in E]. destruct (F4 r Ho) as (l & j & E' & _ & Hll); [by rewrite El; eauto|].
          assert (l = k) as -> by congruence. by eapply elem_of_list_lookup_2.
        - right. destruct (decide (r ∈ P)) as [Hr|Hr]; [destruct (F1 r Hr) as (z & Ez); congruence|]. rewrite F2 in E by done. done. }
      destruct (Hcase _ _ E) as [[Ho Hk]|(Ho & Hp & E1)]; destruct (Hcase _ _ E') as [[Ho' Hk']|(Ho' & Hp' & E1')].
      + by eapply F5.
      + exfalso. by apply (Hold _ _ _ E1' Hp').
      + exfalso. by apply (Hold _ _ _ E1 Hp).
      + by eapply (li_inj _ _ _ _ _ L).
    - intros p k x E. destruct (decide (p ∈ ports g b Outgoing)) as [Ho|Ho].
      + destruct (lk p) eqn:El; [|by rewrite F3 in E]. destruct (F4 p Ho) as (l & j & E' & _ & Hll%elem_of_list_lookup_2); [by rewrite El; eauto|].
        rewrite E in E'. injection E' as -> _. apply Hls in Hll as [(p' & Hp' & ->)|?]; [|lia].
        destruct (Hpk p' Hp') as (a & _ & _ & _ & Ea & _). apply (li_small _ _ _ _ _ L) in Ea. lia.
      + destruct (decide (p ∈ P)) as [Hr|Hr]; [destruct (F1 p Hr) as (z & Ez); congruence|]. rewrite F2 in E by done.
        apply (li_small _ _ _ _ _ L) in E. lia.
    - intros k x. rewrite Hline', elem_of_app, (li_mem _ _ _ _ _ L), Hln, elem_of_app, elem_of_list_singleton.
      destruct (decide (x = b)) as [->|Hx].
      + destruct (decide (k ∈ ls)); [rewrite elem_of_list_singleton; tauto|]. rewrite elem_of_nil. tauto.
      + destruct (decide (k ∈ ls)); [rewrite elem_of_list_singleton; tauto|]. rewrite elem_of_nil. tauto.
    - intros x [Hx| ->%elem_of_list_singleton]%elem_of_app; rewrite Hln.
      + rewrite decide_False by (by apply HDb). by apply (li_nd _ _ _ _ _ L).
      + by rewrite decide_True.
    - intros a c [Hc| ->%elem_of_list_singleton]%elem_of_app Hac; apply elem_of_app; left; [by apply (li_closed _ _ _ _ _ L a c)|by apply Hpred].
    - intros k i x y. rewrite Hline'. destruct (decide (k ∈ ls)) as [Hk|Hk]; [|rewrite app_nil_r; apply (li_chain _ _ _ _ _ L)].
      intros E1 E2. destruct (decide (S i < length (line lines k))) as [Hi|Hi].
      { rewrite lookup_app_l in E1 by lia. rewrite lookup_app_l in E2 by lia. by eapply (li_chain _ _ _ _ _ L). }
      assert (Hi' : S i = length (line lines k)).
      { pose proof (lookup_lt_Some _ _ _ E2) as H. rewrite app_length in H. cbn in H. lia. }
      rewrite Hi', list_lookup_middle in E2 by done. injection E2 as <-.
      rewrite lookup_app_l in E1 by lia.
      apply Hls in Hk as [(p & Hp & ->)|Hk]; [|rewrite Hnew in Hi' by lia; done].
      destruct (Hpk p Hp) as (a & _ & _ & Hab & _ & _ & _ & Hla). rewrite last_lookup, <- Hi' in Hla. cbn in Hla. rewrite Hla in E1. by injection E1 as <-.
    - intros a c Ha Hc Hac.
      assert (Hca : a ∈ D -> c ∈ D -> ps pos' a < ps pos' c /\ exists k i, line lines' k !! i = Some a /\ line lines' k !! S i = Some c).
      { intros Ha' Hc'. rewrite !Hps, !decide_False by (by apply HDb). destruct (li_edge _ _ _ _ _ L a c) as [? (k & i & E1 & E2)]; try done.
        split; [done|]. exists k, i. rewrite Hline'. split; by apply lookup_app_l_Some. }
      apply elem_of_app in Ha as [Ha|Hab%elem_of_list_singleton].
      + apply elem_of_app in Hc as [Hc|Hcb%elem_of_list_singleton]; [by apply Hca|]. subst c.
        destruct Hac as (p & q & Hp & Hl%lk_linked & Hq).
        assert (HpP : p ∈ P). { apply elem_of_list_omap. exists q. split; [done|]. by apply lk_sym. }
        destruct (Hpk p HpP) as (a' & _ & Hpa' & _ & E & Epf & _ & Hla). destruct (ports_own _ _ _ _ _ Hp Hpa') as [<- _].
        specialize (Hpos p HpP). rewrite !Hps, (decide_False (P := a = b)) by (by apply HDb). rewrite decide_True by done. split; [lia|].
        exists (kf f p), (length (line lines (kf f p)) - 1).
        assert (Hkl : kf f p ∈ ls) by (apply Hls; left; by exists p).
        rewrite last_lookup in Hla. pose proof (lookup_lt_Some _ _ _ Hla) as Hlen'. rewrite Hline', decide_True by done.
        replace (length (line lines (kf f p)) - 1) with (pred (length (line lines (kf f p)))) by lia. split; [by apply lookup_app_l_Some|].
        apply list_lookup_middle. lia.
      + subst a. exfalso. apply elem_of_app in Hc as [Hc|Hcb%elem_of_list_singleton].
        * apply Hb. by apply (li_closed _ _ _ _ _ L b c).
        * subst c. by apply Hb, Hpred.
    - intros a c p q Ha Hc Hp Hl Hq.
      assert (Hac : pedge g Outgoing a c) by (exists p, q; split; [done|]; split; [by apply lk_linked|done]).
      apply elem_of_app in Ha as [Ha|Hab%elem_of_list_singleton].
      + apply elem_of_app in Hc as [Hc|Hcb%elem_of_list_singleton].
        * destruct (li_port _ _ _ _ _ L a c p q) as (k & i & E1 & E2 & E3 & E4); try done. exists k, i.
          rewrite !Hpl by (by apply HDb). rewrite Hline'. split; [done|]. split; [done|]. split; by apply lookup_app_l_Some.
        * subst c.
          assert (HpP : p ∈ P). { apply elem_of_list_omap. exists q. split; [done|]. by apply lk_sym. }
          destruct (Hpk p HpP) as (a' & _ & Hpa' & _ & E & Epf & Hpln & Hla). destruct (ports_own _ _ _ _ _ Hp Hpa') as [<- _].
          assert (Hkl : kf f p ∈ ls) by (apply Hls; left; by exists p).
          exists (kf f p), (length (line lines (kf f p)) - 1). rewrite Hpl by (by apply HDb). split; [done|]. split.
          -- assert (q ∈ filter (fun p => is_Some (lk p)) (ports g b Incoming)) as [j Hj]%elem_of_list_lookup.
             { apply elem_of_list_filter. split; [|done]. exists p. by apply lk_sym. }
             exists j. split; [done|]. rewrite Hln, decide_True by done. unfold ls.
             assert (HPj : P !! j = Some p). { unfold P. rewrite (omap_filter _ _ _ Hj). by apply lk_sym. }
             apply lookup_app_l_Some. change (map (kf f) P) with (kf f <$> P). by rewrite list_lookup_fmap, HPj.
          -- rewrite last_lookup in Hla. pose proof (lookup_lt_Some _ _ _ Hla) as Hlen'. rewrite Hline', decide_True by done.
             replace (length (line lines (kf f p)) - 1) with (pred (length (line lines (kf f p)))) by lia. split; [by apply lookup_app_l_Some|].
             apply list_lookup_middle. lia.
      + subst a. exfalso. apply elem_of_app in Hc as [Hc|Hcb%elem_of_list_singleton].
        * apply Hb. by apply (li_closed _ _ _ _ _ L b c).
        * subst c. by apply Hb, Hpred.
  Qed.

  Context (Hac : pacyclic g).
  (** What the queries need of a checker. *)
  Record lgood (c : lcc) : Prop := {
    lg_mem : forall k x, x ∈ line (lc_lines c) k <-> contains_node g x = true /\ k ∈ get_lines c x;
    lg_nd : forall x, contains_node g x = true -> NoDup (get_lines c x) /\ get_lines c x <> [];
    lg_chain : forall k i x y, line (lc_lines c) k !! i = Some x -> line (lc_lines c) k !! S i = Some y -> pedge g Outgoing x y;
    lg_pos : forall a b, pedge g Outgoing a b -> get_position c a < get_position c b;
    lg_edge : forall a b, pedge g Outgoing a b -> exists k i, line (lc_lines c) k !! i = Some a /\ line (lc_lines c) k !! S i = Some b;
    lg_port : forall a b p q, p ∈ ports g a Outgoing -> linked g p q -> q ∈ ports g b Incoming ->
      exists k i, port_ln (lc_pos c) a Outgoing p k /\ port_ln (lc_pos c) b Incoming q k /\ line (lc_lines c) k !! i = Some a /\ line (lc_lines c) k !! S i = Some b;
  }.
  Lemma lcc_new_ok : exists c N, lgood c /\ forall fuel, N < fuel -> lcc_new (gv_of g) (neighbours g) fuel = HOk c.
  Proof.
    destruct (cc_topsort_ok w g Hreach Hac) as (l & Hrun & Hnd & Hall & Hord).
    assert (Hfold : forall R D, l = D ++ R -> forall f n pos lines, LI D f n pos lines ->
      exists f' n' pos' lines', rfold (lcc_add v) R ((f, n), pos, lines) = Ok ((f', n'), pos', lines') /\ LI l f' n' pos' lines').
    { induction R as [|b R IH]; intros D El f n pos lines L.
      - rewrite app_nil_r in El. subst D. exists f, n, pos, lines. done.
      - destruct (add_ok D f n pos lines b L) as (f1 & n1 & pos1 & lines1 & E & L1).
        + rewrite El in Hnd. apply NoDup_app in Hnd as (_ & H & _). intros Hb. apply (H b Hb). by left.
        + intros a Hab. destruct (Hord _ _ Hab) as (i & j & Hij & Hi & Hj).
          assert (l !! length D = Some b) as Hb by (rewrite El; by apply list_lookup_middle).
          assert (j = length D) as -> by exact (NoDup_lookup _ _ _ _ Hnd Hj Hb).
          rewrite El, lookup_app_l in Hi by lia. by eapply elem_of_list_lookup_2.
        + cbn [rfold]. rewrite E. cbn [mbind res_bind]. apply (IH (D ++ [b])); [by rewrite <- app_assoc|done]. }
    destruct (Hfold l [] eq_refl _ _ _ _ li_init) as (f & n & pos & lines & E & L).
    exists (LCC pos lines), (length l). split.
    - destruct (reach_inv _ _ Hreach) as (fnl & F & I).
      assert (Hin : forall a b, pedge g Outgoing a b -> a ∈ l /\ b ∈ l).
      { intros a b Hab. destruct (pedge_nodes g fnl F I _ _ _ Hab) as [Ha Hb]. split; apply Hall; by apply nodes_iter_elem. }
      split.
      + intros k x. rewrite <- Hall. apply (li_mem _ _ _ _ _ L).
      + intros x Hx%Hall. by apply (li_nd _ _ _ _ _ L).
      + apply (li_chain _ _ _ _ _ L).
      + intros a b Hab. destruct (Hin _ _ Hab). by apply (li_edge _ _ _ _ _ L).
      + intros a b Hab. destruct (Hin _ _ Hab). by apply (li_edge _ _ _ _ _ L).
      + intros a b p q Hp Hl Hq. destruct (Hin a b) as [Ha Hb]; [by exists p, q|]. apply lk_linked in Hl. by apply (li_port _ _ _ _ _ L a b p q).
    - intros fuel Hf. unfold lcc_new. rewrite Hrun by done. cbn [mbind hres_bind]. rewrite E. done.
  Qed.
End build.
