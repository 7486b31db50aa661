(** Dominators of a [PortGraph]. *)
From Verif Require Export DomProofs.

Lemma um_set_ok {V} (m : umap V) k x : exists m', um_set m k x = Ok m' /\ um_default m' = um_default m /\
  forall y, um_get m' y = if decide (y = k) then x else um_get m y.
Proof.
  unfold um_set. destruct (um_get_mut_get m k) as (H1 & H2 & H3 & _). rewrite um_write_ok by done.
  eexists. split; [done|]. split; [done|]. intros y. rewrite um_insert_get by done. by rewrite H1.
Qed.

(** Later nodes of the post-order that lead to a node. *)
Lemma dfs_parent next V ns o V' : dfs next V ns o V' -> forall x, x ∈ o -> x ∈ ns \/ exists u, before o x u /\ x ∈ next u.
Proof.
  assert (Bl : forall o1 o2 a b, before o1 a b -> before (o1 ++ o2) a b).
  { intros o1 o2 a b (i & j & ? & Hi & Hj). exists i, j. split; [done|]. split; by apply lookup_app_l_Some. }
  assert (Br : forall o1 o2 a b, before o2 a b -> before (o1 ++ o2) a b).
  { intros o1 o2 a b (i & j & ? & Hi & Hj). exists (length o1 + i), (length o1 + j). split; [lia|].
    split; rewrite lookup_app_r by lia; rewrite <- ?Hi, <- ?Hj; f_equal; lia. }
  assert (Bx : forall o1 o2 a b, a ∈ o1 -> b ∈ o2 -> before (o1 ++ o2) a b).
  { intros o1 o2 a b [i Hi]%elem_of_list_lookup [j Hj]%elem_of_list_lookup. exists i, (length o1 + j).
    pose proof (lookup_lt_Some _ _ _ Hi). split; [lia|]. split; [by apply lookup_app_l_Some|].
    rewrite lookup_app_r by lia. rewrite <- Hj. f_equal. lia. }
  induction 1 as [V|V n ns o V' Hn _ IH|V n ns o1 V1 o2 V2 Hn H1 IH1 H2 IH2]; intros x Hx.
  - by apply elem_of_nil in Hx.
  - destruct (IH x Hx) as [?|?]; [left; by right|by right].
  - apply elem_of_app in Hx as [Hx|[->|Hx]%elem_of_cons].
    + right. destruct (IH1 x Hx) as [Hx'|(u & ? & ?)].
      * exists n. split; [|done]. apply Bx; [done|by left].
      * exists u. split; [|done]. by apply Bl.
    + left. by left.
    + destruct (IH2 x Hx) as [Hx'|(u & ? & ?)]; [left; by right|]. right. exists u. split; [|done].
      apply Br. change (n :: o2) with ([n] ++ o2). by apply Br.
Qed.

Section pgdom.
  Context (g : pg) (fnl : list nat) (F : nat -> list nat) (I : InvG g fnl F).
  Context (d : dir) (nf : nat -> bool) (pf : nat -> nat -> bool) (entry : nat).
  Context (l : list nat) (V : gset nat) (Hd : dfs (fnext g d nf pf) ∅ [entry] l V) (Hnf : nf entry = true).
  Notation fedge := (fedge g d nf pf).
  Notation bedge := (bedge g d nf pf).

  Lemma dl_nd : NoDup l.
  Proof. by destruct (dfs_set _ _ _ _ _ Hd) as (_ & _ & H & _). Qed.
  Lemma dl_last : exists o, l = o ++ [entry].
  Proof.
    inversion Hd as [|? ? ? ? ? Hin|? ? ? o1 V1 o2 V2 Hn H1 H2]; subst; [set_solver|]. inversion H2; subst. by exists o1.
  Qed.
  Lemma dl_closed u x : u ∈ l -> fedge u x -> x ∈ l.
  Proof.
    intros Hu Hx. destruct (dfs_set _ _ _ _ _ Hd) as (S1 & _).
    assert (x ∈ V) as [?|?]%S1 by (eapply dfs_closed; [exact Hd|exact Hu|]; by apply (elem_fnext g fnl F I)); [set_solver|done].
  Qed.
  Lemma dl_entry : entry ∈ l.
  Proof. destruct dl_last as [o ->]. set_solver. Qed.
  Lemma dl_nf x : x ∈ l -> nf x = true.
  Proof.
    intros Hx. destruct (dfs_parent _ _ _ _ _ Hd x Hx) as [->%elem_of_list_singleton|(u & _ & Hu)]; [done|].
    apply (elem_fnext g fnl F I) in Hu. by destruct Hu as (p & q & _ & _ & ? & _).
  Qed.
  Lemma fedge_iff u x : u ∈ l -> x ∈ l -> fedge u x <-> bedge u x.
  Proof.
    intros Hu%dl_nf Hx%dl_nf. unfold AlgSpec.fedge, AlgSpec.bedge. split; intros (p & q & ? & ? & ? & ?); exists p, q; by split_and!.
  Qed.
  Lemma dl_reach x : x ∈ l <-> rtc fedge entry x.
  Proof.
    split.
    - intros Hx. destruct (dfs_reach _ _ _ _ _ Hd x Hx) as (s & ->%elem_of_list_singleton & Hr).
      eapply rtc_subrel; [|exact Hr]. intros a b Hab. by apply (elem_fnext g fnl F I).
    - intros Hr. apply (rtc_ind_r (R := fedge) (fun x => x ∈ l) entry); [apply dl_entry| |done].
      intros b c _ Hbc Hb. by eapply dl_closed.
  Qed.

  (** The index map. *)
  Lemma nti_ok : exists m, rfold (fun m x => um_set m x.2 x.1) (enumerate l) (um_with_default 0) = Ok m /\
    (forall i x, l !! i = Some x -> um_get m x = i) /\ (forall x, x ∉ l -> um_get m x = 0).
  Proof.
    assert (H : forall k l' m, (forall x, x ∉ l' -> um_default m = 0 ) -> NoDup l' -> um_default m = 0 ->
      exists m', rfold (fun m x => um_set m x.2 x.1) (imap (fun i x => (k + i, x)) l') m = Ok m' /\
        (forall i x, l' !! i = Some x -> um_get m' x = k + i) /\ (forall x, x ∉ l' -> um_get m' x = um_get m x)).
    { intros k l'. revert k. induction l' as [|a l' IH]; intros k m Hm Hnd Hdm.
      - exists m. split; [done|]. split; [done|]. done.
      - cbn [imap rfold fst snd]. destruct (um_set_ok m a (k + 0)) as (m1 & -> & Hdef & Hget). cbn [mbind res_bind].
        apply NoDup_cons in Hnd as [Ha Hnd]. destruct (IH (S k) m1) as (m' & Hr & H1 & H2); [congruence|done|congruence|].
        exists m'. split; [|split].
        + rewrite <- Hr. f_equal. apply imap_ext. intros i x _. cbn. f_equal. lia.
        + intros [|i] x; cbn; [|intros Hx; rewrite (H1 _ _ Hx); lia]. intros [= ->]. rewrite H2 by done. rewrite Hget.
          by rewrite decide_True.
        + intros x Hx. rewrite H2 by set_solver. rewrite Hget. rewrite decide_False by set_solver. done. }
    destruct (H 0 l (um_with_default 0)) as (m & Hr & H1 & H2); [done|apply dl_nd|done|].
    exists m. split; [exact Hr|]. split; [exact H1|]. intros x Hx. by rewrite H2.
  Qed.

  Context (nti : umap nat) (Hnti1 : forall i x, l !! i = Some x -> um_get nti x = i) (Hnti2 : forall x, x ∉ l -> um_get nti x = 0).
  Definition pred_at (node port : nat) : option nat :=
    match port_link g port with
    | Ok (Some link) => match port_node g link with
                        | Some pred => if pf node port && nf pred && pf pred link then Some (um_get nti pred) else None
                        | None => None
                        end
    | _ => None
    end.
  Definition preds (i : nat) : list nat :=
    match l !! i with Some node => omap (pred_at node) (ports g node (rev_dir d)) | None => [] end.
  Definition rr : nat := length l - 1.

  Lemma rr_len : length l = S rr.
  Proof. destruct dl_last as [o E]. unfold rr. rewrite E, app_length. cbn. lia. Qed.
  Lemma nti_le x : um_get nti x <= rr.
  Proof.
    destruct (decide (x ∈ l)) as [Hx|Hx]; [|rewrite Hnti2 by done; lia].
    apply elem_of_list_lookup in Hx as [i Hi]. rewrite (Hnti1 _ _ Hi). apply lookup_lt_Some in Hi. rewrite rr_len in Hi. lia.
  Qed.
  Lemma elem_preds i j : j ∈ preds i <-> exists x u, l !! i = Some x /\ bedge u x /\ um_get nti u = j.
  Proof.
    unfold preds. destruct (l !! i) as [x|] eqn:Ex; [|split; [by intros ?%elem_of_nil|by intros (? & ? & ? & _)]].
    rewrite elem_of_list_omap. split.
    - intros (q & Hq & Hj). unfold pred_at in Hj. destruct (port_link g q) as [[p|]|] eqn:Hl; [|done|done].
      destruct (port_node g p) as [u|] eqn:Hp; [|done].
      destruct (pf x q && nf u && pf u p) eqn:Hb; [|done]. injection Hj as <-.
      apply andb_true_iff in Hb as [[Hb1 Hb2]%andb_true_iff Hb3]. exists x, u. split; [done|]. split; [|done].
      exists p, q. split; [|done].
      destruct (wf_sym _ (gv_wf g fnl F I) q p x (rev_dir d) Hq) as [Hs [m' Hm']]; [by apply (glk_iff _ _ _ I)|].
      apply (glk_iff _ _ _ I) in Hs. rewrite rev_dir_invol in Hm'. cbn [gv_of gv_ports] in Hm'.
      apply port_node_iff in Hp as [d' Hp]. pose proof (proj1 (elem_ports _ _ _ I _ _ _) Hm') as H2. rewrite Hp in H2. injection H2 as -> ->.
      split; [done|]. split; [done|]. done.
    - intros (x' & u & [= <-] & (p & q & (Hp & Hl & Hq) & H1 & H2 & H3) & <-). exists q. split; [done|]. unfold pred_at.
      destruct (wf_sym _ (gv_wf g fnl F I) p q u d Hp) as [Hs _]; [by apply (glk_iff _ _ _ I)|].
      apply (glk_iff _ _ _ I) in Hs. unfold linked in Hs. rewrite Hs.
      assert (port_node g p = Some u) as ->.
      { apply port_node_iff. eexists. by apply (elem_ports _ _ _ I). }
      by rewrite H1, H2, H3.
  Qed.
  Lemma preds_le i p : p ∈ preds i -> i <= rr /\ p <= rr.
  Proof.
    intros (x & u & Hx & _ & <-)%elem_preds. split; [|apply nti_le]. apply lookup_lt_Some in Hx. rewrite rr_len in Hx. lia.
  Qed.
  Lemma preds_up i : i < rr -> exists p, p ∈ preds i /\ i < p.
  Proof.
    intros Hi. destruct (lookup_lt_is_Some_2 l i) as [x Hx]; [rewrite rr_len; lia|].
    destruct (dfs_parent _ _ _ _ _ Hd x) as [->%elem_of_list_singleton|(u & (i' & j & Hij & Hi' & Hj) & Hu)]; [by eapply elem_of_list_lookup_2| |].
    - destruct dl_last as [o E]. pose proof rr_len as Hr. assert (Hlast : l !! rr = Some entry).
      { rewrite E in *. rewrite app_length in Hr. cbn in Hr. rewrite lookup_app_r by lia. replace (rr - length o) with 0 by lia. done. }
      pose proof (NoDup_lookup _ _ _ _ dl_nd Hx Hlast). lia.
    - assert (i' = i) as -> by exact (NoDup_lookup _ _ _ _ dl_nd Hi' Hx). exists j. split; [|done]. apply elem_preds. exists x, u.
      split; [done|]. split; [|by apply Hnti1]. apply fedge_iff; [by eapply elem_of_list_lookup_2|by eapply elem_of_list_lookup_2|].
      by apply (elem_fnext g fnl F I).
  Qed.
  Lemma preds_code i node doms f lo : l !! i = Some node -> i < rr -> repr rr doms f lo ->
    dom_preds (gv_of g) nf pf nti doms node (gv_ports (gv_of g) node (rev_dir d)) = Ok (filter (fun p => lo <= p) (preds i)).
  Proof.
    intros Hn Hi (_ & _ & HD). unfold preds. rewrite Hn. cbn [gv_of gv_ports].
    assert (H : forall ps, (forall p, p ∈ ps -> p ∈ ports g node (rev_dir d)) ->
      dom_preds (gv_of g) nf pf nti doms node ps = Ok (filter (fun p => lo <= p) (omap (pred_at node) ps))); [|by apply H].
    induction ps as [|q ps IH]; intros Hps; [done|]. cbn [dom_preds].
    rewrite IH by set_solver.
    assert (Hq : q ∈ ports g node (rev_dir d)) by (apply Hps; left).
    pose proof (proj1 (elem_ports _ _ _ I _ _ _) Hq) as Hqm.
    assert (Hpa : pred_at node q = match plink g q with
      | Some p => match port_node g p with
                  | Some u => if pf node q && nf u && pf u p then Some (um_get nti u) else None
                  | None => None
                  end
      | None => None
      end) by (unfold pred_at; by rewrite (port_link_eq _ _ _ I), Hqm).
    assert (Hom : omap (pred_at node) (q :: ps) =
      match pred_at node q with Some i => i :: omap (pred_at node) ps | None => omap (pred_at node) ps end) by done.
    rewrite Hom, Hpa. clear Hom Hpa. rewrite (gv_link_eq _ _ _ I), (port_link_eq _ _ _ I), Hqm.
    cbn [mbind res_bind]. destruct (plink g q) as [p|] eqn:Hl; [|by destruct (pf node q)].
    cbn [gv_of gv_node]. destruct (port_node g p) as [u|]; [|by destruct (pf node q)].
    destruct (pf node q); [|done]. cbn [andb]. destruct (nf u && pf u p); [|done].
    rewrite (vget_ok _ _ _ (HD _ (nti_le u))). cbn [mbind res_bind]. rewrite filter_cons.
    destruct (decide (lo <= um_get nti u)); done.
  Qed.

  (** The relation whose dominators are computed: an accepted link from an
      unreachable node counts as one from the first node of the post-order. *)
  Definition dedge (u x : nat) : Prop :=
    x ∈ l /\ (u ∈ l /\ bedge u x \/ (exists z, z ∉ l /\ bedge z x) /\ head l = Some u).

  Lemma dedge_idx i j x u : l !! i = Some x -> l !! j = Some u -> j ∈ preds i <-> dedge u x.
  Proof.
    intros Hx Hu. rewrite elem_preds. split.
    - intros (x' & z & Hx' & Hz & Hj). assert (x' = x) as -> by congruence. split; [by eapply elem_of_list_lookup_2|].
      destruct (decide (z ∈ l)) as [Hzl|Hzl].
      + left. apply elem_of_list_lookup in Hzl as [k Hk]. rewrite (Hnti1 _ _ Hk) in Hj. subst k.
        assert (z = u) as -> by congruence. split; [by eapply elem_of_list_lookup_2|done].
      + right. split; [by exists z|]. rewrite Hnti2 in Hj by done. subst j. by destruct l.
    - intros [_ [[Hul Hb]|[(z & Hz & Hb) Hh]]].
      + exists x, u. split; [done|]. split; [done|]. by apply Hnti1.
      + exists x, z. split; [done|]. split; [done|]. rewrite Hnti2 by done.
        assert (H0 : l !! 0 = Some u) by (by destruct l). exact (NoDup_lookup _ _ _ _ dl_nd H0 Hu).
  Qed.

  Lemma last_rr : l !! rr = Some entry.
  Proof.
    destruct dl_last as [o E]. pose proof rr_len as Hr. rewrite E in *. rewrite app_length in Hr. cbn in Hr.
    rewrite lookup_app_r by lia. replace (rr - length o) with 0 by lia. done.
  Qed.
  Lemma walk_in x w : walk dedge entry x w -> x ∈ l /\ forall y, y ∈ w -> y ∈ l.
  Proof.
    induction 1 as [|b c w _ [_ IH] [Hc _]].
    - split; [apply dl_entry|]. intros y ->%elem_of_list_singleton. apply dl_entry.
    - split; [done|]. intros y [->|?]%elem_of_cons; auto.
  Qed.
  Lemma walk_to_idx x w : walk dedge entry x w -> forall i, l !! i = Some x ->
    exists w', walk (E preds) rr i w' /\ Forall2 (fun j y => l !! j = Some y) w' w.
  Proof.
    induction 1 as [|b c w Hw IH Hbc]; intros i Hi.
    - exists [rr]. assert (i = rr) as -> by exact (NoDup_lookup _ _ _ _ dl_nd Hi last_rr). split; [constructor|].
      constructor; [apply last_rr|constructor].
    - destruct (walk_in _ _ Hw) as [[j Hj]%elem_of_list_lookup _]. destruct (IH j Hj) as (w' & Hw' & Hall).
      exists (i :: w'). split; [|by constructor]. eapply walk_snoc; [exact Hw'|]. unfold E. by eapply dedge_idx.
  Qed.
  Lemma walk_of_idx i w' : walk (E preds) rr i w' -> forall x, l !! i = Some x ->
    exists w, walk dedge entry x w /\ Forall2 (fun j y => l !! j = Some y) w' w.
  Proof.
    induction 1 as [|b c w Hw IH Hbc]; intros x Hx.
    - exists [entry]. rewrite last_rr in Hx. injection Hx as <-. split; [constructor|].
      constructor; [apply last_rr|constructor].
    - destruct (preds_le _ _ Hbc) as [_ Hb]. destruct (lookup_lt_is_Some_2 l b) as [u Hu]; [rewrite rr_len; lia|].
      destruct (IH u Hu) as (w1 & Hw1 & Hall). exists (x :: w1). split; [|by constructor].
      eapply walk_snoc; [exact Hw1|]. by eapply dedge_idx.
  Qed.
  Lemma dom_idx i j x y : l !! i = Some x -> l !! j = Some y -> dominates (E preds) rr j i <-> dominates dedge entry y x.
  Proof.
    intros Hi Hj. split.
    - intros H w Hw. destruct (walk_to_idx _ _ Hw i Hi) as (w' & Hw' & Hall). specialize (H w' Hw').
      apply elem_of_list_lookup in H as [k Hk]. destruct (Forall2_lookup_l _ _ _ _ _ Hall Hk) as (z & Hz & E).
      cbn in E. assert (z = y) as -> by congruence. by eapply elem_of_list_lookup_2.
    - intros H w' Hw'. destruct (walk_of_idx _ _ Hw' x Hi) as (w & Hw & Hall). specialize (H w Hw).
      apply elem_of_list_lookup in H as [k Hk]. destruct (Forall2_lookup_r _ _ _ _ _ Hall Hk) as (z & Hz & E).
      cbn in E. assert (z = j) as -> by exact (NoDup_lookup _ _ _ _ dl_nd E Hj). by eapply elem_of_list_lookup_2.
  Qed.
  Lemma walk_exists x : x ∈ l -> exists w, walk dedge entry x w.
  Proof.
    intros Hx%dl_reach. assert (H : forall a, rtc fedge entry a -> exists w, walk dedge entry a w); [|by apply H].
    clear x Hx. intros a Ha. apply (rtc_ind_r (R := fedge) (fun a => exists w, walk dedge entry a w) entry); [eexists; constructor| |done].
    intros b c Hb Hbc [w Hw]. exists (c :: w). eapply walk_snoc; [exact Hw|].
    assert (Hbl : b ∈ l) by (by apply dl_reach). assert (Hcl : c ∈ l) by (by eapply dl_closed). split; [done|]. left. split; [done|].
    by apply fedge_iff.
  Qed.
  Lemma dom_in x y : x ∈ l -> dominates dedge entry y x -> y ∈ l.
  Proof. intros [w Hw]%walk_exists H. destruct (walk_in _ _ Hw) as [_ Hall]. by apply Hall, H. Qed.

  (** The final map. *)
  Lemma idom_map doms f : repr rr doms f 0 -> tree rr 0 f ->
    exists m, hfold (dom_set l) (take rr (enumerate doms)) (um_with_default None) = HOk m /\
      (forall i x, l !! i = Some x -> i < rr -> um_get m x = l !! (f i)) /\
      (forall x, (forall i, i < rr -> l !! i <> Some x) -> um_get m x = None).
  Proof.
    intros (Hlen & _ & HD) T.
    assert (H : forall n, n <= rr -> exists m, hfold (dom_set l) (take n (enumerate doms)) (um_with_default None) = HOk m /\
      (forall i x, l !! i = Some x -> i < n -> um_get m x = l !! (f i)) /\
      (forall x, (forall i, i < n -> l !! i <> Some x) -> um_get m x = None)); [|by apply H].
    induction n as [|n IH]; intros Hn.
    - eexists. split; [done|]. split; [intros; lia|]. done.
    - destruct (IH ltac:(lia)) as (m & Hm & H1 & H2).
      assert (Hen : enumerate doms !! n = Some (n, Some (f n))).
      { unfold enumerate. rewrite list_lookup_imap. rewrite HD by lia. done. }
      rewrite (take_S_r _ _ _ Hen).
      assert (Happ : forall l1 l2 s, hfold (dom_set l) (l1 ++ l2) s = (s' ← hfold (dom_set l) l1 s; hfold (dom_set l) l2 s')).
      { clear. induction l1 as [|a l1 IH]; intros l2 s; [done|]. cbn. destruct (dom_set l s a); [apply IH|done|done]. }
      rewrite Happ, Hm. cbn [mbind hres_bind hfold]. unfold dom_set. cbn [fst snd].
      destruct (lookup_lt_is_Some_2 l n) as [x Hx]; [rewrite rr_len; lia|]. pose proof (T n ltac:(lia) ltac:(lia)) as Hfn.
      destruct (lookup_lt_is_Some_2 l (f n)) as [y Hy]; [rewrite rr_len; lia|].
      rewrite (vget_ok _ _ _ Hx). cbn [lift mbind hres_bind unwrap]. rewrite (vget_ok _ _ _ Hy). cbn [lift mbind hres_bind].
      destruct (um_set_ok m x (Some y)) as (m' & -> & _ & Hget). cbn [lift mbind hres_bind]. exists m'. split; [done|]. split.
      + intros i z Hz Hi. rewrite Hget. destruct (decide (z = x)) as [->|Hzx].
        * assert (i = n) as -> by exact (NoDup_lookup _ _ _ _ dl_nd Hz Hx). done.
        * apply H1; [done|]. assert (i <> n) by congruence. lia.
      + intros z Hz. rewrite Hget. rewrite decide_False by (intros ->; by apply (Hz n); [lia|]). apply H2. intros i Hi. apply Hz. lia.
  Qed.

  Lemma dom_main fuel : rr * rr + 2 * rr + 3 <= fuel ->
    exists m, (doms ← dom_loop (gv_of g) d nf pf fuel nti l (replicate rr None ++ [Some rr]);
       hfold (dom_set l) (take rr (enumerate doms)) (um_with_default None)) = HOk m /\
      (forall x y, um_get m x = Some y <-> x ∈ l /\ x <> entry /\ is_idom dedge entry y x) /\
      (forall x, (exists y, um_get m x = Some y) <-> x ∈ l /\ x <> entry).
  Proof.
    intros Hf.
    destruct (loop_ok (gv_of g) d nf pf rr preds preds_le preds_up nti l rr_len preds_code fuel Hf) as (doms & f & -> & HR & T & G & Hnca).
    cbn [mbind hres_bind]. destruct (idom_map doms f HR T) as (m & -> & M1 & M2). exists m. split; [done|].
    assert (Hidx : forall x, x ∈ l -> x <> entry -> exists i, l !! i = Some x /\ i < rr).
    { intros x [i Hi]%elem_of_list_lookup Hne. exists i. split; [done|]. pose proof (lookup_lt_Some _ _ _ Hi) as Hlt.
      rewrite rr_len in Hlt. assert (i <> rr) by (intros ->; rewrite last_rr in Hi; congruence). lia. }
    assert (Hsome : forall x, x ∈ l -> x <> entry -> exists i y, l !! i = Some x /\ i < rr /\ l !! (f i) = Some y /\ um_get m x = Some y
        /\ is_idom dedge entry y x).
    { intros x Hx Hne. destruct (Hidx x Hx Hne) as (i & Hi & Hlt). pose proof (T i ltac:(lia) Hlt) as Hfi.
      destruct (lookup_lt_is_Some_2 l (f i)) as [y Hy]; [rewrite rr_len; lia|]. exists i, y. split; [done|]. split; [done|]. split; [done|].
      split; [by rewrite (M1 _ _ Hi Hlt)|]. split; [|split].
      - intros ->. pose proof (NoDup_lookup _ _ _ _ dl_nd Hi Hy). lia.
      - apply (dom_idx i (f i) x y Hi Hy). intros w Hw. apply (fixpoint_dom rr preds preds_le preds_up f T Hnca i w Hw).
        apply anc_step; [done|apply rtc_refl].
      - intros z Hz Hzx. destruct (proj1 (elem_of_list_lookup l z) (dom_in _ _ Hx Hz)) as [j Hj].
        apply (dom_idx (f i) j y z Hy Hj). apply G; [done| |].
        + by apply (dom_idx i j x z Hi Hj).
        + intros ->. congruence. }
    assert (Hnone : forall x y, um_get m x = Some y -> x ∈ l /\ x <> entry).
    { intros x y Hxy. destruct (decide (x ∈ l)) as [Hx|Hx]; [destruct (decide (x = entry)) as [->|]; [exfalso|done]|exfalso].
      - rewrite M2 in Hxy; [done|]. intros i Hi Hi'. pose proof (NoDup_lookup _ _ _ _ dl_nd Hi' last_rr). lia.
      - rewrite M2 in Hxy; [done|]. intros i Hi Hi'. apply Hx. by eapply elem_of_list_lookup_2. }
    split.
    - intros x y. split.
      + intros Hxy. destruct (Hnone _ _ Hxy) as [Hx Hne]. destruct (Hsome x Hx Hne) as (i & y' & _ & _ & _ & Hy' & Hid).
        assert (y' = y) as -> by congruence. done.
      + intros (Hx & Hne & Hid1 & Hid2 & Hid3). destruct (Hsome x Hx Hne) as (i & y' & Hi & Hlt & Hfi & Hy' & Hid1' & Hid2' & Hid3').
        rewrite Hy'. f_equal. destruct (proj1 (elem_of_list_lookup l y) (dom_in _ _ Hx Hid2)) as [j Hj].
        pose proof (Hid3 y' Hid2' Hid1') as D1. pose proof (Hid3' y Hid2 Hid1) as D2.
        apply (dom_idx j (f i) y y' Hj Hfi) in D1. apply (dom_idx (f i) j y' y Hfi Hj) in D2.
        pose proof (T i ltac:(lia) Hlt). pose proof (lookup_lt_Some _ _ _ Hj) as Hjr. rewrite rr_len in Hjr.
        apply (dom_anc rr preds preds_le preds_up 0 f T ltac:(intros; by apply G)) in D1; [|lia|lia].
        apply (dom_anc rr preds preds_le preds_up 0 f T ltac:(intros; by apply G)) in D2; [|lia|lia].
        destruct (anc_le rr 0 f _ _ T D1 ltac:(lia)). destruct (anc_le rr 0 f _ _ T D2 ltac:(lia)).
        assert (j = f i) by lia. congruence.
    - intros x. split; [intros [y Hy]; by eapply Hnone|]. intros [Hx Hne].
      destruct (Hsome x Hx Hne) as (i & y & _ & _ & _ & Hy & _). by exists y.
  Qed.
End pgdom.

(** More fuel does not change a result. *)
Lemma intersect_mono doms : forall k a b c, intersect k doms a b = HOk c -> forall k', k <= k' -> intersect k' doms a b = HOk c.
Proof.
  induction k as [|k IH]; intros a b c H k' Hk; [done|]. destruct k' as [|k']; [lia|]. cbn [intersect] in *.
  destruct (decide (a = b)); [done|]. destruct (fin_lt a b).
  - destruct (dom_at doms a); cbn [mbind hres_bind] in *; [|done|done]. apply IH; [done|lia].
  - destruct (dom_at doms b); cbn [mbind hres_bind] in *; [|done|done]. apply IH; [done|lia].
Qed.
Lemma reduce_mono doms l : forall k a c, dom_reduce k doms a l = HOk c -> forall k', k <= k' -> dom_reduce k' doms a l = HOk c.
Proof.
  induction l as [|i l IH]; intros k a c H k' Hk; [done|]. cbn [dom_reduce] in *.
  destruct (intersect k doms a (Some i)) eqn:E; cbn [mbind hres_bind] in *; [|done|done].
  rewrite (intersect_mono _ _ _ _ _ E _ Hk). cbn [mbind hres_bind]. by eapply IH.
Qed.
Lemma visit_mono v d nf pf nti itn s i k c : dom_visit v d nf pf k nti itn s i = HOk c ->
  forall k', k <= k' -> dom_visit v d nf pf k' nti itn s i = HOk c.
Proof.
  intros H k' Hk. unfold dom_visit in *. destruct s as [doms ch].
  destruct (lift (vget itn i)); cbn [mbind hres_bind] in *; [|done|done].
  destruct (lift (dom_preds _ _ _ _ _ _ _)) as [[|j l]| |]; cbn [mbind hres_bind] in *; [done| |done|done].
  destruct (dom_reduce k doms (Some j) l) eqn:E; cbn [mbind hres_bind] in *; [|done|done].
  by rewrite (reduce_mono _ _ _ _ _ E _ Hk).
Qed.
Lemma hvisit_mono v d nf pf nti itn l : forall s k c, hfold (dom_visit v d nf pf k nti itn) l s = HOk c ->
  forall k', k <= k' -> hfold (dom_visit v d nf pf k' nti itn) l s = HOk c.
Proof.
  induction l as [|i l IH]; intros s k c H k' Hk; [done|]. cbn [hfold] in *.
  destruct (dom_visit v d nf pf k nti itn s i) eqn:E; cbn [mbind hres_bind] in *; [|done|done].
  rewrite (visit_mono _ _ _ _ _ _ _ _ _ _ E _ Hk). cbn [mbind hres_bind]. by eapply IH.
Qed.
Lemma dom_loop_mono v d nf pf nti itn : forall k doms c, dom_loop v d nf pf k nti itn doms = HOk c ->
  forall k', k <= k' -> dom_loop v d nf pf k' nti itn doms = HOk c.
Proof.
  induction k as [|k IH]; intros doms c H k' Hk; [done|]. destruct k' as [|k']; [lia|]. cbn [dom_loop] in *.
  destruct (hfold (dom_visit v d nf pf (S k) nti itn) (rev (seq 0 (length itn - 1))) (doms, false)) as [[doms' ch]| |] eqn:E; cbn [mbind hres_bind] in *; [|done|done].
  rewrite (hvisit_mono _ _ _ _ _ _ _ _ _ _ E (S k')) by lia. cbn [mbind hres_bind]. destruct ch; [|done]. eapply IH; [done|lia].
Qed.
