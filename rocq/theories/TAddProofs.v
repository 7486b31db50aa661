(** [add_sources] between calls of [next], and [ports_remaining]. *)
From Verif Require Export PordTopo TAddSpec.

Section add.
  Context (v : gview) (d : dir) (nf : nat -> bool) (pf : nat -> nat -> bool) (W : wfv v).
  Notation inp n := (gv_ports v n (rev_dir d)).
  Notation outp n := (gv_ports v n d).
  Notation J := (J v d nf pf).
  Notation K := (K v d nf pf).

  Lemma K_unvis src Y C V n q : K src Y C V -> n ∉ Y ++ C -> nf n = true -> q ∈ inp n -> exists q', q' ∈ inp n /\ q' ∉ V.
  Proof.
    intros HK Hin Hnf Hq. pose proof HK as ((A & HJ & HA) & HV).
    destruct (decide (Exists (fun q' => q' ∉ V) (inp n))) as [(q' & ? & ?)%Exists_exists|Hno]; [eauto|]. exfalso.
    assert (Hall : forall q', q' ∈ inp n -> q' ∈ V).
    { intros q' Hq'. destruct (decide (q' ∈ V)) as [|Hn]; [done|]. exfalso. apply Hno, Exists_exists. eauto. }
    assert (Hns : n ∉ src) by (intros Hs; by apply Hin, (K_src_mem v d nf pf _ _ _ _ _ HK)).
    apply Hin, (j5 _ _ _ _ _ _ _ _ HJ). right. split; [done|]. split.
    - apply (j4 _ _ _ _ _ _ _ _ HJ n q Hq Hns (Hall q Hq)).
    - intros q' p Hq' Hl Hp. by apply (j1 _ _ _ _ _ _ _ _ HJ n q' p Hq' Hns Hl Hp), Hall.
  Qed.

  Lemma addg_source_ok src Y C V k n : K src Y C V -> nf n = true ->
    exists V' C' s', topo_add_source v d nf (TS V C k) n = TS V' C' k /\ K (src ++ s') Y C' V'
      /\ (s' = [] /\ C' = C \/ s' = [n] /\ C' = C ++ [n] /\ exists dd, gv_ports v n dd <> [])
      /\ ((exists dd, gv_ports v n dd <> []) -> n ∈ Y ++ C').
  Proof.
    intros HK Hnf. pose proof HK as ((A & HJ & HA) & HV). unfold topo_add_source. cbn [ts_cand ts_vis ts_seen]. rewrite Hnf.
    destruct (decide (n ∈ Y ++ C)) as [Hin|Hin].
    - assert (Hnew : (if decide (inp n = []) then
                   bool_decide (n ∉ C) && existsb (fun p => bool_decide (p ∉ V)) (outp n)
                 else existsb (fun p => bool_decide (p ∉ V)) (inp n)) = false).
      { destruct (decide (inp n = [])) as [Ei|Ei].
        - apply andb_false_iff. apply elem_of_app in Hin as [HY|HC]; [right|left; by apply bool_decide_eq_false_2; intros []].
          apply not_true_iff_false. intros (p & Hp & Hv)%existsb_unvis. by apply Hv, (HV p n).
        - apply not_true_iff_false. intros (p & Hp & Hv)%existsb_unvis. apply Hv. by eapply (j3 _ _ _ _ _ _ _ _ HJ n). }
      rewrite Hnew. exists (mark_all (inp n) V), C, []. split; [done|]. split; [|split; [by left|done]]. rewrite app_nil_r.
      eapply K_vis_eq; [|exact HK]. intros x. rewrite mark_all_elem. split; [|by left]. intros [?|Hx]; [done|]. by eapply (j3 _ _ _ _ _ _ _ _ HJ n).
    - assert (Huo : forall p, p ∈ outp n -> p ∉ V).
      { intros p Hp HVp. apply (HV p n Hp) in HVp. apply Hin, elem_of_app. by left. }
      destruct (decide (inp n = [])) as [Ei|Ei].
      + rewrite bool_decide_eq_true_2 by (intros Hc; apply Hin, elem_of_app; by right). cbn [andb].
        destruct (existsb _ (outp n)) eqn:Ex.
        * exists (mark_all (inp n) V), (C ++ [n]), [n]. split; [done|]. split; [by apply K_add|].
          split; [|intros _; set_solver]. right. split; [done|]. split; [done|]. exists d. intros E. by rewrite E in Ex.
        * exists (mark_all (inp n) V), C, []. split; [done|]. rewrite app_nil_r. split; [by rewrite Ei|]. split; [by left|].
          intros (dd & Hdd). exfalso. assert (Ho : outp n <> []) by (destruct d, dd; cbn in *; congruence).
          destruct (outp n) as [|p l] eqn:El; [done|]. apply not_true_iff_false in Ex. apply Ex. apply existsb_unvis. exists p. split; [by left|apply Huo; by left].
      + assert (existsb (fun p => bool_decide (p ∉ V)) (inp n) = true) as ->.
        { apply existsb_unvis. destruct (inp n) as [|p l] eqn:El; [done|]. rewrite <- El in *.
          eapply (K_unvis _ _ _ _ n p HK Hin Hnf). rewrite El. by left. }
        exists (mark_all (inp n) V), (C ++ [n]), [n]. split; [done|]. split; [by apply K_add|]. split; [|intros _; set_solver].
        right. split; [done|]. split; [done|]. by exists (rev_dir d).
  Qed.

  (** Which sources count after [ns] was added. *)
  Definition good_src (src0 ns : list nat) (Y C : list nat) (src : list nat) : Prop :=
    (forall n, n ∈ src0 -> n ∈ src)
    /\ (forall n, n ∈ src -> n ∈ src0 \/ n ∈ ns /\ nf n = true /\ exists dd, gv_ports v n dd <> [])
    /\ (forall n, n ∈ ns -> nf n = true -> (exists dd, gv_ports v n dd <> []) -> n ∈ Y ++ C).

  Lemma addg_sources_ok ns : forall src Y C V k, K src Y C V ->
    exists V' C' s', topo_add_sources v d nf (TS V C k) ns = TS V' C' k /\ K s' Y C' V'
      /\ good_src src ns Y C' s' /\ exists x, C' = C ++ x.
  Proof.
    unfold topo_add_sources. induction ns as [|n ns IH]; intros src Y C V k HK; cbn [foldl].
    - exists V, C, src. split; [done|]. split; [done|]. split; [|exists []; by rewrite app_nil_r].
      split; [done|]. split; [by left|]. by intros n ?%elem_of_nil.
    - destruct (nf n) eqn:Hnf.
      + destruct (addg_source_ok src Y C V k n HK Hnf) as (V1 & C1 & s1 & -> & HK1 & Hs1 & Hn1).
        destruct (IH _ Y C1 V1 k HK1) as (V2 & C2 & s2 & -> & HK2 & (G1 & G2 & G3) & x2 & Hx2).
        exists V2, C2, s2. split; [done|]. split; [done|]. split.
        2:{ destruct Hs1 as [[-> ->]|(-> & -> & _)]; [by exists x2|]. exists ([n] ++ x2). by rewrite app_assoc. }
        split; [intros x Hx; apply G1, elem_of_app; by left|]. split.
        * intros x Hx. destruct (G2 x Hx) as [[Hs|Hs]%elem_of_app|(Hs & ? & ?)]; [by left| |right; split; [by right|done]].
          destruct Hs1 as [[-> ->]|(-> & -> & ?)]; [by apply elem_of_nil in Hs|]. apply elem_of_list_singleton in Hs as ->.
          right. split; [by left|done].
        * intros x [->|Hx]%elem_of_cons Hf Hp; [|by apply G3]. specialize (Hn1 Hp). rewrite Hx2, app_assoc. apply elem_of_app. by left.
      + assert (topo_add_source v d nf (TS V C k) n = TS V C k) as -> by (unfold topo_add_source; by rewrite Hnf).
        destruct (IH _ Y C V k HK) as (V2 & C2 & s2 & -> & HK2 & (G1 & G2 & G3) & x2 & Hx2).
        exists V2, C2, s2. split; [done|]. split; [done|]. split; [|by exists x2]. split; [done|]. split.
        * intros x Hx. destruct (G2 x Hx) as [?|(? & ? & ?)]; [by left|right; split; [by right|done]].
        * intros x [->|Hx]%elem_of_cons Hf Hp; [congruence|by apply G3].
  Qed.

  Lemma cmds_ok cs : forall src Y C V k, K src Y C V ->
    exists os V' C' s' k', topo_cmds v d nf pf cs (TS V C k) = Ok (os, TS V' C' k') /\ K s' (Y ++ yielded os) C' V'
      /\ good_src src (added cs) (Y ++ yielded os) C' s' /\ exists x, yielded os ++ C' = C ++ x.
  Proof.
    induction cs as [|c cs IH]; intros src Y C V k HK.
    - exists [], V, C, src, k. split; [done|]. cbn. rewrite app_nil_r. split; [done|]. split; [|exists []; by rewrite app_nil_r].
      split; [done|]. split; [by left|]. by intros n ?%elem_of_nil.
    - destruct c as [|ns]; cbn [topo_cmds].
      + destruct C as [|n C].
        * cbn [topo_next ts_cand mbind res_bind]. destruct (IH src Y [] V k HK) as (os & V' & C' & s' & k' & -> & HK' & G & x & Hx).
          exists (None :: os), V', C', s', k'. split; [done|]. split; [done|]. split; [done|]. by exists x.
        * destruct (next_ok v d nf pf W src Y n C V k HK) as (V1 & C1 & -> & HK1 & x1 & Hx1). cbn [mbind res_bind].
          destruct (IH src (Y ++ [n]) C1 V1 (k + 1) HK1) as (os & V' & C' & s' & k' & -> & HK' & G & x & Hx).
          rewrite <- !app_assoc in HK'. rewrite <- !app_assoc in G.
          exists (Some n :: os), V', C', s', k'. split; [done|]. split; [done|]. split; [done|].
          exists (x1 ++ x). cbn. f_equal. unfold yielded in Hx. rewrite Hx, Hx1. by rewrite app_assoc.
      + destruct (addg_sources_ok ns src Y C V k HK) as (V1 & C1 & s1 & -> & HK1 & (G1 & G2 & G3) & x1 & Hx1).
        destruct (IH s1 Y C1 V1 k HK1) as (os & V' & C' & s' & k' & -> & HK' & (H1 & H2 & H3) & x & Hx).
        exists os, V', C', s', k'. split; [done|]. split; [done|]. split.
        2:{ exists (x1 ++ x). by rewrite Hx, Hx1, app_assoc. }
        unfold added. cbn [mbind list_bind]. fold (added cs). split; [intros n Hn; by apply H1, G1|]. split.
        * intros n Hn. destruct (H2 n Hn) as [Hs|(? & ? & ?)].
          -- destruct (G2 n Hs) as [?|(? & ? & ?)]; [by left|right]. split; [apply elem_of_app; by left|done].
          -- right. split; [apply elem_of_app; by right|done].
        * intros n [Hn|Hn]%elem_of_app Hf Hp; [|by apply H3]. specialize (G3 n Hn Hf Hp).
          rewrite <- app_assoc. rewrite Hx. apply elem_of_app in G3 as [?|Hc]; apply elem_of_app; [by left|right].
          apply elem_of_app. by left.
  Qed.

  Lemma topo_cmds_app c1 : forall c2 s, topo_cmds v d nf pf (c1 ++ c2) s =
    ('(o1, s) ← topo_cmds v d nf pf c1 s; '(o2, s) ← topo_cmds v d nf pf c2 s; Ok (o1 ++ o2, s)).
  Proof.
    induction c1 as [|c c1 IH]; intros c2 s; cbn.
    - by destruct (topo_cmds v d nf pf c2 s) as [[]|].
    - destruct c as [|ns]; [|apply IH]. destruct (topo_next v d nf pf s) as [[o s1]|]; cbn; [|done]. rewrite IH.
      destruct (topo_cmds v d nf pf c1 s1) as [[o1 s2]|]; cbn; [|done]. by destruct (topo_cmds v d nf pf c2 s2) as [[]|].
  Qed.

  (** Enough calls of [next] exhaust the iterator. *)
  Lemma drain_ok k : forall src Y C V m, K src Y C V -> length (src ++ gv_nodes v) - length Y <= k ->
    exists os V' m', topo_cmds v d nf pf (replicate k TNext) (TS V C m) = Ok (os, TS V' [] m').
  Proof.
    induction k as [|k IH]; intros src Y C V m HK Hk.
    - pose proof (topo_bound v d nf pf W src _ _ _ HK) as Hb. rewrite app_length in Hb. destruct C as [|n C]; [|cbn in Hb; lia]. by exists [], V, m.
    - cbn [replicate topo_cmds]. destruct C as [|n C].
      + cbn [topo_next ts_cand mbind res_bind].
        assert (E : forall k, exists os, topo_cmds v d nf pf (replicate k TNext) (TS V [] m) = Ok (os, TS V [] m)).
        { clear. induction k as [|k [os E]]; [by exists []|]. cbn [replicate topo_cmds topo_next ts_cand mbind res_bind]. rewrite E. by exists (None :: os). }
        destruct (E k) as [os ->]. by exists (None :: os), V, m.
      + destruct (next_ok v d nf pf W src Y n C V m HK) as (V1 & C1 & -> & HK1 & x1 & Hx1). cbn [mbind res_bind].
        destruct (IH src (Y ++ [n]) C1 V1 (m + 1) HK1) as (os & V' & m' & ->).
        { pose proof (topo_bound v d nf pf W src _ _ _ HK1) as Hb. rewrite !app_length in *. cbn in *. lia. }
        by exists (Some n :: os), V', m'.
  Qed.
End add.
