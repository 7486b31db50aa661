(** [add_sources]: how the invariant of [TopoProofs] survives new sources. *)
From Verif Require Export TopoProofs.

Lemma mark_all_elem ps : forall (V : gset nat) x, x ∈ mark_all ps V <-> x ∈ V \/ x ∈ ps.
Proof. induction ps as [|p ps IH]; intros V x; cbn; [set_solver|]. unfold mark_all in IH. rewrite IH. set_solver. Qed.

Section add.
  Context (v : gview) (d : dir) (nf : nat -> bool) (pf : nat -> nat -> bool) (W : wfv v).
  Notation inp n := (gv_ports v n (rev_dir d)).
  Notation outp n := (gv_ports v n d).
  Notation J := (J v d nf pf).
  Notation K := (K v d nf pf).

  Lemma K_vis_eq src Y C (V V' : gset nat) : (forall x, x ∈ V' <-> x ∈ V) -> K src Y C V -> K src Y C V'.
  Proof. intros HV. assert (V' = V) as -> by (by apply set_eq). done. Qed.

  Lemma K_src_mem src Y C V n : K src Y C V -> n ∈ src -> n ∈ Y ++ C.
  Proof. intros ((A & HJ & _) & _) Hn. apply (j5 _ _ _ _ _ _ _ _ HJ). by left. Qed.

  Lemma K_add src Y C V n : K src Y C V -> n ∉ Y ++ C -> K (src ++ [n]) Y (C ++ [n]) (mark_all (inp n) V).
  Proof.
    intros HK Hn. pose proof HK as ((A & HJ & HA) & HV). split.
    2:{ intros x m Hx. rewrite mark_all_elem, (HV x m Hx). split; [|by left]. intros [?|Hx']; [done|]. exfalso.
        destruct (wf_own _ W _ _ _ _ _ Hx Hx') as [_ E]. by apply (rev_dir_ne d). }
    exists A. split; [|done].
    assert (Hne : forall m q, m ∉ src ++ [n] -> q ∈ inp m -> q ∈ mark_all (inp n) V -> q ∈ V).
    { intros m q Hm Hq [?|Hx]%mark_all_elem; [done|]. exfalso. apply Hm. destruct (wf_own _ W _ _ _ _ _ Hq Hx) as [-> _]. set_solver. }
    split.
    - intros m q p Hq Hns Hl Hp HVq. eapply (j1 _ _ _ _ _ _ _ _ HJ m q p); try done; [set_solver|]. by eapply Hne.
    - intros q Hq. apply mark_all_elem. left. by apply (j2 _ _ _ _ _ _ _ _ HJ).
    - intros m q. rewrite app_assoc. intros [Hm| ->%elem_of_list_singleton]%elem_of_app Hq; apply mark_all_elem; [left|by right].
      by eapply (j3 _ _ _ _ _ _ _ _ HJ m).
    - intros m q Hq Hns HVq. eapply (j4 _ _ _ _ _ _ _ _ HJ m q); [done|set_solver|by eapply Hne].
    - intros m. rewrite app_assoc, (elem_of_app (Y ++ C)), (elem_of_app src), elem_of_list_singleton, (j5 _ _ _ _ _ _ _ _ HJ m). tauto.
    - rewrite app_assoc. apply NoDup_app. split; [apply HJ|]. split; [|apply NoDup_singleton]. intros x Hx ->%elem_of_list_singleton. done.
    - intros q m Hq Hm. destruct (j7 _ _ _ _ _ _ _ _ HJ q m Hq Hm) as (u & p & ? & ? & ?). exists u, p. split; [done|]. split; [done|].
      rewrite app_assoc. apply elem_of_app. by left.
    - intros L1 m L2 E Hns. rewrite app_assoc in E. destruct (decide (L2 = [])) as [->|HL2].
      + apply app_inj_tail in E as [_ ->]. exfalso. apply Hns. set_solver.
      + destruct (exists_last HL2) as (L2' & z & ->). change (m :: L2' ++ [z]) with ((m :: L2') ++ [z]) in E.
        rewrite app_assoc in E. apply app_inj_tail in E as [E _]. eapply (j8 _ _ _ _ _ _ _ _ HJ); [exact E|set_solver].
  Qed.

  (** A node without links at its input ports. *)
  Definition no_in (n : nat) : Prop := forall q z, q ∈ inp n -> ~ glk v q z.

  Lemma existsb_unvis (ps : list nat) (V : gset nat) : existsb (fun p => bool_decide (p ∉ V)) ps = true <-> exists p, p ∈ ps /\ p ∉ V.
  Proof.
    rewrite existsb_exists. split; intros (p & H1 & H2); exists p; (split; [by apply elem_of_list_In|]).
    - by apply bool_decide_eq_true in H2.
    - by apply bool_decide_eq_true.
  Qed.

  Lemma add_source_ok src Y C V k n : K src Y C V -> no_in n -> nf n = true ->
    exists V' C' s', topo_add_source v d nf (TS V C k) n = TS V' C' k /\ K (src ++ s') Y C' V' /\ (s' = [] /\ C' = C \/ s' = [n] /\ C' = C ++ [n]) /\
      ((exists dd, gv_ports v n dd <> []) -> n ∈ Y ++ C').
  Proof.
    intros HK Hno Hnf. pose proof HK as ((A & HJ & HA) & HV). unfold topo_add_source. cbn [ts_cand ts_vis ts_seen]. rewrite Hnf.
    destruct (decide (n ∈ Y ++ C)) as [Hin|Hin].
    - assert (Hnew : (if decide (inp n = []) then
                   bool_decide (n ∉ C) && existsb (fun p => bool_decide (p ∉ V)) (outp n)
                 else existsb (fun p => bool_decide (p ∉ V)) (inp n)) = false).
      { destruct (decide (inp n = [])) as [Ei|Ei].
        - apply andb_false_iff. apply elem_of_app in Hin as [HY|HC]; [right|left; by apply bool_decide_eq_false_2; intros []].
          apply not_true_iff_false. intros (p & Hp & Hv)%existsb_unvis. by apply Hv, (HV p n).
        - apply not_true_iff_false. intros (p & Hp & Hv)%existsb_unvis. apply Hv. by eapply (j3 _ _ _ _ _ _ _ _ HJ n). }
      rewrite Hnew. exists (mark_all (inp n) V), C, []. split; [done|]. split; [|split; [by left|done]]. rewrite app_nil_r.
      eapply K_vis_eq; [|exact HK]. intros x. rewrite mark_all_elem. split; [|by left]. intros [?|Hx]; [done|]. by eapply (j3 _ _ _ _ _ _ _ _ HJ n).
    - assert (Hun : forall q, q ∈ inp n -> q ∉ V).
      { intros q Hq HVq. destruct (j4 _ _ _ _ _ _ _ _ HJ n q Hq) as (q' & Hq' & HA'); [|done|].
        - intros Hs. by apply Hin, (K_src_mem _ _ _ _ _ HK).
        - destruct (j7 _ _ _ _ _ _ _ _ HJ q' n HA' Hq') as (u & p & (Hp & Hl & _) & _ & _).
          destruct (wf_sym _ W _ _ _ _ Hp Hl) as [Hs _]. by apply (Hno q' p). }
      assert (Huo : forall p, p ∈ outp n -> p ∉ V).
      { intros p Hp HVp. apply (HV p n Hp) in HVp. apply Hin, elem_of_app. by left. }
      destruct (decide (inp n = [])) as [Ei|Ei].
      + rewrite bool_decide_eq_true_2 by (intros Hc; apply Hin, elem_of_app; by right). cbn [andb].
        destruct (existsb _ (outp n)) eqn:Ex.
        * exists (mark_all (inp n) V), (C ++ [n]), [n]. split; [done|]. split; [by apply K_add|]. split; [by right|]. intros _. set_solver.
        * exists (mark_all (inp n) V), C, []. split; [done|]. rewrite app_nil_r. split; [by rewrite Ei|]. split; [by left|].
          intros (dd & Hdd). exfalso. assert (Ho : outp n <> []) by (destruct d, dd; cbn in *; congruence).
          destruct (outp n) as [|p l] eqn:El; [done|]. apply not_true_iff_false in Ex. apply Ex. apply existsb_unvis. exists p. split; [by left|apply Huo; by left].
      + assert (existsb (fun p => bool_decide (p ∉ V)) (inp n) = true) as ->.
        { apply existsb_unvis. destruct (inp n) as [|p l] eqn:El; [done|]. exists p. split; [by left|apply Hun; by left]. }
        exists (mark_all (inp n) V), (C ++ [n]), [n]. split; [done|]. split; [by apply K_add|]. split; [by right|]. intros _. set_solver.
  Qed.

  Lemma add_sources_ok ns : forall src Y C V k, K src Y C V -> (forall n, n ∈ ns -> no_in n) -> (forall n, nf n = true) ->
    exists V' C' s', topo_add_sources v d nf (TS V C k) ns = TS V' C' k /\ K (src ++ s') Y C' V' /\ (forall n, n ∈ s' -> n ∈ ns) /\
      (forall n, n ∈ C' -> n ∈ C \/ n ∈ ns) /\ (forall n, n ∈ C -> n ∈ C') /\
      (forall n, n ∈ ns -> (exists dd, gv_ports v n dd <> []) -> n ∈ Y ++ C').
  Proof.
    unfold topo_add_sources. induction ns as [|n ns IH]; intros src Y C V k HK Hno Hnf; cbn [foldl].
    - exists V, C, []. rewrite app_nil_r. split; [done|]. split; [done|]. split; [by intros n ?%elem_of_nil|]. split; [by left|]. split; [done|].
      by intros n ?%elem_of_nil.
    - destruct (add_source_ok src Y C V k n HK) as (V1 & C1 & s1 & -> & HK1 & Hs1 & Hn1); [apply Hno; by left|done|].
      destruct (IH _ Y C1 V1 k HK1) as (V2 & C2 & s2 & -> & HK2 & Hs2 & HC2 & HC3 & Hn2); [intros; apply Hno; by right|done|].
      exists V2, C2, (s1 ++ s2). split; [done|]. rewrite app_assoc. split; [done|].
      assert (HC1 : forall x, x ∈ C1 <-> x ∈ C \/ x ∈ s1) by (intros x; destruct Hs1 as [[-> ->]|[-> ->]]; set_solver).
      assert (Hs1' : forall x, x ∈ s1 -> x = n) by (intros x; destruct Hs1 as [[-> ->]|[-> ->]]; set_solver).
      split; [intros x [Hx%Hs1'|Hx%Hs2]%elem_of_app; [subst; by left|by right]|].
      split; [intros x [[?| ->%Hs1']%HC1|Hx]%HC2; [by left|right; by left|right; by right]|].
      split; [intros x Hx; apply HC3, HC1; by left|].
      intros x [->|Hx]%elem_of_cons Hp; [|by apply Hn2]. specialize (Hn1 Hp). apply elem_of_app in Hn1 as [?|?]; apply elem_of_app; [by left|right; by apply HC3].
  Qed.
End add.
