(** Kahn's algorithm with filters. *)
From Verif Require Export AlgSpec.

Lemma rfold_inv {A S} (P : S -> Prop) (f : S -> A -> res S) l : forall s,
  P s -> (forall s a, a ∈ l -> P s -> exists s', f s a = Ok s' /\ P s') -> exists s', rfold f l s = Ok s' /\ P s'.
Proof.
  induction l as [|a l IH]; intros s Hs Hf; cbn; [by exists s|].
  destruct (Hf s a) as (s1 & E & H1); [by left|done|]. rewrite E. cbn. apply IH; [done|].
  intros s2 b Hb. apply Hf. by right.
Qed.

Lemma rev_dir_invol d : rev_dir (rev_dir d) = d.
Proof. by destruct d. Qed.
Lemma rev_dir_ne d : rev_dir d <> d.
Proof. by destruct d. Qed.

Lemma fin_acc (R : nat -> nat -> Prop) (ns : list nat) :
  (forall x y, R x y -> x ∈ ns /\ y ∈ ns) -> (forall x, ~ tc R x x) -> forall x, Acc R x.
Proof.
  intros Hin Hac.
  assert (H : forall k vis x, NoDup vis -> (forall y, y ∈ vis -> tc R x y /\ y ∈ ns) -> length ns - length vis <= k -> Acc R x).
  { induction k as [|k IH]; intros vis x Hnd Hv Hk; constructor; intros y Hy.
    - exfalso. destruct (Hin _ _ Hy) as [_ Hx].
      assert (Hlen : length (x :: vis) <= length ns).
      { apply submseteq_length, NoDup_submseteq.
        - constructor; [|done]. intros Hxv. destruct (Hv _ Hxv) as [Htc _]. by apply (Hac x).
        - intros z [->|Hz]%elem_of_cons; [done|]. by apply Hv. }
      cbn in Hlen. lia.
    - destruct (Hin _ _ Hy) as [_ Hx].
      assert (Hxv : x ∉ vis). { intros Hxv. destruct (Hv _ Hxv) as [Htc _]. by apply (Hac x). }
      apply (IH (x :: vis)).
      + by constructor.
      + intros z [->|Hz]%elem_of_cons; [split; [by apply tc_once|done]|].
        destruct (Hv _ Hz). split; [by eapply tc_l|done].
      + cbn. lia. }
  intros x. apply (H (length ns) []); [apply NoDup_nil_2| |cbn; lia]. intros y Hy. by apply elem_of_nil in Hy.
Qed.

Section topo.
  Context (v : gview) (d : dir) (nf : nat -> bool) (pf : nat -> nat -> bool).
  Context (W : wfv v).
  Context (src : list nat).
  Notation inp n := (gv_ports v n (rev_dir d)).
  Notation outp n := (gv_ports v n d).

  Lemma glk_link p n dd : p ∈ gv_ports v n dd ->
    exists o, gv_link v p = Ok o /\ (o = None <-> ~ exists q, glk v p q).
  Proof.
    intros Hp. destruct (wf_links _ W _ _ _ Hp) as [l Hl]. unfold gv_link. rewrite Hl. cbn. eexists. split; [done|].
    unfold glk. rewrite Hl. destruct l as [|x l]; cbn.
    - split; [|done]. intros _ (q & l' & [= <-] & Hq). by apply elem_of_nil in Hq.
    - split; [done|]. intros H. exfalso. apply H. exists x, (x :: l). split; [done|by left].
  Qed.

  (** A port that does not hold its node back. *)
  Definition free (n p : nat) : Prop := (~ exists q, glk v p q) \/ pf n p = false.

  Lemma ready_all_ok n q ps : (forall p, p ∈ ps -> p ∈ inp n) -> forall V,
    exists b V', topo_ready_all v pf n q ps V = Ok (b, V')
      /\ V ⊆ V' /\ (forall p, p ∈ V' -> p ∈ V \/ (p ∈ ps /\ p <> q /\ free n p))
      /\ (b = true <-> (q ∈ ps -> q ∉ V) /\ forall p, p ∈ ps -> p <> q -> p ∈ V \/ free n p)
      /\ (b = true -> forall p, p ∈ ps -> p <> q -> p ∈ V').
  Proof.
    induction ps as [|p ps IH]; intros Hps V; cbn.
    - exists true, V. split; [done|]. split; [done|]. split; [by left|]. split.
      + split; [|done]. intros _. split; [intros H; by apply elem_of_nil in H|]. intros p H. by apply elem_of_nil in H.
      + intros _ p H. by apply elem_of_nil in H.
    - assert (Hps' : forall x, x ∈ ps -> x ∈ inp n) by (intros x Hx; apply Hps; by right).
      destruct (decide (p = q)) as [->|Hpq].
      + destruct (decide (q ∈ V)) as [Hq|Hq].
        * exists false, V. split; [done|]. split; [done|]. split; [by left|]. split; [|done].
          split; [done|]. intros [H _]. exfalso. apply H; [by left|done].
        * destruct (IH Hps' V) as (b & V' & -> & H1 & H2 & H3 & H4). exists b, V'. split; [done|]. split; [done|]. split.
          { intros x Hx. destruct (H2 x Hx) as [?|(? & ? & ?)]; [by left|right; split_and!; [by right|done..]]. }
          split.
          { rewrite H3. split; intros [A B]; (split; [done|]); intros x Hx Hne.
            - apply elem_of_cons in Hx as [?|Hx]; [done|]. by apply B.
            - apply B; [by right|done]. }
          intros E x Hx Hne. apply elem_of_cons in Hx as [?|Hx]; [done|]. by apply H4.
      + destruct (decide (p ∈ V)) as [Hp|Hp].
        * destruct (IH Hps' V) as (b & V' & -> & H1 & H2 & H3 & H4). exists b, V'. split; [done|]. split; [done|]. split.
          { intros x Hx. destruct (H2 x Hx) as [?|(? & ? & ?)]; [by left|right; split_and!; [by right|done..]]. }
          split.
          { rewrite H3. split; intros [A B]; (split; [intros Hq; apply A|]).
            - by apply elem_of_cons in Hq as [?|Hq].
            - intros x Hx Hne. apply elem_of_cons in Hx as [->|Hx]; [by left|]. by apply B.
            - by right.
            - intros x Hx Hne. apply B; [by right|done]. }
          intros E x Hx Hne. apply elem_of_cons in Hx as [->|Hx]; [by apply H1|]. by apply H4.
        * assert (Hin : p ∈ inp n) by (apply Hps; by left).
          destruct (glk_link _ _ _ Hin) as (o & -> & Ho). cbn.
          assert (Hgo : free n p -> exists b V', topo_ready_all v pf n q ps ({[p]} ∪ V) = Ok (b, V')
            /\ V ⊆ V' /\ (forall x, x ∈ V' -> x ∈ V \/ (x ∈ p :: ps /\ x <> q /\ free n x))
            /\ (b = true <-> (q ∈ p :: ps -> q ∉ V) /\ forall x, x ∈ p :: ps -> x <> q -> x ∈ V \/ free n x)
            /\ (b = true -> forall x, x ∈ p :: ps -> x <> q -> x ∈ V')).
          { intros Hf. destruct (IH Hps' ({[p]} ∪ V)) as (b & V' & -> & H1 & H2 & H3 & H4). exists b, V'. split; [done|].
            split; [set_solver|]. split.
            { intros x Hx. destruct (H2 x Hx) as [[?%elem_of_singleton|?]%elem_of_union|(? & ? & ?)].
              - subst x. right. split_and!; [by left|done..].
              - by left.
              - right. split_and!; [by right|done..]. }
            split.
            { rewrite H3. split; intros [A B]; (split; [intros Hq|]).
              - apply elem_of_cons in Hq as [?|Hq]; [by subst|]. specialize (A Hq). set_solver.
              - intros x Hx Hne. apply elem_of_cons in Hx as [->|Hx]; [by right|].
                destruct (B x Hx Hne) as [[?%elem_of_singleton|?]%elem_of_union|?]; [subst; by right|by left|by right].
              - assert (q ∉ V) by (apply A; by right). set_solver.
              - intros x Hx Hne. destruct (B x) as [?|?]; [by right|done|left; set_solver|by right]. }
            intros E x Hx Hne. apply elem_of_cons in Hx as [->|Hx]; [apply H1; set_solver|]. by apply H4. }
          destruct (decide (o = None)) as [Hn|Hn]; [apply Hgo; left; by apply Ho|].
          destruct (pf n p) eqn:Epf; [|apply Hgo; by right].
          exists false, V. split; [done|]. split; [done|]. split; [by left|]. split; [|done].
          split; [done|]. intros [_ H]. exfalso. destruct (H p) as [?|[H'|H']]; [by left|done|done| |congruence].
          apply Hn. by apply Ho.
  Qed.

  (** The ghost set [A] holds the input ports reached so far; [L] the nodes
      yielded and waiting, in order. *)
  Record J (V A : gset nat) (L : list nat) : Prop := {
    j1 : forall n q p, q ∈ inp n -> n ∉ src -> glk v q p -> pf n q = true -> q ∈ V -> q ∈ A;
    j2 : forall q, q ∈ A -> q ∈ V;
    j3 : forall n q, n ∈ L -> q ∈ inp n -> q ∈ V;
    j4 : forall n q, q ∈ inp n -> n ∉ src -> q ∈ V -> exists q', q' ∈ inp n /\ q' ∈ A;
    j5 : forall n, n ∈ L <-> n ∈ src \/ (nf n = true /\ (exists q, q ∈ inp n /\ q ∈ A)
                              /\ forall q p, q ∈ inp n -> glk v q p -> pf n q = true -> q ∈ A);
    j6 : NoDup L;
    (* who reached a port *)
    j7 : forall q n, q ∈ A -> q ∈ inp n -> exists u p, glink v d u p q n /\ pf u p = true /\ u ∈ L;
    (* order *)
    j8 : forall L1 n L2, L = L1 ++ n :: L2 -> n ∉ src ->
      (exists u p q, glink v d u p q n /\ pf u p = true /\ u ∈ L1) /\
      (forall q z, q ∈ inp n -> glk v q z -> pf n q = true -> exists u p, glink v d u p q n /\ pf u p = true /\ u ∈ L1);
  }.

  Lemma glink_of u p q n : p ∈ outp u -> glk v q p -> q ∈ inp n -> glink v d u p q n.
  Proof.
    intros Hp Hq Hn. destruct (wf_sym _ W _ _ _ _ Hn Hq) as [Hs _]. split_and!; done.
  Qed.

  Lemma link_step_ok V A L C Y u p q :
    J V A L -> L = Y ++ C -> u ∈ L -> p ∈ outp u -> glk v p q -> pf u p = true ->
    exists V' C', topo_link_step v d nf pf (V, C) q = Ok (V', C') /\ J V' ({[q]} ∪ A) (Y ++ C')
      /\ (exists x, C' = C ++ x) /\ (forall x n, x ∈ V' -> x ∈ gv_ports v n d -> x ∈ V) /\ V ⊆ V'.
  Proof.
    intros HJ HL Hu Hp Hlk Hpf. destruct (wf_sym _ W _ _ _ _ Hp Hlk) as [Hql [t Hq]].
    assert (Hlink : glink v d u p q t) by (by apply glink_of).
    unfold topo_link_step. rewrite (proj2 (wf_node _ W q t)) by eauto. cbn. unfold topo_ready.
    assert (Hinown : forall n x, x ∈ inp n -> x ∈ inp t -> n = t).
    { intros n x H1 H2. by destruct (wf_own _ W _ _ _ _ _ H1 H2). }
    assert (Hinout : forall n m x, x ∈ inp n -> x ∈ outp m -> False).
    { intros n m x H1 H2. destruct (wf_own _ W _ _ _ _ _ H1 H2) as [_ H]. by apply (rev_dir_ne d). }
    assert (HA' : forall x n, x ∈ {[q]} ∪ A -> x ∈ inp n -> exists u p, glink v d u p x n /\ pf u p = true /\ u ∈ L).
    { intros x n [->%elem_of_singleton|Hx]%elem_of_union Hn; [|by eapply j7].
      exists u, p. rewrite (Hinown n q Hn Hq). done. }
    destruct (nf t) eqn:Ent.
    2:{ cbn. exists ({[q]} ∪ V), C. split; [done|]. rewrite <- HL. split; [|split; [exists []; by rewrite app_nil_r|]].
        - split.
          + intros n x y Hx Hns Hxy Hpfx [->%elem_of_singleton|Hv]%elem_of_union; [set_solver|].
            apply elem_of_union_r. by eapply j1.
          + intros x [?|?%(j2 _ _ _ HJ)]%elem_of_union; set_solver.
          + intros n x Hn Hx. apply elem_of_union_r. by eapply j3.
          + intros n x Hx Hns [->%elem_of_singleton|Hv]%elem_of_union; [exists q; set_solver|].
            destruct (j4 _ _ _ HJ n x Hx Hns Hv) as (q' & ? & ?). exists q'. set_solver.
          + intros n. rewrite (j5 _ _ _ HJ). split; (intros [?|(H1 & (x & H2 & H3) & H4)]; [by left|right]); (split; [done|]).
            * split; [exists x; set_solver|]. intros y z Hy Hz Hpy. apply elem_of_union_r. by eapply H4.
            * destruct (decide (n = t)) as [->|Hnt]; [congruence|].
              assert (Hnq : forall y, y ∈ inp n -> y <> q) by (intros y Hy ->; by apply Hnt, (Hinown n q)).
              split; [exists x; split; [done|]; pose proof (Hnq x H2); set_solver|].
              intros y z Hy Hz Hpy. pose proof (H4 y z Hy Hz Hpy). pose proof (Hnq y Hy). set_solver.
          + apply HJ.
          + done.
          + apply HJ.
        - split; [|set_solver]. intros x n [->%elem_of_singleton|Hx]%elem_of_union Hxo; [|done]. exfalso. by eapply Hinout. }
    destruct (ready_all_ok t q (inp t) (fun _ H => H) V) as (b & V1 & -> & H1 & H2 & H3 & H4). cbn.
    exists ({[q]} ∪ V1), (if b then C ++ [t] else C). split; [done|].
    split; [|split; [destruct b; eauto; exists []; by rewrite app_nil_r|]].
    2:{ split; [|set_solver]. intros x n [->%elem_of_singleton|Hx]%elem_of_union Hxo; [exfalso; by eapply Hinout|].
        destruct (H2 x Hx) as [?|(Hxt & _)]; [done|]. exfalso. by eapply Hinout. }
    assert (HV1 : forall n x, x ∈ V1 -> x ∈ inp n -> n <> t -> x ∈ V).
    { intros n x Hx Hxn Hnt. destruct (H2 x Hx) as [?|(Hxt & _)]; [done|]. exfalso. by eapply Hnt, Hinown. }
    assert (Hj5 : (t ∈ (if b then L ++ [t] else L)) <-> t ∈ src \/ (nf t = true /\ (exists x, x ∈ inp t /\ x ∈ {[q]} ∪ A)
                              /\ forall x p, x ∈ inp t -> glk v x p -> pf t x = true -> x ∈ {[q]} ∪ A)).
    { destruct b.
      - split; [intros _; right|set_solver]. destruct (proj1 H3 eq_refl) as [B1 B2].
        destruct (decide (t ∈ src)) as [Hts|Hts].
        { exfalso. apply (B1 Hq). eapply (j3 _ _ _ HJ t); [|done]. apply (j5 _ _ _ HJ). by left. }
        split; [done|]. split; [exists q; set_solver|]. intros x y Hx Hxy Hpx. destruct (decide (x = q)) as [->|Hxq]; [set_solver|].
        apply elem_of_union_r. destruct (B2 x Hx Hxq) as [Hv|[Hf|Hf]]; [by eapply j1| |congruence].
        exfalso. apply Hf. eauto.
      - rewrite (j5 _ _ _ HJ). split; (intros [?|(G1 & (x & G2 & G3) & G4)]; [by left|]).
        + right. split; [done|]. split; [exists x; set_solver|]. intros y z Hy Hz Hpy. apply elem_of_union_r. by eapply G4.
        + destruct (decide (t ∈ src)) as [Hts|Hts]; [by left|]. right. split; [done|].
          destruct (decide (q ∈ V)) as [HqV|HqV].
          * destruct (j4 _ _ _ HJ t q Hq Hts HqV) as (q' & Hq' & HA). split; [by exists q'|].
            intros y z Hy Hz Hpy. destruct (decide (y = q)) as [->|Hyq].
            { by eapply j1. }
            pose proof (G4 y z Hy Hz Hpy). set_solver.
          * exfalso. assert (Hb : false = true); [|done]. apply H3. split; [done|]. intros y Hy Hyq.
            destruct (decide (pf t y = true)) as [Hpy|Hpy]; [|right; right; by destruct (pf t y)].
            destruct (glk_link _ _ _ Hy) as (o & _ & Ho). destruct (decide (o = None)) as [Hn|Hn].
            { right. left. by apply Ho. }
            destruct (decide (y ∈ V)) as [|HyV]; [by left|]. right. left. intros (z & Hz).
            pose proof (G4 y z Hy Hz Hpy) as HyA. assert (y ∈ A) as HyA' by set_solver. by apply HyV, (j2 _ _ _ HJ). }
    assert (HLeq : Y ++ (if b then C ++ [t] else C) = if b then L ++ [t] else L).
    { destruct b; rewrite HL; [by rewrite app_assoc|done]. }
    rewrite HLeq. split.
    - intros n x y Hx Hns Hxy Hpx [->%elem_of_singleton|Hv]%elem_of_union; [set_solver|]. apply elem_of_union_r.
      destruct (decide (n = t)) as [->|Hnt].
      + destruct (H2 x Hv) as [HvV|(_ & _ & [Hf|Hf])]; [by eapply j1| |congruence]. exfalso. apply Hf. eauto.
      + eapply j1; [done|exact Hx|done|exact Hxy|done|]. by eapply HV1.
    - intros x [Hx|Hx%(j2 _ _ _ HJ)]%elem_of_union; set_solver.
    - intros n x Hn Hx. destruct (decide (n = t)) as [->|Hnt].
      + destruct (decide (x = q)) as [->|Hxq]; [set_solver|]. apply elem_of_union_r. destruct b.
        * by apply H4.
        * apply H1. by eapply j3.
      + apply elem_of_union_r, H1. eapply (j3 _ _ _ HJ n); [|done]. destruct b; [|done]. set_solver.
    - intros n x Hx Hns [->%elem_of_singleton|Hv]%elem_of_union; [exists q; set_solver|].
      destruct (decide (n = t)) as [->|Hnt]; [exists q; set_solver|].
      destruct (j4 _ _ _ HJ n x Hx Hns (HV1 _ _ Hv Hx Hnt)) as (q' & ? & ?). exists q'. set_solver.
    - intros n. destruct (decide (n = t)) as [->|Hnt]; [exact Hj5|].
      transitivity (n ∈ L); [destruct b; [set_solver|done]|]. rewrite (j5 _ _ _ HJ).
      assert (Hnq : forall y, y ∈ inp n -> y <> q) by (intros y Hy ->; by apply Hnt, (Hinown n q)).
      split; (intros [?|(G1 & (x & G2 & G3) & G4)]; [by left|right]); (split; [done|]).
      + split; [exists x; set_solver|]. intros y z Hy Hz Hpy. apply elem_of_union_r. by eapply G4.
      + split; [exists x; split; [done|]; pose proof (Hnq x G2); set_solver|].
        intros y z Hy Hz Hpy. pose proof (G4 y z Hy Hz Hpy). pose proof (Hnq y Hy). set_solver.
    - destruct b; [|apply HJ]. apply NoDup_app. split; [apply HJ|]. split; [|apply NoDup_singleton].
      intros x Hx ->%elem_of_list_singleton. destruct (proj1 H3 eq_refl) as [B1 _]. apply (B1 Hq). by eapply j3.
    - intros x n Hx Hn. destruct (HA' x n Hx Hn) as (u' & p' & ? & ? & ?). exists u', p'. split; [done|]. split; [done|].
      destruct b; [set_solver|done].
    - destruct b; [|apply HJ]. intros L1 n L2 E Hns. destruct (decide (L2 = [])) as [->|HL2].
      + apply app_inj_tail in E as [<- <-]. split; [exists u, p, q; done|].
        intros q' z G3 Gz Hpq'.
        destruct Hj5 as [Hj5 _]. destruct Hj5 as [Hj5|(_ & _ & Hj5)]; [set_solver|done|].
        apply HA'; [by eapply Hj5|done].
      + destruct (exists_last HL2) as (L2' & z & ->). change (n :: L2' ++ [z]) with ((n :: L2') ++ [z]) in E.
        rewrite app_assoc in E. apply app_inj_tail in E as [E _]. by eapply j8.
  Qed.

  (** Between two calls of [next]: [A] is what the yielded nodes reached. *)
  Definition reached (Y : list nat) (q : nat) : Prop :=
    exists u p, u ∈ Y /\ p ∈ outp u /\ glk v p q /\ pf u p = true.

  Lemma topo_links_ok V A L C Y u p qs : (forall q, q ∈ qs -> glk v p q) ->
    J V A L -> L = Y ++ C -> u ∈ L -> p ∈ outp u -> pf u p = true ->
    exists V' A' C', rfold (topo_link_step v d nf pf) qs (V, C) = Ok (V', C') /\ J V' A' (Y ++ C')
      /\ (exists x, C' = C ++ x) /\ (forall q, q ∈ A' <-> q ∈ A \/ q ∈ qs)
      /\ (forall x n, x ∈ V' -> x ∈ gv_ports v n d -> x ∈ V) /\ V ⊆ V'.
  Proof.
    intros Hqs. revert V A L C. induction qs as [|q qs IH]; intros V A L C HJ HL Hu Hp Hpf; cbn [rfold].
    - exists V, A, C. split; [done|]. rewrite <- HL. split; [done|]. split; [exists []; by rewrite app_nil_r|].
      split; [|done]. intros q. split; [by left|]. intros [?|H]; [done|by apply elem_of_nil in H].
    - destruct (link_step_ok V A L C Y u p q) as (V1 & C1 & -> & HJ1 & (x1 & Hx1) & Hv1 & Hm1); try done.
      { apply Hqs. by left. }
      cbn [mbind res_bind]. destruct (IH (fun z Hz => Hqs z (elem_of_list_further _ _ _ Hz)) V1 ({[q]} ∪ A) (Y ++ C1) C1) as (V2 & A2 & C2 & -> & HJ2 & (x2 & Hx2) & HA & Hv2 & Hm2);
        try done.
      { rewrite Hx1, app_assoc, <- HL. set_solver. }
      exists V2, A2, C2. split; [done|]. split; [done|]. split; [exists (x1 ++ x2); by rewrite Hx2, Hx1, app_assoc|].
      split; [|split; [|by etrans]].
      + intros z. rewrite HA, elem_of_cons, elem_of_union, elem_of_singleton. tauto.
      + intros x n Hx Hn. eapply Hv1; [|exact Hn]. by eapply Hv2.
  Qed.

  Lemma topo_ports_ok u ps : forall V A L C Y, (forall p, p ∈ ps -> p ∈ outp u) ->
    J V A L -> L = Y ++ C -> u ∈ L ->
    exists V' A' C', rfold (topo_port_step v d nf pf u) ps (V, C) = Ok (V', C') /\ J V' A' (Y ++ C')
      /\ (exists x, C' = C ++ x)
      /\ (forall q, q ∈ A' <-> q ∈ A \/ exists p, p ∈ ps /\ glk v p q /\ pf u p = true)
      /\ (forall x n, x ∈ gv_ports v n d -> x ∈ V' <-> x ∈ V \/ x ∈ ps).
  Proof.
    induction ps as [|p ps IH]; intros V A L C Y Hps HJ HL Hu; cbn [rfold topo_port_step].
    - exists V, A, C. split; [done|]. rewrite <- HL. split; [done|]. split; [exists []; by rewrite app_nil_r|].
      split.
      + intros q. split; [by left|]. intros [?|(p & H & _)]; [done|by apply elem_of_nil in H].
      + intros x n _. split; [by left|]. intros [?|H]; [done|by apply elem_of_nil in H].
    - assert (Hp : p ∈ outp u) by (apply Hps; by left).
      assert (HJ0 : J ({[p]} ∪ V) A L).
      { assert (Hne : forall n x, x ∈ inp n -> x ∈ {[p]} ∪ V -> x ∈ V).
        { intros n x Hx [->%elem_of_singleton|?]%elem_of_union; [|done]. exfalso.
          destruct (wf_own _ W _ _ _ _ _ Hx Hp) as [_ ?]. by apply (rev_dir_ne d). }
        split.
        - intros n q z Hq Hns Hz Hpf HV. eapply (j1 _ _ _ HJ n); [done..|]. by eapply Hne.
        - intros q Hq%(j2 _ _ _ HJ). set_solver.
        - intros n q Hn Hq. apply elem_of_union_r. by eapply j3.
        - intros n q Hq Hns HV. eapply (j4 _ _ _ HJ n q); [done..|]. by eapply Hne.
        - apply HJ.
        - apply HJ.
        - apply HJ.
        - apply HJ. }
      assert (Hps' : forall x, x ∈ ps -> x ∈ outp u) by (intros x Hx; apply Hps; by right).
      destruct (pf u p) eqn:Epf.
      + destruct (wf_links _ W _ _ _ Hp) as [l Hl]. rewrite Hl. cbn [mbind res_bind].
        destruct (topo_links_ok ({[p]} ∪ V) A L C Y u p l) as (V1 & A1 & C1 & -> & HJ1 & (x1 & Hx1) & HA1 & Hv1 & Hm1); try done.
        { intros q Hq. by exists l. }
        cbn [mbind res_bind]. destruct (IH V1 A1 (Y ++ C1) C1 Y) as (V2 & A2 & C2 & -> & HJ2 & (x2 & Hx2) & HA2 & Hv2); try done.
        { rewrite Hx1, app_assoc, <- HL. set_solver. }
        exists V2, A2, C2. split; [done|]. split; [done|]. split; [exists (x1 ++ x2); by rewrite Hx2, Hx1, app_assoc|].
        split.
        * intros q. rewrite HA2, HA1. split.
          -- intros [[?|Hq]|(p' & ? & ? & ?)]; [by left|right; exists p|right; exists p'].
             ++ split; [by left|]. split; [by exists l|done].
             ++ split; [by right|done].
          -- intros [?|(p' & [->|Hp']%elem_of_cons & Hq & ?)]; [by do 2 left|left; right|right; by exists p'].
             destruct Hq as (l' & Hl' & Hq). rewrite Hl in Hl'. by injection Hl' as <-.
        * intros x n Hx. rewrite (Hv2 x n Hx), elem_of_cons. split.
          -- intros [H|?]; [|tauto]. eapply Hv1 in H; [|exact Hx]. set_solver.
          -- intros [?|[->|?]]; [left; apply Hm1; set_solver|left; apply Hm1; set_solver|by right].
      + cbn [mbind res_bind]. destruct (IH ({[p]} ∪ V) A L C Y) as (V2 & A2 & C2 & -> & HJ2 & (x2 & Hx2) & HA2 & Hv2); try done.
        exists V2, A2, C2. split; [done|]. split; [done|]. split; [by exists x2|]. split.
        * intros q. rewrite HA2. split; (intros [?|(p' & Hp' & ? & ?)]; [by left|right; exists p']).
          -- split; [by right|done].
          -- apply elem_of_cons in Hp' as [->|?]; [congruence|done].
        * intros x n Hx. rewrite (Hv2 x n Hx), elem_of_cons. set_solver.
  Qed.

  (** The invariant between calls. *)
  Definition K (Y C : list nat) (V : gset nat) : Prop :=
    (exists A, J V A (Y ++ C) /\ forall q, q ∈ A <-> reached Y q)
    /\ forall x n, x ∈ outp n -> x ∈ V <-> n ∈ Y.

  Lemma next_ok Y n C V k : K Y (n :: C) V ->
    exists V' C', topo_next v d nf pf (TS V (n :: C) k) = Ok (Some n, TS V' C' (k + 1)) /\ K (Y ++ [n]) C' V'
      /\ exists x, C' = C ++ x.
  Proof.
    intros ((A & HJ & HA) & HV). unfold topo_next. cbn.
    destruct (topo_ports_ok n (outp n) V A (Y ++ n :: C) C (Y ++ [n])) as (V' & A' & C' & -> & HJ' & Hx & HA' & HV'); try done.
    { by rewrite <- app_assoc. }
    { set_solver. }
    cbn. exists V', C'. split; [done|]. split; [|done]. split.
    - exists A'. split; [done|]. intros q. rewrite HA', HA. unfold reached. split.
      + intros [(u & p & ? & ?)|(p & ? & ? & ?)]; [exists u, p; set_solver|exists n, p; set_solver].
      + intros (u & p & [Hu| ->%elem_of_list_singleton]%elem_of_app & ? & ? & ?); [left; by exists u, p|right; by exists p].
    - intros x m Hx'. rewrite (HV' x m Hx'), (HV x m Hx'), elem_of_app, elem_of_list_singleton. split.
      + intros [?|H]; [by left|right]. by destruct (wf_own _ W _ _ _ _ _ Hx' H).
      + intros [?| ->]; [by left|by right].
  Qed.
  Lemma next_nil V k : topo_next v d nf pf (TS V [] k) = Ok (None, TS V [] k).
  Proof. done. Qed.

  Context (Hsrc : NoDup src).

  Lemma topo_bound Y C V : K Y C V -> length (Y ++ C) <= length (src ++ gv_nodes v).
  Proof.
    intros ((A & HJ & _) & _). apply submseteq_length, NoDup_submseteq; [apply HJ|].
    intros n [Hn|(_ & (q & Hq & _) & _)]%(j5 _ _ _ HJ); apply elem_of_app; [by left|right]. by eapply wf_nodes.
  Qed.
  Lemma collect_ok k : forall Y C V m, K Y C V -> length (src ++ gv_nodes v) - length Y <= k ->
    exists Y' V', (forall fuel, length Y' < fuel -> topo_collect v d nf pf fuel (TS V C m) = HOk Y')
      /\ K (Y ++ Y') [] V' /\ exists x, Y' = C ++ x.
  Proof.
    induction k as [|k IH]; intros Y C V m HK Hk.
    - pose proof (topo_bound _ _ _ HK) as Hb. rewrite app_length in Hb. destruct C as [|n C]; [|cbn in Hb; lia].
      exists [], V. split; [|split; [by rewrite app_nil_r|by exists []]]. intros [|fuel] Hf; [cbn in Hf; lia|done].
    - destruct C as [|n C].
      { exists [], V. split; [|split; [by rewrite app_nil_r|by exists []]]. intros [|fuel] Hf; [cbn in Hf; lia|done]. }
      destruct (next_ok Y n C V m HK) as (V1 & C1 & En & HK1 & x1 & Hx1).
      destruct (IH (Y ++ [n]) C1 V1 (m + 1) HK1) as (Y' & V' & Hrun & HK' & x & Hx).
      { pose proof (topo_bound _ _ _ HK1) as Hb. rewrite !app_length in *. cbn in *. lia. }
      exists (n :: Y'), V'. split; [|split].
      + intros [|fuel] Hf; [lia|]. cbn [topo_collect]. rewrite En. cbn [lift mbind hres_bind].
        rewrite Hrun by (cbn in Hf; lia). done.
      + by rewrite <- app_assoc in HK'.
      + exists (x1 ++ x). by rewrite Hx, Hx1, <- app_assoc.
  Qed.

  Lemma init_ok : K [] src (foldl (fun vis n => mark_all (inp n) vis) ∅ src).
  Proof.
    assert (Hm : forall ps (V : gset nat) x, x ∈ mark_all ps V <-> x ∈ V \/ x ∈ ps).
    { induction ps as [|p ps IH]; intros V x; cbn; [set_solver|]. unfold mark_all in IH. rewrite IH. set_solver. }
    assert (Hf : forall ns (V : gset nat) x, x ∈ foldl (fun vis n => mark_all (inp n) vis) V ns <-> x ∈ V \/ exists n, n ∈ ns /\ x ∈ inp n).
    { induction ns as [|n ns IH]; intros V x; cbn.
      - split; [by left|]. intros [?|(n & Hn & _)]; [done|by apply elem_of_nil in Hn].
      - rewrite IH, Hm. split.
        + intros [[?|?]|(m & ? & ?)]; [by left|right; exists n|right; exists m]; split; try done; [by left|by right].
        + intros [?|(m & [->|?]%elem_of_cons & ?)]; [by do 2 left|left; by right|right; by exists m]. }
    assert (Hin : forall n q, q ∈ inp n -> q ∈ foldl (fun vis n => mark_all (inp n) vis) ∅ src -> n ∈ src).
    { intros n q Hq [?|(m & Hm' & Hqm)]%Hf; [set_solver|]. by destruct (wf_own _ W _ _ _ _ _ Hq Hqm) as [-> _]. }
    split.
    - exists ∅. split; [|intros q; split; [set_solver|]; intros (u & p & Hu & _); by apply elem_of_nil in Hu].
      cbn [app]. split.
      + intros n q p Hq Hns _ _ HV. exfalso. by eapply Hns, Hin.
      + set_solver.
      + intros n q Hn Hq. apply Hf. right. by exists n.
      + intros n q Hq Hns HV. exfalso. by eapply Hns, Hin.
      + intros n. split; [by left|]. intros [?|(_ & (q & _ & Hq) & _)]; [done|set_solver].
      + done.
      + set_solver.
      + intros L1 n L2 E Hns. exfalso. apply Hns. rewrite E. set_solver.
    - intros x n Hx. split; [|by intros ?%elem_of_nil]. intros [?|(m & _ & Hxm)]%Hf; [set_solver|]. exfalso.
      destruct (wf_own _ W _ _ _ _ _ Hx Hxm) as [_ E]. by apply (rev_dir_ne d).
  Qed.

  (** What holds with any number of links per port. *)
  Lemma topo_gen0 : exists Y x, Y = src ++ x
    /\ (forall fuel, length Y < fuel ->
          topo_collect v d nf pf fuel (TS (foldl (fun vis n => mark_all (inp n) vis) ∅ src) src 0) = HOk Y)
    /\ NoDup Y
    /\ (forall n, n ∈ Y <-> n ∈ src \/ (nf n = true
          /\ (exists u p q, u ∈ Y /\ glink v d u p q n /\ pf u p = true)
          /\ forall q z, q ∈ inp n -> glk v q z -> pf n q = true -> exists u p, u ∈ Y /\ glink v d u p q n /\ pf u p = true))
    /\ (forall L1 n L2, Y = L1 ++ n :: L2 -> n ∉ src ->
          (exists u p q, glink v d u p q n /\ pf u p = true /\ u ∈ L1) /\
          (forall q z, q ∈ inp n -> glk v q z -> pf n q = true -> exists u p, glink v d u p q n /\ pf u p = true /\ u ∈ L1)).
  Proof.
    destruct (collect_ok (length (src ++ gv_nodes v)) [] src _ 0 init_ok) as (Y & V' & Hrun & HK & x & Hx); [lia|].
    exists Y, x. split; [done|]. split; [exact Hrun|]. cbn in HK. destruct HK as ((A & HJ & HA) & _). rewrite app_nil_r in HJ.
    split; [apply HJ|]. split; [|apply HJ].
    intros n. rewrite (j5 _ _ _ HJ n). split; (intros [?|(H1 & H2 & H3)]; [by left|right]); (split; [done|]).
    - destruct H2 as (q & Hq & (u & p & Hu & Hp & Hlk & Hpf)%HA). split.
      + exists u, p, q. split_and!; done.
      + intros q' z G3 Gz Hpq. pose proof (H3 q' z G3 Gz Hpq) as (u2 & p2 & Hu2 & Hp2 & Hlk2 & Hpf2)%HA.
        exists u2, p2. split_and!; done.
    - destruct H2 as (u & p & q & Hu & (G1 & G2 & G3) & Hpf). split.
      + exists q. split; [done|]. apply HA. by exists u, p.
      + intros q' p' Hq' Hlk Hpq. destruct (H3 q' p' Hq' Hlk Hpq) as (u' & p2 & Hu' & (G1' & G2' & _) & Hpf'). apply HA. by exists u', p2.
  Qed.

  Lemma topo_gen (Sg : single v (rev_dir d)) : exists Y x, Y = src ++ x
    /\ (forall fuel, length Y < fuel ->
          topo_collect v d nf pf fuel (TS (foldl (fun vis n => mark_all (inp n) vis) ∅ src) src 0) = HOk Y)
    /\ NoDup Y
    /\ (forall n, n ∈ Y <-> n ∈ src \/ (nf n = true
          /\ (exists u p q, u ∈ Y /\ glink v d u p q n /\ pf u p = true)
          /\ forall u p q, glink v d u p q n -> pf n q = true -> u ∈ Y /\ pf u p = true))
    /\ (forall L1 n L2, Y = L1 ++ n :: L2 -> n ∉ src ->
          (exists u p q, glink v d u p q n /\ pf u p = true /\ u ∈ L1) /\
          (forall u p q, glink v d u p q n -> pf n q = true -> pf u p = true /\ u ∈ L1)).
  Proof.
    destruct topo_gen0 as (Y & x & H1 & H2 & H3 & H4 & H5). exists Y, x. split; [done|]. split; [done|]. split; [done|].
    assert (HS : forall u p q n u' p', glink v d u p q n -> glink v d u' p' q n -> u = u' /\ p = p').
    { intros u p q n u' p' (A1 & A2 & A3) (B1 & B2 & B3). destruct (wf_sym _ W _ _ _ _ A1 A2) as [A _]. destruct (wf_sym _ W _ _ _ _ B1 B2) as [B _].
      assert (p = p') as -> by (by eapply (Sg n q)). by destruct (wf_own _ W _ _ _ _ _ A1 B1) as [-> _]. }
    split.
    - intros n. rewrite H4. split; (intros [?|(A & B & C)]; [by left|right]); (split; [done|]); (split; [done|]).
      + intros u p q G Hq. destruct G as (G1 & G2 & G3). destruct (wf_sym _ W _ _ _ _ G1 G2) as [G2' _].
        destruct (C q p G3 G2' Hq) as (u' & p' & Hu & G & Hpf). destruct (HS u p q n u' p') as [-> ->]; done.
      + intros q z Hq Hz Hpq. destruct (wf_sym _ W _ _ _ _ Hq Hz) as [Hz' [m Hm]]. rewrite rev_dir_invol in Hm.
        exists m, z. destruct (C m z q) as [? ?]; [done|done|]. split_and!; done.
    - intros L1 n L2 E Hn. destruct (H5 L1 n L2 E Hn) as [A C]. split; [done|].
      intros u p q G Hq. destruct G as (G1 & G2 & G3). destruct (wf_sym _ W _ _ _ _ G1 G2) as [G2' _].
      destruct (C q p G3 G2' Hq) as (u' & p' & G & Hpf & Hu). destruct (HS u p q n u' p') as [-> ->]; done.
  Qed.
End topo.
