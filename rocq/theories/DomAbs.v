(** The iteration of dominators.rs on post-order indices: it ends, and its fixed
    point is the immediate dominator tree. *)
From Verif Require Export AlgSpec.

Section dom.
  Context (r : nat).

  (** Trees given by a parent function with larger parents; [r] is the root. *)
  Definition up (f : nat -> nat) (a b : nat) : Prop := a < r /\ b = f a.
  Definition anc (f : nat -> nat) : nat -> nat -> Prop := rtc (up f).
  Definition tree (lo : nat) (f : nat -> nat) : Prop := forall i, lo <= i -> i < r -> i < f i <= r.

  Lemma tree_mono lo lo' f : lo <= lo' -> tree lo f -> tree lo' f.
  Proof. intros H T i Hi. apply T. lia. Qed.
  Lemma anc_step f a b : a < r -> anc f (f a) b -> anc f a b.
  Proof. intros Ha H. eapply rtc_l; [|exact H]. by split. Qed.
  Lemma anc_inv f a b : anc f a b -> a = b \/ a < r /\ anc f (f a) b.
  Proof. intros H. apply rtc_inv in H as [->|(c & [Hc ->] & H)]; auto. Qed.
  Lemma anc_le lo f a b : tree lo f -> anc f a b -> lo <= a -> a <= b /\ (a <= r -> b <= r).
  Proof.
    intros T. induction 1 as [|a c b [Ha ->] _ IH]; [lia|]. intros Hlo. specialize (T a Hlo Ha). specialize (IH ltac:(lia)). lia.
  Qed.
  Lemma anc_ext lo f f' : tree lo f -> (forall j, lo <= j -> j < r -> f' j = f j) ->
    forall a b, anc f a b -> lo <= a -> anc f' a b.
  Proof.
    intros T E a b. induction 1 as [|a c b [Ha ->] _ IH]; [intros; apply rtc_refl|]. intros Hlo. apply anc_step; [done|].
    rewrite E by done. apply IH. specialize (T a Hlo Ha). lia.
  Qed.
  Lemma anc_above lo f a b : tree lo f -> anc f a b -> lo <= a -> forall c, anc f a c -> b <= c -> anc f b c.
  Proof.
    intros T. induction 1 as [|a x b [Ha ->] H IH]; [done|]. intros Hlo c Hc Hbc. pose proof (T a Hlo Ha).
    apply anc_inv in Hc as [<-|[_ Hc]].
    - destruct (anc_le lo f _ _ T H ltac:(lia)). lia.
    - apply IH; [lia|done|done].
  Qed.
  Lemma anc_root f a : tree 0 f -> a <= r -> anc f a r.
  Proof.
    intros T. remember (r - a) as k eqn:Hk. revert a Hk. induction k as [k IH] using lt_wf_ind. intros a -> Ha.
    destruct (decide (a = r)) as [->|]; [apply rtc_refl|]. pose proof (T a ltac:(lia) ltac:(lia)). apply anc_step; [lia|].
    eapply IH; [|reflexivity|]; lia.
  Qed.

  (** Nearest common ancestors of a list of nodes. *)
  Definition isnca (f : nat -> nat) (P : list nat) (c : nat) : Prop :=
    (forall p, p ∈ P -> anc f p c) /\ forall x, (forall p, p ∈ P -> anc f p x) -> anc f c x.
  Lemma isnca_ext lo f f' P c : tree lo f -> (forall j, lo <= j -> j < r -> f' j = f j) -> (forall p, p ∈ P -> lo <= p) ->
    P <> [] -> isnca f P c -> isnca f' P c.
  Proof.
    intros T E HP HP0 [H1 H2].
    assert (T' : tree lo f') by (intros j ? ?; rewrite E by done; by apply T).
    assert (Hc : lo <= c).
    { destruct P as [|p P]; [done|]. destruct (anc_le lo f p c T (H1 p ltac:(left)) (HP p ltac:(left))).
      specialize (HP p ltac:(left)). lia. }
    split.
    - intros p Hp. apply (anc_ext lo f f'); auto.
    - intros x Hx. apply (anc_ext lo f f'); [done|done| |done]. apply H2. intros p Hp.
      apply (anc_ext lo f' f); auto. intros. symmetry. auto.
  Qed.

  (** [f'] with the parents of nodes up to [i] taken from [f]. *)
  Definition mix (f' f : nat -> nat) (i j : nat) : nat := if decide (i < j) then f' j else f j.
  (** Parents only move up. *)
  Definition rise (lo : nat) (f f' : nat -> nat) : Prop := forall i, lo <= i -> i < r -> anc f' (f i) (f' i).

  Lemma mix_tree f' f i : tree 0 f -> tree 0 f' -> tree 0 (mix f' f i).
  Proof. intros T T' j _ Hj. unfold mix. destruct (decide _); [apply T'|apply T]; lia. Qed.
  Lemma mix_above f' f i a b : tree 0 f -> tree 0 f' -> i < a -> anc (mix f' f i) a b <-> anc f' a b.
  Proof.
    intros T T' Hi. pose proof (mix_tree f' f i T T') as Tm. split; intros H.
    - apply (anc_ext (S i) (mix f' f i) f'); [by eapply tree_mono; [|exact Tm]; lia| |done|lia].
      intros j Hj _. unfold mix. by rewrite decide_True by lia.
    - apply (anc_ext (S i) f' (mix f' f i)); [by eapply tree_mono; [|exact T']; lia| |done|lia].
      intros j Hj _. unfold mix. by rewrite decide_True by lia.
  Qed.

  Lemma rise_weak lo f f' : tree lo f -> tree lo f' -> rise lo f f' -> forall a b, anc f' a b -> lo <= a -> anc f a b.
  Proof.
    intros T T' R a. remember (r - a) as k eqn:Hk. revert a Hk. induction k as [k IH] using lt_wf_ind. intros a -> b Hb Hlo.
    apply anc_inv in Hb as [<-|[Ha Hb]]; [apply rtc_refl|]. pose proof (T a Hlo Ha). apply anc_step; [done|].
    eapply IH; [|reflexivity| |]; [lia| |lia]. eapply rtc_transitive; [by apply R|done].
  Qed.
  Lemma rise_strong lo f f' : tree lo f -> tree lo f' -> rise lo f f' ->
    forall j k, anc f j k -> lo <= j -> forall y, anc f' j y -> k <= y -> anc f' k y.
  Proof.
    intros T T' R j k. induction 1 as [|j x k [Hj ->] H IH]; [done|]. intros Hlo y Hy Hky. pose proof (T j Hlo Hj).
    apply IH; [lia| |done]. apply anc_inv in Hy as [<-|[_ Hy]].
    - destruct (anc_le lo f _ _ T H ltac:(lia)). lia.
    - eapply rtc_transitive; [by apply R|done].
  Qed.

  Context (pre : nat -> list nat).
  Context (pre_le : forall i p, p ∈ pre i -> i <= r /\ p <= r).
  Context (pre_up : forall i, i < r -> exists p, p ∈ pre i /\ i < p).
  (** One round over all nodes, from the largest down. *)
  Definition pass (f f' : nat -> nat) : Prop := forall i, i < r -> isnca (mix f' f i) (pre i) (f' i).
  (** The first round, when the smaller nodes have no parent yet. *)
  Definition pass1 (f' : nat -> nat) : Prop := forall i, i < r -> isnca f' (filter (fun p => i < p) (pre i)) (f' i).
  Lemma rise_gen f f' : tree 0 f -> tree 0 f' -> pass f f' ->
    (forall i p, i < r -> p ∈ pre i -> i < p -> anc f p (f i)) ->
    (forall i c, i < r -> rise (S i) f f' -> i < c -> (forall p, p ∈ pre i -> anc (mix f' f i) p c) -> f i <= c) ->
    rise 0 f f'.
  Proof.
    intros T T' Hp H1 H2.
    assert (H : forall k i, r - i <= k -> i < r -> anc f' (f i) (f' i)).
    { intros k. induction k as [|k IH]; intros i Hk Hi; [lia|].
      assert (R : rise (S i) f f') by (intros j ? ?; apply IH; lia).
      destruct (pre_up i Hi) as (p & Hpp & Hip). destruct (Hp i Hi) as [Hc _].
      eapply (rise_strong (S i)); [by eapply tree_mono; [|exact T]; lia|by eapply tree_mono; [|exact T']; lia|done|by apply H1|lia| |].
      - apply (mix_above f' f i); [done|done|done|]. by apply Hc.
      - apply H2; [done|done| |done]. apply T'; lia. }
    intros i _ Hi. by apply (H (r - i)).
  Qed.

  Lemma rise_first f f' : tree 0 f -> tree 0 f' -> pass1 f -> pass f f' -> rise 0 f f'.
  Proof.
    intros T T' P1 P. apply rise_gen; [done|done|done|..].
    - intros i p Hi Hp Hip. apply P1; [done|]. by apply elem_of_list_filter.
    - intros i c Hi R Hc Hcom. destruct (P1 i Hi) as [_ Hn].
      apply (anc_le 0 f); [done| |lia]. apply Hn. intros p [Hip Hp]%elem_of_list_filter.
      apply (rise_weak (S i) f f'); [by eapply tree_mono; [|exact T]; lia|by eapply tree_mono; [|exact T']; lia|done| |lia].
      apply (mix_above f' f i); auto.
  Qed.

  Lemma rise_next f0 f f' : tree 0 f0 -> tree 0 f -> tree 0 f' -> pass f0 f -> rise 0 f0 f -> pass f f' -> rise 0 f f'.
  Proof.
    intros T0 T T' P0 R0 P. apply rise_gen; [done|done|done|..].
    - intros i p Hi Hp Hip. apply (mix_above f f0 i); [done|done|done|]. by apply P0.
    - intros i c Hi R Hc Hcom. destruct (P0 i Hi) as [_ Hn].
      assert (Hfi : i < f i) by (apply T; lia).
      assert (Hac : forall p, p ∈ pre i -> anc (mix f f0 i) p c).
      { intros p Hp. assert (Hpc : anc f p c).
        { specialize (Hcom p Hp). clear Hp. induction Hcom as [|a x b [Ha ->] _ IH]; [apply rtc_refl|].
          eapply rtc_transitive; [|by apply IH]. unfold mix. destruct (decide (i < a)) as [Hia|Hia].
          - apply (rise_weak (S i) f f'); [by eapply tree_mono; [|exact T]; lia|by eapply tree_mono; [|exact T']; lia|done| |lia].
            apply anc_step; [done|apply rtc_refl].
          - apply anc_step; [done|apply rtc_refl]. }
        clear Hp Hcom. remember (r - p) as k eqn:Hk. revert p Hk Hpc. induction k as [k IH] using lt_wf_ind. intros p -> Hpc.
        destruct (decide (i < p)) as [Hip|Hip]; [by apply mix_above|].
        apply anc_inv in Hpc as [->|[Hpr Hpc]]; [lia|]. apply anc_step; [done|].
        unfold mix at 2. rewrite decide_False by lia. pose proof (T0 p ltac:(lia) Hpr).
        eapply IH; [|reflexivity|]; [lia|]. eapply rtc_transitive; [apply R0; lia|done]. }
      specialize (Hn c Hac). apply mix_above in Hn; [|done|done|done].
      by apply (anc_le 0 f (f i) c T Hn); lia.
  Qed.

  (** ** Dominance *)
  Definition E (p i : nat) : Prop := p ∈ pre i.
  Notation dom := (dominates E r).
  (** The parent is dominated by all other dominators. *)
  Definition good (f : nat -> nat) (i : nat) : Prop := forall x, dom x i -> x <> i -> dom x (f i).

  Lemma dom_root x : dom x r -> x = r.
  Proof. intros H. specialize (H [r] (walk_nil _ _)). by apply elem_of_list_singleton in H. Qed.
  Lemma dom_pred x i p : dom x i -> x <> i -> p ∈ pre i -> dom x p.
  Proof.
    intros H Hx Hp l Hl. specialize (H (i :: l) (walk_snoc _ _ _ _ _ Hl Hp)). by apply elem_of_cons in H as [->|].
  Qed.
  Lemma dom_anc lo f : tree lo f -> (forall j, lo <= j -> j < r -> good f j) ->
    forall p, lo <= p -> p <= r -> forall x, dom x p -> anc f p x.
  Proof.
    intros T G p. remember (r - p) as k eqn:Hk. revert p Hk. induction k as [k IH] using lt_wf_ind. intros p -> Hlo Hp x Hx.
    destruct (decide (p = x)) as [->|Hpx]; [apply rtc_refl|].
    destruct (decide (p = r)) as [->|]; [apply dom_root in Hx; congruence|].
    pose proof (T p Hlo ltac:(lia)). apply anc_step; [lia|]. eapply IH; [|reflexivity|..]; [lia|lia|lia|].
    apply G; [done|lia|done|congruence].
  Qed.
  Lemma good_nca lo f P c x : tree lo f -> (forall j, lo <= j -> j < r -> good f j) -> P <> [] ->
    (forall p, p ∈ P -> lo <= p <= r) -> isnca f P c -> (forall p, p ∈ P -> dom x p) -> dom x c.
  Proof.
    intros T G HP0 HP [H1 H2] Hx.
    assert (Hcx : anc f c x) by (apply H2; intros p Hp; apply (dom_anc lo f T G); [by apply HP|by apply HP|auto]).
    destruct P as [|p P]; [done|]. assert (Hp : p ∈ p :: P) by left.
    specialize (H1 p Hp). specialize (HP p Hp). specialize (Hx p Hp). clear Hp HP0 H2.
    assert (Hle : c <= x) by (apply (anc_le lo f c x T Hcx); destruct (anc_le lo f p c T H1); lia).
    induction H1 as [|p q c [Hp ->] H1 IH]; [done|]. pose proof (T p ltac:(lia) Hp).
    apply IH; [lia| |done|done]. apply G; [lia|done|done|].
    destruct (anc_le lo f _ _ T H1 ltac:(lia)). lia.
  Qed.

  Lemma good_first f : tree 0 f -> pass1 f -> forall i, i < r -> good f i.
  Proof.
    intros T P i. remember (r - i) as k eqn:Hk. revert i Hk. induction k as [k IH] using lt_wf_ind. intros i -> Hi x Hx Hne.
    destruct (pre_up i Hi) as (p & Hp & Hip).
    eapply (good_nca (S i)); [by eapply tree_mono; [|exact T]; lia| | | |by apply P|].
    - intros j ? ?. eapply IH; [|reflexivity|done]. lia.
    - intros E. eapply (not_elem_of_nil p). rewrite <- E. by apply elem_of_list_filter.
    - intros q [? ?]%elem_of_list_filter. split; [lia|by eapply pre_le].
    - intros q [? ?]%elem_of_list_filter. by eapply dom_pred.
  Qed.
  Lemma good_next f f' : tree 0 f -> tree 0 f' -> pass f f' -> (forall i, i < r -> good f i) -> forall i, i < r -> good f' i.
  Proof.
    intros T T' P G i. remember (r - i) as k eqn:Hk. revert i Hk. induction k as [k IH] using lt_wf_ind. intros i -> Hi x Hx Hne.
    destruct (pre_up i Hi) as (p & Hp & Hip).
    eapply (good_nca 0 (mix f' f i)); [by apply mix_tree| | | |exact (P i Hi)|].
    - intros j _ Hj y Hy Hyj. unfold mix. destruct (decide (i < j)); [|by apply G].
      eapply IH; [|reflexivity|done|done|done]. lia.
    - intros E. rewrite E in Hp. by apply elem_of_nil in Hp.
    - intros q ?. split; [lia|by eapply pre_le].
    - intros q ?. by eapply dom_pred.
  Qed.

  Lemma walk_start R a b l : walk R a b l -> a ∈ l.
  Proof. induction 1; [by left|by right]. Qed.
  Lemma fixpoint_dom f : tree 0 f -> (forall i, i < r -> isnca f (pre i) (f i)) ->
    forall i l, walk E r i l -> i <= r /\ forall x, anc f i x -> x ∈ l.
  Proof.
    intros T P i l. induction 1 as [|b c l Hw [IHb IH] Hbc].
    - split; [done|]. intros x [->|[? _]]%anc_inv; [by left|lia].
    - destruct (pre_le c b Hbc) as [Hc _]. destruct (decide (c < r)) as [Hcr|Hcr].
      + split; [lia|]. intros x [->|[_ Hx]]%anc_inv; [by left|]. right. apply IH.
        eapply rtc_transitive; [|exact Hx]. by apply P.
      + split; [done|]. intros x [<-|[? _]]%anc_inv; [by left|lia].
  Qed.
End dom.
