(** Proof of property C44. *)
From Verif Require Export LcaProofs.

Lemma C44_lca_pf :
forall h nodes, hreach h -> NoDup nodes ->
  (forall c p, h_parent h c = Some p -> c ∈ nodes /\ p ∈ nodes) ->
  exists N l, forall fuel, N <= fuel ->
  lca_new fuel nodes h = HOk l /\
  forall a b, a ∈ nodes -> b ∈ nodes ->
    (lca_is_ancestor l a b = true <-> anc h a b)
    /\ (exists r, lca_root fuel l a = HOk r /\ anc h r a /\ h_parent h r = None)
    /\ ((exists c, lca_lca fuel l a b = HOk (Some c) /\ anc h c a /\ anc h c b
           /\ forall d, anc h d a -> anc h d b -> anc h d c)
        \/ lca_lca fuel l a b = HOk None /\ ~ exists d, anc h d a /\ anc h d b).
Proof.
  intros h nodes Hr Hnd Hcl0. assert (Hcl : forall c p, c ∈ nodes -> h_parent h c = Some p -> p ∈ nodes) by (intros c p _ H; by eapply Hcl0). destruct (hreach_inv _ Hr) as [ch HI].
  set (n0 := length (um_data h)).
  destruct (roots_ok h ch HI nodes Hnd
              (mkLCA (um_with_default 0) (um_with_default 0) (um_with_default [])) 0 [])
    as (l & S' & ts & G & _ & Hall & _ & Hrun).
  { intros r x _ _ Hx. by apply elem_of_nil in Hx. }
  { intros x y Hx. by apply elem_of_nil in Hx. }
  { done. }
  { split; [done|intros x Hx; by apply elem_of_nil in Hx..|intros x y Hx; by apply elem_of_nil in Hx]. }
  assert (HS : forall x, x ∈ nodes -> x ∈ S').
  { intros x Hx. destruct (root_ex h ch HI x) as (r & Hrx & Hrr).
    apply (Hall r); [|done..]. by eapply anc_in. }
  assert (Hanc : forall x y, x ∈ nodes -> y ∈ nodes -> lca_is_ancestor l x y = true <-> anc h x y).
  { intros x y Hx Hy. unfold lca_is_ancestor. rewrite andb_true_iff, !bool_decide_eq_true.
    apply (g_anc _ _ _ _ _ _ G); by apply HS. }
  assert (Hcb : forall x, x ∈ nodes -> climb_ok h (l_climb l) x).
  { intros x Hx. apply (g_climb _ _ _ _ _ _ G). by apply HS. }
  exists (3 * n0 + 5 + (n0 * S (S n0) + n0 + 2)), l. intros fuel Hf. split; [apply Hrun; unfold n0 in *; lia|].
  intros a b Ha Hb. split; [by apply Hanc|]. split.
  - destruct (root_ex h ch HI a) as (r & Hra & Hrr). exists r. split; [|done].
    apply anc_up in Hra as [k Hk]. pose proof (up_bound h ch HI _ _ _ Hk).
    eapply (root_ok h l nodes Hanc Hcb Hcl); [done|exact Hk|done|unfold n0 in *; lia].
  - apply (lca_ok h ch HI l nodes Hanc Hcb Hcl); [done..|unfold n0 in *; lia].
Qed.
