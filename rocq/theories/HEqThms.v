(** Proofs of C127. *)
From Verif Require Export HEqProofs RegionProps.

Lemma C127_hierarchy_equal_pf :
forall h h', hhist h -> hhist h' ->
  (h_eqb h h' = true <-> forall n,
     h_parent h n = h_parent h' n /\ h_first h n = h_first h' n /\ h_last h n = h_last h' n /\
     h_next h n = h_next h' n /\ h_prev h n = h_prev h' n /\ h_child_count h n = h_child_count h' n).
Proof.
intros h h' Hh Hh'. rewrite h_eqb_iff, (hhist_def _ Hh), (hhist_def _ Hh').
unfold h_parent, h_first, h_last, h_next, h_prev, h_child_count. split.
- intros [_ E] n. by rewrite E.
- intros H. split; [done|]. intros n. destruct (H n) as (H1 & H2 & H3 & H4 & H5 & H6).
  destruct (h_get h n), (h_get h' n). cbn in *. congruence.
Qed.

Lemma C127_hierarchy_children_pf :
forall h h', hreach h -> hreach h' ->
  (h_eqb h h' = true <-> forall n, h_first h n = h_first h' n /\ h_next h n = h_next h' n) /\
  (h_eqb h h' = true -> forall o, ~ self_push h o ->
     h_answer h o = h_answer h' o /\ alike (fun a b => h_eqb a b = true) (h_step h o) (h_step h' o)).
Proof.
intros h h' Hh Hh'. split.
- split; [|by apply same_first_next]. intros [_ E]%h_eqb_iff n. unfold h_first, h_next. by rewrite E.
- intros Heq o Hg. destruct (hreach_inv _ Hh) as [ch HI]. apply h_eqb_iff in Heq as [_ E].
  assert (HI' : HInv h' ch) by (eapply HInv_view; [intros x; symmetry; apply E|by apply hreach_def|done]).
  destruct (step_alike h h' ch o HI HI' Hg) as [Ha Hb]. split; [done|].
  unfold alike in *. destruct (h_step h o), (h_step h' o); try done. destruct Hb as (ch' & H1 & H2). by eapply HInv_eqb.
Qed.

Lemma desc_list_same h h' : (forall n, h_get h n = h_get h' n) ->
  forall f f' s D D', desc_list f h s = HOk D -> desc_list f' h' s = HOk D' -> D = D'.
Proof.
  intros E. assert (En : forall s, desc_next h s = desc_next h' s).
  { intros [r|[|x q]]; cbn; unfold h_first, h_next; by rewrite ?E. }
  induction f as [|f IH]; intros f' s D D' H H'; cbn [desc_list] in H; destruct f'; cbn [desc_list] in H'; rewrite <- En in H'; destruct (desc_next h s) as [[n|] s']; try done.
  all: try (injection H as <-; injection H' as <-; done).
  destruct (desc_list f h s') as [l| |] eqn:E1; try done. destruct (desc_list f' h' s') as [l'| |] eqn:E2; try done.
  cbn in H, H'. injection H as <-. injection H' as <-. f_equal. by eapply IH.
Qed.

Lemma C127_region_equal_pf :
forall (G : Type) (geq : G -> G -> bool) (r r' : rgn G),
  (rgn_eqb geq r r' = true <->
     rgn_root r = rgn_root r' /\ geq (rgn_graph r) (rgn_graph r') = true /\ h_eqb (rgn_hier r) (rgn_hier r') = true) /\
  (hreach (rgn_hier r) -> hreach (rgn_hier r') ->
   rg_reach (rgn_hier r) (rgn_root r) (rgn_cache r) -> rg_reach (rgn_hier r') (rgn_root r') (rgn_cache r') ->
   rgn_eqb geq r r' = true ->
   (forall n, exists b c c', rg_is_descendant (rgn_hier r) (rgn_root r) (rgn_cache r) n = HOk (b, c)
      /\ rg_is_descendant (rgn_hier r') (rgn_root r') (rgn_cache r') n = HOk (b, c')) /\
   (exists D, rg_nodes (rgn_hier r) (rgn_root r) = HOk D /\ rg_nodes (rgn_hier r') (rgn_root r') = HOk D)).
Proof.
intros G geq r r'.
assert (Hiff : rgn_eqb geq r r' = true <->
     rgn_root r = rgn_root r' /\ geq (rgn_graph r) (rgn_graph r') = true /\ h_eqb (rgn_hier r) (rgn_hier r') = true).
{ unfold rgn_eqb. rewrite !andb_true_iff, bool_decide_eq_true. tauto. }
split; [exact Hiff|]. intros Hh Hh' Hc Hc' (Er & _ & Eh)%Hiff. apply h_eqb_iff in Eh as [_ E].
assert (Hanc : forall n, anc (rgn_hier r) (rgn_root r) n <-> anc (rgn_hier r') (rgn_root r') n).
{ intros n. rewrite Er. split; apply anc_same; [done|]. intros x. by rewrite E. }
split.
- intros n. destruct (C61_region_membership _ _ _ n Hh Hc) as [(b & c & H1 & Hb) _], (C61_region_membership _ _ _ n Hh' Hc') as [(b' & c' & H1' & Hb') _].
  assert (b = b') as <-.
  { apply eq_bool_prop_intro. rewrite !Is_true_true, Hb, Hb'. apply Hanc. }
  eauto.
- destruct (C61_region_membership _ _ _ 0 Hh Hc) as [_ (D & HD & Hnd & _)], (C61_region_membership _ _ _ 0 Hh' Hc') as [_ (D' & HD' & Hnd' & _)].
  exists D. split; [done|]. rewrite HD'. f_equal. symmetry. unfold rg_nodes in *. rewrite <- Er in HD'. by eapply desc_list_same.
Qed.
