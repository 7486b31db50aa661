(** Proof of property C114. *)
From Verif Require Export LcaThms.

Lemma C114_lca_view_refuted_pf :
exists h l, hreach h /\ (forall n, n ∈ [1; 2; 3] <-> anc h 1 n) /\ lca_new 30 [1; 2; 3] h = HOk l /\
  lca_is_ancestor l 2 3 = true /\ lca_is_ancestor l 3 2 = true /\ ~ anc h 2 3 /\ lca_lca 30 l 2 3 = HOk (Some 2).
Proof.
  destruct (h_run h_new [HPush 1 0; HPush 2 1; HPush 3 1]) as [h| |] eqn:Eh; [|vm_compute in Eh; discriminate Eh|vm_compute in Eh; discriminate Eh].
  vm_compute in Eh. injection Eh as Eh.
  assert (Hr : hreach h).
  { rewrite <- Eh. eapply hr_step with (o := HPush 3 1); [eapply hr_step with (o := HPush 2 1); [eapply hr_step with (o := HPush 1 0); [apply hr_new| |]| |]| |];
    try (vm_compute; reflexivity); intros (Hc & _); discriminate Hc. }
  assert (Hpar : forall n p, h_parent h n = Some p <-> (n = 1 /\ p = 0) \/ (n = 2 /\ p = 1) \/ (n = 3 /\ p = 1)).
  { intros n p. rewrite <- Eh. destruct n as [|[|[|[|n]]]]; (split; [|intros [[? ?]|[[? ?]|[? ?]]]; subst; try lia; vm_compute; reflexivity]); intros Hp; vm_compute in Hp; try discriminate Hp; try (injection Hp as <-; lia). }
  assert (H1 : forall n, anc h n 1 -> n = 1 \/ n = 0).
  { intros n Hn. apply rtc_inv in Hn as [?|(y & Hy & Hn)]; [by left|]. apply Hpar in Hy as [[_ ->]|[[? _]|[? _]]]; [|lia..].
    apply rtc_inv in Hn as [?|(y & Hy & Hn)]; [by right|]. apply Hpar in Hy. lia. }
  exists h. eexists. split; [done|]. split.
  - intros n. split.
    + intros Hn. rewrite !elem_of_cons, elem_of_nil in Hn. destruct Hn as [-> |[-> |[-> |[]]]]; [apply rtc_refl|apply rtc_once, Hpar; lia|apply rtc_once, Hpar; lia].
    + intros Hn. apply rtc_inv in Hn as [-> |(y & Hy & Hn)]; [apply elem_of_list_here|]. apply Hpar in Hy as [[-> ->]|[[-> ->]|[-> ->]]]; [apply elem_of_list_here|..];
      apply elem_of_list_further; [apply elem_of_list_here|apply elem_of_list_further, elem_of_list_here].
  - rewrite <- Eh. split; [vm_compute; reflexivity|]. split; [vm_compute; reflexivity|]. split; [vm_compute; reflexivity|]. split; [|vm_compute; reflexivity].
    rewrite Eh. intros Hn. apply rtc_inv in Hn as [?|(y & Hy & Hn)]; [done|]. apply Hpar in Hy as [[? _]|[[? _]|[_ ->]]]; [done..|]. apply H1 in Hn. lia.
Qed.

Lemma C114_lca_view_partial_pf :
forall h nodes, hreach h -> NoDup nodes ->
  exists K l, forall fuel, K <= fuel ->
  lca_new fuel nodes h = HOk l /\
  (forall a b, (exists r, lca_root fuel l a = HOk r) /\ (exists o, lca_lca fuel l a b = HOk o)) /\
  let rooted a := exists r, r ∈ nodes /\ h_parent h r = None /\ anc h r a in
  (forall a b, rooted a -> rooted b ->
    (lca_is_ancestor l a b = true <-> anc h a b)
    /\ (exists r, lca_root fuel l a = HOk r /\ anc h r a /\ h_parent h r = None)
    /\ ((exists c, lca_lca fuel l a b = HOk (Some c) /\ anc h c a /\ anc h c b
           /\ forall d, anc h d a -> anc h d b -> anc h d c)
        \/ lca_lca fuel l a b = HOk None /\ ~ exists d, anc h d a /\ anc h d b))
  /\ forall a b, ~ rooted a -> ~ rooted b -> lca_is_ancestor l a b = true /\ lca_lca fuel l a b = HOk (Some a).
Proof.
  intros h nodes Hr Hnd. destruct (hreach_inv _ Hr) as [ch HI].
  set (n0 := length (um_data h)).
  destruct (roots_ok h ch HI nodes Hnd
              (mkLCA (um_with_default 0) (um_with_default 0) (um_with_default [])) 0 [])
    as (l & S' & ts & G & _ & Hall & Hback & Hrun).
  { intros r x _ _ Hx. by apply elem_of_nil in Hx. }
  { intros x y Hx. by apply elem_of_nil in Hx. }
  { done. }
  { split; [done|intros x Hx; by apply elem_of_nil in Hx..|intros x y Hx; by apply elem_of_nil in Hx]. }
  assert (HS : forall x, x ∈ S' <-> exists r, r ∈ nodes /\ h_parent h r = None /\ anc h r x).
  { intros x. split; [intros [Hx|Hx]%Hback; [by apply elem_of_nil in Hx|done]|]. intros (r & H1 & H2 & H3). by apply (Hall r). }
  assert (Hcl : forall c p, c ∈ S' -> h_parent h c = Some p -> p ∈ S').
  { intros c p (r & H1 & H2 & H3)%HS Hp. apply HS. exists r. split; [done|]. split; [done|]. apply rtc_inv in H3 as [-> |(y & Hy & H3)]; [congruence|].
    unfold child_of in Hy. unfold h_parent in Hp. rewrite Hp in Hy. by injection Hy as ->. }
  assert (Hanc : forall x y, x ∈ S' -> y ∈ S' -> lca_is_ancestor l x y = true <-> anc h x y).
  { intros x y Hx Hy. unfold lca_is_ancestor. rewrite andb_true_iff, !bool_decide_eq_true.
    by apply (g_anc _ _ _ _ _ _ G). }
  assert (Hcb : forall x, x ∈ S' -> climb_ok h (l_climb l) x) by (intros x Hx; by apply (g_climb _ _ _ _ _ _ G)).
  assert (Hout : forall x, x ∉ S' -> um_get (l_first l) x = 0 /\ um_get (l_last l) x = 0 /\ um_get (l_climb l) x = []).
  { intros x Hx. destruct (g_frame _ _ _ _ _ _ G x Hx) as (H1 & H2 & H3). split; [exact H1|]. split; [exact H2|exact H3]. }
  assert (Hroot : forall fuel a, n0 < fuel -> a ∈ S' -> exists r, lca_root fuel l a = HOk r /\ anc h r a /\ h_parent h r = None).
  { intros fuel a Hf Ha. destruct (root_ex h ch HI a) as (r & Hra & Hrr). exists r. split; [|done].
    apply anc_up in Hra as [k Hk]. pose proof (up_bound h ch HI _ _ _ Hk).
    eapply (root_ok h l S' Hanc Hcb Hcl); [done|exact Hk|done|unfold n0 in *; lia]. }
  assert (Hroot' : forall fuel a, 0 < fuel -> a ∉ S' -> lca_root fuel l a = HOk a).
  { intros [|fuel] a Hf Ha; [lia|]. cbn [lca_root]. destruct (Hout a Ha) as (_ & _ & ->). done. }
  assert (Hoo : forall fuel a b, a ∉ S' -> b ∉ S' -> lca_is_ancestor l a b = true /\ lca_lca fuel l a b = HOk (Some a)).
  { intros fuel a b Ha Hb. destruct (Hout a Ha) as (A1 & A2 & _), (Hout b Hb) as (B1 & B2 & _).
    assert (Hia : lca_is_ancestor l a b = true) by (unfold lca_is_ancestor; by rewrite A1, A2, B1, B2). split; [done|]. unfold lca_lca. by rewrite Hia. }
  exists (3 * n0 + 5 + (n0 * S (S n0) + n0 + 2)), l. intros fuel Hf. split; [apply Hrun; unfold n0 in *; lia|].
  assert (Hlca : forall a b, a ∈ S' -> b ∈ S' -> (exists c, lca_lca fuel l a b = HOk (Some c) /\ anc h c a /\ anc h c b
       /\ forall d, anc h d a -> anc h d b -> anc h d c)
    \/ lca_lca fuel l a b = HOk None /\ ~ exists d, anc h d a /\ anc h d b).
  { intros a b Ha Hb. apply (lca_ok h ch HI l S' Hanc Hcb Hcl); [done..|unfold n0 in *; lia]. }
  split; [|cbn zeta; split].
  - intros a b. split; [destruct (decide (a ∈ S')) as [Ha|Ha]; [destruct (Hroot fuel a) as (r & Er & _); [lia|done|eauto]|exists a; apply Hroot'; [lia|done]]|].
    destruct (decide (a ∈ S')) as [Ha|Ha], (decide (b ∈ S')) as [Hb|Hb].
    + destruct (Hlca a b Ha Hb) as [(c & Ec & _)|[Ec _]]; eauto.
    + unfold lca_lca. destruct (lca_is_ancestor l a b); [eauto|]. destruct (lca_is_ancestor l b a); [eauto|].
      destruct (Hroot fuel a) as (r & Er & Hra & Hrp); [lia|done|]. rewrite Er, (Hroot' fuel b) by (done || lia). cbn.
      rewrite decide_True; [eauto|]. intros ->. apply Hb. by eapply (anc_in h S' Hcl).
    + unfold lca_lca. destruct (lca_is_ancestor l a b); [eauto|]. destruct (lca_is_ancestor l b a); [eauto|].
      destruct (Hroot fuel b) as (r & Er & Hra & Hrp); [lia|done|]. rewrite Er, (Hroot' fuel a) by (done || lia). cbn.
      rewrite decide_True; [eauto|]. intros ->. apply Ha. by eapply (anc_in h S' Hcl).
    + destruct (Hoo fuel a b Ha Hb) as [_ ->]. eauto.
  - intros a b Ha%HS Hb%HS. split; [by apply Hanc|]. split; [apply Hroot; [lia|done]|by apply Hlca].
  - intros a b Ha Hb. apply Hoo; by rewrite HS.
Qed.
