(** Proofs about the membership cache of [Region]. *)
From Verif Require Export RegionSpec ViewMore.

Section region.
  Context (h : hier) (root : nat) (Hr : hreach h).
  (** What a cache contains *)
  Definition rg_good (c : rcache) : Prop :=
    c !! root = Some false /\ forall n b, n <> root -> c !! n = Some b -> (b = true <-> anc h root n).
  Definition rg_todo (l : list nat) (b : bool) : Prop := forall x, x ∈ l -> x <> root /\ (b = true <-> anc h root x).

  Lemma rg_new_good : rg_good (rg_new root).
  Proof.
    split; [apply lookup_singleton|]. intros n b Hn Hl. unfold rg_new in Hl. rewrite lookup_singleton_ne in Hl by done. done.
  Qed.
  Lemma rg_good_insert c x b : rg_good c -> x <> root -> (b = true <-> anc h root x) -> rg_good (<[x := b]> c).
  Proof.
    intros [H1 H2] Hx Hb. split; [by rewrite lookup_insert_ne|]. intros n b' Hn. destruct (decide (x = n)) as [->|Hne].
    - rewrite lookup_insert. by intros [= <-].
    - rewrite lookup_insert_ne by done. auto.
  Qed.
  Lemma rg_good_write c l b : rg_good c -> rg_todo l b -> rg_good (rg_write c l b).
  Proof.
    revert c. induction l as [|x l IH]; intros c Hc Hl; [done|]. cbn. apply IH.
    - apply rg_good_insert; [done| |]; apply Hl; by left.
    - intros y Hy. apply Hl. by right.
  Qed.
  Lemma anc_parent x p : x <> root -> h_parent h x = Some p -> anc h root x <-> anc h root p.
  Proof.
    intros Hx Hp. split.
    - intros H. inversion H as [|? q ? Hq Hqr]; subst; [done|]. unfold child_of in Hq. unfold h_parent in Hp. rewrite Hp in Hq. by injection Hq as <-.
    - intros H. by apply (rtc_l _ _ p).
  Qed.
  Lemma anc_top x : x <> root -> h_parent h x = None -> ~ anc h root x.
  Proof.
    intros Hx Hp H. inversion H as [|? q ? Hq Hqr]; subst; [done|]. unfold child_of in Hq. unfold h_parent in Hp. congruence.
  Qed.
  Lemma rg_climb_ok c : rg_good c -> forall fuel n vis, n <> root -> NoDup vis ->
    Forall (fun z => z < length (um_data h) /\ tc (child_of (h_get h)) z n) vis -> S (length (um_data h)) <= fuel + length vis ->
    exists l x, rg_climb fuel h c n = HOk l /\ last l = Some x /\ x <> root /\ (forall y, y ∈ l -> y <> root /\ (anc h root y <-> anc h root x)) /\
      n ∈ l /\ forall p, h_parent h x = Some p -> is_Some (c !! p).
  Proof.
    intros Hc. destruct (hreach_inv _ Hr) as (ch & HI). pose proof HI as (_ & Hac & _).
    induction fuel as [|fuel IH]; intros n vis Hn Hnd Hvis Hf.
    - exfalso. assert (length vis <= length (um_data h)); [|lia].
      rewrite <- (seq_length (length (um_data h)) 0). apply submseteq_length, NoDup_submseteq; [done|].
      intros z Hz. apply elem_of_seq. rewrite Forall_forall in Hvis. destruct (Hvis _ Hz). lia.
    - cbn [rg_climb]. assert (Hone : forall y, y ∈ [n] -> y <> root /\ (anc h root y <-> anc h root n)) by (by intros y ->%elem_of_list_singleton).
      destruct (h_parent h n) as [p|] eqn:Ep; [destruct (c !! p) as [b|] eqn:Ec|].
      + exists [n], n. split_and!; [done|done|done|done|by left|]. rewrite Ep. intros ? [= <-]. by exists b.
      + assert (Hp : p <> root). { intros ->. destruct Hc as [Hc _]. congruence. }
        destruct (IH p (n :: vis)) as (l & x & -> & Hl & Hx & Hall & Hin & Hpx); [done| | |cbn; lia|].
        * apply NoDup_cons. split; [|done]. intros Hin. rewrite Forall_forall in Hvis. destruct (Hvis _ Hin) as [_ Ht]. by apply Hac in Ht.
        * apply Forall_cons. split; [split; [by eapply par_bound|by apply tc_once]|]. eapply Forall_impl; [done|]. intros z [? ?]. split; [done|]. by eapply tc_r.
        * exists (n :: l), x. rewrite hbind_Ok. split; [done|]. split; [by destruct l|]. split; [done|]. split; [|split; [by left|done]].
          intros y [->|Hy]%elem_of_cons; [|by apply Hall]. split; [done|]. rewrite (anc_parent _ p) by done. by apply Hall.
      + exists [n], n. split_and!; [done|done|done|done|by left|]. by rewrite Ep.
  Qed.
  Lemma rg_read_ok c n : rg_good c -> n <> root -> exists r, rg_read h root c n = HOk r /\
    match r with inl b => b = true <-> anc h root n | inr (l, b) => (b = true <-> anc h root n) /\ rg_todo l b end.
  Proof.
    intros Hc Hn. unfold rg_read. destruct (c !! n) as [b|] eqn:Ec; [exists (inl b); split; [done|by apply Hc]|].
    destruct (rg_climb_ok c Hc (h_fuel h) n []) as (l & x & -> & Hl & Hx & Hall & Hin & Hp); [done|apply NoDup_nil_2|done|unfold h_fuel; cbn; lia|].
    rewrite hbind_Ok, Hl. cbn [unwrap lift]. rewrite hbind_Ok.
    assert (Hb : exists b, match h_parent h x with None => HOk false | Some a => if decide (a = root) then HOk true else lift (unwrap (c !! a)) end = HOk b
                 /\ (b = true <-> anc h root x)).
    { destruct (h_parent h x) as [a|] eqn:Ea.
      - destruct (decide (a = root)) as [->|Ha].
        + exists true. split; [done|]. split; [|done]. intros _. rewrite (anc_parent _ root) by done. apply rtc_refl.
        + destruct (Hp a eq_refl) as [b Eb]. rewrite Eb. exists b. split; [done|]. rewrite (anc_parent _ a) by done. by apply Hc.
      - exists false. split; [done|]. split; [done|]. intros H. by apply anc_top in H. }
    destruct Hb as (b & -> & Hb). rewrite hbind_Ok. exists (inr (l, b)). split; [done|]. split.
    - rewrite Hb. symmetry. by apply Hall.
    - intros y Hy. split; [by apply Hall|]. rewrite Hb. symmetry. by apply Hall.
  Qed.
  Lemma rg_query_ok c n : rg_good c -> exists b c', rg_is_descendant h root c n = HOk (b, c') /\ (b = true <-> anc h root n) /\ rg_good c'.
  Proof.
    intros Hc. unfold rg_is_descendant. destruct (decide (n = root)) as [->|Hn].
    - exists true, c. split; [done|]. split; [|done]. split; [intros _; apply rtc_refl|done].
    - destruct (rg_read_ok c n Hc Hn) as ([b|[l b]] & -> & H); rewrite hbind_Ok; [by exists b, c|]. destruct H as [Hb Ht].
      exists b, (rg_write c l b). split; [done|]. split; [done|]. by apply rg_good_write.
  Qed.

  (** ** Threads *)
  Definition rs_ok (s : rstate) : Prop := rg_good (rs_cache s) /\
    (forall t n l b, rs_phase s t = RWait n l b \/ rs_phase s t = RWrite n l b -> (b = true <-> anc h root n) /\ rg_todo l b) /\
    (forall t u n l b n' l' b', rs_phase s t = RWrite n l b -> rs_phase s u = RWrite n' l' b' -> t = u).
  Definition ev_ok (e : revent) : Prop :=
    match e with EAnswer _ n b => b = true <-> anc h root n | EClone _ c => rg_good c \/ c = ∅ end.
  Lemma rs_start_ok c : rg_good c -> rs_ok (rs_start c).
  Proof. intros Hc. split; [done|]. split; [by intros ? ? ? ? [?|?]|done]. Qed.
  Lemma rs_set_ok s c t p : rs_ok s -> rg_good c ->
    (forall n l b, p = RWait n l b \/ p = RWrite n l b -> (b = true <-> anc h root n) /\ rg_todo l b) ->
    (forall n l b, p = RWrite n l b -> rs_free s \/ exists n' l' b', rs_phase s t = RWrite n' l' b') -> rs_ok (rs_set s c t p).
  Proof.
    intros (H1 & H2 & H3) Hc Hp Hw. split; [done|]. cbn. split.
    - intros u n l b. destruct (decide (u = t)) as [->|Hu]; [apply Hp|apply H2].
    - intros u v n l b n' l' b'. destruct (decide (u = t)) as [->|Hu], (decide (v = t)) as [->|Hv]; [done| | |by apply H3].
      + intros Ep Ev. destruct (Hw _ _ _ Ep) as [Hf|(? & ? & ? & Et)]; [by apply Hf in Ev|]. by eapply H3.
      + intros Eu Ep. destruct (Hw _ _ _ Ep) as [Hf|(? & ? & ? & Et)]; [by apply Hf in Eu|]. by eapply H3.
  Qed.
  Lemma rstep_ok s o s' : rs_ok s -> rstep h root s o s' -> rs_ok s' /\ forall e, o = Some e -> ev_ok e.
  Proof.
    intros Hs Hst. pose proof Hs as (H1 & H2 & H3). destruct Hst as [s t Hi|s t n b Hi Hn Hf Er|s t n l b Hi Hn Hf Er|s t n l b Hw Hf|s t n x l b Hw|s t n b Hw|s t Hi Hf|s t u n l b Hi Hu].
    - split; [done|]. intros e [= <-]. cbn. split; [intros _; apply rtc_refl|done].
    - split; [done|]. intros e [= <-]. cbn. destruct (rg_read_ok _ n H1 Hn) as (r & Er' & H). rewrite Er in Er'. by injection Er' as <-.
    - split; [|done]. destruct (rg_read_ok _ n H1 Hn) as (r & Er' & H). rewrite Er in Er'. injection Er' as <-.
      apply rs_set_ok; [done|done| |done]. by intros ? ? ? [[= -> -> ->]|?].
    - split; [|done]. apply rs_set_ok; [done|done| |by left]. intros ? ? ? [?|[= -> -> ->]]; [done|]. apply (H2 t). by left.
    - split; [|done]. destruct (H2 t _ _ _ (or_intror Hw)) as [Hb Ht]. apply rs_set_ok; [done| | |].
      + apply rg_good_insert; [done| |]; apply Ht; by left.
      + intros ? ? ? [?|[= <- <- <-]]; [done|]. split; [done|]. intros y Hy. apply Ht. by right.
      + intros _ _ _ _. right. by eauto.
    - destruct (H2 t _ _ _ (or_intror Hw)) as [Hb Ht]. split; [|by intros e [= <-]]. apply rs_set_ok; [done|done|by intros ? ? ? [?|?]|done].
    - split; [done|]. intros e [= <-]. by left.
    - split; [done|]. intros e [= <-]. by right.
  Qed.
  Lemma rexec_ok s tr s' : rexec h root s tr s' -> rs_ok s -> rs_ok s' /\ Forall ev_ok tr.
  Proof.
    induction 1 as [s|s1 o s2 tr s3 Hst _ IH]; intros Hs; [done|]. destruct (rstep_ok _ _ _ Hs Hst) as [Hs2 He]. destruct (IH Hs2) as [Hs3 Ht].
    split; [done|]. destruct o as [e|]; [|done]. constructor; [by apply He|done].
  Qed.

  (** A clone taken while no thread writes or waits is a snapshot of a good cache. *)
  Lemma rexec_clone s tr s' t c : rs_ok s -> rexec h root s tr s' -> EClone t c ∈ tr -> c <> ∅ -> rg_good c.
  Proof.
    intros Hs Hx Hin Hne. destruct (rexec_ok _ _ _ Hx Hs) as [_ Hall]. rewrite Forall_forall in Hall. by destruct (Hall _ Hin).
  Qed.

  (** Every thread can finish. *)
  Lemma rexec_app s1 t1 s2 t2 s3 : rexec h root s1 t1 s2 -> rexec h root s2 t2 s3 -> rexec h root s1 (t1 ++ t2) s3.
  Proof. induction 1 as [|s o s' tr s'' Hst _ IH]; intros H; [done|]. rewrite <- app_assoc. eapply re_step; [exact Hst|by apply IH]. Qed.
  Lemma rs_finish_write t n b l : forall s, rs_phase s t = RWrite n l b ->
    exists s', rexec h root s [EAnswer t n b] s' /\ rs_phase s' t = RIdle /\ forall u, u <> t -> rs_phase s' u = rs_phase s u.
  Proof.
    induction l as [|x l IH]; intros s Hs.
    - eexists. split; [|split].
      + change [EAnswer t n b] with (option_list (Some (EAnswer t n b)) ++ []). eapply re_step; [by eapply rs_done|apply re_refl].
      + cbn. by rewrite decide_True.
      + intros u Hu. cbn. by rewrite decide_False.
    - destruct (IH (rs_set s (<[x:=b]> (rs_cache s)) t (RWrite n l b))) as (s' & Hx & Hi & Hu); [cbn; by rewrite decide_True|].
      exists s'. split; [|split; [done|]].
      + change [EAnswer t n b] with (option_list None ++ [EAnswer t n b]). eapply re_step; [by eapply rs_insert|exact Hx].
      + intros u Hne. rewrite Hu by done. cbn. by rewrite decide_False.
  Qed.
  Lemma rs_free_dec s (T : list nat) : (forall u, u ∉ T -> rs_phase s u = RIdle) -> rs_free s \/ exists u n l b, rs_phase s u = RWrite n l b.
  Proof.
    intros HT. destruct (existsb (fun u => match rs_phase s u with RWrite _ _ _ => true | _ => false end) T) eqn:E.
    - right. apply existsb_exists in E as (u & _ & H). exists u. destruct (rs_phase s u); [done|done|by eauto].
    - left. intros u n l b Hu. apply not_true_iff_false in E. apply E, existsb_exists. exists u. rewrite Hu. split; [|done].
      apply elem_of_list_In. destruct (decide (u ∈ T)); [done|]. rewrite HT in Hu by done. done.
  Qed.
  Lemma rs_finish s (T : list nat) : (forall u, u ∉ T -> rs_phase s u = RIdle) -> rs_ok s -> exists tr s', rexec h root s tr s' /\
    (forall t n l b, rs_phase s t = RWait n l b \/ rs_phase s t = RWrite n l b -> EAnswer t n b ∈ tr) /\ forall u, rs_phase s' u = RIdle.
  Proof.
    intros HT Hok.
    assert (Hmain : forall (T : list nat) s, (forall u, u ∉ T -> rs_phase s u = RIdle) -> rs_free s -> exists tr s', rexec h root s tr s' /\
      (forall t n l b, rs_phase s t = RWait n l b -> EAnswer t n b ∈ tr) /\ forall u, rs_phase s' u = RIdle).
    { clear s T HT Hok. induction T as [|t T IH]; intros s HT Hf.
      - exists [], s. split; [apply re_refl|]. split; [|intros u; apply HT; by intros ?%elem_of_nil].
        intros t n l b Ht. rewrite HT in Ht; [done|]. by intros ?%elem_of_nil.
      - destruct (rs_phase s t) as [|n l b|n l b] eqn:Et; [| |by apply Hf in Et].
        + apply IH; [|done]. intros u Hu. destruct (decide (u = t)) as [->|Hne]; [done|]. apply HT. by intros [?|?]%elem_of_cons.
        + set (s1 := rs_set s (rs_cache s) t (RWrite n l b)).
          destruct (rs_finish_write t n b l s1) as (s2 & H2 & Hi & Hu); [unfold s1; cbn; by rewrite decide_True|].
          assert (Hph : forall u, u <> t -> rs_phase s2 u = rs_phase s u). { intros u Hne. rewrite Hu by done. unfold s1. cbn. by rewrite decide_False. }
          destruct (IH s2) as (tr & s' & Hx & Ha & Hid).
          { intros u Hin. destruct (decide (u = t)) as [->|Hne]; [done|]. rewrite Hph by done. apply HT. by intros [?|?]%elem_of_cons. }
          { intros u n' l' b' Hw. destruct (decide (u = t)) as [->|Hne]; [congruence|]. rewrite Hph in Hw by done. by apply Hf in Hw. }
          exists (option_list None ++ ([EAnswer t n b] ++ tr)), s'. split; [|split; [|done]].
          * eapply re_step; [by eapply rs_lock|]. by eapply rexec_app.
          * intros u n' l' b' Hw. cbn. destruct (decide (u = t)) as [->|Hne].
            -- rewrite Et in Hw. injection Hw as <- <- <-. by left.
            -- right. eapply Ha. by rewrite Hph. }
    destruct (rs_free_dec s T HT) as [Hf|(t & n & l & b & Ht)].
    - destruct (Hmain T s HT Hf) as (tr & s' & Hx & Ha & Hid). exists tr, s'. split; [done|]. split; [|done]. intros t n l b [Hw|Hw]; [by eapply Ha|by apply Hf in Hw].
    - destruct (rs_finish_write t n b l s Ht) as (s2 & H2 & Hi & Hu). destruct (Hmain T s2) as (tr & s' & Hx & Ha & Hid).
      { intros u Hin. destruct (decide (u = t)) as [->|Hne]; [done|]. rewrite Hu by done. by apply HT. }
      { intros u n' l' b' Hw. destruct (decide (u = t)) as [->|Hne]; [congruence|]. rewrite Hu in Hw by done. apply Hne. by eapply Hok. }
      exists ([EAnswer t n b] ++ tr), s'. split; [by eapply rexec_app|]. split; [|done]. intros u n' l' b' Hw. cbn. destruct (decide (u = t)) as [->|Hne].
      + rewrite Ht in Hw. destruct Hw as [?|[= <- <- <-]]; [done|]. by left.
      + right. destruct Hw as [Hw|Hw]; [eapply Ha; by rewrite Hu|]. exfalso. apply Hne. by eapply Hok.
  Qed.
End region.
