(** Simulation proofs for the link iterators of [MultiPortGraph]. *)
From Verif Require Export IterMulti.

Section multi2.
  Context (w : N) (Hw : (1 < w <= 63)%N) (m : mpg) (I : minv w m []).
  Notation g := (m_graph m).
  Let R := mi_reach _ _ _ I.

  (** ** Neighbours *)
  Section nb.
    Context (node : nat) (ig : bool).
    Definition ccok (s : nb_state) : Prop :=
      0 < (ns_offs s.1).1 < (ns_offs s.1).2 -> exists p c, ns_cur s.1 = Some p /\ get_copy_node m p = Ok (Some c) /\ s.2 = Some c.
    Definition nbs (K : nat) (s : nb_state) (l : list nat) : Prop :=
      exists L r, nss m s.1 L /\ rmap (m_neigh_item w m node ig) L = Ok r /\ l = somes r /\ ccok s /\ length L < K.
    (** One round: the item of one subport. *)
    Lemma nb_step f s x o n : ns_next m s.1 = Ok (Some x, n) -> m_neigh_item w m node ig x = Ok o -> ccok s -> nss_link m s.1 n (Some x) ->
      exists cc, nb_next w m node ig (S f) s = match o with Some k => Ok (Some k, (n, cc)) | None => nb_next w m node ig f (n, cc) end /\ ccok (n, cc).
    Proof.
      intros En Ei Hc Hl. cbn [nb_next]. rewrite En, bind_Ok. unfold m_neigh_item in Ei.
      assert (exists l cc, (if negb (is_multi m x.1) then l ← port_link g x.1; Ok (l, s.2)
                      else
                        cc ← (if decide (x.2 = 0) then get_copy_node m x.1 else Ok s.2);
                        c ← unwrap cc;
                        d ← unwrap (port_direction g x.1);
                        off ← po_new w d (N.of_nat x.2);
                        i ← port_index w g c off; i ← unwrap i;
                        l ← port_link g i; Ok (l, cc)) = Ok (l, cc) /\
               (if is_multi m x.1 then
                 c ← get_copy_node m x.1; c ← unwrap c;
                 d ← unwrap (port_direction g x.1);
                 o ← po_new w d (N.of_nat x.2);
                 i ← port_index w g c o; i ← unwrap i;
                 port_link g i
               else port_link g x.1) = Ok l /\ ccok (n, cc)) as (l & cc & E1 & E2 & Hcc).
      { unfold nss_link in Hl. destruct (is_multi m x.1) eqn:F; cbn [negb].
        - destruct Hl as [Hcur Hl].
          destruct (get_copy_node m x.1) as [oc|] eqn:Eg; [|done]. rewrite bind_Ok in Ei. destruct oc as [c|]; [|done].
          assert (Ecc : (if decide (x.2 = 0) then Ok (Some c) else Ok s.2) = Ok (Some c)).
          { destruct (decide (x.2 = 0)) as [|Hx]; [done|]. destruct Hl as [|[Hs Hr]]; [done|]. destruct (Hc Hr) as (p & c' & H1 & H2 & H3).
            assert (p = x.1) as -> by congruence. rewrite Eg in H2. injection H2 as <-. by rewrite H3. }
          rewrite Ecc, !bind_Ok. cbn [unwrap] in *. rewrite !bind_Ok in *.
          destruct (unwrap (port_direction g x.1)) as [d|]; [|done]. rewrite !bind_Ok in *.
          destruct (po_new w d _) as [off|]; [|done]. rewrite !bind_Ok in *.
          destruct (port_index w g c off) as [[i|]|]; [|done|done]. rewrite !bind_Ok in *. cbn [unwrap] in *. rewrite !bind_Ok in *.
          destruct (port_link g i) as [l|]; [|done]. exists l, (Some c). rewrite bind_Ok. split_and!; [done|done|].
          intros _. exists x.1, c. done.
        - destruct (port_link g x.1) as [l|]; [|done]. exists l, s.2. rewrite bind_Ok. split_and!; [done|done|]. intros [_ ?]. done. }
      rewrite E2, bind_Ok in Ei. rewrite E1, bind_Ok. exists cc. split; [|done].
      destruct l as [q|]; [|injection Ei as <-; done].
      destruct (port_to_sub w m q) as [[t|]|]; [|done|done]. rewrite !bind_Ok in *. cbn [unwrap] in *. rewrite !bind_Ok in *.
      destruct (unwrap (port_node g t.1)) as [k|]; [|done]. rewrite !bind_Ok in *.
      destruct (unwrap (port_direction g t.1)) as [d|]; [|done]. rewrite bind_Ok in Ei. injection Ei as <-.
      destruct ig; cbn [andb].
      - destruct (decide (k = node)) as [-> |Hk].
        + rewrite (bool_decide_eq_true_2 (node = node)) by done. rewrite !bind_Ok. destruct (decide (d = Outgoing)) as [-> |Hd].
          * rewrite decide_True by done. by rewrite bool_decide_eq_true_2.
          * rewrite decide_False by tauto. by rewrite bool_decide_eq_false_2.
        + rewrite (bool_decide_eq_false_2 (k = node)) by done. rewrite bind_Ok, decide_False by tauto. done.
      - rewrite bind_Ok, decide_False by (by intros [? _]). done.
    Qed.
    Lemma nbs_next K s l : nbs K s l -> exists s', nb_next w m node ig K s = Ok (head l, s') /\ nbs K s' (tail l).
    Proof.
      intros (L & r & Hn & Hr & -> & Hc & HK). 
      cut (forall f, length L < f -> exists s', nb_next w m node ig f s = Ok (head (somes r), s') /\ nbs K s' (tail (somes r))); [eauto|].
      intros f. revert s L r Hn Hr Hc HK. induction f as [|f IH]; intros s L r Hn Hr Hc HK Hf; [lia|].
      destruct (nss_next' w Hw m I s.1 L Hn) as (n & En & Hn' & Hl). destruct L as [|x L]; cbn [head tail length] in *.
      - cbn in Hr. injection Hr as <-. cbn [nb_next]. rewrite En, bind_Ok. eexists. split; [done|]. exists [], []. cbn. split_and!; try done.
        intros [_ ?]. cbn in *. done.
      - cbn [rmap] in Hr. destruct (m_neigh_item w m node ig x) as [o|] eqn:Ei; [|done]. rewrite bind_Ok in Hr.
        destruct (rmap _ L) as [r'|] eqn:Er; [|done]. rewrite bind_Ok in Hr. injection Hr as <-.
        destruct (nb_step f s x o n En Ei Hc Hl) as (cc & -> & Hcc). destruct o as [k|]; cbn [somes head tail].
        + eexists. split; [done|]. exists L, r'. split_and!; try done. lia.
        + apply (IH _ L); try done; lia.
    Qed.
    Lemma nbs_iter K s l : nbs K s l -> fwd_ok (nb_next w m node ig K) no_hint s l.
    Proof. apply (fwd_ok_sim _ _ (nbs K)); [apply nbs_next|]. intros s' l' _. split; [cbn; lia|done]. Qed.
  End nb.

  (** ** Links of a node *)
  Definition unign (r : nat * nat) (x : subport * subport) : Prop := ~ (r.1 <= x.2.1 < r.2).
  Global Instance unign_dec r x : Decision (unign r x).
  Proof. unfold unign. apply _. Defined.
  Definition nls (K : nat) (s : nl_state) (l : list (subport * subport)) : Prop :=
    exists lc, (forall p, p ∈ nl_ports s -> vis m p) /\
      match nl_cur s with Some c => pls w m c lc | None => lc = [] end /\
      l = filter (unign (nl_ignore s)) (lc ++ concat (map (plinks w m) (nl_ports s))) /\
      length (lc ++ concat (map (plinks w m) (nl_ports s))) + 2 * length (nl_ports s) + 1 < K.
  Lemma nls_next K s l : nls K s l -> exists s', nl_next w m K s = Ok (head l, s') /\ nls K s' (tail l).
  Proof.
    intros (lc & V & C & -> & HK). destruct s as [ps cur r]. cbn [nl_ports nl_cur nl_ignore] in *.
    set (L := lc ++ concat (map (plinks w m) ps)) in *.
    cut (forall f, length L + 2 * length ps + (if cur then 1 else 0) < f ->
      exists s', nl_next w m f (NL ps cur r) = Ok (head (filter (unign r) L), s') /\ nls K s' (tail (filter (unign r) L))).
    { intros H. apply H. destruct cur; lia. }
    intros f. subst L. revert ps cur lc V C HK. induction f as [|f IH]; intros ps cur lc V C HK Hf; [lia|]. cbn [nl_next nl_ports nl_cur nl_ignore].
    destruct cur as [c|].
    - destruct (pls_next w Hw m I c lc C) as (c' & -> & Hc'). rewrite bind_Ok. destruct lc as [|x lc]; cbn [head tail] in *.
      + apply IH with (lc := []); [done|done|done|]. cbn in *. lia.
      + cbn [app] in *. rewrite filter_cons. destruct (decide (r.1 <= x.2.1 < r.2)) as [Hx|Hx].
        * rewrite decide_True by done. rewrite decide_False by (intros Hu; exact (Hu Hx)). apply IH; [done|done| |]; cbn [length] in *; lia.
        * rewrite decide_False by done. rewrite decide_True by done. eexists. split; [done|]. exists lc. cbn [nl_ports nl_cur nl_ignore]. split_and!; [done|done|done|].
          cbn [length] in *. lia.
    - subst lc. cbn [app] in *. destruct ps as [|p ps].
      + eexists. split; [done|]. exists []. done.
      + destruct (pl_new_sim w m I p (V p ltac:(by left))) as (c & -> & Hc). rewrite bind_Ok.
        cbn [map concat]. apply (IH ps (Some c) (plinks w m p)); [intros; apply V; by right|done| |]; cbn [map concat length] in *; lia.
  Qed.
  Lemma nls_iter K s l : nls K s l -> fwd_ok (nl_next w m K) no_hint s l.
  Proof. apply (fwd_ok_sim _ _ (nls K)); [apply nls_next|]. intros s' l' _. split; [cbn; lia|done]. Qed.
  Lemma nls_vis K s l x : nls K s l -> x ∈ l -> vis m x.2.1.
  Proof.
    intros (lc & V & C & -> & _) [_ Hx]%elem_of_list_filter. destruct x as [x y].
    assert (H : forall p, vis m p -> (x, y) ∈ plinks w m p -> vis m y.1).
    { intros p Vp Hp. apply (plinks_elem w Hw m I) in Hp as [_ (_ & H & _)]; done. }
    apply elem_of_app in Hx as [Hx|Hx].
    - destruct (nl_cur s) as [[p [|]|p rest]|]; cbn in C.
      + subst lc. by apply elem_of_nil in Hx.
      + destruct C as (Vp & _ & ->). by eapply H.
      + destruct C as (Vp & Hr & ->). apply (H p Vp). unfold plinks. apply elem_of_list_omap in Hx as ([i q] & Hi & E).
        apply elem_of_list_omap. exists (i, q). split; [|done]. by apply elem_enum, Hr.
      + subst lc. by apply elem_of_nil in Hx.
    - apply elem_of_list_In, in_concat in Hx as (l & Hl & Hx). apply in_map_iff in Hl as (p & <- & Hp). apply elem_of_list_In in Hp, Hx. eapply H; [|done]. by apply V.
  Qed.

  (** ** Links between two nodes *)
  Definition mto (b : nat) (x : subport * subport) : Prop := port_node g x.2.1 = Some b.
  Global Instance mto_dec b x : Decision (mto b x).
  Proof. unfold mto. apply _. Defined.
  Definition ncs (b K F : nat) (s : nl_state) (l : list (subport * subport)) : Prop :=
    exists L, nls K s L /\ l = filter (mto b) L /\ length L < F.
  Lemma ncs_next b K F s l : ncs b K F s l -> exists s', nc_next w m b K F s = Ok (head l, s') /\ ncs b K F s' (tail l).
  Proof.
    intros (L & H & -> & HF). cut (forall f, length L < f -> exists s', nc_next w m b K f s = Ok (head (filter (mto b) L), s') /\ ncs b K F s' (tail (filter (mto b) L))); [eauto|].
    intros f. revert s L H HF. induction f as [|f IH]; intros s L H HF Hf; [lia|]. cbn [nc_next].
    destruct (nls_next K s L H) as (s' & -> & H'). rewrite bind_Ok. destruct L as [|x L]; cbn [head tail length] in *.
    - eexists. split; [done|]. exists []. done.
    - destruct (nls_vis K s (x :: L) x H ltac:(by left)) as (n & d & Mx & _). rewrite (pm_node _ _ _ _ Mx), filter_cons.
      destruct (decide (n = b)) as [-> |Hn].
      + rewrite decide_True by (exact (pm_node _ _ _ _ Mx)). eexists. split; [done|]. exists L. split_and!; [done|done|lia].
      + rewrite decide_False by (intros Hm; pose proof (pm_node _ _ _ _ Mx) as E; pose proof (eq_trans (eq_sym E) Hm); congruence). apply IH; [done|lia|lia].
  Qed.
  Lemma ncs_iter b K F s l : ncs b K F s l -> fwd_ok (nc_next w m b K F) no_hint s l.
  Proof. apply (fwd_ok_sim _ _ (ncs b K F)); [apply ncs_next|]. intros s' l' _. split; [cbn; lia|done]. Qed.
End multi2.
