(** [get_free_multiport]: finding or making a free subport of a port. *)
From Verif Require Export MultiOps4 PGGrow.

Lemma link_ports_grow g a b g' r : link_ports g a b = Ok (g', r) -> same_len g g'.
Proof.
  unfold link_ports. destruct (pmeta g a) as [[na da]|]; [|by intros [= <- <-]]. destruct (pmeta g b) as [[nb db]|]; [|by intros [= <- <-]].
  destruct (decide _); [by intros [= <- <-]|]. intros (la & _ & H)%bind_inv. destruct la; [by injection H as <- <-|].
  apply bind_inv in H as (lb & _ & H). destruct lb; [by injection H as <- <-|].
  apply bind_inv in H as (x & _ & H). apply bind_inv in H as (y & _ & H). by injection H as <- <-.
Qed.
Lemma link_directed_grow m a b d m' e : m_link_directed m a b d = Ok (m', e) -> same_len (m_graph m) (m_graph m').
Proof.
  unfold m_link_directed. intros ([g r] & E & H)%bind_inv. injection H as <- <-. cbn. destruct d; by eapply link_ports_grow.
Qed.

(** Links are kept when the ports holding them are renamed. *)
Lemma rlink_transport w m m' (S : nat -> nat -> Prop) (F : nat -> nat -> Prop) :
  minv w m [] -> minv w m' [] ->
  (forall x0 x, S x0 x -> vis m x0 -> vis m' x) ->
  (forall x0 x k s, S x0 x -> vis m x0 -> raws m x0 !! k = Some s -> exists s', raws m' x !! k = Some s' /\ F s s') ->
  (forall x k s' t', vis m' x -> raws m' x !! k = Some s' -> lk (m_graph m') s' = Some t' ->
     exists x0 s, S x0 x /\ vis m x0 /\ raws m x0 !! k = Some s /\ F s s') ->
  (forall s s' t t', F s s' -> F t t' -> lk (m_graph m) s = Some t <-> lk (m_graph m') s' = Some t') ->
  forall x y, rlink m' x y <-> exists x0 y0, S x0 x.1 /\ S y0 y.1 /\ rlink m (x0, x.2) (y0, y.2).
Proof.
  intros I I' V A B C x y. pose proof (mi_reach _ _ _ I') as R'. split.
  - intros (Vx & Vy & s & t & Hs & Ht & El). pose proof El as El'. apply (r_lk_sym w _ R') in El'.
    destruct (B _ _ _ _ Vx Hs El) as (x0 & s0 & Sx & Vx0 & Hs0 & Fs). destruct (B _ _ _ _ Vy Ht El') as (y0 & t0 & Sy & Vy0 & Ht0 & Ft).
    exists x0, y0. split_and!; try done. split; [done|]. split; [done|]. exists s0, t0. split_and!; try done. by eapply C.
  - intros (x0 & y0 & Sx & Sy & Vx0 & Vy0 & s0 & t0 & Hs0 & Ht0 & El). cbn [fst snd] in *.
    destruct (A _ _ _ _ Sx Vx0 Hs0) as (s & Hs & Fs). destruct (A _ _ _ _ Sy Vy0 Ht0) as (t & Ht & Ft).
    split; [by eapply V|]. split; [by eapply V|]. exists s, t. split_and!; try done. by eapply C.
Qed.
Lemma rlink_transport_eq w m m' (F : nat -> nat -> Prop) :
  minv w m [] -> minv w m' [] -> (forall x, vis m' x <-> vis m x) ->
  (forall x k s, vis m x -> raws m x !! k = Some s -> exists s', raws m' x !! k = Some s' /\ F s s') ->
  (forall x k s' t', vis m x -> raws m' x !! k = Some s' -> lk (m_graph m') s' = Some t' ->
     exists s, raws m x !! k = Some s /\ F s s') ->
  (forall s s' t t', F s s' -> F t t' -> lk (m_graph m) s = Some t <-> lk (m_graph m') s' = Some t') ->
  forall x y, rlink m' x y <-> rlink m x y.
Proof.
  intros I I' V A B C x y. rewrite (rlink_transport w m m' eq F I I').
  - split.
    + intros (x0 & y0 & -> & -> & H). by destruct x, y.
    + intros H. exists x.1, y.1. by destruct x, y.
  - intros x0 ? <-. apply V.
  - intros x0 ? k s <-. apply A.
  - intros x0 k s' t' Vx Hs El. apply V in Vx. destruct (B _ _ _ _ Vx Hs El) as (s & ? & ?). by exists x0, s.
  - done.
Qed.

(** What [get_free_multiport] guarantees when it returns subport [s], held by
    the underlying port [i]. *)
Record gf_post (w : N) (m m' : mpg) (p : nat) (s : subport) (i : nat) : Prop := {
  gf_inv : minv w m' [];
  gf_pm : forall x n d, (pmeta (m_graph m') x = Some (n, d) /\ is_copy m' n = false) <-> (pmeta (m_graph m) x = Some (n, d) /\ is_copy m n = false);
  gf_cn : forall n, (contains_node (m_graph m') n = true /\ is_copy m' n = false) <-> (contains_node (m_graph m) n = true /\ is_copy m n = false);
  gf_ports : forall n d, contains_node (m_graph m) n = true -> is_copy m n = false -> ports (m_graph m') n d = ports (m_graph m) n d;
  gf_raws : forall x, vis m x -> x <> p -> raws m' x = raws m x;
  gf_s : s.1 = p;
  gf_i : raws m' p !! s.2 = Some i;
  gf_lk : lk (m_graph m') i = None;
  gf_rlink : forall x y, rlink m' x y <-> rlink m x y;
  gf_old : forall k a, raws m p !! k = Some a -> lk (m_graph m) a = None -> m' = m;
}.

Section gf.
  Context (w : N) (Hw : (1 < w <= 63)%N) (m : mpg) (I : minv w m []).
  Notation g := (m_graph m).
  Let R := mi_reach _ _ _ I.
  Context (p n : nat) (d : dir) (Mp : pmeta g p = Some (n, d)) (Cn : is_copy m n = false).
  Let Vp : vis m p.
  Proof. by exists n, d. Qed.

  Lemma gf_same k i : raws m p !! k = Some i -> lk g i = None -> gf_post w m m p (p, k) i.
  Proof. intros Hi Hl. by split. Qed.

  (** A port without links *)
  Lemma gf_A : is_multi m p = false -> lk g p = None -> m_get_free w m p = Ok (m, inr (sp_unique p, p)) /\ gf_post w m m p (p, 0) p.
  Proof.
    intros Fp Lp. split.
    - unfold m_get_free. rewrite (pm_dir _ _ _ _ Mp), (r_port_link w g R _ _ Mp), bind_Ok, Fp, Lp. done.
    - apply gf_same; [by rewrite raws_single|done].
  Qed.

  (** A port with several subports, one of them free *)
  Lemma first_free_spec l : (forall x, x ∈ l -> is_Some (pmeta g x)) -> forall o,
    (exists k i, l !! k = Some i /\ lk g i = None /\ first_free g o l = Ok (Some (o + k, i))) \/
    ((forall i, i ∈ l -> lk g i <> None) /\ first_free g o l = Ok None).
  Proof.
    induction l as [|x l IH]; intros Hl o; cbn [first_free].
    - right. split; [|done]. by intros i ?%elem_of_nil.
    - destruct (Hl x) as [[n' d'] Mx]; [by left|]. rewrite (r_port_link w g R _ _ Mx), bind_Ok. destruct (lk g x) as [y|] eqn:Ex.
      + destruct (IH ltac:(intros; apply Hl; by right) (Datatypes.S o)) as [(k & i & A & B & E)|[A E]].
        * left. exists (Datatypes.S k), i. split_and!; [done|done|]. rewrite E. do 3 f_equal. lia.
        * right. split; [|done]. intros i [->|Hi]%elem_of_cons; [congruence|by apply A].
      + left. exists 0, x. split_and!; [done|done|]. do 3 f_equal. lia.
  Qed.
  Lemma gf_C : is_multi m p = true ->
    (exists k i, raws m p !! k = Some i /\ lk g i = None /\ m_get_free w m p = Ok (m, inr ((p, k), i))) \/
    (exists q c, lk g p = Some q /\ pmeta g q = Some (c, rev_dir d) /\ is_copy m c = true /\ raws m p = ports g c d /\ (forall i, i ∈ raws m p -> lk g i <> None) /\
      m_get_free w m p = '(m, sub) ← m_add_port w m c d; s ← sp_multi p (N.of_nat (num_ports g c d)); Ok (m_with_counts m (m_ccount m) (m_scount m + 1), inr (s, sub))).
  Proof.
    intros Fp. destruct (flag_vis w m I p n d Fp Mp Cn) as (q & c & Lp & Lq & Fq & Mq & Cc & Pq & Hr & H2 & Hmax & Ho).
    destruct (first_free_spec (ports g c d)) with (o := 0) as [(k & i & A & B & E)|[A E]].
    { intros x Hx%(r_elem w g R). eauto. }
    - left. exists k, i. rewrite Hr. split_and!; [done|done|]. unfold m_get_free.
      rewrite (pm_dir _ _ _ _ Mp), (r_port_link w g R _ _ Mp), bind_Ok, Fp, Lp, (pm_node _ _ _ _ Mq).
      cbn [unwrap]. rewrite bind_Ok, E, bind_Ok. cbn [plus]. unfold sp_multi.
      rewrite <- Hr in A. destruct (raws_some w Hw m I p k i n d Mp Cn A) as (_ & _ & _ & Hk).
      rewrite (proj2 (N.ltb_lt _ _) Hk). cbn. by rewrite Nat2N.id.
    - right. exists q, c. rewrite Hr. split_and!; try done. unfold m_get_free.
      rewrite (pm_dir _ _ _ _ Mp), (r_port_link w g R _ _ Mp), bind_Ok, Fp, Lp, (pm_node _ _ _ _ Mq).
      cbn [unwrap]. rewrite bind_Ok, E, bind_Ok. cbn. by destruct (m_add_port w m c d) as [[]|].
  Qed.

  (** A port with several subports, all used: the copy node gets another port. *)
  Lemma gf_D q c : is_multi m p = true -> lk g p = Some q -> pmeta g q = Some (c, rev_dir d) -> is_copy m c = true -> raws m p = ports g c d ->
    (forall i, i ∈ raws m p -> lk g i <> None) -> (N.of_nat (num_ports g c d) <= po_max_offset w)%N ->
    let inc := num_ports g c Incoming in let out := num_ports g c Outgoing in
    forall g' log, set_num_ports g c (match d with Incoming => inc + 1 | Outgoing => inc end) (match d with Incoming => out | Outgoing => out + 1 end) = Ok (g', log) ->
    exists m' i, m_get_free w m p = Ok (m', inr ((p, num_ports g c d), i)) /\ gf_post w m m' p (p, num_ports g c d) i /\ m_graph m' = g'.
  Proof.
    intros Fp Lp Mq Cc Hr Hfull Hroom inc out g' log E.
    destruct (gf_C Fp) as [(k & i & A & B & _)|(q1 & c1 & Lp1 & Mq1 & _ & _ & _ & Eg)].
    { exfalso. eapply Hfull; [by eapply elem_of_list_lookup_2|done]. }
    assert (q1 = q) as -> by congruence. assert (c1 = c) as -> by congruence. clear Lp1 Mq1.
    set (i0 := match d with Incoming => inc + 1 | Outgoing => inc end) in *. set (j0 := match d with Incoming => out | Outgoing => out + 1 end) in *.
    destruct (flag_vis w m I p n d Fp Mp Cn) as (q1 & c1 & Lp1 & Lq & Fq & Mq1 & _ & Pq & _ & H2 & Hmax & Ho).
    assert (q1 = q) as -> by congruence. assert (c1 = c) as -> by congruence. clear Lp1 Mq1.
    assert (Hc : contains_node g c = true).
    { by eapply (r_node w g R). }
    assert (Hnew : forall d', newnum i0 j0 d' = if decide (d' = d) then num_ports g c d + 1 else num_ports g c d').
    { intros d'. unfold newnum, i0, j0, inc, out. by destruct d, d'. }
    assert (Hdrop : forall z, z ∉ drops g c i0 j0).
    { intros z (d' & k & Hk & Hle)%(drops_elem w Hw g R c i0 j0 g' log Hc E). apply lookup_lt_Some in Hk. rewrite ports_length, Hnew in *.
      destruct (decide (d' = d)) as [->|]; lia. }
    destruct (rekey_ok w Hw g R c i0 j0 g' log Hc E (m_multi m)) as (f' & D & Ef & F1 & F2 & F3 & HD & ND).
    { intros x. apply (flag_live w m x I). }
    { intros z Hz. by destruct (Hdrop z). }
    { intros z l x Hz _. destruct (C11_set_num_ports_callbacks_pf w g c i0 j0 g' log R Hc E) as ((rl & ml & Elog & Erl & Hrl & Hml1 & Hml2 & Hml3) & _).
      rewrite Elog in Hz. apply elem_of_app in Hz as [Hz|Hz].
      - destruct (Hdrop z). unfold drops. rewrite <- Erl. by apply (elem_of_list_fmap_1 fst) in Hz.
      - destruct (Hml2 _ _ Hz) as (? & ? & ? & ? & _). done. }
    assert (D = []) as ->. { destruct D as [|[a b] D]; [done|]. destruct (proj1 (HD a b)) as [H _]; [by left|]. by destruct (Hdrop a). }
    clear HD ND F3.
    assert (F2' : forall z, bv_get f' z = true -> exists x, survives g g' c x z /\ is_multi m x = true).
    { intros z Hz. destruct (F2 z Hz) as [?|[H _]]; [done|]. by destruct (Hdrop z). }
    clear F2. pose proof (snp_reach w g R c i0 j0 g' log Hc E) as R'.
    destruct (v_snp w g R c i0 j0 g' log Hc E) as (_ & Ni & Nj & Hcn & Hpo & Hpm & _).
    pose proof (surv_lk w g R c i0 j0 g' log Hc E) as SL. pose proof (surv_lk_inv w g R c i0 j0 g' log Hc E) as SLi.
    assert (Hnum : forall d', num_ports g' c d' = if decide (d' = d) then num_ports g c d + 1 else num_ports g c d').
    { intros d'. rewrite <- Hnew. by destruct d'. }
    clear Ni Nj.
    assert (Sself : forall x n' d', pmeta g x = Some (n', d') -> n' <> c -> survives g g' c x x) by (intros; by eapply surv_self).
    assert (Sfun : forall x, is_Some (pmeta g x) -> exists y, survives g g' c x y).
    { intros x Hx. destruct (live_surv w Hw g R c i0 j0 g' log Hc E x Hx) as [?|H]; [done|]. by destruct (Hdrop x). }
    assert (Spos : forall x y d' k, survives g g' c x y -> ports g c d' !! k = Some x -> ports g' c d' !! k = Some y).
    { intros x y d' k S Hk. destruct S as [(d1 & k1 & A & B)|(_ & Hn' & _)].
      - pose proof (r_look w g R _ _ _ _ A) as M1. pose proof (r_look w g R _ _ _ _ Hk) as M2. rewrite M1 in M2. injection M2 as ->.
        assert (k1 = k) as ->; [|done]. eapply NoDup_lookup; [apply (r_nodup g c d')|exact A|exact Hk].
      - rewrite (pm_node _ _ _ _ (r_look w g R _ _ _ _ Hk)) in Hn'. done. }
    assert (Spos' : forall x y d' k, survives g g' c x y -> ports g' c d' !! k = Some y -> ports g c d' !! k = Some x).
    { intros x y d' k S Hk. destruct S as [(d1 & k1 & A & B)|(Hl & Hn' & ->)].
      - pose proof (r_look w g' R' _ _ _ _ B) as M1. pose proof (r_look w g' R' _ _ _ _ Hk) as M2. rewrite M1 in M2. injection M2 as ->.
        assert (k1 = k) as ->; [|done]. eapply NoDup_lookup; [apply (r_nodup g' c d')|exact B|exact Hk].
      - exfalso. pose proof (r_look w g' R' _ _ _ _ Hk) as M2.
        destruct (pmeta g x) as [[a b]|] eqn:Mx.
        + destruct (decide (a = c)) as [->|Ha]; [by rewrite (pm_node _ _ _ _ Mx) in Hn'|]. apply (Hpm x a b Ha) in Mx. congruence.
        + apply contains_port_true in Hl as [? Hl]. congruence. }
    assert (Hrev : rev_dir d <> d) by apply rev_ne.
    destruct (Sfun q ltac:(eauto)) as [q' Sq].
    assert (Pq' : ports g' c (rev_dir d) = [q']).
    { assert (Hl1 : length (ports g' c (rev_dir d)) = 1).
      { rewrite ports_length, Hnum, decide_False by done. by rewrite <- ports_length, Pq. }
      assert (H0 : ports g' c (rev_dir d) !! 0 = Some q') by (eapply Spos; [exact Sq|by rewrite Pq]).
      destruct (ports g' c (rev_dir d)) as [|a [|b l]]; cbn in *; [done|congruence|done]. }
    assert (Mq' : pmeta g' q' = Some (c, rev_dir d)) by (apply (r_elem w g' R'); rewrite Pq'; by left).
    destruct (lookup_lt_is_Some_2 (ports g' c d) (num_ports g c d)) as [i Hi].
    { rewrite ports_length, Hnum, decide_True by done. lia. }
    assert (Hinew : forall x, ~ survives g g' c x i).
    { intros x S. pose proof (Spos' x i d _ S Hi) as H%lookup_lt_Some. rewrite ports_length in H. lia. }
    assert (Li : lk g' i = None).
    { destruct (lk g' i) as [y|] eqn:Ey; [|done]. destruct (SLi _ _ Ey) as (x & _ & S & _). by destruct (Hinew x). }
    set (m1 := m_with_counts (m_with_multi (m_with_graph m g') f') (m_ccount m) (m_scount m + 1)).
    assert (FS : forall x n' d', pmeta g x = Some (n', d') -> n' <> c -> bv_get f' x = is_multi m x).
    { intros x n' d' Mx Hne. apply F1. by eapply Sself. }
    assert (FP : forall s, s ∈ ports g' c d -> bv_get f' s = false).
    { intros s Hs. destruct (bv_get f' s) eqn:Fs; [|done]. destruct (F2' s Fs) as (x & S & Fx).
      apply elem_of_list_lookup_1 in Hs as [k Hk]. apply (Spos' x s d k S) in Hk. rewrite Ho in Fx; [done|]. by eapply elem_of_list_lookup_2. }
    assert (Eg' : m_get_free w m p = Ok (m1, inr ((p, num_ports g c d), i))).
    { rewrite Eg. unfold m_add_port. fold inc out. fold i0 j0. unfold m_set_num_ports. rewrite E, bind_Ok, Ef, bind_Ok.
      cbn [rfold]. rewrite !bind_Ok.
      replace (match d with Incoming => inc | Outgoing => out end) with (num_ports g c d) by (by destruct d).
      cbn [m_graph m_with_multi m_with_graph].
      destruct (r_port_index w g' c d (num_ports g c d) Hw Hroom) as (o & Eo & Ei). rewrite Eo, bind_Ok, Ei, bind_Ok, Hi.
      cbn [unwrap]. rewrite !bind_Ok. unfold sp_multi. pose proof (r_num w g' R' c) as Hn'.
      assert (num_ports g' c (rev_dir d) = 1) by (by rewrite <- ports_length, Pq').
      assert (num_ports g' c d = num_ports g c d + 1) by (by rewrite Hnum, decide_True).
      rewrite (proj2 (N.ltb_lt _ _)); [|destruct d; cbn [rev_dir] in *; lia]. cbn. by rewrite Nat2N.id. }
    exists m1, i. split; [done|]. clear Eg Eg' Ef.
    assert (Hpm1 : forall x n' d', (pmeta g' x = Some (n', d') /\ is_copy m n' = false) <-> (pmeta g x = Some (n', d') /\ is_copy m n' = false)).
    { intros x n' d'. split; intros [A B]; (split; [|done]); (apply Hpm; [congruence|done]). }
    assert (I1 : minv w m1 []).
    { pose proof I as [_ _ Hcp _ _ _ Hcc Hsc].
      split; cbn [m_graph m1 m_with_graph m_with_multi m_with_counts m_ccount m_scount]; try done;
        change (is_copy m1) with (is_copy m); change (is_multi m1) with (bv_get f').
      - intros z Fz. right; right. destruct (F2' z Fz) as (x & S & Fx).
        destruct (flag_paired w m I x Fx) as (n1 & d1 & y & n2 & H1 & H3 & H4 & H5 & H6).
        destruct (Sfun y ltac:(eauto)) as [y' Sy].
        destruct (surv_pm w g R c i0 j0 g' log Hc E x z S) as (xx & dd & M0 & Mz). rewrite H1 in M0. injection M0 as <- <-.
        destruct (surv_pm w g R c i0 j0 g' log Hc E y y' Sy) as (xx & dd & M0 & My). rewrite H5 in M0. injection M0 as <- <-.
        exists n1, d1, y', n2. cbn [m_graph m1 m_with_graph m_with_multi m_with_counts].
        split; [done|]. split; [by eapply SL|]. split; [|done]. change (bv_get f' y' = true). by rewrite (F1 y y' Sy).
      - intros c' Hc'. destruct (decide (c' = c)) as [->|Hne].
        + exists q', (rev_dir d). rewrite rev_rev, Hnum, decide_True by done. split_and!; try done.
          * by rewrite (F1 q q' Sq).
          * lia.
          * lia.
        + destruct (Hcp c' Hc') as (q1 & d1 & A1 & A2 & A3 & A4 & A5). exists q1, d1. rewrite !Hpo by done.
          replace (num_ports g' c' (rev_dir d1)) with (num_ports g c' (rev_dir d1)) by (by rewrite <- !ports_length, Hpo).
          split_and!; try done.
          * erewrite FS; [done| |exact Hne]. apply (r_elem w g R). rewrite A1. by left.
          * intros s Hs. erewrite FS; [by apply A5| |exact Hne]. by apply (r_elem w g R).
      - intros ? ? H. by apply elem_of_nil in H.
      - apply NoDup_nil_2.
      - apply NoDup_nil_2.
      - pose proof (card_list _ (r_nodup g c d)) as K1. pose proof (card_list _ (r_nodup g' c d)) as K2.
        assert (Hsub : forall s, s ∈ ports g c d -> exists c d, pmeta g s = Some (c, d) /\ is_copy m c = true /\ is_multi m s = false).
        { intros s Hs. exists c, d. split; [by apply (r_elem w g R)|]. split; [done|by apply Ho]. }
        destruct (card_minus _ _ _ _ Hsub Hsc K1) as [Hle K3].
        pose proof (fun Hd => card_union _ _ _ _ Hd K3 K2) as K4. rewrite !ports_length, Hnum, decide_True in * by done.
        replace (m_scount m + 1) with (m_scount m - num_ports g c d + (num_ports g c d + 1)) by lia.
        eapply card_ext; [|apply K4].
        + intros s. cbn. split.
          * intros [[(c1 & d1 & S1 & S2 & S3) S4]|Hs].
            -- rewrite (r_elem w g R) in S4. destruct (decide (c1 = c)) as [->|Hne].
               ++ destruct (dir_rev_or d d1) as [->| ->]; [done|]. apply (r_elem w g R) in S1. rewrite Pq in S1.
                  apply elem_of_list_singleton in S1 as ->. congruence.
               ++ exists c1, d1. split; [by apply Hpm|]. split; [done|]. by rewrite (FS s c1 d1).
            -- exists c, d. split; [by apply (r_elem w g' R')|]. split; [done|by apply FP].
          * intros (c1 & d1 & S1 & S2 & S3). destruct (decide (c1 = c)) as [->|Hne].
            -- right. destruct (dir_rev_or d d1) as [->| ->]; [by apply (r_elem w g' R')|]. exfalso.
               apply (r_elem w g' R') in S1. rewrite Pq' in S1. apply elem_of_list_singleton in S1 as ->. rewrite (F1 q q' Sq) in S3.
               unfold is_multi in Fq. congruence.
            -- left. apply Hpm in S1; [|done]. split; [exists c1, d1; split; [done|]; split; [done|]; by rewrite <- (FS s c1 d1)|].
               rewrite (r_elem w g R). congruence.
        + intros s [(c1 & d1 & S1 & S2 & S3) S4] Hs. apply (r_elem w g' R') in Hs. destruct (decide (c1 = c)) as [->|Hne].
          * rewrite (r_elem w g R) in S4. destruct (dir_rev_or d d1) as [->| ->]; [done|]. apply (r_elem w g R) in S1. rewrite Pq in S1.
            apply elem_of_list_singleton in S1 as ->. congruence.
          * apply (Hpm s c1 d1 Hne) in S1. congruence. }
    assert (HRn : forall x k s, vis m x -> x <> p -> raws m x !! k = Some s -> survives g g' c s s).
    { intros x k s Vx Hx Hs. pose proof Vx as (nx & dx & Mx & Cx). destruct (raws_some w Hw m I x k s nx dx Mx Cx Hs) as (Fs & [c1 Ms] & _).
      eapply Sself; [exact Ms|]. intros ->. apply Hx. destruct (dir_rev_or d dx) as [->| ->].
      - apply (r_elem w g R) in Ms. rewrite <- Hr in Ms. apply elem_of_list_lookup_1 in Ms as [k' Hk'].
        by destruct (raws_inj w Hw m I x k p k' s Vx Vp Hs Hk').
      - apply (r_elem w g R) in Ms. rewrite Pq in Ms. apply elem_of_list_singleton in Ms as ->. congruence. }
    assert (V1 : forall x, vis m1 x <-> vis m x).
    { intros x. unfold vis. change (is_copy m1) with (is_copy m). cbn [m_graph m1 m_with_graph m_with_multi m_with_counts]. by setoid_rewrite Hpm1. }
    assert (Rp : raws m1 p = ports g' c d).
    { unfold raws. change (is_multi m1 p) with (bv_get f' p). rewrite (FS p n d Mp) by congruence. rewrite Fp.
      cbn [m_graph m1 m_with_graph m_with_multi m_with_counts].
      rewrite (proj1 (SL p p q q' (Sself _ _ _ Mp ltac:(congruence)) Sq) Lp). rewrite (proj2 (Hpm p n d ltac:(congruence)) Mp), Mq'. done. }
    assert (Rx : forall x, vis m x -> x <> p -> raws m1 x = raws m x).
    { intros x (nx & dx & Mx & Cx) Hx. unfold raws. change (is_multi m1 x) with (bv_get f' x). rewrite (FS x nx dx Mx) by congruence.
      destruct (is_multi m x) eqn:Fx; [|done]. cbn [m_graph m1 m_with_graph m_with_multi m_with_counts].
      destruct (flag_vis w m I x nx dx Fx Mx Cx) as (q1 & c1 & Lx & _ & Fq1 & Mq1 & Cc1 & _).
      assert (c1 <> c).
      { intros ->. assert (q1 = q) as ->. { eapply (copy_port w m _ I c q (rev_dir d)); try done. by rewrite rev_rev. }
        apply Hx. by eapply (r_lk_inj w g R). }
      rewrite Lx, (proj1 (SL x x q1 q1 (Sself _ _ _ Mx ltac:(congruence)) (Sself _ _ _ Mq1 ltac:(done))) Lx).
      rewrite Mx, (proj2 (Hpm x nx dx ltac:(congruence)) Mx), Mq1, (proj2 (Hpm q1 c1 _ ltac:(done)) Mq1). by rewrite Hpo. }
    split; [|done]. split; try done.
    - intros n'. cbn. by rewrite Hcn.
    - intros n' d' _ Hf. cbn. apply Hpo. congruence.
    - cbn [fst snd]. by rewrite Rp.
    - apply (rlink_transport_eq w m m1 (survives g g' c)); try done.
      + intros x k s Vx Hs. destruct (decide (x = p)) as [->|Hx].
        * rewrite Hr in Hs. destruct (Sfun s) as [s' Ss].
          { pose proof (r_look w g R _ _ _ _ Hs). eauto. }
          exists s'. split; [|done]. rewrite Rp. by eapply Spos.
        * exists s. rewrite Rx by done. split; [done|by eapply HRn].
      + intros x k s' t' Vx Hs El. cbn in El. destruct (decide (x = p)) as [->|Hx].
        * rewrite Rp in Hs. destruct (SLi _ _ El) as (s & _ & Ss & _). exists s. split; [|done]. rewrite Hr. by eapply Spos'.
        * rewrite Rx in Hs by done. exists s'. split; [done|by eapply HRn].
    - intros k a Ha La. exfalso. eapply Hfull; [by eapply elem_of_list_lookup_2|done].
  Qed.

  (** A port with one link: it moves to the first port of a new copy node. *)
  Lemma link_dir (m0 : mpg) a b d' na nb : reach w (m_graph m0) -> pmeta (m_graph m0) a = Some (na, d') -> pmeta (m_graph m0) b = Some (nb, rev_dir d') ->
    lk (m_graph m0) a = None -> lk (m_graph m0) b = None ->
    exists g', m_link_directed m0 a b d' = Ok (m_with_graph m0 g', None) /\ reach w g' /\ same_shape (m_graph m0) g' /\
      (forall x, lk g' x = if decide (x = a) then Some b else if decide (x = b) then Some a else lk (m_graph m0) x).
  Proof.
    intros R0 Ma Mb La Lb. assert (a <> b). { intros ->. rewrite Ma in Mb. injection Mb as _ H. by destruct (rev_ne d'). }
    unfold m_link_directed. destruct d'.
    - destruct (v_link w (m_graph m0) R0 b a Outgoing nb na Mb Ma Lb La) as (g' & E & R' & Sh & Hl). exists g'. rewrite E, bind_Ok.
      split_and!; try done. intros x. rewrite Hl. destruct (decide (x = b)), (decide (x = a)); congruence.
    - destruct (v_link w (m_graph m0) R0 a b Outgoing na nb Ma Mb La Lb) as (g' & E & R' & Sh & Hl). exists g'. rewrite E, bind_Ok. done.
  Qed.
  Lemma gf_B l g1 c : (1 <= po_max_offset w)%N -> is_multi m p = false -> lk g p = Some l ->
    match d with Incoming => add_node (po_max_offset w) g 2 1 | Outgoing => add_node (po_max_offset w) g 1 2 end = Ok (g1, c) ->
    exists m' i, m_get_free w m p = Ok (m', inr ((p, 1), i)) /\ gf_post w m m' p (p, 1) i /\ same_len g1 (m_graph m').
  Proof.
    intros Hmx Fp Lp Eadd.
    assert (A : reach w g1 /\ contains_node g c = false /\ contains_node g1 c = true /\
      (forall x, x <> c -> contains_node g1 x = contains_node g x) /\ num_ports g1 c d = 2 /\ num_ports g1 c (rev_dir d) = 1 /\
      (forall x d', x <> c -> ports g1 x d' = ports g x d') /\
      (forall p, (forall d, pmeta g1 p <> Some (c, d)) -> pmeta g1 p = pmeta g p) /\
      (forall p d, pmeta g1 p = Some (c, d) -> pmeta g p = None) /\ (forall p, lk g1 p = lk g p)).
    { destruct d; cbn [rev_dir].
      - destruct (v_add w g R 2 1 g1 c ltac:(lia) ltac:(lia) Eadd) as (? & ? & ? & ? & ? & ? & ? & ? & ? & ?). by split_and!.
      - destruct (v_add w g R 1 2 g1 c ltac:(lia) ltac:(lia) Eadd) as (? & ? & ? & ? & ? & ? & ? & ? & ? & ?). by split_and!. }
    destruct A as (R1 & Cg & Cg1 & Hcn1 & N2 & N1 & Hpo1 & Hpm1 & Hnew1 & Hlk1).
    assert (Cc : is_copy m c = false).
    { destruct (is_copy m c) eqn:Ec; [|done]. pose proof (copy_live w m _ I c Ec). congruence. }
    assert (Hpm : forall x n' d', n' <> c -> pmeta g1 x = Some (n', d') <-> pmeta g x = Some (n', d')).
    { intros x n' d' Hne. split; intros Hx.
      - rewrite <- Hpm1; [done|]. congruence.
      - rewrite Hpm1; [done|]. intros d1 H. apply Hnew1 in H. congruence. }
    rewrite <- (r_len g1) in N1, N2.
    destruct (ports g1 c (rev_dir d)) as [|cp [|? ?]] eqn:Pcp; try done.
    destruct (ports g1 c d) as [|o0 [|o1 [|? ?]]] eqn:Po; try done.
    assert (Mcp : pmeta g1 cp = Some (c, rev_dir d)) by (apply (r_elem w g1 R1); rewrite Pcp; by left).
    assert (Mo0 : pmeta g1 o0 = Some (c, d)) by (apply (r_elem w g1 R1); rewrite Po; by left).
    assert (Mo1 : pmeta g1 o1 = Some (c, d)) by (apply (r_elem w g1 R1); rewrite Po; by right; left).
    assert (Hone : n <> c). { intros ->. pose proof (r_node w g R _ _ _ Mp). congruence. }
    assert (Mp1 : pmeta g1 p = Some (n, d)) by (by apply Hpm).
    assert (Hfresh : forall x d', pmeta g1 x = Some (c, d') -> pmeta g x = None /\ lk g x = None /\ is_multi m x = false).
    { intros x d' Hx. apply Hnew1 in Hx. split; [done|]. split.
      - by apply (r_lk_none w g R).
      - destruct (is_multi m x) eqn:Fx; [|done]. destruct (flag_live w m x I Fx). congruence. }
    destruct (r_lk_meta w g R _ _ Lp) as (n0 & d0 & nl & Mp0 & Ml). rewrite Mp in Mp0. injection Mp0 as <- <-.
    assert (Fl : is_multi m l = false) by (by eapply (lk_unflagged w m I)).
    assert (Hnl : nl <> c). { intros ->. pose proof (r_node w g R _ _ _ Ml). congruence. }
    assert (Ml1 : pmeta g1 l = Some (nl, rev_dir d)) by (by apply Hpm).
    pose proof (r_lk_sym w g R _ _ Lp) as Ll.
    assert (Hd : rev_dir d <> d) by apply rev_ne.
    assert (cp <> p /\ cp <> o0 /\ cp <> l /\ o0 <> p /\ o0 <> l /\ o1 <> p /\ o1 <> cp /\ o1 <> o0 /\ o1 <> l /\ p <> l) as (D1 & D2 & D3 & D4 & D5 & D6 & D7 & D8 & D9 & D10).
    { split_and!; try congruence. intros ->. pose proof (r_nodup g1 c d) as HN. rewrite Po in HN. apply NoDup_cons in HN as [HN _]. apply HN. by left. }
    destruct (v_unlink w g1 R1 p) as (g2 & E2 & R2 & (Sn2 & Sp2 & Sm2) & Hlk2). rewrite Hlk1, Lp in E2.
    assert (Hlk2' : forall x, lk g2 x = if decide (x = p \/ x = l) then None else lk g x).
    { intros x. rewrite Hlk2, Hlk1, Lp. destruct (decide (x = p \/ x = l)), (decide (x = p \/ Some l = Some x)); naive_solver. }
    clear Hlk2. destruct (bv_set_get (m_copy m) c true) as (cps & Ecp & Hcps).
    set (m2 := m_with_graph (MPG g1 (m_multi m) cps (m_ccount m + 1) (m_scount m + 2)) g2).
    destruct (link_dir m2 p cp d n c) as (g3 & E3 & R3 & (Sn3 & Sp3 & Sm3) & Hlk3); cbn [m_graph m2 m_with_graph]; [done|by rewrite Sm2|by rewrite Sm2| | |].
    { rewrite Hlk2', decide_True; [done|by left]. }
    { rewrite Hlk2'. destruct (decide _); [done|]. eapply Hfresh. done. }
    cbn [m_graph m2 m_with_graph] in Sn3, Sp3, Sm3, Hlk3.
    destruct (link_dir (m_with_graph m2 g3) o0 l d c nl) as (g4 & E4 & R4 & (Sn4 & Sp4 & Sm4) & Hlk4); cbn [m_graph m_with_graph]; [done|by rewrite Sm3, Sm2|by rewrite Sm3, Sm2| | |].
    { rewrite Hlk3, !decide_False by done. rewrite Hlk2'. destruct (decide _); [done|]. eapply Hfresh. done. }
    { rewrite Hlk3, !decide_False by done. rewrite Hlk2', decide_True; [done|by right]. }
    cbn [m_graph m_with_graph] in Sn4, Sp4, Sm4, Hlk4.
    destruct (bv_set_get (m_multi m) cp true) as (fl1 & Ef1 & Hf1). destruct (bv_set_get fl1 p true) as (fl & Ef & Hf).
    set (m4 := MPG g4 fl cps (m_ccount m + 1) (m_scount m + 2)).
    assert (Eg : m_get_free w m p = Ok (m4, inr ((p, 1), o1))).
    { unfold m_get_free. rewrite (pm_dir _ _ _ _ Mp), (r_port_link w g R _ _ Mp), bind_Ok, Fp, Lp, Eadd, bind_Ok, Ecp, bind_Ok, Pcp.
      cbn [head unwrap]. rewrite bind_Ok.
      destruct (r_port_index w g1 c d 0 Hw ltac:(lia)) as (x0 & Ex0 & Ei0). destruct (r_port_index w g1 c d 1 Hw Hmx) as (x1 & Ex1 & Ei1).
      rewrite Po in Ei0, Ei1. change (N.of_nat 0) with 0%N in Ex0. change (N.of_nat 1) with 1%N in Ex1. rewrite Ex0, bind_Ok, Ei0, bind_Ok. cbn [lookup list_lookup unwrap].
      rewrite bind_Ok, Ex1, bind_Ok, Ei1, bind_Ok. cbn [lookup list_lookup unwrap]. rewrite bind_Ok, E2, bind_Ok.
      fold m2. rewrite E3, bind_Ok, E4, bind_Ok. cbn [m_multi m_with_graph m2]. rewrite Ef1, bind_Ok, Ef, bind_Ok. done. }
    exists m4, o1. split; [done|].
    assert (GL : same_len g1 g4).
    { apply unlink_port_grow in E2. apply link_directed_grow in E3, E4. cbn [m_graph m2 m_with_graph] in E3, E4. unfold same_len in *. lia. }
    clear Eg E2 E3 E4 Ef1 Ef Ecp Eadd m2.
    assert (Hm4 : forall x, pmeta g4 x = pmeta g1 x) by (intros; by rewrite Sm4, Sm3, Sm2).
    assert (Hp4 : forall x d', ports g4 x d' = ports g1 x d') by (intros; by rewrite Sp4, Sp3, Sp2).
    assert (Hn4 : forall x, contains_node g4 x = contains_node g1 x) by (intros; by rewrite Sn4, Sn3, Sn2).
    assert (Hl4 : forall x, lk g4 x = if decide (x = o0) then Some l else if decide (x = l) then Some o0 else
      if decide (x = p) then Some cp else if decide (x = cp) then Some p else lk g x).
    { intros x. rewrite Hlk4. destruct (decide (x = o0)); [done|]. destruct (decide (x = l)) as [->|]; [done|]. rewrite Hlk3.
      destruct (decide (x = p)); [done|]. destruct (decide (x = cp)); [done|]. rewrite Hlk2', decide_False; naive_solver. }
    clear Hlk4 Hlk3 Hlk2' Sm4 Sm3 Sm2 Sp4 Sp3 Sp2 Sn4 Sn3 Sn2 R1 R2 R3.
    assert (Hf4 : forall x, is_multi m4 x = if decide (x = p \/ x = cp) then true else is_multi m x).
    { intros x. unfold is_multi at 1. cbn [m4 m_multi]. rewrite Hf, Hf1. fold (is_multi m x).
      destruct (decide (x = p)), (decide (x = cp)), (decide (x = p \/ x = cp)); naive_solver. }
    assert (Hc4 : forall x, is_copy m4 x = if decide (x = c) then true else is_copy m x).
    { intros x. unfold is_copy at 1. cbn [m4 m_copy]. by rewrite Hcps. }
    clear Hf Hf1 Hcps.
    assert (Hfold : forall x, is_multi m x = true -> lk g4 x = lk g x /\ x <> p /\ x <> cp).
    { intros x Fx. assert (x <> p) by congruence. assert (x <> l) by congruence.
      assert (x <> cp). { intros ->. destruct (Hfresh cp _ Mcp) as (_ & _ & ?). congruence. }
      assert (x <> o0). { intros ->. destruct (Hfresh o0 _ Mo0) as (_ & _ & ?). congruence. }
      split; [|done]. by rewrite Hl4, !decide_False. }
    assert (Hold : forall x n' d', pmeta g x = Some (n', d') -> x <> cp /\ x <> o0 /\ x <> o1 /\ n' <> c).
    { intros x n' d' Mx. split_and!.
      - intros ->. destruct (Hfresh cp _ Mcp) as (? & _). congruence.
      - intros ->. destruct (Hfresh o0 _ Mo0) as (? & _). congruence.
      - intros ->. destruct (Hfresh o1 _ Mo1) as (? & _). congruence.
      - intros ->. pose proof (r_node w g R _ _ _ Mx). congruence. }
    assert (I4 : minv w m4 []).
    { pose proof I as [_ _ Hcp _ _ _ Hcc Hsc]. split; cbn [m_graph m4 m_ccount m_scount]; try done; try apply NoDup_nil_2.
      - intros x. rewrite Hf4. destruct (decide (x = p \/ x = cp)) as [[->| ->]|Hx]; intros Fx; right; right.
        + exists n, d, cp, c. cbn [m_graph m4]. rewrite !Hm4, Hl4, Hf4, !Hc4. rewrite 2!decide_False, decide_True by congruence.
          rewrite (decide_True (P := cp = p \/ cp = cp)) by (by right). rewrite decide_True, decide_False by done. by rewrite Cn.
        + exists c, (rev_dir d), p, n. cbn [m_graph m4]. rewrite !Hm4, Hl4, Hf4, !Hc4, rev_rev. rewrite 3!decide_False, decide_True by congruence.
          rewrite (decide_True (P := p = p \/ p = cp)) by (by left). rewrite (decide_True (P := c = c)), decide_False by done. by rewrite Cn.
        + destruct (flag_paired w m I x Fx) as (n1 & d1 & y & n2 & H1 & H2 & H3 & H4 & H5).
          destruct (Hold _ _ _ H1) as (_ & _ & _ & Hn1). destruct (Hold _ _ _ H4) as (_ & _ & _ & Hn2).
          exists n1, d1, y, n2. cbn [m_graph m4]. rewrite !Hm4, Hf4, !Hc4, !(decide_False (P := _ = c)) by done.
          destruct (Hfold x Fx) as (-> & _). destruct (Hfold y H3) as (_ & ? & ?). rewrite decide_False by naive_solver.
          split_and!; [by apply Hpm|done|done|by apply Hpm|done].
      - intros c'. rewrite Hc4. destruct (decide (c' = c)) as [->|Hne].
        + intros _. exists cp, (rev_dir d). rewrite rev_rev, !Hp4. rewrite <- (r_len g4), Hp4, Po. split_and!; [done| |cbn; lia|cbn; lia|].
          * rewrite Hf4, decide_True; [done|by right].
          * intros s Hs. rewrite Hf4, decide_False.
            -- assert (pmeta g1 s = Some (c, d)) as Ms. { rewrite !elem_of_cons, elem_of_nil in Hs. destruct Hs as [->|[->|[]]]; done. }
               by destruct (Hfresh s d Ms) as (_ & _ & ?).
            -- rewrite !elem_of_cons, elem_of_nil in Hs. naive_solver.
        + intros Hc'. destruct (Hcp c' Hc') as (q1 & d1 & A1 & A2 & A3 & A4 & A5). exists q1, d1.
          replace (num_ports g4 c' (rev_dir d1)) with (num_ports g c' (rev_dir d1)) by (by rewrite <- !ports_length, Hp4, Hpo1).
          rewrite !Hp4, !Hpo1 by done. split_and!; try done.
          * rewrite Hf4. destruct (decide _); done.
          * intros s Hs. rewrite Hf4, decide_False; [by apply A5|]. apply (r_elem w g R) in Hs. destruct (Hold _ _ _ Hs) as (? & _).
            intros [->|?]; [|done]. congruence.
      - intros ? ? H. by apply elem_of_nil in H.
      - rewrite Nat.add_1_r. eapply card_ext; [|apply (card_add (fun c => is_copy m c = true) (m_ccount m) c); [congruence|exact Hcc]]. intros x. cbn. rewrite Hc4.
        destruct (decide (x = c)); naive_solver.
      - assert (NoDup [o0; o1]) as HN by (rewrite <- Po; apply (r_nodup g1)).
        pose proof (card_list _ HN) as K2. cbn [length] in K2.
        pose proof (fun Hd => card_union _ _ _ _ Hd Hsc K2) as K3.
        eapply card_ext; [|apply K3]; cycle 1.
        { intros x (c1 & d1 & S1 & S2 & S3) Hx. destruct (Hold _ _ _ S1) as (? & ? & ? & ?).
          rewrite !elem_of_cons, elem_of_nil in Hx. naive_solver. }
        intros s. cbn. setoid_rewrite Hm4. rewrite Hf4. setoid_rewrite Hc4. split.
        + intros [(c1 & d1 & S1 & S2 & S3)|Hs].
          * destruct (Hold _ _ _ S1) as (? & ? & ? & ?). exists c1, d1. rewrite (decide_False (P := c1 = c)) by done. split; [by apply Hpm|]. split; [done|].
            rewrite decide_False; [done|]. intros [->|?]; [|done]. congruence.
          * exists c, d. rewrite decide_True by done. rewrite !elem_of_cons, elem_of_nil in Hs.
            split; [destruct Hs as [->|[->|[]]]; done|]. split; [done|]. rewrite decide_False by naive_solver. destruct Hs as [->|[->|[]]]; by eapply Hfresh.
        + intros (c1 & d1 & S1 & S2 & S3). destruct (decide (c1 = c)) as [->|Hne].
          * right. destruct (dir_rev_or d d1) as [->| ->].
            -- rewrite <- Po. rewrite <- Hp4. apply (r_elem w g4 R4). by rewrite Hm4.
            -- exfalso. assert (s ∈ [cp]) as ->%elem_of_list_singleton; [|by rewrite decide_True in S3 by (by right)].
               rewrite <- Pcp, <- Hp4. apply (r_elem w g4 R4). by rewrite Hm4.
          * left. exists c1, d1. split; [by apply Hpm|]. split; [done|]. by destruct (decide (s = p \/ s = cp)). }
    assert (HV : forall x n' d', (pmeta g4 x = Some (n', d') /\ is_copy m4 n' = false) <-> (pmeta g x = Some (n', d') /\ is_copy m n' = false)).
    { intros x n' d'. rewrite Hm4, Hc4. split.
      - intros [A B]. destruct (decide (n' = c)); [done|]. split; [by apply Hpm|done].
      - intros [A B]. destruct (Hold _ _ _ A) as (_ & _ & _ & ?). rewrite decide_False by done. split; [by apply Hpm|done]. }
    assert (V4 : forall x, vis m4 x <-> vis m x).
    { intros x. unfold vis. cbn [m_graph m4]. by setoid_rewrite HV. }
    assert (Rp : raws m4 p = [o0; o1]).
    { unfold raws. rewrite Hf4, decide_True by (by left). cbn [m_graph m4]. rewrite Hl4, 2!decide_False, decide_True by congruence.
      by rewrite !Hm4, Mp1, Mcp, Hp4. }
    assert (Rx : forall x, vis m x -> x <> p -> raws m4 x = raws m x).
    { intros x (nx & dx & Mx & Cx) Hx. destruct (Hold _ _ _ Mx) as (Hxc & _ & _ & Hnx). unfold raws. rewrite Hf4, decide_False by naive_solver.
      destruct (is_multi m x) eqn:Fx; [|done]. cbn [m_graph m4]. destruct (Hfold x Fx) as (-> & _).
      destruct (flag_vis w m I x nx dx Fx Mx Cx) as (q1 & c1 & Lx & _ & Fq1 & Mq1 & Cc1 & _).
      destruct (Hold _ _ _ Mq1) as (_ & _ & _ & Hc1). rewrite Lx, !Hm4, Mx, Mq1.
      rewrite (proj2 (Hpm x nx dx Hnx) Mx), (proj2 (Hpm q1 c1 _ Hc1) Mq1). by rewrite Hp4, Hpo1. }
    split; [|done]. split; try done.
    - intros n'. cbn [m_graph m4]. rewrite Hn4, Hc4. destruct (decide (n' = c)) as [->|Hne]; [naive_solver|]. by rewrite Hcn1.
    - intros n' d' Hc' _. cbn [m_graph m4]. rewrite Hp4, Hpo1; [done|congruence].
    - cbn [fst snd]. by rewrite Rp.
    - cbn [m_graph m4]. rewrite Hl4, !decide_False by done. by eapply Hfresh.
    - apply (rlink_transport_eq w m m4 (fun s s' => is_multi m s = false /\ is_Some (pmeta g s) /\ s' = if decide (s = p) then o0 else s)); try done.
      + intros x k s Vx Hs. pose proof Vx as (nx & dx & Mx & Cx). destruct (raws_some w Hw m I x k s nx dx Mx Cx Hs) as (Fs & [c1 Ms] & _).
        destruct (decide (x = p)) as [->|Hx].
        * rewrite raws_single in Hs by done. apply list_lookup_singleton_Some in Hs as [-> <-]. exists o0. rewrite Rp, decide_True by done.
          split; [done|]. split; [done|]. split; [eauto|done].
        * exists s. rewrite Rx by done. split; [done|]. split; [done|]. split; [eauto|]. rewrite decide_False; [done|]. intros ->.
          destruct (raws_inj w Hw m I x k p 0 p Vx Vp Hs) as [? _]; [by rewrite raws_single|done].
      + intros x k s' t' Vx Hs El. pose proof Vx as (nx & dx & Mx & Cx). cbn [m_graph m4] in El. destruct (decide (x = p)) as [->|Hx].
        * rewrite Rp in Hs. destruct k as [|[|k]]; cbn in Hs; [| |done].
          -- injection Hs as <-. exists p. rewrite raws_single by done. split; [done|]. rewrite decide_True by done. split; [done|]. split; [eauto|done].
          -- injection Hs as <-. rewrite Hl4, !decide_False in El by done. destruct (Hfresh o1 _ Mo1) as (_ & ? & _). congruence.
        * rewrite Rx in Hs by done. destruct (raws_some w Hw m I x k s' nx dx Mx Cx Hs) as (Fs & [c1 Ms] & _).
          exists s'. split; [done|]. split; [done|]. split; [eauto|]. rewrite decide_False; [done|]. intros ->.
          destruct (raws_inj w Hw m I x k p 0 p Vx Vp Hs) as [? _]; [by rewrite raws_single|done].
      + intros s s' t t' (Fs & [[cs ds] Ms] & ->) (Ft & [[ct dt] Mt] & ->). cbn [m_graph m4].
        destruct (Hold _ _ _ Ms) as (Hs1 & Hs2 & Hs3 & _). destruct (Hold _ _ _ Mt) as (Ht1 & Ht2 & Ht3 & _). rewrite Hl4.
        destruct (decide (s = p)) as [->|Hsp].
        * rewrite decide_True by done. destruct (decide (t = p)) as [->|]; [naive_solver congruence|]. naive_solver congruence.
        * rewrite (decide_False (P := s = o0)) by done. destruct (decide (s = l)) as [->|].
          -- rewrite Ll. destruct (decide (t = p)) as [->|]; naive_solver congruence.
          -- rewrite (decide_False (P := s = p)), (decide_False (P := s = cp)) by done. destruct (decide (t = p)) as [->|]; [|done].
             split; intros H.
             ++ apply (r_lk_sym w g R) in H. congruence.
             ++ apply (r_lk_meta w g R) in H as (? & ? & ? & _ & H). destruct (Hfresh o0 _ Mo0) as (? & _). congruence.
    - intros k a Ha La. rewrite raws_single in Ha by done. apply list_lookup_singleton_Some in Ha as [_ <-]. congruence.
  Qed.
End gf.
