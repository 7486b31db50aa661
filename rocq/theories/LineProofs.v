(** Proofs about line intervals. *)
From Verif Require Export LineSpec LccQuery.
From Verif Require Import PGInsert.

(** ** Merging sorted lists *)
Section merge.
  Context (c : lcc).
  Notation before := (node_before c).
  Notation nless := (node_less c).
  Lemma nless_iff a b : nless a b = true <-> before a b.
  Proof. unfold node_less, node_before. rewrite orb_true_iff, andb_true_iff, !bool_decide_eq_true. done. Qed.
  Lemma before_tri a b : before a b \/ a = b \/ before b a.
  Proof. unfold node_before. destruct (lt_eq_lt_dec a b) as [[?|?]|?]; lia. Qed.
  Lemma before_trans a b d : before a b -> before b d -> before a d.
  Proof. unfold node_before. lia. Qed.
  Lemma before_irr a : ~ before a a.
  Proof. unfold node_before. lia. Qed.
  Definition upto a b := ~ before b a.
  Lemma upto_iff a b : upto a b <-> before a b \/ a = b.
  Proof.
    unfold upto. destruct (before_tri a b) as [H|[->|H]]; [| |].
    - split; [by left|]. intros _ H'. by apply (before_irr a), (before_trans _ b).
    - split; [by right|]. intros _. apply before_irr.
    - split; [done|]. intros [H'| ->]; [|by apply before_irr in H]. intros _. by apply (before_irr a), (before_trans _ b).
  Qed.

  Lemma kpick_none ls : kpick nless ls = None -> concat ls = [].
  Proof.
    induction ls as [|[|x t] ls IH]; cbn [kpick concat]; [done|done|].
    destruct (kpick nless ls) as [[y rest]|]; [destruct (nless y x); done|done].
  Qed.
  Lemma kpick_some ls : (forall l, l ∈ ls -> StronglySorted before l) -> forall x ls', kpick nless ls = Some (x, ls') ->
    concat ls ≡ₚ x :: concat ls' /\ (forall l, l ∈ ls' -> StronglySorted before l) /\ forall y, y ∈ concat ls -> upto x y.
  Proof.
    induction ls as [|[|z t] ls IH]; intros Hs x ls'; cbn [kpick]; [done| |].
    - cbn [concat app]. apply IH. intros l Hl. apply Hs. by right.
    - assert (Hz : StronglySorted before (z :: t)) by (apply Hs; by left). apply StronglySorted_inv in Hz as [Ht Hz].
      assert (Hs' : forall l, l ∈ ls -> StronglySorted before l) by (intros l Hl; apply Hs; by right).
      assert (Hzt : forall y, y ∈ z :: t -> upto z y).
      { intros y [->|Hy]%elem_of_cons; apply upto_iff; [by right|left]. rewrite Forall_forall in Hz. by apply Hz. }
      destruct (kpick nless ls) as [[y rest]|] eqn:Ek.
      + destruct (IH Hs' y rest eq_refl) as (P & Hr & Hm). destruct (nless y z) eqn:El.
        * intros [= <- <-]. apply nless_iff in El. split; [|split].
          -- cbn [concat]. rewrite P. by rewrite <- Permutation_middle.
          -- intros l [->|Hl]%elem_of_cons; [constructor; done|by apply Hr].
          -- intros a. cbn [concat]. intros [Ha|Ha]%elem_of_app; [|by apply Hm]. apply Hzt, upto_iff in Ha. apply upto_iff. left.
             destruct Ha as [Ha| <-]; [by eapply before_trans|done].
        * intros [= <- <-]. split; [done|]. split.
          -- intros l [->|Hl]%elem_of_cons; [done|by apply Hs'].
          -- intros a. cbn [concat]. intros [Ha|Ha]%elem_of_app; [by apply Hzt|]. apply Hm, upto_iff in Ha.
             assert (Hyz : upto z y) by (intros Hb; apply nless_iff in Hb; congruence). apply upto_iff in Hyz. apply upto_iff.
             destruct Hyz as [Hyz| ->]; [|done]. destruct Ha as [Ha| <-]; [left; by eapply before_trans|by left].
      + intros [= <- <-]. apply kpick_none in Ek. split; [cbn [concat]; by rewrite Ek|]. split.
        * intros l ->%elem_of_list_singleton. done.
        * intros a. cbn [concat]. rewrite Ek, app_nil_r. apply Hzt.
  Qed.
  Lemma kmerge_n_ok n : forall ls, (forall l, l ∈ ls -> StronglySorted before l) -> length (concat ls) <= n ->
    kmerge_n nless n ls ≡ₚ concat ls /\ StronglySorted upto (kmerge_n nless n ls).
  Proof.
    induction n as [|n IH]; intros ls Hs Hn; cbn [kmerge_n].
    - destruct (concat ls); [split; [done|constructor]|cbn in Hn; lia].
    - destruct (kpick nless ls) as [[x ls']|] eqn:Ek.
      + destruct (kpick_some ls Hs _ _ Ek) as (P & Hs' & Hm). pose proof (Permutation_length P) as Hl. cbn in Hl.
        destruct (IH ls' Hs') as [P' S']; [lia|]. split; [by rewrite P'|]. constructor; [done|]. apply Forall_forall. intros y Hy.
        apply Hm. rewrite P, <- P'. by right.
      + apply kpick_none in Ek. rewrite Ek. split; [done|constructor].
  Qed.
  Lemma dedup_ok l : StronglySorted upto l -> StronglySorted before (dedup l) /\ forall x, x ∈ dedup l <-> x ∈ l.
  Proof.
    induction l as [|x l IH]; intros Hs; [split; [constructor|done]|]. apply StronglySorted_inv in Hs as [Hs Hx]. destruct (IH Hs) as [Hd He].
    destruct l as [|y l']; [split; [constructor; [constructor|constructor]|done]|].
    change (dedup (x :: y :: l')) with (if decide (x = y) then dedup (y :: l') else x :: dedup (y :: l')).
    destruct (decide (x = y)) as [->|Hne].
    - split; [done|]. intros z. rewrite He. rewrite !elem_of_cons. naive_solver.
    - split.
      + constructor; [done|]. apply Forall_forall. intros z Hz%He.
        assert (Hxy : before x y). { rewrite Forall_forall in Hx. destruct (proj1 (upto_iff x y) (Hx y ltac:(by left))); [done|by subst]. }
        apply elem_of_cons in Hz as [->|Hz]; [done|]. apply StronglySorted_inv in Hs as [_ Hy]. rewrite Forall_forall in Hy.
        destruct (proj1 (upto_iff y z) (Hy z Hz)) as [?| <-]; [by eapply before_trans|done].
      + intros z. rewrite elem_of_cons, He, (elem_of_cons (y :: l')). done.
  Qed.
End merge.

Lemma hmapM_ok {A B} (f : A -> hres B) (h : A -> B) l : (forall a, a ∈ l -> f a = HOk (h a)) -> hmapM f l = HOk (map h l).
Proof.
  induction l as [|a l IH]; intros H; [done|]. cbn [hmapM map]. rewrite H by by left. cbn [mbind hres_bind].
  rewrite IH by (intros; apply H; by right). done.
Qed.

Section lines.
  Context (Nd : nat -> Prop) (R : nat -> nat -> Prop).
  Context (rnd : nat -> nat -> nat -> nat -> nat -> nat).
  Context (Hrnd : forall low high lp hp pos, low < high -> lp < pos < hp -> low <= rnd low high lp hp pos <= high).
  Context (c : lcc) (G : qgood Nd R c).
  Notation ps := (get_position c).
  Notation ln := (get_lines c).
  Notation line k := (line (lc_lines c) k).

  Lemma node_line k x : Nd x -> k ∈ ln x -> exists t, line k !! t = Some x.
  Proof. intros Hx Hk. apply elem_of_list_lookup, (qg_mem _ _ _ G). done. Qed.

  (** A bound for the length of all lines. *)
  Definition lbd : nat := S (sum_list (map length (lc_lines c))).
  Lemma lbd_ok k fuel : lbd <= fuel -> length (line k) < fuel.
  Proof.
    unfold lbd. intros Hf. pose proof (line_bound c k). lia.
  Qed.

  Lemma from_ok k i x fuel : line k !! i = Some x -> lbd <= fuel -> line_nodes_from rnd c fuel (ps x) k = HOk (drop i (line k)).
  Proof.
    intros Hi Hf. unfold line_nodes_from. rewrite (find_ok _ _ rnd Hrnd c G k i x fuel Hi) by (by apply lbd_ok). cbn [lift unwrap mbind hres_bind].
    rewrite (line_get c k x) by (by eapply elem_of_list_lookup_2). done.
  Qed.
  Lemma pos_ok k i x fuel : line k !! i = Some x -> lbd <= fuel ->
    exists l, line_positions_from rnd c fuel (ps x) k = HOk l /\ l !! 1 = ps <$> line k !! S i.
  Proof.
    intros Hi Hf. unfold line_positions_from. rewrite (from_ok k i x fuel Hi Hf). cbn [mbind hres_bind]. eexists. split; [done|].
    rewrite list_lookup_fmap, lookup_drop. by replace (i + 1) with (S i) by lia.
  Qed.
  Lemma drop_sorted k i : StronglySorted (fun a b => ps a < ps b) (drop i (line k)).
  Proof.
    assert (H : forall l j, drop j (line k) = l -> StronglySorted (fun a b => ps a < ps b) l); [|by eapply H].
    induction l as [|x l IH]; intros j Ej; [constructor|].
    assert (Hx : line k !! j = Some x) by (rewrite <- (Nat.add_0_r j), <- lookup_drop, Ej; done).
    constructor.
    - apply (IH (S j)). replace (S j) with (j + 1) by lia. rewrite <- drop_drop, Ej. done.
    - apply Forall_forall. intros y [t Ht]%elem_of_list_lookup. assert (Hy : line k !! (j + S t) = Some y) by (rewrite <- lookup_drop, Ej; done).
      eapply (line_inc _ _ rnd Hrnd c G k j (j + S t)); [lia|done|done].
  Qed.
  Lemma upto_filter mx l : StronglySorted (fun a b => ps a < ps b) l -> take_upto c mx l = filter (fun n => ps n <= mx) l.
  Proof.
    induction 1 as [|x l Hs IH Hx]; [done|]. cbn [take_upto]. destruct (decide (ps x <= mx)) as [Hle|Hle].
    - rewrite filter_cons_True by done. by rewrite IH.
    - rewrite filter_cons_False by done. symmetry. apply list_filter_none || idtac.
      destruct (filter (fun n => ps n <= mx) l) as [|y r] eqn:E; [done|]. exfalso.
      assert (y ∈ filter (fun n => ps n <= mx) l) as [H1 H2]%elem_of_list_filter by (rewrite E; by left).
      rewrite Forall_forall in Hx. specialize (Hx y H2). lia.
  Qed.
  Lemma sorted_before l : StronglySorted (fun a b => ps a < ps b) l -> StronglySorted (node_before c) l.
  Proof. induction 1 as [|x l Hs IH Hx]; [constructor|]. constructor; [done|]. eapply Forall_impl; [exact Hx|]. intros y Hy. by left. Qed.
  Lemma sorted_filter {A} (Q : A -> A -> Prop) (P : A -> Prop) `{!forall x, Decision (P x)} l : StronglySorted Q l -> StronglySorted Q (filter P l).
  Proof.
    induction 1 as [|x l Hs IH Hx]; [constructor|]. destruct (decide (P x)).
    - rewrite filter_cons_True by done. constructor; [done|]. rewrite Forall_forall in *. intros y [_ Hy]%elem_of_list_filter. by apply Hx.
    - by rewrite filter_cons_False by done.
  Qed.

  (** ** The nodes in intervals *)
  Section nodes.
    Context (S : list nat) (HS : forall x, x ∈ S -> Nd x) (Hc : contiguous_in Nd c S) (ivs : intervals) (Hivs : intervals_of c S ivs).
    Lemma between_ok fuel e : lbd <= fuel -> e ∈ ivs ->
      exists l, line_nodes_between rnd c fuel e = HOk l /\ StronglySorted (node_before c) l /\ forall x, x ∈ l <-> x ∈ S /\ e.1 ∈ ln x.
    Proof.
      intros Hf He. destruct e as [k [mn mx]]. destruct Hivs as (_ & _ & H). destruct (H k mn mx He) as [(a & b & Ha & Hb & Hka & Hkb & <- & <-) Hall].
      destruct (node_line k a (HS a Ha) Hka) as [i Hi]. unfold line_nodes_between. cbn [fst snd]. rewrite (from_ok k i a fuel Hi Hf). cbn [mbind hres_bind].
      rewrite upto_filter by apply drop_sorted. eexists. split; [done|]. split; [apply sorted_before, sorted_filter, drop_sorted|].
      intros x. rewrite elem_of_list_filter. split.
      - intros [Hle [t Ht]%elem_of_list_lookup]. rewrite lookup_drop in Ht. assert (Hx : x ∈ line k) by (by eapply elem_of_list_lookup_2).
        apply (qg_mem _ _ _ G) in Hx as [Hcx Hkx]. split; [|done]. apply (Hc k a x b); try done. split; [|done].
        destruct t as [|t]; [rewrite Nat.add_0_r in Ht; rewrite Hi in Ht; by injection Ht as ->|].
        assert (ps a < ps x); [|lia]. eapply (line_inc _ _ rnd Hrnd c G k i (i + Datatypes.S t)); [lia|done|done].
      - intros [Hx Hk]. destruct (Hall x Hx Hk) as [H1 H2]. split; [done|]. destruct (node_line k x (HS x Hx) Hk) as [t Ht].
        assert (i <= t). { destruct (decide (i <= t)); [done|]. assert (ps x < ps a); [|lia]. eapply (line_inc _ _ rnd Hrnd c G k t i); [lia|done|done]. }
        apply elem_of_list_lookup. exists (t - i). rewrite lookup_drop. by replace (i + (t - i)) with t by lia.
    Qed.
    Lemma nodes_in_ok fuel : lbd <= fuel ->
      exists l, nodes_in_intervals rnd c fuel ivs = HOk l /\ StronglySorted (node_before c) l /\ forall x, x ∈ l <-> x ∈ S.
    Proof.
      intros Hf. unfold nodes_in_intervals.
      set (h := fun e => match line_nodes_between rnd c fuel e with HOk l => l | _ => [] end).
      rewrite (hmapM_ok _ h).
      2:{ intros e He. unfold h. destruct (between_ok fuel e Hf He) as (l & -> & _). done. }
      cbn [mbind hres_bind]. destruct (kmerge_n_ok c (length (concat (map h ivs))) (map h ivs)) as [P Hs]; [|lia|].
      { intros l (e & -> & He)%elem_of_list_fmap. unfold h. destruct (between_ok fuel e Hf He) as (l & -> & ? & _). done. }
      destruct (dedup_ok c _ Hs) as [Hd He]. eexists. split; [done|]. split; [exact Hd|]. intros x. etransitivity; [apply He|]. rewrite P.
      rewrite elem_of_list_In, in_concat. split.
      - intros (l & (e & <- & Hin)%in_map_iff & Hx). apply elem_of_list_In in Hin, Hx. unfold h in Hx. destruct (between_ok fuel e Hf Hin) as (l & E & _ & Hl).
        rewrite E in Hx. by apply Hl in Hx as [? _].
      - intros Hx. destruct (qg_nd _ _ _ G x (HS x Hx)) as [_ Hne]. destruct (ln x) as [|k ks] eqn:Ek; [done|].
        assert (Hk : k ∈ ln x) by (rewrite Ek; by left). destruct Hivs as (_ & Hkeys & _).
        assert (Hin : k ∈ ivs.*1) by (apply Hkeys; by exists x). apply elem_of_list_fmap in Hin as (e & -> & Hin).
        exists (h e). split; [apply in_map_iff; exists e; split; [done|by apply elem_of_list_In]|]. apply elem_of_list_In. unfold h.
        destruct (between_ok fuel e Hf Hin) as (l & E & _ & Hl). rewrite E. by apply Hl.
    Qed.
  End nodes.

  (** ** Extending intervals *)
  Definition at_line (S : list nat) (k mn mx : nat) : Prop :=
    (exists a b, a ∈ S /\ b ∈ S /\ k ∈ ln a /\ k ∈ ln b /\ ps a = mn /\ ps b = mx) /\
    forall x, x ∈ S -> k ∈ ln x -> mn <= ps x <= mx.
  Definition ctg (S : list nat) (k : nat) : Prop :=
    forall a x b, a ∈ S -> b ∈ S -> Nd x -> k ∈ ln a -> k ∈ ln b -> k ∈ ln x -> ps a <= ps x <= ps b -> x ∈ S.

  Lemma iv_get_iff (ivs : intervals) k iv : NoDup ivs.*1 -> iv_get ivs k = Some iv <-> (k, iv) ∈ ivs.
  Proof. intros H. by apply iv_get_ok. Qed.
  Lemma iv_get_none (ivs : intervals) k : iv_get ivs k = None <-> k ∉ ivs.*1.
  Proof.
    unfold iv_get. induction ivs as [|[l i] ivs IH]; [split; [intros _ ?%elem_of_nil; done|done]|].
    rewrite fmap_cons, not_elem_of_cons. cbn [fst]. destruct (decide (l = k)) as [->|Hne].
    - cbn [filter list_filter fst]. rewrite decide_True by done. cbn. split; [done|]. intros [? _]. done.
    - cbn [filter list_filter fst]. rewrite decide_False by done. cbn [filter] in IH. rewrite IH. split; [intros H; split; [congruence|done]|tauto].
  Qed.
  Lemma iv_set_keys (ivs : intervals) k iv : (iv_set ivs k iv).*1 = ivs.*1.
  Proof. induction ivs as [|[l i] ivs IH]; [done|]. cbn [iv_set]. destruct (decide (l = k)); rewrite !fmap_cons; cbn [fst]; [done|by rewrite IH]. Qed.
  Lemma iv_set_elem (ivs : intervals) k iv l i : NoDup ivs.*1 -> (l, i) ∈ iv_set ivs k iv -> (l = k /\ i = iv) \/ (l <> k /\ (l, i) ∈ ivs).
  Proof.
    induction ivs as [|[l0 i0] ivs IH]; [intros _ ?%elem_of_nil; done|]. rewrite fmap_cons. cbn [fst]. intros [H1 H2]%NoDup_cons. cbn [iv_set].
    destruct (decide (l0 = k)) as [->|Hne].
    - intros [[= -> ->]|Hin]%elem_of_cons; [by left|]. right. split; [|by right]. intros ->. apply H1. apply elem_of_list_fmap. by exists (k, i).
    - intros [[= -> ->]|Hin]%elem_of_cons; [right; split; [done|by left]|]. destruct (IH H2 Hin) as [?|[? ?]]; [by left|]. right. split; [done|by right].
  Qed.

  Section extend.
    Context (S : list nat) (HS : forall x, x ∈ S -> Nd x) (Hc : contiguous_in Nd c S) (n : nat) (Hn : Nd n).
    Notation T := (n :: S).
    Lemma T_nodes x : x ∈ T -> Nd x.
    Proof. intros [->|Hx]%elem_of_cons; [done|by apply HS]. Qed.
    Lemma same_at k x y : k ∈ ln x -> k ∈ ln y -> Nd x -> Nd y -> ps x = ps y -> x = y.
    Proof.
      intros Kx Ky Cx Cy E. destruct (node_line k x Cx Kx) as [i Hi]. destruct (node_line k y Cy Ky) as [j Hj].
      rewrite (line_inj _ _ rnd Hrnd c G k i j x y Hi Hj E) in Hi. congruence.
    Qed.

    Lemma ext_new k : k ∈ ln n -> (forall x, x ∈ S -> k ∉ ln x) -> at_line T k (ps n) (ps n) /\ ctg T k.
    Proof.
      intros Hk Hno. split.
      - split; [exists n, n; repeat split; try done; by left|]. intros x [->|Hx]%elem_of_cons Hkx; [lia|]. by destruct (Hno x Hx).
      - intros a x b [->|Ha]%elem_of_cons [->|Hb]%elem_of_cons Hx Ka Kb Kx Hle; try (by destruct (Hno _ ltac:(eassumption))).
        assert (x = n) as ->; [|by left]. apply (same_at k); try done. lia.
    Qed.
    Lemma ext_inside k mn mx : k ∈ ln n -> at_line S k mn mx -> mn <= ps n <= mx -> at_line T k mn mx /\ ctg T k.
    Proof.
      intros Hk [(a & b & Ha & Hb & Ka & Kb & <- & <-) Hall] Hin. assert (Hns : n ∈ S) by (by apply (Hc k a n b)).
      assert (HT : forall x, x ∈ T -> x ∈ S) by (intros x [->|Hx]%elem_of_cons; done). split.
      - split; [exists a, b; repeat split; try done; by right|]. intros x Hx%HT. by apply Hall.
      - intros a' x b' Ha'%HT Hb'%HT Hx Ka' Kb' Kx Hle. right. by apply (Hc k a' x b').
    Qed.
    Lemma ext_low k mn mx fuel : lbd <= fuel -> k ∈ ln n -> at_line S k mn mx -> ps n < mn ->
      exists l, line_positions_from rnd c fuel (ps n) k = HOk l /\
        (l !! 1 = Some mn -> at_line T k (ps n) mx /\ ctg T k) /\ (l !! 1 <> Some mn -> ~ ctg T k).
    Proof.
      intros Hf Hk [(a & b & Ha & Hb & Ka & Kb & <- & <-) Hall] Hlt. destruct (node_line k n Hn Hk) as [i Hi].
      destruct (pos_ok k i n fuel Hi Hf) as (l & El & Hl1). exists l. split; [done|]. rewrite Hl1.
      destruct (node_line k a (HS a Ha) Ka) as [ja Hja].
      assert (Hija : i < ja) by (by apply (line_lt _ _ rnd Hrnd c G k i ja n a)).
      assert (Hns : n ∉ S). { intros Hns. specialize (Hall n Hns Hk). lia. }
      destruct (lookup_lt_is_Some_2 (line k) (Datatypes.S i)) as [y Hy]; [apply lookup_lt_Some in Hja; lia|]. rewrite Hy. cbn [fmap option_fmap option_map].
      assert (Hcy : Nd y /\ k ∈ ln y) by (apply (qg_mem _ _ _ G); by eapply elem_of_list_lookup_2). destruct Hcy as [Cy Ky].
      assert (Hny : ps n < ps y) by (apply (line_lt _ _ rnd Hrnd c G k i (Datatypes.S i) n y); [done|done|lia]).
      split.
      - intros [= Ey]. split.
        + split; [exists n, b; repeat split; try done; [by left|by right]|]. intros x [->|Hx]%elem_of_cons Kx; [specialize (Hall a Ha Ka); lia|].
          specialize (Hall x Hx Kx). lia.
        + intros a' x b' Ha' Hb' Cx Ka' Kb' Kx Hle. destruct (decide (x = n)) as [->|Hne]; [by left|]. right.
          destruct (node_line k x Cx Kx) as [t Ht].
          assert (Hnx : ps n <= ps x).
          { apply elem_of_cons in Ha' as [->|Ha']; [lia|]. specialize (Hall a' Ha' Ka'). lia. }
          assert (Hnx' : ps n <> ps x) by (intros E; apply Hne; symmetry; by apply (same_at k)).
          assert (Hit : i < t) by (apply (line_lt _ _ rnd Hrnd c G k i t n x); [done|done|lia]).
          assert (Hax : ps a <= ps x).
          { rewrite <- Ey. destruct (decide (t = Datatypes.S i)) as [->|]; [rewrite Hy in Ht; injection Ht as ->; lia|].
            pose proof (line_inc _ _ rnd Hrnd c G k (Datatypes.S i) t y x ltac:(lia) Hy Ht). lia. }
          apply elem_of_cons in Hb' as [->|Hb']; [lia|]. apply (Hc k a x b'); try done. lia.
      - intros Hne Hctg.
        assert (Hya : ps y < ps a).
        { destruct (decide (Datatypes.S i = ja)) as [E|]; [rewrite <- E, Hy in Hja; injection Hja as ->; by destruct Hne|]. apply (line_lt _ _ rnd Hrnd c G k (Datatypes.S i) ja y a); [done|done|lia]. }
        assert (HyT : y ∈ T) by (apply (Hctg n y a); try done; [by left|by right|lia]).
        apply elem_of_cons in HyT as [->|Hys]; [lia|]. specialize (Hall y Hys Ky). lia.
    Qed.
    Lemma ext_high k mn mx fuel : lbd <= fuel -> k ∈ ln n -> at_line S k mn mx -> mx < ps n ->
      exists l, line_positions_from rnd c fuel mx k = HOk l /\
        (l !! 1 = Some (ps n) -> at_line T k mn (ps n) /\ ctg T k) /\ (l !! 1 <> Some (ps n) -> ~ ctg T k).
    Proof.
      intros Hf Hk [(a & b & Ha & Hb & Ka & Kb & <- & <-) Hall] Hlt. destruct (node_line k n Hn Hk) as [i Hi].
      destruct (node_line k b (HS b Hb) Kb) as [jb Hjb].
      destruct (pos_ok k jb b fuel Hjb Hf) as (l & El & Hl1). exists l. split; [done|]. rewrite Hl1.
      assert (Hib : jb < i) by (by apply (line_lt _ _ rnd Hrnd c G k jb i b n)).
      assert (Hns : n ∉ S). { intros Hns. specialize (Hall n Hns Hk). lia. }
      destruct (lookup_lt_is_Some_2 (line k) (Datatypes.S jb)) as [y Hy]; [apply lookup_lt_Some in Hi; lia|]. rewrite Hy. cbn [fmap option_fmap option_map].
      assert (Hcy : Nd y /\ k ∈ ln y) by (apply (qg_mem _ _ _ G); by eapply elem_of_list_lookup_2). destruct Hcy as [Cy Ky].
      assert (Hny : ps b < ps y) by (apply (line_lt _ _ rnd Hrnd c G k jb (Datatypes.S jb) b y); [done|done|lia]).
      split.
      - intros [= Ey]. split.
        + split; [exists a, n; repeat split; try done; [by right|by left]|]. intros x [->|Hx]%elem_of_cons Kx; [specialize (Hall a Ha Ka); lia|].
          specialize (Hall x Hx Kx). lia.
        + intros a' x b' Ha' Hb' Cx Ka' Kb' Kx Hle. destruct (decide (x = n)) as [->|Hne]; [by left|]. right.
          destruct (node_line k x Cx Kx) as [t Ht].
          assert (Hnx : ps x <= ps n).
          { apply elem_of_cons in Hb' as [->|Hb']; [lia|]. specialize (Hall b' Hb' Kb'). lia. }
          assert (Hnx' : ps n <> ps x) by (intros E; apply Hne; symmetry; by apply (same_at k)).
          assert (Hbx : ps x <= ps b).
          { destruct (decide (t <= jb)) as [Htb|Htb].
            - destruct (decide (t = jb)) as [->|]; [rewrite Hjb in Ht; injection Ht as ->; lia|].
              pose proof (line_inc _ _ rnd Hrnd c G k t jb x b ltac:(lia) Ht Hjb). lia.
            - destruct (decide (t = Datatypes.S jb)) as [->|]; [rewrite Hy in Ht; injection Ht as ->; lia|].
              pose proof (line_inc _ _ rnd Hrnd c G k (Datatypes.S jb) t y x ltac:(lia) Hy Ht). lia. }
          apply elem_of_cons in Ha' as [->|Ha']; [lia|]. apply (Hc k a' x b); try done. lia.
      - intros Hne Hctg.
        assert (Hya : ps y < ps n).
        { destruct (decide (Datatypes.S jb = i)) as [E|]; [rewrite <- E, Hy in Hi; injection Hi as ->; by destruct Hne|]. apply (line_lt _ _ rnd Hrnd c G k (Datatypes.S jb) i y n); [done|done|lia]. }
        assert (HyT : y ∈ T) by (apply (Hctg b y n); try done; [by right|by left|lia]).
        apply elem_of_cons in HyT as [->|Hys]; [lia|]. specialize (Hall y Hys Ky). lia.
    Qed.

    (** The intervals after the lines [D] of [n]. *)
    Definition J (D : list nat) (ivs : intervals) : Prop :=
      NoDup ivs.*1 /\ (forall k, k ∈ ivs.*1 <-> k ∈ D \/ exists x, x ∈ S /\ k ∈ ln x) /\
      (forall k mn mx, (k, (mn, mx)) ∈ ivs -> if decide (k ∈ D) then at_line T k mn mx else at_line S k mn mx).
    Lemma extend_lines_ok fuel ks : lbd <= fuel -> forall D ivs, NoDup (D ++ ks) -> (forall k, k ∈ ks -> k ∈ ln n) -> J D ivs ->
      exists o, lcc_extend_lines rnd c fuel (ps n) ks ivs = HOk o /\
        match o with
        | Some ivs' => J (D ++ ks) ivs' /\ forall k, k ∈ ks -> ctg T k
        | None => exists k, k ∈ ks /\ ~ ctg T k
        end.
    Proof.
      intros Hf. induction ks as [|k ks IH]; intros D ivs Hnd Hks HJ; cbn [lcc_extend_lines].
      - eexists. split; [done|]. rewrite app_nil_r. split; [done|]. by intros k ?%elem_of_nil.
      - assert (Hk : k ∈ ln n) by (apply Hks; by left).
        assert (HkD : k ∉ D). { apply NoDup_app in Hnd as (_ & H & _). intros HD. apply (H k HD). by left. }
        assert (Hgo : forall ivs', J (D ++ [k]) ivs' -> ctg T k -> exists o, lcc_extend_lines rnd c fuel (ps n) ks ivs' = HOk o /\
          match o with Some ivs2 => J (D ++ k :: ks) ivs2 /\ (forall k0, k0 ∈ k :: ks -> ctg T k0) | None => exists k0, k0 ∈ k :: ks /\ ~ ctg T k0 end).
        { intros ivs' HJ' Hct. destruct (IH (D ++ [k]) ivs') as (o & Eo & Ho); [by rewrite <- app_assoc|intros; apply Hks; by right|done|].
          exists o. split; [done|]. destruct o as [ivs2|].
          - rewrite <- app_assoc in Ho. destruct Ho as [H1 H2]. split; [done|]. intros k0 [->|H0]%elem_of_cons; [done|by apply H2].
          - destruct Ho as (k0 & H0 & ?). exists k0. split; [by right|done]. }
        destruct HJ as (J1 & J2 & J3).
        assert (Hup : forall mn0 mx0 mn mx, (k, (mn0, mx0)) ∈ ivs -> at_line T k mn mx -> J (D ++ [k]) (iv_set ivs k (mn, mx))).
        { intros mn0 mx0 mn mx Hin Hat. split; [by rewrite iv_set_keys|]. split.
          - intros k0. rewrite iv_set_keys, J2, elem_of_app, elem_of_list_singleton. split; [tauto|]. intros [[?| ->]|?]; [by left| |by right].
            apply J2. apply elem_of_list_fmap. by exists (k, (mn0, mx0)).
          - intros k0 m1 m2 Hin0. apply iv_set_elem in Hin0 as [[-> [= -> ->]]|[Hne Hin0]]; [| |done].
            + rewrite decide_True by (rewrite elem_of_app, elem_of_list_singleton; by right). done.
            + specialize (J3 _ _ _ Hin0). destruct (decide (k0 ∈ D)) as [Hd|Hd].
              * by rewrite decide_True by (apply elem_of_app; by left).
              * rewrite decide_False; [done|]. rewrite elem_of_app, elem_of_list_singleton. tauto. }
        destruct (iv_get ivs k) as [[mn mx]|] eqn:Eg.
        + apply iv_get_iff in Eg; [|done]. pose proof (J3 _ _ _ Eg) as Hat. rewrite decide_False in Hat by done.
          destruct (decide (ps n < mn)) as [Hlo|Hlo].
          { destruct (ext_low k mn mx fuel Hf Hk Hat Hlo) as (l & El & H1 & H2). rewrite El. cbn [mbind hres_bind].
            destruct (decide (l !! 1 = Some mn)) as [E1|E1].
            - destruct (H1 E1) as [Ha Hct]. apply Hgo; [by eapply Hup|done].
            - exists None. split; [done|]. exists k. split; [by left|by apply H2]. }
          destruct (decide (mx < ps n)) as [Hhi|Hhi].
          { destruct (ext_high k mn mx fuel Hf Hk Hat Hhi) as (l & El & H1 & H2). rewrite El. cbn [mbind hres_bind].
            destruct (decide (l !! 1 = Some (ps n))) as [E1|E1].
            - destruct (H1 E1) as [Ha Hct]. apply Hgo; [by eapply Hup|done].
            - exists None. split; [done|]. exists k. split; [by left|by apply H2]. }
          destruct (ext_inside k mn mx Hk Hat ltac:(lia)) as [Ha Hct]. apply Hgo; [|done]. split; [done|]. split.
          * intros k0. rewrite J2, elem_of_app, elem_of_list_singleton. split; [tauto|]. intros [[?| ->]|?]; [by left| |by right].
            apply J2. apply elem_of_list_fmap. by exists (k, (mn, mx)).
          * intros k0 m1 m2 Hin0. destruct (decide (k0 = k)) as [->|Hne].
            -- rewrite decide_True by (rewrite elem_of_app, elem_of_list_singleton; by right).
               apply (iv_get_iff ivs k _ J1) in Hin0. apply (iv_get_iff ivs k _ J1) in Eg. rewrite Hin0 in Eg. by injection Eg as -> ->.
            -- specialize (J3 _ _ _ Hin0). destruct (decide (k0 ∈ D)) as [Hd|Hd].
               ++ by rewrite decide_True by (apply elem_of_app; by left).
               ++ rewrite decide_False; [done|]. rewrite elem_of_app, elem_of_list_singleton. tauto.
        + apply iv_get_none in Eg.
          destruct (ext_new k Hk) as [Ha Hct]. { intros x Hx Kx. apply Eg, J2. right. by exists x. }
          apply Hgo; [|done]. split; [|split].
          * rewrite fmap_app. apply NoDup_app. split; [done|]. split; [|apply NoDup_singleton]. intros k0 H0 ->%elem_of_list_singleton. done.
          * intros k0. rewrite fmap_app, elem_of_app, J2, elem_of_app. change ([(k, (ps n, ps n))].*1) with [k]. rewrite elem_of_list_singleton. tauto.
          * intros k0 m1 m2 [Hin0|[= -> -> ->]%elem_of_list_singleton]%elem_of_app.
            -- assert (k0 <> k). { intros ->. apply Eg, elem_of_list_fmap. by exists (k, (m1, m2)). }
               specialize (J3 _ _ _ Hin0). destruct (decide (k0 ∈ D)) as [Hd|Hd].
               ++ by rewrite decide_True by (apply elem_of_app; by left).
               ++ rewrite decide_False; [done|]. rewrite elem_of_app, elem_of_list_singleton. tauto.
            -- rewrite decide_True by (rewrite elem_of_app, elem_of_list_singleton; by right). done.
    Qed.

    Lemma try_extend_ok fuel ivs : lbd <= fuel -> intervals_of c S ivs ->
      exists b ivs', try_extend_intervals rnd c fuel ivs n = HOk (b, ivs') /\ (b = true <-> contiguous_in Nd c T) /\
        (b = true -> intervals_of c T ivs') /\ (b = false -> ivs' = ivs).
    Proof.
      intros Hf (H1 & H2 & H3). unfold try_extend_intervals. destruct (qg_nd _ _ _ G n Hn) as [Hlnd _].
      destruct (extend_lines_ok fuel (ln n) Hf [] ivs) as (o & Eo & Ho); [done|done| |].
      { split; [done|]. split; [intros k; rewrite H2, elem_of_nil; tauto|]. intros k mn mx Hin. rewrite decide_False by (by intros ?%elem_of_nil). by apply H3. }
      rewrite Eo. cbn [mbind hres_bind]. destruct o as [ivs'|]; eexists _, _; (split; [done|]).
      - destruct Ho as [(G1 & G2 & G3) Hct]. cbn [app] in *. split; [|split; [|done]].
        + split; [|done]. intros _ k a x b Ha Hb Cx Ka Kb Kx Hle. destruct (decide (k ∈ ln n)) as [Hk|Hk]; [by apply (Hct k Hk a x b)|].
          right. apply elem_of_cons in Ha as [->|Ha]; [done|]. apply elem_of_cons in Hb as [->|Hb]; [done|]. by apply (Hc k a x b).
        + intros _. split; [done|]. split.
          * intros k. rewrite G2. split.
            -- intros [Hk|(x & Hx & Kx)]; [exists n; split; [by left|done]|exists x; split; [by right|done]].
            -- intros (x & [->|Hx]%elem_of_cons & Kx); [by left|right; by exists x].
          * intros k mn mx Hin. specialize (G3 _ _ _ Hin). destruct (decide (k ∈ ln n)) as [Hk|Hk]; [exact G3|].
            destruct G3 as [(a & b & Ha & Hb & Rest) Hall]. split; [exists a, b; split; [by right|split; [by right|done]]|].
            intros x [->|Hx]%elem_of_cons Kx; [done|by apply Hall].
      - destruct Ho as (k & Hk & Hn'). split; [|split; [done|done]]. split; [done|]. intros Hct. exfalso. apply Hn'. intros a x b. apply Hct.
    Qed.
  End extend.

  (** ** The intervals of a set *)
  Lemma convex_ctg S : gconvex R S -> (forall x, x ∈ S -> Nd x) -> contiguous_in Nd c S.
  Proof.
    intros Hcv HS k a x b Ha Hb Cx Ka Kb Kx [H1 H2].
    destruct (node_line k a (HS a Ha) Ka) as [i Hi]. destruct (node_line k x Cx Kx) as [t Ht]. destruct (node_line k b (HS b Hb) Kb) as [j Hj].
    destruct (decide (ps a = ps x)) as [E|E]; [rewrite (line_inj _ _ rnd Hrnd c G k i t a x Hi Ht E) in Hi; congruence|].
    destruct (decide (ps x = ps b)) as [E'|E']; [rewrite (line_inj _ _ rnd Hrnd c G k t j x b Ht Hj E') in Ht; congruence|].
    apply (Hcv a x b); [done|done| |].
    - eapply (line_tc _ _ rnd Hrnd c G k i t); [|done|done]. apply (line_lt _ _ rnd Hrnd c G k i t a x); [done|done|lia].
    - eapply (line_tc _ _ rnd Hrnd c G k t j); [|done|done]. apply (line_lt _ _ rnd Hrnd c G k t j x b); [done|done|lia].
  Qed.
  Lemma gap_ctg S : NoDup S -> (forall x, x ∈ S -> Nd x) -> gap c S -> ~ contiguous_in Nd c S.
  Proof.
    intros Hnd HS (k & i & t & j & x & z & y & [H1 H2] & Hi & Ht & Hj & Hx & Hz & Hy) Hct. apply Hz.
    pose proof (line_inc _ _ rnd Hrnd c G k i t x z H1 Hi Ht). pose proof (line_inc _ _ rnd Hrnd c G k t j z y H2 Ht Hj).
    assert (Hl : forall a e, line k !! a = Some e -> Nd e /\ k ∈ ln e) by (intros a e He; apply (qg_mem _ _ _ G); by eapply elem_of_list_lookup_2).
    apply (Hct k x z y); try done; [by eapply Hl|by eapply Hl|by eapply Hl|by eapply Hl|lia].
  Qed.
  Lemma get_intervals_ok fuel S : NoDup S -> (forall x, x ∈ S -> Nd x) -> lbd <= fuel ->
    exists r, lcc_get_intervals rnd c fuel S = HOk r /\
      match r with Some ivs => contiguous_in Nd c S /\ intervals_of c S ivs | None => ~ contiguous_in Nd c S end.
  Proof.
    intros Hnd HS Hf. unfold lcc_get_intervals.
    destruct (intervals_ok _ _ rnd Hrnd c G S Hnd HS fuel (fun k => lbd_ok k fuel Hf) (lcc_line_to_pos c S)) as (r & E & Hr); [done|].
    exists r. split; [done|]. destruct r as [ivs|]; [|by apply gap_ctg]. destruct Hr as [Ei Hiv]. pose proof (table_ok c S) as M.
    assert (Ek : ivs.*1 = map fst (lcc_line_to_pos c S)) by (rewrite Ei; change (map (fun e : nat * (interval * nat) => (e.1, e.2.1))) with (fmap (M := list) (fun e : nat * (interval * nat) => (e.1, e.2.1))); by rewrite <- list_fmap_compose).
    assert (Hkey : forall k, k ∈ ivs.*1 <-> exists x, x ∈ S /\ k ∈ ln x).
    { intros k. rewrite Ek. split.
      - rewrite elem_of_list_In, in_map_iff. intros ([k' [[mn mx] ct]] & <- & Hin%elem_of_list_In). cbn [fst].
        destruct (mp_ent _ _ M _ _ _ _ Hin) as (_ & Hp & _). apply pairs_elem in Hp as (x & Hx & Hk & _). by exists x.
      - intros (x & Hx & Hk). apply (mp_key _ _ M k (ps x)). apply pairs_elem. by exists x. }
    split.
    - intros k a x b Ha Hb Cx Ka Kb Kx [H1 H2].
      assert (Hk : k ∈ ivs.*1) by (apply Hkey; by exists a). apply elem_of_list_fmap in Hk as ([k' iv] & -> & Hin). cbn [fst] in *.
      destruct (Hiv _ _ Hin) as (i & j & x0 & y0 & Hi & Hx0 & _ & Hj & Hy0 & _ & Hij & Hall).
      destruct (node_line k' a (HS a Ha) Ka) as [ta Hta]. destruct (node_line k' x Cx Kx) as [t Ht]. destruct (node_line k' b (HS b Hb) Kb) as [tb Htb].
      apply (Hall t x Ht). apply (Hall ta a Hta) in Ha. apply (Hall tb b Htb) in Hb.
      assert (ta <= t). { destruct (decide (ta <= t)); [done|]. pose proof (line_inc _ _ rnd Hrnd c G k' t ta x a ltac:(lia) Ht Hta). lia. }
      assert (t <= tb). { destruct (decide (t <= tb)); [done|]. pose proof (line_inc _ _ rnd Hrnd c G k' tb t b x ltac:(lia) Htb Ht). lia. }
      lia.
    - split; [rewrite Ek; apply M|]. split; [done|]. intros k mn mx Hin.
      destruct (Hiv _ _ Hin) as (i & j & x0 & y0 & Hi & Hx0 & Ex & Hj & Hy0 & Ey & Hij & Hall). cbn [fst snd] in *.
      assert (Hl : forall a e, line k !! a = Some e -> k ∈ ln e) by (intros a e He; apply (qg_mem _ _ _ G k e); by eapply elem_of_list_lookup_2).
      split; [exists x0, y0; repeat split; try done; by eapply Hl|].
      intros x Hx Kx. destruct (node_line k x (HS x Hx) Kx) as [t Ht]. apply (Hall t x Ht) in Hx. split.
      + rewrite <- Ex. destruct (decide (i = t)) as [->|]; [rewrite Hi in Ht; injection Ht as ->; lia|]. pose proof (line_inc _ _ rnd Hrnd c G k i t x0 x ltac:(lia) Hi Ht). lia.
      + rewrite <- Ey. destruct (decide (t = j)) as [->|]; [rewrite Hj in Ht; injection Ht as ->; lia|]. pose proof (line_inc _ _ rnd Hrnd c G k t j x y0 ltac:(lia) Ht Hj). lia.
  Qed.
  (** ** Convexity from intervals *)
  Lemma iv_IV S ivs k iv : (forall x, x ∈ S -> Nd x) -> contiguous_in Nd c S -> intervals_of c S ivs -> (k, iv) ∈ ivs -> IV c S k iv.
  Proof.
    intros HS Hc (_ & _ & H) Hin. destruct iv as [mn mx]. destruct (H k mn mx Hin) as [(a & b & Ha & Hb & Ka & Kb & <- & <-) Hall].
    destruct (node_line k a (HS a Ha) Ka) as [i Hi]. destruct (node_line k b (HS b Hb) Kb) as [j Hj].
    assert (Hle : forall s t x y, line k !! s = Some x -> line k !! t = Some y -> ps x <= ps y -> s <= t).
    { intros s t x y Hs Ht Hp. destruct (decide (s <= t)); [done|]. pose proof (line_inc _ _ rnd Hrnd c G k t s y x ltac:(lia) Ht Hs). lia. }
    assert (Hge : forall s t x y, line k !! s = Some x -> line k !! t = Some y -> s <= t -> ps x <= ps y).
    { intros s t x y Hs Ht Hp. destruct (decide (s = t)) as [->|]; [rewrite Hs in Ht; injection Ht as ->; lia|]. pose proof (line_inc _ _ rnd Hrnd c G k s t x y ltac:(lia) Hs Ht). lia. }
    exists i, j, a, b. cbn [fst snd]. split_and!; try done.
    - eapply Hle; [done|done|]. by apply (Hall b).
    - intros t z Hz. assert (Hzl : z ∈ line k) by (by eapply elem_of_list_lookup_2). apply (qg_mem _ _ _ G) in Hzl as [Nz Kz]. split.
      + intros Hzs. destruct (Hall z Hzs Kz). split; eapply Hle; done.
      + intros [H1 H2]. apply (Hc k a z b); try done. split; eapply Hge; done.
  Qed.
  Lemma ivs_len S ivs : (forall x, x ∈ S -> Nd x) -> intervals_of c S ivs -> length ivs <= length (lc_lines c).
  Proof.
    intros HS (Hnd & Hk & _). rewrite <- (fmap_length fst ivs). rewrite <- (seq_length (length (lc_lines c)) 0). apply submseteq_length, NoDup_submseteq; [done|].
    intros k (x & Hx & Kx)%Hk. destruct (node_line k x (HS x Hx) Kx) as [t Ht]. apply elem_of_seq. split; [lia|]. cbn.
    destruct (decide (k < length (lc_lines c))) as [|Hk']; [lia|]. unfold LccBuild.line in Ht. rewrite (lookup_ge_None_2 (lc_lines c) k) in Ht by lia. done.
  Qed.
  Context (nl : list nat) (nb : nat -> dir -> res (list nat)).
  Context (HR : forall a b, R a b -> Nd b) (Hnl : forall n, Nd n -> n ∈ nl).
  Context (Hnb : forall n, Nd n -> exists l, nb n Outgoing = Ok l /\ forall m, m ∈ l <-> R n m).
  Definition ibd : nat := lbd + weight nl nb ∅ + length (lc_lines c).
  Lemma by_intervals_ok S ivs fuel : S <> [] -> (forall x, x ∈ S -> Nd x) -> contiguous_in Nd c S -> intervals_of c S ivs -> ibd < fuel ->
    exists r, lcc_is_convex_by_intervals nb rnd c fuel ivs = HOk r /\ (r = true <-> gconvex R S).
  Proof.
    intros Hne HS Hc Hivs Hf. set (s := remove_dups S).
    assert (Hs : forall x, x ∈ s <-> x ∈ S) by (intros x; apply elem_of_remove_dups).
    assert (Hcv : gconvex R s <-> gconvex R S).
    { split; intros Hx a x b Ha Hb; [rewrite <- Hs; apply (Hx a x b); by apply Hs|rewrite Hs; apply (Hx a x b); by apply Hs]. }
    assert (Hl : length ivs <= length (lc_lines c)) by (by eapply ivs_len).
    assert (Hiv : forall k iv, (k, iv) ∈ ivs -> IV c s k iv).
    { intros k iv Hin. destruct (iv_IV S ivs k iv HS Hc Hivs Hin) as (i & j & x & y & H1 & H2 & H3 & H4 & H5 & H6 & H7 & H8).
      exists i, j, x, y. split_and!; try done; [by apply Hs|by apply Hs|]. intros t z Hz. rewrite Hs. by apply H8. }
    assert (Hcov : forall x k, x ∈ s -> k ∈ ln x -> k ∈ map fst ivs).
    { intros x k Hx Kx. destruct Hivs as (_ & Hk & _). apply Hk. exists x. split; [by apply Hs|done]. }
    unfold lcc_is_convex_by_intervals. destruct ivs as [|e ivs'] eqn:El.
    { exfalso. destruct S as [|x S']; [done|]. destruct (qg_nd _ _ _ G x) as [_ Hx]; [apply HS; by left|].
      destruct (ln x) as [|k L] eqn:Elx; [done|]. assert (k ∈ map fst (@nil (nat * interval))) as Hk; [|by apply elem_of_nil in Hk].
      apply (Hcov x); [apply Hs; by left|]. rewrite Elx. by left. }
    rewrite <- El in *. unfold ibd in Hf.
    destruct (run_ok Nd R rnd Hrnd c G s (NoDup_remove_dups S) (fun x Hx => HS x (proj1 (Hs x) Hx)) nl nb HR Hnl Hnb ivs
      (foldl (fun m y => m `max` y.2.1) e.2.1 ivs') (proj1 Hivs) Hiv Hcov) with (fuel := fuel) as (r & E & Hr).
    - intros k iv Hin. rewrite El in Hin. apply elem_of_cons in Hin as [<-|Hin].
      + apply (foldl_max ivs' iv.1).
      + by apply (foldl_max ivs' e.2.1) in Hin.
    - intros k. apply lbd_ok. lia.
    - lia.
    - exists r. split; [done|]. by rewrite Hr.
  Qed.
End lines.

(** ** The lines at a port *)
Section at_port.
  Context (w : N) (g : pg) (Hw : (1 < w <= 63)%N) (Hreach : reach w g) (c : lcc) (G : lgood g c).
  Notation isl := (fun p => is_Some (lk g p)).
  Lemma flt_index (P : nat -> Prop) `{!forall x, Decision (P x)} (l : list nat) k p : NoDup l -> l !! k = Some p -> P p -> filter P l !! length (filter P (take k l)) = Some p.
  Proof.
    intros _ Hk HP. rewrite <- (take_drop_middle l k p Hk) at 2. rewrite filter_app, filter_cons_True by done. by apply list_lookup_middle.
  Qed.
  Lemma port_ln_idx x d k p l : ports g x d !! k = Some p -> port_ln g (lc_pos c) x d p l ->
    get_lines c x !! length (filter isl (take k (ports g x d))) = Some l.
  Proof.
    intros Hk (j & Hj & Hl). assert (HP : is_Some (lk g p)). { apply elem_of_list_lookup_2, elem_of_list_filter in Hj as [? _]. done. }
    pose proof (ports_nd w g Hreach x d) as Hnd. pose proof (flt_index isl _ _ _ Hnd Hk HP) as Hi.
    assert (Hnd' : NoDup (filter isl (ports g x d))) by (by apply NoDup_filter). by rewrite (NoDup_lookup _ _ _ _ Hnd' Hi Hj).
  Qed.
  Lemma links_len n d p : p ∈ ports g n d -> mbind (M := res) (fun l : list (nat * nat) => Ok (length l)) (port_links g p) = Ok (if lk g p then 1 else 0).
  Proof.
    intros Hp. pose proof (links_lk w g Hreach n d p Hp) as H. unfold gv_of in H. cbn [gv_links] in H.
    destruct (port_links g p) as [l|]; cbn [mbind res_bind] in *; [|done]. injection H as H. f_equal. destruct (lk g p); destruct l as [|? [|]]; done.
  Qed.
  Lemma counts_ok n d l : (forall p, p ∈ l -> p ∈ ports g n d) ->
    rmap (fun p => mbind (M := res) (fun l : list (nat * nat) => Ok (length l)) (port_links g p)) l = Ok (map (fun p => if lk g p then 1 else 0) l).
  Proof.
    induction l as [|p l IH]; intros H; [done|]. cbn [rmap map]. rewrite (links_len n d) by (apply H; by left). cbn [mbind res_bind].
    rewrite IH by (intros; apply H; by right). done.
  Qed.
  Lemma sum_flt (l : list nat) : sum_list (map (fun p => if lk g p then 1 else 0) l) = length (filter isl l).
  Proof.
    induction l as [|p l IH]; [done|]. cbn [map sum_list]. rewrite IH. destruct (lk g p) as [q|] eqn:E.
    - rewrite filter_cons_True by (rewrite E; eauto). done.
    - rewrite filter_cons_False by (rewrite E; by intros [? ?]). done.
  Qed.
  (** A linked port is on a line. *)
  Lemma port_has a d p q : p ∈ ports g a d -> lk g p = Some q -> exists l, port_ln g (lc_pos c) a d p l.
  Proof.
    intros Hp Hq. destruct (port_other w g Hreach a d p q Hp Hq) as [m Hm]. destruct d; cbn [rev_dir] in Hm.
    - destruct (lg_port _ _ G m a q p) as (l & i & _ & H & _); [done|apply lk_linked; by apply (lk_sym w g Hreach)|done|]. by exists l.
    - destruct (lg_port _ _ G a m p q) as (l & i & H & _); [done|by apply lk_linked|done|]. by exists l.
  Qed.
  Lemma lines_len a d : length (filter isl (ports g a d)) <= length (get_lines c a).
  Proof.
    destruct (filter isl (ports g a d)) as [|x t] eqn:E using rev_ind; [cbn; lia|]. clear IHt || idtac.
    assert (Hx : x ∈ filter isl (ports g a d)) by (rewrite E; apply elem_of_app; right; by left).
    pose proof Hx as [[q Hq] Hp]%elem_of_list_filter. destruct (port_has a d x q Hp Hq) as (l & j & Hj & Hl).
    assert (Hnd : NoDup (filter isl (ports g a d))) by (apply NoDup_filter, (ports_nd w g Hreach)).
    assert (Hj' : filter isl (ports g a d) !! length t = Some x) by (rewrite E; by apply list_lookup_middle).
    rewrite (NoDup_lookup _ _ _ _ Hnd Hj Hj') in Hl. apply lookup_lt_Some in Hl. rewrite app_length. cbn. unfold get_lines, ln in *. lia.
  Qed.
  Lemma at_port_eq a d k p : ports g a d !! k = Some p -> (N.of_nat k <= po_max_offset w)%N ->
    lines_at_port c w g p = Ok (match lk g p with Some _ => take 1 (drop (length (filter isl (take k (ports g a d)))) (get_lines c a)) | None => [] end).
  Proof.
    intros Hk Hko. unfold lines_at_port.
    destruct (C02_ports_and_nodes_pf w g Hw Hreach) as (_ & _ & _ & H4 & _). destruct (H4 a d k p Hk) as (_ & -> & ->). cbn [unwrap mbind res_bind].
    destruct (port_offset_eq w g a d k p Hw Hreach Hk Hko) as (o & Eo & -> & _). cbn [unwrap mbind res_bind].
    destruct (po_new_ok w d (N.of_nat k)) as (o' & Eo' & _ & Hi); [lia|done|]. assert (o' = o) as -> by congruence. rewrite Hi. cbn [mbind res_bind].
    rewrite (counts_ok a d) by done. cbn [mbind res_bind]. rewrite Nat2N.id.
    change (map (fun p => if lk g p then 1 else 0)) with (fmap (M := list) (fun p => if lk g p then 1 else 0)).
    rewrite list_lookup_fmap, Hk. cbn [fmap option_fmap option_map unwrap mbind res_bind].
    rewrite <- fmap_take. change (fmap (M := list) (fun p => if lk g p then 1 else 0)) with (map (fun p => if lk g p then 1 else 0)). rewrite sum_flt.
    pose proof (lines_len a d) as Hlen. assert (Hcnt : length (filter isl (ports g a d)) = length (filter isl (take k (ports g a d))) + length (filter isl (p :: drop (S k) (ports g a d)))).
    { rewrite <- (take_drop_middle _ k p Hk) at 1. by rewrite filter_app, app_length. }
    destruct (lk g p) as [q|] eqn:E.
    - rewrite filter_cons_True in Hcnt by (rewrite E; eauto). cbn [length] in Hcnt. rewrite decide_True by lia. done.
    - rewrite filter_cons_False in Hcnt by (rewrite E; by intros [? ?]). rewrite decide_True by lia. done.
  Qed.
  Lemma at_port_line a d k p l : ports g a d !! k = Some p -> (N.of_nat k <= po_max_offset w)%N -> port_ln g (lc_pos c) a d p l -> lines_at_port c w g p = Ok [l].
  Proof.
    intros Hk Hko Hl. rewrite (at_port_eq a d k p) by done. pose proof (port_ln_idx a d k p l Hk Hl) as Hi.
    destruct Hl as (j & [[q Hq] _]%elem_of_list_lookup_2%elem_of_list_filter & _). rewrite Hq. f_equal.
    by rewrite (drop_S _ _ _ Hi).
  Qed.
End at_port.
