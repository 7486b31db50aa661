(** Queries of the line convexity checker. *)
From Verif Require Export LccBuild.

(** ** The table of lines *)
Section table.
  Context (pairs : list (nat * nat)).
  Record MP (m : list (nat * (interval * nat))) : Prop := {
    mp_nd : NoDup (map fst m);
    mp_ent : forall k mn mx ct, (k, ((mn, mx), ct)) ∈ m ->
      ct = length (filter (fun y => y.1 = k) pairs) /\ (k, mn) ∈ pairs /\ (k, mx) ∈ pairs /\ forall p, (k, p) ∈ pairs -> mn <= p <= mx;
    mp_key : forall k p, (k, p) ∈ pairs -> k ∈ map fst m;
  }.
End table.
Lemma mp_add pairs m k p : MP pairs m -> MP (pairs ++ [(k, p)]) (small_map_add m k p).
Proof.
  intros M.
  assert (Hkeys : forall m, map fst (small_map_add m k p) = if decide (k ∈ map fst m) then map fst m else map fst m ++ [k]).
  { clear. induction m as [|[l [[mn mx] ct]] m IH]; cbn [small_map_add map fst]; [by rewrite decide_False by apply not_elem_of_nil|].
    destruct (decide (l = k)) as [->|Hl]; cbn [map fst].
    - rewrite decide_True by by left. done.
    - rewrite IH. destruct (decide (k ∈ map fst m)); [rewrite decide_True by (by right); done|].
      rewrite decide_False; [done|]. rewrite elem_of_cons. intros [?|?]; [by subst|done]. }
  assert (Hent : forall m, NoDup (map fst m) -> forall l mn mx ct, (l, ((mn, mx), ct)) ∈ small_map_add m k p ->
    (l <> k /\ (l, ((mn, mx), ct)) ∈ m) \/ (l = k /\ k ∉ map fst m /\ mn = p /\ mx = p /\ ct = 1) \/
    (l = k /\ exists mn0 mx0 ct0, (k, ((mn0, mx0), ct0)) ∈ m /\ mn = mn0 `min` p /\ mx = mx0 `max` p /\ ct = ct0 + 1)).
  { clear. induction m as [|[l0 [[mn0 mx0] ct0]] m IH]; intros Hnd l mn mx ct; cbn [small_map_add].
    - intros H%elem_of_list_singleton. injection H as -> -> -> ->. right; left. split; [done|]. split; [apply not_elem_of_nil|done].
    - cbn in Hnd. apply NoDup_cons in Hnd as [Hn Hnd]. destruct (decide (l0 = k)) as [->|Hl].
      + intros [E|Hin]%elem_of_cons.
        * injection E as -> E1 E2 ->. right; right. split; [done|]. exists mn0, mx0, ct0. split; [by left|]. subst mn mx.
          split; [destruct (decide (p < mn0)); lia|]. split; [destruct (decide (mx0 < p)); lia|done].
        * left. split; [|by right]. intros ->. apply Hn. apply elem_of_list_In, in_map_iff. eexists (_, _). split; [|by apply elem_of_list_In]. done.
      + intros [E|Hin]%elem_of_cons.
        * injection E as -> -> -> ->. left. split; [done|by left].
        * destruct (IH Hnd _ _ _ _ Hin) as [[? ?]|[(-> & Hk & ?)|(-> & mn1 & mx1 & ct1 & ? & ?)]].
          -- left. split; [done|by right].
          -- right; left. split; [done|]. split; [|done]. cbn. rewrite elem_of_cons. intros [?|?]; [by subst|done].
          -- right; right. split; [done|]. exists mn1, mx1, ct1. split; [by right|done]. }
  split.
  - rewrite Hkeys. destruct (decide _); [apply M|]. apply NoDup_app. split; [apply M|]. split; [set_solver|apply NoDup_singleton].
  - intros l mn mx ct Hin. rewrite filter_app, app_length.
    destruct (Hent m (mp_nd _ _ M) _ _ _ _ Hin) as [[Hl Hm]|[(-> & Hk & -> & -> & ->)|(-> & mn0 & mx0 & ct0 & Hm & -> & -> & ->)]].
    + destruct (mp_ent _ _ M _ _ _ _ Hm) as (H1 & H2 & H3 & H4). rewrite filter_cons_False by (cbn; congruence). cbn [filter list_filter length].
      split; [rewrite H1; lia|]. split; [set_solver|]. split; [set_solver|]. intros q [Hq|Hq%elem_of_list_singleton]%elem_of_app; [by apply H4|congruence].
    + rewrite filter_cons_True by done. cbn [filter list_filter length].
      assert (Hno : forall q, (k, q) ∉ pairs) by (intros q Hq; by apply Hk; eapply mp_key).
      assert (filter (fun y => y.1 = k) pairs = []) as ->.
      { destruct (filter (fun y => y.1 = k) pairs) as [|[a q] l] eqn:E; [done|]. exfalso.
        assert ((a, q) ∈ filter (fun y => y.1 = k) pairs) as [Ha Hq]%elem_of_list_filter by (rewrite E; by left). cbn in Ha. subst a. by apply (Hno q). }
      split; [done|]. split; [set_solver|]. split; [set_solver|]. intros q [Hq|Hq%elem_of_list_singleton]%elem_of_app; [by destruct (Hno q)|].
      injection Hq as ->. lia.
    + destruct (mp_ent _ _ M _ _ _ _ Hm) as (H1 & H2 & H3 & H4). rewrite filter_cons_True by done. cbn [filter list_filter length].
      split; [rewrite H1; lia|]. split; [|split].
      * destruct (Nat.min_spec mn0 p) as [[_ ->]|[_ ->]]; set_solver.
      * destruct (Nat.max_spec mx0 p) as [[_ ->]|[_ ->]]; set_solver.
      * intros q [Hq|Hq%elem_of_list_singleton]%elem_of_app; [specialize (H4 _ Hq); lia|]. injection Hq as ->. lia.
  - intros l q [Hq|Hq%elem_of_list_singleton]%elem_of_app; rewrite Hkeys.
    + pose proof (mp_key _ _ M _ _ Hq). destruct (decide _); [done|set_solver].
    + injection Hq as -> ->. destruct (decide _); [done|set_solver].
Qed.

(** What the queries need of a checker, for nodes [Nd] and edges [R]. *)
Record qgood (Nd : nat -> Prop) (R : nat -> nat -> Prop) (c : lcc) : Prop := {
  qg_mem : forall k x, x ∈ line (lc_lines c) k <-> Nd x /\ k ∈ get_lines c x;
  qg_nd : forall x, Nd x -> NoDup (get_lines c x) /\ get_lines c x <> [];
  qg_chain : forall k i x y, line (lc_lines c) k !! i = Some x -> line (lc_lines c) k !! S i = Some y -> R x y;
  qg_pos : forall a b, R a b -> get_position c a < get_position c b;
  qg_edge : forall a b, R a b -> exists k i, line (lc_lines c) k !! i = Some a /\ line (lc_lines c) k !! S i = Some b;
}.
Lemma lgood_q g c : lgood g c -> qgood (fun x => contains_node g x = true) (pedge g Outgoing) c.
Proof. intros [H1 H2 H3 H4 H5 _]. by split. Qed.

Section query.
  Context (Nd : nat -> Prop) (R : nat -> nat -> Prop).
  Context (rnd : nat -> nat -> nat -> nat -> nat -> nat).
  Context (Hrnd : forall low high lp hp pos, low < high -> lp < pos < hp -> low <= rnd low high lp hp pos <= high).
  Context (c : lcc) (G : qgood Nd R c).
  Notation ps := (get_position c).
  Notation ln := (get_lines c).
  Notation line k := (line (lc_lines c) k).

  Lemma line_tc k i j x y : i < j -> line k !! i = Some x -> line k !! j = Some y -> tc R x y.
  Proof.
    intros Hij Hx Hy. revert y Hy. induction Hij as [|j Hij IH]; intros y Hy.
    - apply tc_once. by eapply qg_chain.
    - destruct (lookup_lt_is_Some_2 (line k) j) as [z Hz]; [apply lookup_lt_Some in Hy; lia|].
      eapply tc_r; [by apply IH|]. by eapply qg_chain.
  Qed.
  Lemma tc_pos a b : tc R a b -> ps a < ps b.
  Proof.
    induction 1 as [a b Hab|a b d Hab _ IH]; [by apply (qg_pos _ _ _ G)|]. pose proof (qg_pos _ _ _ G _ _ Hab). lia.
  Qed.
  Lemma line_inc k i j x y : i < j -> line k !! i = Some x -> line k !! j = Some y -> ps x < ps y.
  Proof. intros. eapply tc_pos, line_tc; [|done|done]. done. Qed.
  Lemma line_inj k i j x y : line k !! i = Some x -> line k !! j = Some y -> ps x = ps y -> i = j.
  Proof.
    intros Hx Hy E. destruct (lt_eq_lt_dec i j) as [[H|H]|H]; [|done|].
    - pose proof (line_inc _ _ _ _ _ H Hx Hy). lia.
    - pose proof (line_inc _ _ _ _ _ H Hy Hx). lia.
  Qed.
  Lemma line_lt k i j x y : line k !! i = Some x -> line k !! j = Some y -> ps x < ps y <-> i < j.
  Proof.
    intros Hx Hy. split; [|intros; by eapply line_inc]. intros Hlt. destruct (decide (i < j)); [done|].
    destruct (decide (i = j)) as [->|]; [rewrite Hx in Hy; injection Hy as ->; lia|].
    pose proof (line_inc k j i y x ltac:(lia) Hy Hx). lia.
  Qed.
  Lemma line_nd k : NoDup (line k).
  Proof. apply NoDup_alt. intros i j x Hi Hj. by eapply line_inj. Qed.
  Lemma line_get k x : x ∈ line k -> vget (lc_lines c) k = Ok (line k).
  Proof. unfold LccBuild.line, vget. destruct (lc_lines c !! k); [done|]. by intros ?%elem_of_nil. Qed.

  Lemma find_loop_ok k i x fuel : line k !! i = Some x -> forall low high, low < i < high -> high < length (line k) -> high - low <= fuel ->
    find_index_loop rnd c fuel (line k) (ps x) low high = HOk (Some i).
  Proof.
    intros Hi. induction fuel as [|fuel IH]; intros low high Hl Hh Hf; [lia|]. cbn [find_index_loop].
    destruct (lookup_lt_is_Some_2 (line k) low) as [ln Hln]; [lia|]. destruct (lookup_lt_is_Some_2 (line k) high) as [hn Hhn]; [lia|].
    unfold vget. rewrite Hln, Hhn. cbn [unwrap lift mbind hres_bind].
    pose proof (line_inc _ _ _ _ _ (proj1 Hl) Hln Hi). pose proof (line_inc _ _ _ _ _ (proj2 Hl) Hi Hhn).
    set (gs := rnd low high (ps ln) (ps hn) (ps x)).
    assert (Hg : low <= gs <= high) by (apply Hrnd; lia). clearbody gs.
    assert (Hstep : exists gs', (if decide (gs = low) then Ok (gs + 1) else if decide (gs = high) then usub gs 1 else Ok gs) = Ok gs' /\ low < gs' < high).
    { destruct (decide (gs = low)); [exists (gs + 1); split; [done|lia]|]. destruct (decide (gs = high)).
      - unfold usub. rewrite decide_True by lia. exists (gs - 1). split; [done|lia].
      - exists gs. split; [done|lia]. }
    destruct Hstep as (gs' & -> & Hgs). cbn [lift mbind hres_bind].
    destruct (lookup_lt_is_Some_2 (line k) gs') as [gn Hgn]; [lia|]. rewrite Hgn. cbn [unwrap lift mbind hres_bind].
    destruct (decide (ps gn = ps x)) as [E|E]; [by rewrite (line_inj _ _ _ _ _ Hgn Hi E)|].
    destruct (decide (ps gn < ps x)) as [E'|E'].
    - apply (line_lt _ _ _ _ _ Hgn Hi) in E'. apply IH; lia.
    - assert (ps x < ps gn) as E2%(line_lt _ _ _ _ _ Hi Hgn) by lia. apply IH; lia.
  Qed.
  Lemma find_ok k i x fuel : line k !! i = Some x -> length (line k) < fuel -> find_index rnd c fuel k (ps x) = HOk (Some i).
  Proof.
    intros Hi Hf. unfold find_index. rewrite (line_get k x) by (by eapply elem_of_list_lookup_2). cbn [lift mbind hres_bind].
    pose proof (lookup_lt_Some _ _ _ Hi) as Hlen.
    destruct (line k) as [|low_n l] eqn:El; [done|]. rewrite <- El in *.
    assert (Hlow : line k !! 0 = Some low_n) by by rewrite El.
    destruct (lookup_lt_is_Some_2 (line k) (length (line k) - 1)) as [hn Hhn]; [lia|]. unfold vget. rewrite Hhn. cbn [unwrap lift mbind hres_bind].
    destruct (decide (ps low_n = ps x)) as [E|E]; [by rewrite (line_inj _ _ _ _ _ Hlow Hi E)|].
    destruct (decide (ps hn = ps x)) as [E'|E']; [by rewrite (line_inj _ _ _ _ _ Hhn Hi E')|].
    assert (i <> 0) by (intros ->; congruence). assert (i <> length (line k) - 1) by (intros ->; congruence).
    rewrite decide_False.
    - apply find_loop_ok; [done|lia|lia|lia].
    - pose proof (line_inc k 0 i _ _ ltac:(lia) Hlow Hi). pose proof (line_inc k i (length (line k) - 1) _ _ ltac:(lia) Hi Hhn). lia.
  Qed.

  Definition pairs_of (s : list nat) : list (nat * nat) := x ← s; (fun k => (k, ps x)) <$> ln x.
  Lemma table_ok s : MP (pairs_of s) (lcc_line_to_pos c s).
  Proof.
    assert (Hin : forall x L pairs m, MP pairs m ->
      MP (pairs ++ ((fun k => (k, ps x)) <$> L)) (foldl (fun m l => small_map_add m l (ps x)) m L)).
    { clear. intros x L. induction L as [|k L IH]; intros pairs m M; cbn; [by rewrite app_nil_r|].
      replace (pairs ++ (k, ps x) :: _) with ((pairs ++ [(k, ps x)]) ++ ((fun k => (k, ps x)) <$> L)) by (by rewrite <- app_assoc).
      apply IH. by apply mp_add. }
    assert (Hout : forall s pairs m, MP pairs m ->
      MP (pairs ++ pairs_of s) (foldl (fun m x => foldl (fun m l => small_map_add m l (ps x)) m (ln x)) m s)).
    { clear s. intros s. induction s as [|x s IH]; intros pairs m M; [by rewrite app_nil_r|].
      change (pairs_of (x :: s)) with (((fun k => (k, ps x)) <$> ln x) ++ pairs_of s). rewrite app_assoc. cbn [foldl].
      apply IH. by apply Hin. }
    apply (Hout s [] []). split; [apply NoDup_nil_2| |].
    - by intros ? ? ? ? ?%elem_of_nil.
    - by intros ? ? ?%elem_of_nil.
  Qed.
  Lemma pairs_elem s k p : (k, p) ∈ pairs_of s <-> exists x, x ∈ s /\ k ∈ ln x /\ p = ps x.
  Proof.
    unfold pairs_of. rewrite elem_of_list_bind. setoid_rewrite elem_of_list_fmap. split.
    - intros (x & (k' & [= -> ->] & Hk) & Hx). by exists x.
    - intros (x & Hx & Hk & ->). exists x. split; [|done]. by exists k.
  Qed.
  Lemma pairs_count s k : (forall x, x ∈ s -> Nd x) ->
    length (filter (fun y => y.1 = k) (pairs_of s)) = length (filter (fun x => k ∈ ln x) s).
  Proof.
    induction s as [|x s IH]; intros Hs; [done|].
    change (pairs_of (x :: s)) with (((fun k => (k, ps x)) <$> ln x) ++ pairs_of s). rewrite filter_app, app_length, IH by (intros y Hy; apply Hs; by right).
    destruct (qg_nd _ _ _ G x) as [Hnd _]; [apply Hs; by left|].
    assert (E : length (filter (fun y => y.1 = k) ((fun k => (k, ps x)) <$> ln x)) = if decide (k ∈ ln x) then 1 else 0).
    { clear -Hnd. induction Hnd as [|l L Hl _ IH]; [done|]. rewrite fmap_cons. destruct (decide (l = k)) as [->|Hlk].
      - rewrite filter_cons_True by done. cbn [length]. rewrite IH. rewrite decide_False by done. rewrite decide_True by by left. done.
      - rewrite filter_cons_False by done. rewrite IH. apply decide_ext. rewrite elem_of_cons. split; [tauto|]. intros [->|?]; done. }
    rewrite E. destruct (decide (k ∈ ln x)) as [Hk|Hk].
    - rewrite filter_cons_True by done. cbn. done.
    - rewrite filter_cons_False by done. done.
  Qed.

  Context (s : list nat) (Hsnd : NoDup s) (Hs : forall x, x ∈ s -> Nd x).

  Lemma on_line k x : x ∈ s -> k ∈ ln x -> exists t, line k !! t = Some x.
  Proof. intros Hx Hk. apply elem_of_list_lookup, (qg_mem _ _ _ G). split; [by apply Hs|done]. Qed.
  Lemma line_on k t x : line k !! t = Some x -> Nd x /\ k ∈ ln x.
  Proof. intros H. apply (qg_mem _ _ _ G). by eapply elem_of_list_lookup_2. Qed.

  (** The nodes of [s] on line [k] are those between two nodes of [s]. *)
  Definition IV (k : nat) (iv : interval) : Prop :=
    exists i j x y, line k !! i = Some x /\ x ∈ s /\ ps x = iv.1 /\ line k !! j = Some y /\ y ∈ s /\ ps y = iv.2 /\
      i <= j /\ forall t z, line k !! t = Some z -> z ∈ s <-> i <= t <= j.

  (** Two nodes of [s] on a line, with a node outside [s] between them. *)
  Definition gap : Prop :=
    exists k i t j x z y, i < t < j /\ line k !! i = Some x /\ line k !! t = Some z /\ line k !! j = Some y /\ x ∈ s /\ z ∉ s /\ y ∈ s.
  Lemma gap_convex : gap -> ~ gconvex R s.
  Proof.
    intros (k & i & t & j & x & z & y & [H1 H2] & Hi & Ht & Hj & Hx & Hz & Hy) Hcv. apply Hz.
    apply (Hcv x z y); [done|done|by eapply (line_tc k i t)|by eapply (line_tc k t j)].
  Qed.

  Lemma entry_ok k mn mx ct : (k, ((mn, mx), ct)) ∈ lcc_line_to_pos c s ->
    exists i j x y, line k !! i = Some x /\ x ∈ s /\ ps x = mn /\ line k !! j = Some y /\ y ∈ s /\ ps y = mx /\
      1 <= ct /\ i + ct - 1 <= j /\
      (i + ct - 1 = j -> IV k (mn, mx)) /\
      (i + ct - 1 < j -> gap).
  Proof.
    intros Hin. destruct (mp_ent _ _ (table_ok s) _ _ _ _ Hin) as (Hct & Hmn & Hmx & Hall).
    apply pairs_elem in Hmn as (x & Hx & Hkx & ->). apply pairs_elem in Hmx as (y & Hy & Hky & ->).
    destruct (on_line k x Hx Hkx) as [i Hi]. destruct (on_line k y Hy Hky) as [j Hj].
    rewrite pairs_count in Hct by done. set (T := filter (fun x => k ∈ ln x) s) in *.
    assert (HT : forall t z, line k !! t = Some z -> z ∈ s -> i <= t <= j).
    { intros t z Ht Hz. destruct (line_on _ _ _ Ht) as [_ Hk].
      assert ((k, ps z) ∈ pairs_of s) as Hp%Hall by (apply pairs_elem; by exists z).
      destruct (decide (t < i)) as [Hlt|]; [pose proof (line_inc _ _ _ _ _ Hlt Ht Hi); lia|].
      destruct (decide (j < t)) as [Hlt|]; [pose proof (line_inc _ _ _ _ _ Hlt Hj Ht); lia|]. lia. }
    set (seg := take (j - i + 1) (drop i (line k))).
    pose proof (HT _ _ Hi Hx) as Hij. pose proof (lookup_lt_Some _ _ _ Hj) as Hjl.
    assert (Hseglen : length seg = j - i + 1) by (unfold seg; rewrite take_length, drop_length; lia).
    assert (Hseg : forall z, z ∈ seg <-> exists t, i <= t <= j /\ line k !! t = Some z).
    { intros z. unfold seg. rewrite elem_of_take. setoid_rewrite lookup_drop. split.
      - intros (t & Ht & Hlt). exists (i + t). split; [lia|done].
      - intros (t & Ht & E). exists (t - i). replace (i + (t - i)) with t by lia. split; [done|lia]. }
    assert (HTs : forall z, z ∈ T -> z ∈ seg).
    { intros z [Hk Hz]%elem_of_list_filter. destruct (on_line k z Hz Hk) as [t Ht]. apply Hseg. exists t. split; [by eapply HT|done]. }
    assert (HTnd : NoDup T) by (by apply NoDup_filter).
    assert (Hsub : T ⊆+ seg) by (by apply NoDup_submseteq).
    assert (Hle : ct <= j - i + 1) by (rewrite Hct, <- Hseglen; by apply submseteq_length).
    assert (H1 : 1 <= ct).
    { rewrite Hct. assert (x ∈ T) as HxT by (by apply elem_of_list_filter). destruct T; [by apply elem_of_nil in HxT|cbn; lia]. }
    exists i, j, x, y. split; [done|]. split; [done|]. split; [done|]. split; [done|]. split; [done|]. split; [done|].
    split; [done|]. split; [lia|]. split.
    - intros E. exists i, j, x, y. split; [done|]. split; [done|]. split; [done|]. split; [done|]. split; [done|]. split; [done|].
      split; [lia|]. intros t z Ht. split; [by apply HT|]. intros Htij.
      assert (Hp : T ≡ₚ seg) by (apply submseteq_Permutation_length_le; [lia|done]).
      assert (z ∈ T) as Hz by (rewrite Hp; apply Hseg; by exists t). by apply elem_of_list_filter in Hz as [_ ?].
    - intros Hlt. destruct (decide (Exists (fun z => z ∉ s) seg)) as [(z & Hzs & Hz)%Exists_exists|Hno].
      { apply Hseg in Hzs as (t & Ht & Htz). exists k, i, t, j, x, z, y. repeat split; try done.
        - destruct (decide (t = i)) as [->|]; [congruence|lia].
        - destruct (decide (t = j)) as [->|]; [congruence|lia]. }
      exfalso. assert (Hsub' : seg ⊆+ T).
      { apply NoDup_submseteq.
        - unfold seg. apply (NoDup_app _ (drop (j - i + 1) (drop i (line k)))). rewrite take_drop.
          apply (NoDup_app (take i (line k))). rewrite take_drop. apply line_nd.
        - intros z Hz. apply elem_of_list_filter. split; [apply Hseg in Hz as (t & _ & Ht); by apply (line_on k t)|].
          destruct (decide (z ∈ s)) as [|Hn]; [done|]. exfalso. apply Hno, Exists_exists. by exists z. }
      apply submseteq_length in Hsub'. lia.
  Qed.

  Lemma intervals_ok fuel : (forall k, length (line k) < fuel) -> forall m, (forall e, e ∈ m -> e ∈ lcc_line_to_pos c s) ->
    exists r, lcc_intervals rnd c fuel m = HOk r /\
      match r with
      | None => gap
      | Some ivs => ivs = map (fun e => (e.1, e.2.1)) m /\ forall k iv, (k, iv) ∈ ivs -> IV k iv
      end.
  Proof.
    intros Hf m. induction m as [|[k [[mn mx] ct]] m IH]; intros Hm; cbn [lcc_intervals].
    - exists (Some []). split; [done|]. split; [done|]. by intros ? ? ?%elem_of_nil.
    - destruct (entry_ok k mn mx ct) as (i & j & x & y & Hi & Hx & <- & Hj & Hy & <- & H1 & H2 & H3 & H4); [apply Hm; by left|].
      cbn [fst snd]. rewrite (find_ok k i x) by done. cbn [lift unwrap mbind hres_bind].
      unfold usub. rewrite decide_True by lia. cbn [lift mbind hres_bind].
      rewrite (line_get k x) by (by eapply elem_of_list_lookup_2). cbn [lift mbind hres_bind].
      pose proof (lookup_lt_Some _ _ _ Hj) as Hjl.
      destruct (lookup_lt_is_Some_2 (line k) (i + ct - 1)) as [z Hz]; [lia|]. unfold vget. rewrite Hz. cbn [lift unwrap mbind hres_bind].
      destruct (decide (ps z = ps y)) as [E|E].
      + destruct IH as (r & -> & Hr); [intros e He; apply Hm; by right|]. cbn [mbind hres_bind].
        eexists. split; [done|]. destruct r as [ivs|]; [|done]. destruct Hr as [-> Hr]. split; [done|].
        intros k' iv [E'|Hin]%elem_of_cons; [|by apply Hr]. injection E' as -> ->. apply H3. by eapply line_inj.
      + exists None. split; [done|]. apply H4. destruct (decide (i + ct - 1 = j)) as [E'|]; [|lia]. subst j. congruence.
  Qed.

  Context (nl : list nat) (nb : nat -> dir -> res (list nat)).
  Context (HR : forall a b, R a b -> Nd b) (Hnl : forall n, Nd n -> n ∈ nl).
  Context (Hnb : forall n, Nd n -> exists l, nb n Outgoing = Ok l /\ forall m, m ∈ l <-> R n m).

  Section bfs.
    Context (ivs : intervals) (ms : nat).
    Context (Hnd : NoDup (map fst ivs)) (Hiv : forall k iv, (k, iv) ∈ ivs -> IV k iv).
    Context (Hcov : forall x k, x ∈ s -> k ∈ ln x -> k ∈ map fst ivs).
    Context (Hms : forall k iv, (k, iv) ∈ ivs -> iv.1 <= ms).
    Notation outs := (out R s).

    Lemma iv_get_ok k iv : iv_get ivs k = Some iv <-> (k, iv) ∈ ivs.
    Proof.
      clear Hiv Hcov Hms. unfold iv_get. induction ivs as [|[l i] rest IH]; cbn in Hnd; [rewrite elem_of_nil; done|].
      apply NoDup_cons in Hnd as [Hl Hnd']. destruct (decide (l = k)) as [->|Hlk].
      - cbn [filter list_filter]. rewrite decide_True by done. cbn [head fmap option_fmap option_map snd]. split.
        + intros [= ->]. by left.
        + intros [E|Hin]%elem_of_cons; [by injection E as ->|]. exfalso. apply Hl. apply elem_of_list_In, in_map_iff. exists (k, iv).
          split; [done|by apply elem_of_list_In].
      - cbn [filter list_filter]. rewrite decide_False by done. cbn [filter] in IH. rewrite IH by done. rewrite elem_of_cons. split; [by right|]. intros [E|?]; [congruence|done].
    Qed.
    Lemma key_iv k : k ∈ map fst ivs -> exists iv, (k, iv) ∈ ivs.
    Proof. rewrite elem_of_list_In, in_map_iff. intros ([k' iv] & <- & Hin). exists iv. by apply elem_of_list_In. Qed.

    (** A node outside [s] is before or after the interval. *)
    Lemma iv_pos k iv t x : (k, iv) ∈ ivs -> line k !! t = Some x -> x ∉ s ->
      (ps x < iv.1 /\ exists z, z ∈ s /\ tc R x z) \/ (iv.1 <= ps x /\ iv.2 < ps x).
    Proof.
      intros Hin Ht Hx. destruct (Hiv _ _ Hin) as (i & j & a & b & Hi & Ha & <- & Hj & Hb & <- & Hij & Hall).
      assert (~ i <= t <= j) as Hn by (intros H; by apply Hx, (Hall t)).
      destruct (decide (t < i)) as [Hlt|Hlt].
      - left. split; [by eapply line_inc|]. exists a. split; [done|]. by eapply line_tc.
      - right. split; [pose proof (line_inc k i t _ _ ltac:(lia) Hi Ht); lia|]. eapply (line_inc k j t); [lia|done|done].
    Qed.
    Lemma check_ok x : Nd x -> x ∉ s -> forall L, (forall k, k ∈ L -> k ∈ ln x) ->
      exists b, lcc_check ivs (ps x) L = Ok b /\
        (b = true -> exists z, z ∈ s /\ tc R x z) /\
        (b = false -> forall k iv, k ∈ L -> (k, iv) ∈ ivs -> iv.1 <= ps x).
    Proof.
      intros Hcx Hx L. induction L as [|k L IH]; intros HL; cbn [lcc_check].
      - exists false. split; [done|]. split; [done|]. by intros _ k iv ?%elem_of_nil.
      - destruct IH as (b & E & H1 & H2); [intros; apply HL; by right|].
        assert (exists t, line k !! t = Some x) as [t Ht]. { apply elem_of_list_lookup, (qg_mem _ _ _ G). split; [done|]. apply HL. by left. }
        destruct (iv_get ivs k) as [[mn mx]|] eqn:Eg.
        + apply iv_get_ok in Eg. destruct (iv_pos _ _ _ _ Eg Ht Hx) as [[Hlt Hz]|[Hge Hgt]]; cbn in *.
          * rewrite decide_True by done. exists true. done.
          * rewrite decide_False by lia. rewrite decide_True by done. exists b. split; [done|]. split; [done|].
            intros Hb k' iv [->|Hk']%elem_of_cons Hin; [|by eapply H2].
            apply iv_get_ok in Hin. apply iv_get_ok in Eg. rewrite Hin in Eg. by injection Eg as ->.
        + exists b. split; [done|]. split; [done|]. intros Hb k' iv [->|Hk']%elem_of_cons Hin; [|by eapply H2].
          apply iv_get_ok in Hin. congruence.
    Qed.

    (** The immediate predecessor of a node of [s], if outside, is before the interval. *)
    Lemma edge_in x z : x ∉ s -> z ∈ s -> R x z -> exists k iv, k ∈ ln x /\ (k, iv) ∈ ivs /\ ps x < iv.1.
    Proof.
      intros Hx Hz Hxz. destruct (qg_edge _ _ _ G _ _ Hxz) as (k & t & Ht & Ht').
      destruct (key_iv k) as [iv Hin]. { apply (Hcov z); [done|]. by apply (line_on k (S t)). }
      exists k, iv. split; [by apply (line_on k t)|]. split; [done|].
      destruct (Hiv _ _ Hin) as (i & j & a & b & Hi & Ha & E1 & Hj & Hb & E2 & Hij & Hall).
      pose proof (proj1 (Hall _ _ Ht') Hz). rewrite <- E1. eapply line_inc; [|done|done]. destruct (decide (t < i)); [done|].
      exfalso. apply Hx, (Hall t); [done|lia].
    Qed.
    (** The immediate successor of a node of [s], if outside, is next to the interval. *)
    Lemma edge_out y x : y ∈ s -> x ∉ s -> R y x ->
      exists k iv j, (k, iv) ∈ ivs /\ line k !! j = Some y /\ ps y = iv.2 /\ line k !! S j = Some x.
    Proof.
      intros Hy Hx Hyx. destruct (qg_edge _ _ _ G _ _ Hyx) as (k & t & Ht & Ht').
      destruct (key_iv k) as [iv Hin]. { apply (Hcov y); [done|]. by apply (line_on k t). }
      exists k, iv, t. split; [done|]. split; [done|]. split; [|done].
      destruct (Hiv _ _ Hin) as (i & j & a & b & Hi & Ha & E1 & Hj & Hb & E2 & Hij & Hall).
      pose proof (proj1 (Hall _ _ Ht) Hy). assert (t = j) as ->; [|congruence].
      destruct (decide (S t <= j)); [|lia]. exfalso. apply Hx, (Hall (S t)); [done|lia].
    Qed.

    (** Nodes still to be searched. *)
    Definition deg x := match nb x Outgoing with Ok l => length l | Panic => 0 end.
    Definition weight (V : gset nat) : nat := sum_list (map (fun x => if decide (x ∈ V) then 0 else deg x + 1) (nl)).
    Lemma weight_visit V x : x ∈ nl -> x ∉ V -> weight ({[x]} ∪ V) + deg x + 1 <= weight V.
    Proof.
      intros Hx HV. unfold weight.
      assert (H : forall l, sum_list (map (fun y => if decide (y ∈ {[x]} ∪ V) then 0 else deg y + 1) l) <= sum_list (map (fun y => if decide (y ∈ V) then 0 else deg y + 1) l)
        /\ (x ∈ l -> sum_list (map (fun y => if decide (y ∈ {[x]} ∪ V) then 0 else deg y + 1) l) + deg x + 1 <= sum_list (map (fun y => if decide (y ∈ V) then 0 else deg y + 1) l))).
      { induction l as [|y l [IH1 IH2]]; [split; [done|by intros ?%elem_of_nil]|]. cbn [map sum_list foldr].
        fold (sum_list (map (fun y => if decide (y ∈ {[x]} ∪ V) then 0 else deg y + 1) l)). fold (sum_list (map (fun y => if decide (y ∈ V) then 0 else deg y + 1) l)).
        assert (Hy : (if decide (y ∈ {[x]} ∪ V) then 0 else deg y + 1) <= (if decide (y ∈ V) then 0 else deg y + 1)).
        { destruct (decide (y ∈ V)); [rewrite decide_True by set_solver; lia|]. destruct (decide _); lia. }
        split; [cbn in *; lia|]. intros [->|Hl]%elem_of_cons.
        - rewrite (decide_True (P := y ∈ {[y]} ∪ V)) by set_solver. rewrite (decide_False (P := y ∈ V)) by done. cbn in *. lia.
        - specialize (IH2 Hl). cbn in *. lia. }
      by apply H.
    Qed.

    Lemma bfs_ok fuel : forall V Q,
      (forall x, x ∈ V \/ x ∈ Q -> outs x) ->
      (forall x k iv, x ∈ V -> k ∈ ln x -> (k, iv) ∈ ivs -> iv.1 <= ps x) ->
      (forall x y, outs x -> ps x <= ms -> (y ∈ s /\ R y x) \/ (y ∈ V /\ R y x) -> x ∈ V \/ x ∈ Q) ->
      weight V + length Q < fuel ->
      exists r, lcc_bfs (nb) c fuel ivs ms V Q = HOk r /\ (r = true <-> gconvex R s).
    Proof.
      induction fuel as [|fuel IH]; intros V Q Ho HV Hcl Hf; [lia|]. cbn [lcc_bfs].
      destruct Q as [|x Q].
      { exists true. split; [done|]. split; [|done]. intros _. unfold gconvex. apply convex_out. intros (y & z & Hy & Hz & Hyz).
        assert (Hall : forall x, outs x -> ps x <= ms -> x ∈ V).
        { induction 1 as [y' x' Hy' Hx' Hn|y' x' Hy' IHy Hx' Hn]; intros Hp.
          - destruct (Hcl x' y') as [?|?%elem_of_nil]; [by eapply out_in|done|by left|done|done].
          - pose proof (qg_pos _ _ _ G _ _ Hx'). destruct (Hcl x' y') as [?|?%elem_of_nil]; [by eapply out_step|done| |done|done].
            right. split; [|done]. apply IHy. lia. }
        destruct (edge_in y z) as (k & iv & Hk & Hin & Hlt); [by eapply out_not|done|done|].
        pose proof (Hms _ _ Hin). assert (y ∈ V) as HyV by (apply Hall; [done|lia]). pose proof (HV _ _ _ HyV Hk Hin). lia. }
      assert (Hox : outs x) by (apply Ho; right; by left).
      assert (Hcx : Nd x).
      { destruct Hox as [y x Hy Hx _|y x _ Hx _]; by eapply HR. }
      destruct (decide (ms < ps x)) as [Hlate|Hlate].
      { apply IH; [|done| |cbn in Hf; lia].
        - intros y Hy. apply Ho. destruct Hy; [by left|right; by right].
        - intros y z Hy Hp Hz. destruct (Hcl y z Hy Hp Hz) as [?|[->|?]%elem_of_cons]; [by left|lia|by right]. }
      destruct (decide (x ∈ V)) as [HxV|HxV].
      { apply IH; [|done| |cbn in Hf; lia].
        - intros y Hy. apply Ho. destruct Hy; [by left|right; by right].
        - intros y z Hy Hp Hz. destruct (Hcl y z Hy Hp Hz) as [?|[->|?]%elem_of_cons]; [by left|by left|by right]. }
      destruct (check_ok x Hcx (out_not _ _ _ Hox) (ln x)) as (b & -> & H1 & H2); [done|]. cbn [lift mbind hres_bind].
      destruct b.
      { exists false. split; [done|]. split; [done|]. intros Hcv. exfalso. destruct (H1 eq_refl) as (z & Hz & Hxz).
        destruct (out_tc _ _ _ Hox) as (a & Ha & Hax). apply (out_not _ _ _ Hox). exact (Hcv a x z Ha Hz Hax Hxz). }
      specialize (H2 eq_refl). destruct (Hnb x Hcx) as (N & HN & HNe). rewrite HN. cbn [lift mbind hres_bind].
      assert (Hnos : forall y, R x y -> y ∉ s).
      { intros y Hxy Hy. destruct (edge_in x y) as (k & iv & Hk & Hin & Hlt); [by eapply out_not|done|done|].
        pose proof (H2 _ _ Hk Hin). lia. }
      apply IH.
      - intros y [[->%elem_of_singleton|Hy]%elem_of_union|[Hy|Hy]%elem_of_app].
        + done.
        + apply Ho. by left.
        + apply Ho. right. by right.
        + apply HNe in Hy. eapply out_step; [exact Hox|done|by apply Hnos].
      - intros y k iv [->%elem_of_singleton|Hy]%elem_of_union; [by apply H2|by apply HV].
      - intros y z Hy Hp [Hz|[[->%elem_of_singleton|Hz]%elem_of_union Hzy]].
        + destruct (Hcl y z Hy Hp) as [?|[->|?]%elem_of_cons]; [by left|left; set_solver|left; set_solver|right; set_solver].
        + right. apply elem_of_app. right. by apply HNe.
        + destruct (Hcl y z Hy Hp) as [?|[->|?]%elem_of_cons]; [by right|left; set_solver|left; set_solver|right; set_solver].
      - assert (Hd : deg x = length N) by (unfold deg; by rewrite HN).
        pose proof (weight_visit V x ltac:(by apply Hnl) HxV). rewrite app_length. cbn in Hf. lia.
    Qed.

    Lemma future_ok fuel : (forall k, length (line k) < fuel) -> forall l, (forall e, e ∈ l -> e ∈ ivs) ->
      exists Q, lcc_future rnd c fuel l = HOk Q /\ length Q <= length l /\
        (forall x, x ∈ Q <-> exists k iv j y, (k, iv) ∈ l /\ line k !! j = Some y /\ y ∈ s /\ ps y = iv.2 /\ line k !! S j = Some x).
    Proof.
      intros Hf l. induction l as [|[k [mn mx]] l IH]; intros Hl; cbn [lcc_future].
      - exists []. split; [done|]. split; [done|]. intros x. rewrite elem_of_nil. split; [done|]. by intros (k & iv & j & y & ?%elem_of_nil & _).
      - destruct (Hiv k (mn, mx)) as (i & j & a & b & Hi & Ha & E1 & Hj & Hb & E2 & Hij & Hall); [apply Hl; by left|].
        cbn in E1, E2. subst mn mx. rewrite (find_ok k j b) by done. cbn [lift unwrap mbind hres_bind].
        rewrite (line_get k b) by (by eapply elem_of_list_lookup_2). cbn [lift mbind hres_bind].
        destruct IH as (Q & -> & Hlen & HQ); [intros; apply Hl; by right|]. cbn [mbind hres_bind].
        replace (j + 1) with (S j) by lia. eexists. split; [done|]. split; [destruct (line k !! S j); cbn; lia|].
        assert (Hrest : forall x, x ∈ Q -> exists k0 iv j0 y, (k0, iv) ∈ (k, (ps a, ps b)) :: l /\ line k0 !! j0 = Some y /\ y ∈ s /\ ps y = iv.2 /\ line k0 !! S j0 = Some x).
        { intros x (k' & iv & j' & y & Hin & ?)%HQ. exists k', iv, j', y. split; [by right|done]. }
        intros x. split.
        + destruct (line k !! S j) as [z|] eqn:Ez; [|by apply Hrest]. intros [->|Hx]%elem_of_cons; [|by apply Hrest].
          exists k, (ps a, ps b), j, b. split; [by left|done].
        + intros (k' & iv & j' & y & [E|Hin]%elem_of_cons & Hj' & Hy & Hp & Hx).
          * injection E as -> ->. cbn in Hp. assert (j' = j) as -> by (by eapply line_inj). rewrite Hx. by left.
          * assert (x ∈ Q) as HxQ by (apply HQ; by exists k', iv, j', y). destruct (line k !! S j); [by right|done].
    Qed.

    Lemma run_ok fuel : (forall k, length (line k) < fuel) -> weight ∅ + length ivs < fuel ->
      exists r, (future ← lcc_future rnd c fuel ivs; lcc_bfs (nb) c fuel ivs ms ∅ future) = HOk r /\ (r = true <-> gconvex R s).
    Proof.
      intros Hf1 Hf2. destruct (future_ok fuel Hf1 ivs) as (Q & -> & Hlen & HQ); [done|]. cbn [mbind hres_bind].
      apply bfs_ok.
      - intros x [?%elem_of_empty|Hx]; [done|]. apply HQ in Hx as (k & iv & j & y & Hin & Hj & Hy & Hp & Hx).
        eapply out_in; [exact Hy|by eapply qg_chain|]. intros Hxs.
        destruct (Hiv _ _ Hin) as (i & j' & a & b & Hi & Ha & E1 & Hj' & Hb & E2 & Hij & Hall).
        assert (j = j') as -> by (eapply line_inj; [done|done|congruence]). pose proof (proj1 (Hall _ _ Hx) Hxs). lia.
      - by intros x k iv ?%elem_of_empty.
      - intros x y Hx Hp [[Hy Hyx]|[?%elem_of_empty _]]; [|done]. right. apply HQ.
        destruct (edge_out y x) as (k & iv & j & Hin & Hj & E & Hj'); [done|by eapply out_not|done|].
        exists k, iv, j, y. done.
      - lia.
    Qed.
  End bfs.

  Lemma foldl_max (l : intervals) m : m <= foldl (fun m y => m `max` y.2.1) m l /\ forall k iv, (k, iv) ∈ l -> iv.1 <= foldl (fun m y => m `max` y.2.1) m l.
  Proof.
    clear. revert m. induction l as [|[k iv] l IH]; intros m; cbn [foldl]; [split; [done|by intros ? ? ?%elem_of_nil]|].
    destruct (IH (m `max` (k, iv).2.1)) as [H1 H2]. cbn [snd] in *; split; [lia|]. intros k' iv' [E|Hin]%elem_of_cons; [|by apply (H2 k')].
    injection E as -> ->. cbn in *. lia.
  Qed.
  Lemma line_bound k : length (line k) <= sum_list (map length (lc_lines c)).
  Proof.
    unfold LccBuild.line. clear. revert k. induction (lc_lines c) as [|L l IH]; intros k; [destruct k; cbn; lia|].
    change (sum_list (map length (L :: l))) with (length L + sum_list (map length l)).
    destruct k as [|k]; [cbn [lookup list_lookup default]; unfold id; lia|]. specialize (IH k).
    change ((L :: l) !! S k) with (l !! k). lia.
  Qed.
  (** How many steps are enough. *)
  Definition lcc_bound : nat := sum_list (map length (lc_lines c)) + weight ∅ + length (lcc_line_to_pos c s).

  Lemma lcc_query_ok fuel : s <> [] -> lcc_bound < fuel ->
    exists r, lcc_is_node_convex (nb) rnd c fuel s = HOk r /\ (r = true <-> gconvex R s).
  Proof.
    intros Hne Hf. unfold lcc_bound in Hf. unfold lcc_is_node_convex, lcc_get_intervals.
    assert (Hlen : forall k, length (line k) < fuel) by (intros k; pose proof (line_bound k); lia).
    destruct (intervals_ok fuel Hlen (lcc_line_to_pos c s)) as (r & -> & Hr); [done|]. cbn [mbind hres_bind].
    destruct r as [ivs|]; [|exists false; split; [done|]; split; [done|]; intros Hcv; by destruct (gap_convex Hr)].
    destruct Hr as [Eivs Hiv]. pose proof (table_ok s) as M.
    assert (Ekeys : map fst ivs = map fst (lcc_line_to_pos c s)) by (rewrite Eivs, map_map; done).
    assert (Hcov : forall x k, x ∈ s -> k ∈ ln x -> k ∈ map fst ivs).
    { intros x k Hx Hk. rewrite Ekeys. apply (mp_key _ _ M _ (ps x)). apply pairs_elem. by exists x. }
    assert (Hll : length ivs = length (lcc_line_to_pos c s)) by (rewrite Eivs; apply map_length).
    unfold lcc_is_convex_by_intervals. destruct ivs as [|e ivs'] eqn:El.
    { exfalso. destruct s as [|x s'] eqn:Es; [done|]. destruct (qg_nd _ _ _ G x) as [_ Hx]; [apply Hs; by left|].
      destruct (ln x) as [|k L] eqn:Elx; [done|]. assert (k ∈ map fst (@nil (nat * interval))) as Hk; [|by apply elem_of_nil in Hk].
      apply (Hcov x); [by left|]. rewrite Elx. by left. }
    rewrite <- El in *. apply run_ok.
    - rewrite Ekeys. apply M.
    - done.
    - done.
    - intros k iv Hin. rewrite El in Hin. apply elem_of_cons in Hin as [<-|Hin].
      + apply (foldl_max ivs' iv.1).
      + by apply (foldl_max ivs' e.2.1) in Hin.
    - done.
    - lia.
  Qed.
End query.
