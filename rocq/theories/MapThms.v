(** Proofs of properties C30-C35. *)
From Verif Require Export MapSpec PG3Thms.

Section um.
  Context {V : Type} (vdef : V).
  Implicit Types (m : umap V) (f : nat -> V).

  Lemma vresize_lookup (l : list V) n x k : length l <= n ->
    vresize l n x !! k = if decide (k < length l) then l !! k else if decide (k < n) then Some x else None.
  Proof.
    intros Hn. unfold vresize. rewrite take_ge by done. destruct (decide (k < length l)).
    - by rewrite lookup_app_l.
    - rewrite lookup_app_r by lia. destruct (decide (k < n)).
      + apply lookup_replicate_2. lia.
      + apply lookup_ge_None_2. rewrite replicate_length. lia.
  Qed.
  Lemma vresize_length (l : list V) n x : length (vresize l n x) = n.
  Proof. unfold vresize. rewrite app_length, take_length, replicate_length. lia. Qed.

  Definition shows_map (d : V) m f : Prop := um_default m = d /\ forall k, um_get m k = f k.

  Lemma um_resize_get m n k : length (um_data m) <= n -> um_get (um_resize m n) k = um_get m k.
  Proof.
    intros Hn. unfold um_get, um_resize. cbn. rewrite vresize_lookup by done.
    destruct (decide (k < length (um_data m))); [done|]. rewrite (lookup_ge_None_2 (um_data m)) by lia.
    by destruct (decide (k < n)).
  Qed.
  Lemma um_write_ok m k v : k < length (um_data m) ->
    um_write m k v = Ok (mkUM (<[k:=v]> (um_data m)) (um_default m)).
  Proof. intros. unfold um_write. by rewrite b_vset. Qed.
  Lemma um_insert_get m k v x : k < length (um_data m) ->
    um_get (mkUM (<[k:=v]> (um_data m)) (um_default m)) x = if decide (x = k) then v else um_get m x.
  Proof.
    intros Hk. unfold um_get. cbn. destruct (decide (x = k)) as [->|].
    - by rewrite list_lookup_insert.
    - by rewrite list_lookup_insert_ne.
  Qed.
  Lemma um_get_mut_get m k : (forall x, um_get (um_get_mut m k) x = um_get m x) /\
    um_default (um_get_mut m k) = um_default m /\ k < length (um_data (um_get_mut m k)) /\
    length (um_data m) <= length (um_data (um_get_mut m k)).
  Proof.
    unfold um_get_mut. destruct (decide _) as [H|H].
    - split_and!; [intros x; apply um_resize_get; lia|done|cbn; rewrite vresize_length; lia..].
    - split_and!; [done|done|lia|lia].
  Qed.
  (** A write to an allocated slot of a map that shows [f]. *)
  Lemma write_shows d m f k v : shows_map d m f -> k < length (um_data m) ->
    exists m', um_write m k v = Ok m' /\ shows_map d m' (tset f k v) /\ length (um_data m') = length (um_data m).
  Proof.
    intros [H1 H2] Hk. eexists. split; [by apply um_write_ok|]. split; [split; [done|]|].
    - intros x. rewrite um_insert_get by done. unfold tset. by rewrite H2.
    - cbn. by rewrite insert_length.
  Qed.
  Lemma shows_ext d m f f' : (forall k, f k = f' k) -> shows_map d m f -> shows_map d m f'.
  Proof. intros E [H1 H2]. split; [done|]. intros k. by rewrite H2. Qed.
  Lemma shows_data d m f k v : shows_map d m f -> um_data m !! k = Some v -> f k = v.
  Proof. intros [_ H2] E. rewrite <- H2. unfold um_get. by rewrite E. Qed.
  Lemma shows_nodata d m f k : shows_map d m f -> um_data m !! k = None -> f k = d.
  Proof. intros [H1 H2] E. rewrite <- H2. unfold um_get. by rewrite E. Qed.

  Lemma um_grow_shows d m f n : shows_map d m f ->
    let m' := if decide (length (um_data m) <= n) then um_resize m (n + 1) else m in
    shows_map d m' f /\ n < length (um_data m').
  Proof.
    intros [H1 H2]. cbn zeta. destruct (decide _) as [H|H].
    - split; [split; [done|]|cbn; rewrite vresize_length; lia]. intros k. by rewrite um_resize_get by lia.
    - split; [done|lia].
  Qed.

  Lemma disjoint_ptrs_ok d m f ks : shows_map d m f -> (forall k, k ∈ ks -> k < length (um_data m)) ->
    um_disjoint_ptrs m ks = if decide (NoDup ks) then Some (f <$> ks) else None.
  Proof.
    intros S. induction ks as [|k ks IH]; intros Hlt.
    { rewrite decide_True by constructor. done. }
    cbn [um_disjoint_ptrs]. destruct (decide (k ∈ ks)) as [Hin|Hin].
    { rewrite decide_False; [done|]. intros [? _]%NoDup_cons. done. }
    destruct (lookup_lt_is_Some_2 (um_data m) k) as [v Hv]; [apply Hlt; by left|]. rewrite Hv.
    rewrite IH by (intros x Hx; apply Hlt; by right).
    destruct (decide (NoDup ks)) as [Hnd|Hnd].
    - rewrite decide_True by (by constructor). cbn. by rewrite (shows_data _ _ _ _ _ S Hv).
    - rewrite decide_False; [done|]. intros [_ ?]%NoDup_cons. done.
  Qed.

  Lemma um_step_ok d m f o : shows_map d m f ->
    match o with MRekey _ _ => d = vdef | _ => True end ->
    exists m', um_step vdef m o = Ok (m', (spec_step d f o).2) /\ shows_map d m' (spec_step d f o).1.
  Proof.
    intros S Ho. pose proof S as [S1 S2]. destruct o as [k|k v|k v|k|k|k|a b|old new|ex c|ks|]; cbn [um_step spec_step fst snd].
    - exists m. by rewrite S2.
    - destruct (um_get_mut_get m k) as (G1 & G2 & G3 & _).
      destruct (write_shows d (um_get_mut m k) f k v) as (m' & E & S' & _); [|done|].
      { split; [by rewrite G2|]. intros x. by rewrite G1. }
      exists m'. unfold um_set. by rewrite E.
    - destruct (um_get_mut_get m k) as (G1 & G2 & G3 & _).
      destruct (write_shows d (um_get_mut m k) f k v) as (m' & E & S' & _); [|done|].
      { split; [by rewrite G2|]. intros x. by rewrite G1. }
      exists m'. by rewrite E.
    - destruct (um_get_mut_get m k) as (G1 & G2 & G3 & _).
      assert (S' : shows_map d (um_get_mut m k) f) by (split; [by rewrite G2|]; intros x; by rewrite G1).
      exists (um_get_mut m k). apply lookup_lt_is_Some_2 in G3 as [v Hv]. rewrite (b_vget _ _ _ _ Hv).
      by rewrite (shows_data _ _ _ _ _ S' Hv).
    - unfold um_take. destruct (um_data m !! k) as [v|] eqn:E.
      + destruct (write_shows d m f k (um_default m) S) as (m' & Em & S' & _); [by eapply lookup_lt_Some|].
        rewrite Em. cbn. exists m'. rewrite (shows_data _ _ _ _ _ S E). rewrite S1 in S'. done.
      + cbn. exists m. pose proof (shows_nodata _ _ _ _ S E) as Hk. rewrite S1, Hk. split; [done|].
        eapply shows_ext; [|exact S]. intros x. unfold tset. destruct (decide (x = k)) as [->|]; done.
    - unfold um_remove, um_take. destruct (um_data m !! k) as [v|] eqn:E.
      + destruct (write_shows d m f k (um_default m) S) as (m' & Em & S' & _); [by eapply lookup_lt_Some|].
        rewrite Em. cbn. exists m'. rewrite S1 in S'. done.
      + cbn. exists m. pose proof (shows_nodata _ _ _ _ S E) as Hk. split; [done|].
        eapply shows_ext; [|exact S]. intros x. unfold tset. destruct (decide (x = k)) as [->|]; done.
    - unfold um_swap. destruct (um_grow_shows d m f (Nat.max a b) S) as [Sg Hlt]. cbn zeta in *.
      set (mg := if decide (length (um_data m) <= Nat.max a b) then um_resize m (Nat.max a b + 1) else m) in *.
      destruct (lookup_lt_is_Some_2 (um_data mg) a) as [x Hx]; [lia|].
      destruct (lookup_lt_is_Some_2 (um_data mg) b) as [y Hy]; [lia|].
      rewrite (b_vget _ _ _ _ Hx), (b_vget _ _ _ _ Hy).
      destruct (write_shows d mg f a y Sg) as (m1 & E1 & S1' & L1); [lia|]. rewrite E1, bind_Ok.
      destruct (write_shows d m1 _ b x S1') as (m2 & E2 & S2' & L2); [lia|]. rewrite E2, bind_Ok.
      exists m2. split; [done|]. eapply shows_ext; [|exact S2']. intros z. unfold tset, tswap.
      pose proof (shows_data _ _ _ _ _ Sg Hx) as Fx. pose proof (shows_data _ _ _ _ _ Sg Hy) as Fy.
      destruct (decide (z = b)), (decide (z = a)); congruence.
    - subst d. unfold um_rekey. destruct (decide (old < length (um_data m))) as [Hlt|Hge].
      + assert (Eg : um_get_mut m old = m) by (unfold um_get_mut; rewrite decide_False by lia; done). rewrite Eg.
        destruct (lookup_lt_is_Some_2 (um_data m) old Hlt) as [v Hv]. rewrite (b_vget _ _ _ _ Hv).
        destruct (write_shows vdef m f old vdef S Hlt) as (m1 & E1 & S1' & L1). rewrite E1, bind_Ok.
        destruct new as [k|]; [|exists m1; done].
        destruct (um_grow_shows vdef m1 _ k S1') as [Sg Hk]. cbn zeta in *.
        destruct (write_shows vdef _ _ k v Sg Hk) as (m2 & E2 & S2' & _). rewrite E2, bind_Ok. exists m2. split; [done|].
        eapply shows_ext; [|exact S2']. intros z. unfold tset, trekey. cbn [fst snd]. by rewrite (shows_data _ _ _ _ _ S Hv).
      + assert (Hf : f old = vdef) by (eapply shows_nodata; [done|]; apply lookup_ge_None_2; lia).
        destruct new as [k|].
        * destruct (decide (k < length (um_data m))) as [Hk|Hk].
          -- destruct (write_shows vdef m f k vdef S Hk) as (m1 & E1 & S1' & L1). rewrite E1, bind_Ok. exists m1. split; [done|].
             eapply shows_ext; [|exact S1']. intros z. unfold tset, trekey. cbn [fst snd].
             destruct (decide (z = k)), (decide (z = old)); congruence.
          -- exists m. split; [done|]. assert (f k = vdef) by (eapply shows_nodata; [done|]; apply lookup_ge_None_2; lia).
             eapply shows_ext; [|exact S]. intros z. unfold trekey. cbn [fst snd]. destruct (decide (z = k)), (decide (z = old)); congruence.
        * exists m. split; [done|]. eapply shows_ext; [|exact S]. intros z. unfold tset. cbn [fst snd]. destruct (decide (z = old)); congruence.
    - eexists. split; [done|]. unfold um_ensure_capacity. destruct (decide _) as [H|H]; [|done].
      split; [done|]. intros x. rewrite <- S2. apply (um_resize_get m c x). lia.
    - unfold um_get_disjoint_mut. destruct ks as [|k ks].
      { exists m. rewrite decide_True by constructor. done. }
      destruct (um_grow_shows d m f (max_list (k :: ks)) S) as [Sg Hlt]. cbn zeta in *. eexists. split; [|exact Sg].
      do 2 f_equal. apply (disjoint_ptrs_ok d); [done|]. intros x Hx. pose proof (max_list_elem_of_le x (k :: ks) Hx). lia.
    - exists m. done.
  Qed.
End um.

Lemma C30_dense_map_pf :
  forall (V : Type) (vdef d : V) ops,
    (d = vdef \/ forall old new, MRekey old new ∉ ops) ->
    exists m rs, um_run vdef (um_with_default d) ops = Ok (m, rs) /\
      rs = (spec_run d (fun _ => d) ops).2 /\ forall k, um_get m k = (spec_run d (fun _ => d) ops).1 k.
Proof.
  intros V vdef d ops Hd.
  assert (H : forall ops m f, (d = vdef \/ forall old new, MRekey old new ∉ ops) -> shows_map d m f ->
    exists m' rs, um_run vdef m ops = Ok (m', rs) /\ rs = (spec_run d f ops).2 /\ shows_map d m' (spec_run d f ops).1).
  { clear. induction ops as [|o ops IH]; intros m f Hd S.
    - exists m, []. done.
    - cbn [um_run spec_run]. destruct (um_step_ok vdef d m f o S) as (m1 & E1 & S1).
      { destruct o; try done. destruct Hd as [->|Hd]; [done|]. exfalso. eapply Hd. by left. }
      rewrite E1, bind_Ok. destruct (spec_step d f o) as [f1 r1]. cbn [fst snd] in *.
      destruct (IH m1 f1) as (m2 & rs & E2 & -> & S2); [|done|].
      { destruct Hd as [?|Hd]; [by left|right]. intros old new Hin. apply (Hd old new). by right. }
      rewrite E2, bind_Ok. destruct (spec_run d f1 ops) as [f2 rs2]. by eexists _, _. }
  destruct (H ops (um_with_default d) (fun _ => d) Hd) as (m & rs & E & Ers & _ & S2); [by split|]. by exists m, rs.
Qed.

Lemma C31_rekey_custom_default_refuted_pf :
  exists m m', um_set (um_with_default 7) 0 1 = Ok m /\ um_rekey 0 m 0 None = Ok m' /\ um_get m' 0 = 0 /\ um_default m' = 7.
Proof.
  eexists _, _. vm_compute. done.
Qed.

Lemma C31_rekey_never_written_refuted_pf :
  exists m m1 m', um_set (um_with_default 7) 0 1 = Ok m /\ um_set m 5 1 = Ok m1 /\ um_rekey 0 m1 9 (Some 0) = Ok m' /\
    um_get m1 9 = 7 /\ um_get m' 0 = 0.
Proof.
  eexists _, _, _. vm_compute. done.
Qed.

Lemma C31_rekey_partial_pf :
  forall (V : Type) (vdef : V) m old new,
    exists m', um_rekey vdef m old new = Ok m' /\ um_default m' = um_default m /\
      (forall k, k <> old -> Some k <> new -> um_get m' k = um_get m k) /\
      (new <> Some old -> um_get m' old = if decide (old < length (um_data m)) then vdef else um_default m) /\
      (forall k, new = Some k -> um_get m' k =
         if decide (old < length (um_data m)) then um_get m old
         else if decide (k < length (um_data m)) then vdef else um_default m).
Proof.
  intros V vdef m old new. unfold um_rekey. destruct (decide (old < length (um_data m))) as [Hlt|Hge].
  - assert (Eg : um_get_mut m old = m) by (unfold um_get_mut; rewrite decide_False by lia; done). rewrite Eg.
    destruct (lookup_lt_is_Some_2 (um_data m) old Hlt) as [v Hv]. rewrite (b_vget _ _ _ _ Hv), um_write_ok, bind_Ok by done.
    assert (Ev : um_get m old = v) by (unfold um_get; by rewrite Hv).
    destruct new as [k|].
    + destruct (um_grow_shows (um_default m) (mkUM (<[old:=vdef]> (um_data m)) (um_default m))
        (fun x => if decide (x = old) then vdef else um_get m x) k) as [Sg Hk].
      { split; [done|]. intros x. by apply um_insert_get. }
      cbn zeta in *. destruct (write_shows _ _ _ k v Sg Hk) as (m2 & E2 & [S1 S2] & _). exists m2. split; [done|]. split; [done|].
      unfold tset in S2. split_and!.
      * intros x H1 H2. rewrite S2, !decide_False by congruence. done.
      * intros H. rewrite S2, decide_False, decide_True by congruence. done.
      * intros k' [= <-]. rewrite S2, decide_True by done. done.
    + eexists. split; [done|]. split; [done|]. split_and!.
      * intros x H1 _. rewrite um_insert_get, decide_False by done. done.
      * intros _. rewrite um_insert_get, decide_True by done. done.
      * done.
  - assert (Ho : um_get m old = um_default m) by (unfold um_get; rewrite lookup_ge_None_2 by lia; done).
    destruct new as [k|].
    + destruct (decide (k < length (um_data m))) as [Hk|Hk].
      * rewrite um_write_ok by done. eexists. split; [done|]. split; [done|]. split_and!.
        -- intros x H1 H2. rewrite um_insert_get, decide_False by congruence. done.
        -- intros H. rewrite um_insert_get, decide_False by congruence. done.
        -- intros k' [= <-]. rewrite um_insert_get, !decide_True by done. done.
      * exists m. split_and!; [done|done|done|done|]. intros k' [= <-]. rewrite decide_False by done.
        unfold um_get. by rewrite lookup_ge_None_2 by lia.
    + exists m. done.
Qed.

Lemma C32_shrink_to_pf :
  forall (V : Type) (m : umap V) n,
    um_default (um_shrink_to m n) = um_default m /\
    (forall k, k < n -> um_get (um_shrink_to m n) k = um_get m k) /\
    (forall k, n <= k -> um_get (um_shrink_to m n) k = um_default m).
Proof.
  intros V m n. split; [done|]. unfold um_get, um_shrink_to. cbn. split; intros k Hk.
  - by rewrite lookup_take.
  - by rewrite lookup_take_ge.
Qed.

Lemma list_eqb_iff {V} (veq : V -> V -> bool) : (forall x y, veq x y = true <-> x = y) ->
  forall l l', list_eqb veq l l' = true <-> l = l'.
Proof.
  intros Hv l. induction l as [|x l IH]; intros [|y l']; cbn; try done.
  rewrite andb_true_iff, Hv, IH. split; [intros [-> ->]; done|intros [= -> ->]; done].
Qed.

Lemma C33_equality_pf :
  forall (V : Type) (veq : V -> V -> bool) (m m' : umap V), (forall x y, veq x y = true <-> x = y) ->
    (um_eqb veq m m' = true <-> um_default m = um_default m' /\ forall k, um_get m k = um_get m' k).
Proof.
  intros V veq m m' Hv. unfold um_eqb. destruct (veq (um_default m) (um_default m')) eqn:Ed; cbn [negb].
  2:{ split; [done|]. intros [H _]. apply Hv in H. congruence. }
  apply Hv in Ed. cbn zeta. set (c := Nat.min (length (um_data m)) (length (um_data m'))).
  rewrite !andb_true_iff, (list_eqb_iff _ Hv), !forallb_forall. split.
  - intros [[H1 H2] H3]. split; [done|]. intros k. unfold um_get. rewrite <- Ed.
    destruct (decide (k < c)) as [Hk|Hk].
    + rewrite <- (lookup_take (um_data m) c k Hk), <- (lookup_take (um_data m') c k Hk), H1. done.
    + assert (Hd : forall l : list V, (forall x, In x (drop c l) -> veq x (um_default m) = true) -> default (um_default m) (l !! k) = um_default m).
      { intros l Hl. destruct (l !! k) as [v|] eqn:E; [|done]. cbn. apply Hv, Hl, elem_of_list_In.
        apply (elem_of_list_lookup_2 _ (k - c)). rewrite lookup_drop. replace (c + (k - c)) with k by lia. done. }
      rewrite !Hd; [done| |done]. intros x Hx. rewrite Ed. by apply H3.
  - intros [_ H]. split; [split|].
    + apply list_eq. intros i. destruct (decide (i < c)) as [Hi|Hi].
      * rewrite !lookup_take by done. specialize (H i). unfold um_get in H.
        destruct (lookup_lt_is_Some_2 (um_data m) i) as [x Hx]; [lia|].
        destruct (lookup_lt_is_Some_2 (um_data m') i) as [y Hy]; [lia|].
        rewrite Hx, Hy in *. cbn in H. by subst.
      * by rewrite !lookup_take_ge by lia.
    + intros x Hx%elem_of_list_In. apply Hv. apply elem_of_list_lookup_1 in Hx as [i Hi]. rewrite lookup_drop in Hi.
      pose proof (lookup_lt_Some _ _ _ Hi) as Hlt. specialize (H (c + i)). unfold um_get in H. rewrite Hi in H. cbn in H. rewrite H.
      rewrite lookup_ge_None_2 by lia. done.
    + intros x Hx%elem_of_list_In. apply Hv. apply elem_of_list_lookup_1 in Hx as [i Hi]. rewrite lookup_drop in Hi.
      pose proof (lookup_lt_Some _ _ _ Hi) as Hlt. specialize (H (c + i)). unfold um_get in H. rewrite Hi in H. cbn in H. rewrite <- H.
      rewrite lookup_ge_None_2 by lia. done.
Qed.

Lemma C34_iter_refuted_pf :
  exists m x s, um_set (um_with_default 0) 2 5 = Ok m /\ um_iter_next (um_iter_init m) = (Some (0, x), s) /\ x = um_default m.
Proof.
  eexists _, _, _. vm_compute. done.
Qed.

Lemma C34_iter_partial_pf :
  forall (V : Type) (m : umap V), exists L,
    (forall sched, run_iter (fun s => Ok (um_iter_next s)) (fun s => Ok (um_iter_next_back s)) um_iter_len sched (um_iter_init m)
       = Ok (deque sched L)) /\
    (forall n, (um_iter_nth n (um_iter_init m)).1 = L !! n) /\
    StronglySorted lt L.*1 /\
    (forall k v, (k, v) ∈ L -> v = um_get m k /\ k < length (um_data m)) /\
    (forall k, um_get m k <> um_default m -> (k, um_get m k) ∈ L).
Proof.
  intros V m. exists (zip (seq 0 (length (um_data m))) (um_data m)).
  assert (Hz : forall l s i, zip (seq s (length l)) l !! i = (fun v : V => (s + i, v)) <$> (l !! i)).
  { intros l. induction l as [|x l IH]; intros s i; [done|]. cbn. destruct i; [by rewrite Nat.add_0_r|]. cbn. rewrite IH.
    destruct (l !! i); [|done]. cbn. do 2 f_equal. lia. }
  split_and!.
  - intros sched. apply (run_iter_sim _ _ _ (fun s L => L = zip (seq s.1 (length s.2)) s.2)); [..|done]; intros [i l] L ->; cbn [fst snd].
    + unfold um_iter_next. cbn. destruct l as [|x l]; eexists; done.
    + unfold um_iter_next_back, um_iter_len. cbn [fst snd]. destruct l as [|x l _] using rev_ind.
      * eexists. done.
      * rewrite last_snoc, app_length. cbn [length].
        assert (Ez : zip (seq i (length l + 1)) (l ++ [x]) = zip (seq i (length l)) l ++ [(i + length l, x)]).
        { rewrite seq_app. cbn. rewrite zip_with_app by (by rewrite seq_length). done. }
        rewrite Ez, last_snoc, !removelast_last. exists (i, l). split; [|done]. do 4 f_equal. lia.
    + unfold um_iter_len. cbn. rewrite zip_with_length, seq_length. lia.
  - intros n. rewrite Hz. unfold um_iter_nth, um_iter_init, um_iter_next. cbn.
    destruct (drop n (um_data m)) as [|v l] eqn:E.
    + rewrite lookup_ge_None_2; [done|]. apply (f_equal length) in E. rewrite drop_length in E. cbn in E. lia.
    + assert (Hn : um_data m !! n = Some v) by (rewrite <- (Nat.add_0_r n), <- lookup_drop, E; done). rewrite Hn. cbn.
      apply lookup_lt_Some in Hn. do 2 f_equal. lia.
  - rewrite fst_zip by (by rewrite seq_length). generalize 0. induction (length (um_data m)) as [|n IH]; intros s; cbn; constructor; [done|].
    apply Forall_forall. intros x [? ?]%elem_of_seq. lia.
  - intros k v [i Hi]%elem_of_list_lookup_1. rewrite Hz in Hi. destruct (um_data m !! i) as [v'|] eqn:E; [|done].
    cbn in Hi. injection Hi as <- <-. unfold um_get. rewrite E. split; [done|]. by eapply lookup_lt_Some.
  - intros k Hk. unfold um_get in *. destruct (um_data m !! k) as [v|] eqn:E; [|done]. cbn.
    apply (elem_of_list_lookup_2 _ k). by rewrite Hz, E.
Qed.

Lemma bv_ones_elem b : forall i k, k ∈ bv_ones i b <-> i <= k /\ bv_get b (k - i) = true.
Proof.
  induction b as [|x b IH]; intros i k; cbn [bv_ones].
  - split; [intros []%elem_of_nil|]. intros [_ H]. unfold bv_get in H. by rewrite lookup_nil in H.
  - rewrite elem_of_app, IH. unfold bv_get. destruct (decide (k = i)) as [->|Hk].
    + rewrite Nat.sub_diag. cbn. destruct x.
      * rewrite elem_of_list_singleton. split; [lia|tauto].
      * rewrite elem_of_nil. split; [intros [[]|?]; lia|intros [_ ?]; done].
    + split.
      * intros [H|[H1 H2]]; [destruct x; [apply elem_of_list_singleton in H; done|by apply elem_of_nil in H]|].
        split; [lia|]. replace (k - i) with (S (k - S i)) by lia. done.
      * intros [H1 H2]. right. split; [lia|]. replace (k - i) with (S (k - S i)) in H2 by lia. done.
Qed.
Lemma bv_ones_sorted b : forall i, StronglySorted lt (bv_ones i b).
Proof.
  induction b as [|x b IH]; intros i; cbn [bv_ones]; [constructor|]. destruct x; cbn; [|apply IH]. constructor; [apply IH|].
  apply Forall_forall. intros k [? _]%bv_ones_elem. lia.
Qed.
Lemma bv_set_ok b k v : exists b', bv_set b k v = Ok b' /\ forall x, bv_get b' x = tset (bv_get b) k v x.
Proof.
  unfold bv_set, tset. destruct (decide (length b <= k)) as [H|H].
  - destruct v.
    + rewrite vset_ok by (rewrite vresize_length; lia). eexists. split; [done|]. intros x. unfold bv_get.
      destruct (decide (x = k)) as [->|Hx].
      * rewrite list_lookup_insert by (rewrite vresize_length; lia). done.
      * rewrite list_lookup_insert_ne, vresize_lookup by (done || lia).
        destruct (decide (x < length b)); [done|]. rewrite (lookup_ge_None_2 b) by lia. by destruct (decide _).
    + exists b. split; [done|]. intros x. destruct (decide (x = k)) as [->|]; [|done]. unfold bv_get. by rewrite lookup_ge_None_2.
  - rewrite vset_ok by lia. eexists. split; [done|]. intros x. unfold bv_get. destruct (decide (x = k)) as [->|Hx].
    + rewrite list_lookup_insert by lia. done.
    + by rewrite list_lookup_insert_ne.
Qed.
Lemma bv_take_ok b k : exists b', bv_take b k = Ok (b', bv_get b k) /\ forall x, bv_get b' x = tset (bv_get b) k false x.
Proof.
  unfold bv_take, tset. destruct (decide (k < length b)) as [H|H].
  - destruct (lookup_lt_is_Some_2 b k H) as [v Hv]. rewrite (b_vget _ _ _ _ Hv), b_vset by done. eexists.
    split; [unfold bv_get; by rewrite Hv|]. intros x. unfold bv_get. destruct (decide (x = k)) as [->|Hx].
    + rewrite list_lookup_insert by lia. done.
    + by rewrite list_lookup_insert_ne.
  - exists b. assert (bv_get b k = false) as E by (unfold bv_get; rewrite lookup_ge_None_2 by lia; done). rewrite E.
    split; [done|]. intros x. destruct (decide (x = k)) as [->|]; done.
Qed.
Lemma bv_step_ok b f o : (forall k, bv_get b k = f k) ->
  exists b', bv_step b o = Ok (b', (bspec_step f o).2) /\ forall k, bv_get b' k = (bspec_step f o).1 k.
Proof.
  intros S. destruct o as [k|k v|k|k|old new|a c]; cbn [bv_step bspec_step fst snd].
  - exists b. by rewrite S.
  - destruct (bv_set_ok b k v) as (b' & E & H). rewrite E, bind_Ok. exists b'. split; [done|]. intros x. rewrite H. unfold tset. by rewrite S.
  - destruct (bv_take_ok b k) as (b' & E & H). rewrite E, bind_Ok, S. exists b'. split; [done|]. intros x. rewrite H. unfold tset. by rewrite S.
  - unfold bv_remove. destruct (bv_take_ok b k) as (b' & E & H). rewrite E, !bind_Ok. exists b'. split; [done|]. intros x. rewrite H. unfold tset. by rewrite S.
  - unfold bv_rekey. destruct (bv_take_ok b old) as (b' & E & H). rewrite E, !bind_Ok. destruct new as [k|]; cbn [fst snd].
    + destruct (bv_set_ok b' k (bv_get b old)) as (b2 & E2 & H2). rewrite E2, !bind_Ok. exists b2. split; [done|].
      intros x. rewrite H2. unfold tset, trekey. cbn [fst snd]. rewrite S. destruct (decide (x = k)); [done|]. rewrite H. unfold tset. by rewrite S.
    + rewrite bind_Ok. exists b'. split; [done|]. intros x. rewrite H. unfold tset. by rewrite S.
  - unfold bv_swap. destruct (Bool.eqb (bv_get b a) (bv_get b c)) eqn:Eb; cbn [negb].
    + apply eqb_prop in Eb. rewrite bind_Ok. exists b. split; [done|]. intros x. unfold tswap. rewrite <- !S.
      destruct (decide (x = a)) as [->|]; [done|]. destruct (decide (x = c)) as [->|]; done.
    + destruct (bv_set_ok b a (bv_get b c)) as (b1 & E1 & H1). rewrite E1, !bind_Ok.
      destruct (bv_set_ok b1 c (bv_get b a)) as (b2 & E2 & H2). rewrite E2, !bind_Ok. exists b2. split; [done|].
      intros x. rewrite H2. unfold tset, tswap. rewrite H1. unfold tset. rewrite <- !S.
      destruct (decide (x = a)) as [->|]; destruct (decide (_ = c)) as [->|]; try done.
Qed.
Lemma hs_set_ok s k v x : hs_get (hs_set s k v) x = tset (hs_get s) k v x.
Proof.
  unfold hs_get, hs_set, tset. destruct (decide (x = k)) as [->|Hx]; destruct v.
  - apply bool_decide_true. set_solver.
  - apply bool_decide_false. set_solver.
  - apply bool_decide_ext. set_solver.
  - apply bool_decide_ext. set_solver.
Qed.
Lemma hs_step_ok s f o : (forall k, hs_get s k = f k) ->
  (hs_step s o).2 = (bspec_step f o).2 /\ forall k, hs_get (hs_step s o).1 k = (bspec_step f o).1 k.
Proof.
  intros S. assert (HT : forall k x, hs_get (hs_take s k).1 x = tset f k false x).
  { intros k x. unfold hs_take. cbn [fst]. change (s ∖ {[k]}) with (hs_set s k false). rewrite hs_set_ok. unfold tset. by rewrite S. }
  destruct o as [k|k v|k|k|old new|a c]; cbn [hs_step bspec_step fst snd].
  - by rewrite S.
  - split; [done|]. intros x. rewrite hs_set_ok. unfold tset. by rewrite S.
  - cbn. split; [by rewrite <- S|]. intros x. apply HT.
  - split; [done|]. intros x. apply HT.
  - unfold hs_rekey. cbn [hs_take]. destruct new as [k|]; cbn [fst snd]; (split; [done|]); intros x.
    + rewrite hs_set_ok. unfold trekey. unfold tset at 1. fold (hs_get s old). rewrite S. destruct (decide (x = k)); [done|]. apply HT.
    + apply HT.
  - split; [done|]. intros x. unfold hs_swap. rewrite hs_set_ok. unfold tset at 1. rewrite hs_set_ok. unfold tset, tswap. rewrite !S.
    destruct (decide (x = a)) as [->|]; destruct (decide (_ = c)) as [->|]; try done.
Qed.

Lemma C35_bool_maps_pf :
  forall ops,
    (exists b rs, bv_run [] ops = Ok (b, rs) /\ rs = (bspec_run (fun _ => false) ops).2 /\
       (forall k, bv_get b k = (bspec_run (fun _ => false) ops).1 k) /\
       StronglySorted lt (bv_iter b).*1 /\
       (forall k v, (k, v) ∈ bv_iter b <-> v = true /\ bv_get b k = true)) /\
    (exists s rs, hs_run ∅ ops = (s, rs) /\ rs = (bspec_run (fun _ => false) ops).2 /\
       (forall k, hs_get s k = (bspec_run (fun _ => false) ops).1 k) /\
       (forall l, hs_iter s l -> NoDup l.*1 /\ forall k v, (k, v) ∈ l <-> v = true /\ hs_get s k = true)).
Proof.
  intros ops. split.
  - assert (H : forall ops b f, (forall k, bv_get b k = f k) -> exists b' rs, bv_run b ops = Ok (b', rs) /\ rs = (bspec_run f ops).2 /\
      forall k, bv_get b' k = (bspec_run f ops).1 k).
    { clear. induction ops as [|o ops IH]; intros b f S.
      - by exists b, [].
      - cbn [bv_run bspec_run]. destruct (bv_step_ok b f o S) as (b1 & E1 & S1). rewrite E1, bind_Ok. destruct (bspec_step f o) as [f1 r1]. cbn [fst snd] in *.
        destruct (IH b1 f1 S1) as (b2 & rs & E2 & -> & S2). rewrite E2, bind_Ok. destruct (bspec_run f1 ops) as [f2 rs2]. by eexists _, _. }
    destruct (H ops [] (fun _ => false)) as (b & rs & E & Ers & S); [done|]. exists b, rs. split_and!; [done..| |].
    + unfold bv_iter. rewrite <- list_fmap_compose.
      change (fst ∘ (fun i : nat => (i, true))) with (fun i : nat => i). rewrite list_fmap_id. apply bv_ones_sorted.
    + intros k v. unfold bv_iter. rewrite elem_of_list_fmap. split.
      * intros (i & [= -> ->] & Hi%bv_ones_elem). rewrite Nat.sub_0_r in Hi. tauto.
      * intros [-> Hk]. exists k. split; [done|]. apply bv_ones_elem. rewrite Nat.sub_0_r. split; [lia|done].
  - assert (H : forall ops s f, (forall k, hs_get s k = f k) -> (hs_run s ops).2 = (bspec_run f ops).2 /\
      forall k, hs_get (hs_run s ops).1 k = (bspec_run f ops).1 k).
    { clear. induction ops as [|o ops IH]; intros s f S; [done|]. cbn [hs_run bspec_run].
      destruct (hs_step_ok s f o S) as (E1 & S1). destruct (hs_step s o) as [s1 r1], (bspec_step f o) as [f1 r1']. cbn [fst snd] in *. subst r1'.
      destruct (IH s1 f1 S1) as (E2 & S2). destruct (hs_run s1 ops) as [s2 rs], (bspec_run f1 ops) as [f2 rs']. cbn [fst snd] in *. by subst rs'. }
    destruct (H ops ∅ (fun _ => false)) as (E & S); [intros k; by apply bool_decide_false|].
    destruct (hs_run ∅ ops) as [s rs]. cbn [fst snd] in *. exists s, rs. split_and!; [done..|].
    intros l (ks & Hk & ->). split.
    + rewrite <- list_fmap_compose. change (fst ∘ (fun i : nat => (i, true))) with (fun i : nat => i). rewrite list_fmap_id.
      rewrite Hk. apply NoDup_elements.
    + intros k v. rewrite elem_of_list_fmap. unfold hs_get. rewrite bool_decide_eq_true. split.
      * intros (i & [= -> ->] & Hi). rewrite Hk in Hi. by apply elem_of_elements in Hi.
      * intros [-> Hin]. exists k. split; [done|]. rewrite Hk. by apply elem_of_elements.
Qed.
