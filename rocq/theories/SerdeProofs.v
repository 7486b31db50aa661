(** Proofs about serialization. *)
From Coq Require Import String.
From Verif Require Export SerdeSpec IndexProofs PGInv MultiInv.
From Verif Require Import PGObs MultiOps9.

(** ** Decoders do not see the order of the members *)
Definition blind {A} (d : jval -> dres A) : Prop := forall v w, same_doc v w -> d v = d w.

Lemma kv_In k l x : NoDup (filter (fun k' => k' = k) l.*1) -> (k, x) ∈ l -> key_value k l = Some x.
Proof.
  unfold key_value. induction l as [|[k' y] l IH]; [by intros _ ?%elem_of_nil|].
  intros Hn Hin. cbn in Hn. rewrite !filter_cons in *. cbn. cbn in Hn.
  destruct (decide (k' = k)) as [->|N].
  - apply NoDup_cons in Hn as [N _]. apply elem_of_cons in Hin as [[=->]|Hin]; [done|].
    exfalso. apply N. apply elem_of_list_filter. split; [done|]. apply elem_of_list_fmap. by exists (k, x).
  - apply IH; [done|]. by apply elem_of_cons in Hin as [[=-> ->]|].
Qed.
Lemma kv_None k l : (forall x, (k, x) ∉ l) -> key_value k l = None.
Proof.
  intros H. unfold key_value. destruct (filter _ l) as [|[k' x] r] eqn:E; [done|]. exfalso.
  assert (Hin : (k', x) ∈ filter (fun x => x.1 = k) l) by (rewrite E; left).
  apply elem_of_list_filter in Hin as [Hk Hin]. cbn in Hk. subst. by eapply H.
Qed.
Lemma kv_Some k l x : key_value k l = Some x -> (k, x) ∈ l.
Proof.
  unfold key_value. destruct (filter _ l) as [|[k' y] r] eqn:E; [done|]. cbn. intros [=->].
  assert (Hin : (k', x) ∈ filter (fun x => x.1 = k) l) by (rewrite E; left).
  apply elem_of_list_filter in Hin as [Hk Hin]. cbn in Hk. by subst.
Qed.
Lemma nodup_key (names : list string) k (l : list string) : k ∈ names -> NoDup (filter (fun k => k ∈ names) l) ->
  NoDup (filter (fun k' => k' = k) l).
Proof.
  intros Hk. induction l as [|a l IH]; [done|]. rewrite !filter_cons. intros Hn.
  destruct (decide (a = k)) as [->|N].
  - rewrite decide_True in Hn by done. apply NoDup_cons in Hn as [N Hn]. apply NoDup_cons. split; [|by apply IH].
    intros Hin. apply N. apply elem_of_list_filter. apply elem_of_list_filter in Hin. tauto.
  - apply IH. destruct (decide (a ∈ names)); [by apply NoDup_cons in Hn as [_ Hn]|done].
Qed.
Lemma kv_perm (names : list string) k l l' : k ∈ names -> NoDup (filter (fun k => k ∈ names) l.*1) -> l ≡ₚ l' ->
  key_value k l = key_value k l'.
Proof.
  intros Hk Hn HP. pose proof (nodup_key _ _ _ Hk Hn) as Hn1.
  assert (Hn2 : NoDup (filter (fun k' => k' = k) l'.*1)) by (rewrite <- HP; done).
  destruct (key_value k l) as [x|] eqn:E.
  - symmetry. apply kv_In; [done|]. rewrite <- HP. by apply kv_Some.
  - symmetry. apply kv_None. intros x Hx. rewrite <- HP in Hx. by rewrite (kv_In k l x) in E.
Qed.
Lemma kv_cong k l l' : Forall2 (fun x y : string * jval => x.1 = y.1 /\ same_doc x.2 y.2) l l' ->
  option_Forall2 same_doc (key_value k l) (key_value k l').
Proof.
  unfold key_value. induction 1 as [|[k1 x] [k2 y] l l' [Hk Hs] HF IH]; [constructor|].
  cbn in Hk, Hs. subst. rewrite !filter_cons. cbn. destruct (decide (k2 = k)); [cbn; by constructor|done].
Qed.

Lemma keys_cong l l' : Forall2 (fun x y : string * jval => x.1 = y.1 /\ same_doc x.2 y.2) l l' -> l.*1 = l'.*1.
Proof. induction 1 as [|x y l l' [Hk _] _ IH]; [done|]. cbn. by rewrite Hk, IH. Qed.

Lemma fields_same names v w : same_doc v w ->
  match fields names v, fields names w with
  | Some l, Some l' => Forall2 (option_Forall2 same_doc) l l'
  | None, None => True
  | _, _ => False
  end.
Proof.
  intros [u|l l' HF|l l' l'' HF HP].
  - destruct (fields names u) as [l|]; [|done]. apply Forall_Forall2_diag, Forall_forall.
    intros [x|] _; constructor. constructor.
  - unfold fields. rewrite <- (Forall2_length _ _ _ HF). destruct (decide _); [|done].
    apply Forall2_fmap. eapply Forall2_impl; [exact HF|]. intros ?? ?. by constructor.
  - unfold fields. rewrite (keys_cong _ _ HF).
    assert (Hiff : NoDup (filter (fun k => k ∈ names) l'.*1) <-> NoDup (filter (fun k => k ∈ names) l''.*1))
      by (by rewrite HP).
    destruct (decide (NoDup (filter (fun k => k ∈ names) l'.*1))) as [Hn|Hn],
      (decide (NoDup (filter (fun k => k ∈ names) l''.*1))) as [Hn'|Hn']; try tauto.
    apply Forall2_fmap. apply Forall_Forall2_diag, Forall_forall. intros k Hk.
    rewrite <- (kv_perm names k l' l'') by done. by apply kv_cong.
Qed.
(** The fields of a serialized struct *)
Lemma fields_ser named names vals w : NoDup names -> length vals = length names ->
  same_doc (ser_struct named names vals) w -> exists l, fields names w = Some (Some <$> l) /\ Forall2 same_doc vals l.
Proof.
  intros Hn Hl Hs. assert (E : fields names (ser_struct named names vals) = Some (Some <$> vals)).
  { destruct named; cbn -[filter]; [|by rewrite decide_True].
    assert (Ek : (zip names vals).*1 = names) by (apply fst_zip; lia). rewrite Ek.
    rewrite decide_True by by apply NoDup_filter. f_equal.
    apply list_eq. intros i. rewrite !list_lookup_fmap. destruct (names !! i) as [k|] eqn:Ei; cbn.
    - assert (Hi : i < length vals) by (rewrite Hl; by eapply lookup_lt_Some).
      apply lookup_lt_is_Some in Hi as [x Hx]. rewrite Hx. cbn. f_equal. apply kv_In.
      + rewrite Ek. by apply NoDup_filter.
      + apply elem_of_list_lookup. exists i. rewrite lookup_zip_with, Ei, Hx. done.
    - apply lookup_ge_None in Ei. by rewrite (lookup_ge_None_2 vals) by lia. }
  pose proof (fields_same names _ _ Hs) as H. rewrite E in H. destruct (fields names w) as [l|]; [|done].
  exists (omap id l). assert (HF : forall vals l, Forall2 (option_Forall2 same_doc) (Some <$> vals) l ->
    l = Some <$> omap id l /\ Forall2 same_doc vals (omap id l)).
  { clear. intros vals. induction vals as [|x vals IH]; intros l H; cbn in H; inversion H as [|? y ? l' Hxy HF]; subst; [split; [done|constructor]|].
    inversion Hxy; subst. cbn. destruct (IH _ HF) as [E1 E2]. split; [by f_equal|by constructor]. }
  destruct (HF _ _ H) as [E1 E2]. split; [by f_equal|done].
Qed.

(** ** Round trips *)
Lemma sd_atom v w : same_doc v w -> (forall l, v <> JArr l) -> (forall l, v <> JObj l) -> w = v.
Proof. intros [u|l l' HF|l l' l'' HF HP] H1 H2; [done|by destruct (H1 l)|by destruct (H2 l)]. Qed.
Lemma sd_num n w : same_doc (JNum n) w -> w = JNum n.
Proof. intros H. by apply sd_atom in H. Qed.
Lemma sd_null w : same_doc JNull w -> w = JNull.
Proof. intros H. by apply sd_atom in H. Qed.
Lemma sd_arr_inv l w : same_doc (JArr l) w -> exists l', w = JArr l' /\ Forall2 same_doc l l'.
Proof.
  intros H. inversion H; subst; [|eauto]. exists l. split; [done|].
  apply Forall_Forall2_diag, Forall_forall. intros; constructor.
Qed.

Lemma rt_vec {A} (P : A -> Prop) s d : round_trip P s d -> round_trip (Forall P) (fun l => JArr (s <$> l)) (de_vec d).
Proof.
  intros H l v HP (l' & -> & HF)%sd_arr_inv. cbn. revert l' HF. induction HP as [|a l Ha HP IH]; intros l' HF.
  - by inversion HF.
  - inversion HF as [|? y ? l'' Hxy HF']; subst. cbn. rewrite (H a y Ha Hxy). cbn. by rewrite (IH l'' HF').
Qed.
Lemma rt_mono {A} (P Q : A -> Prop) s d : (forall a, Q a -> P a) -> round_trip P s d -> round_trip Q s d.
Proof. intros HPQ H a v Ha Hv. by apply H; [apply HPQ|]. Qed.

Lemma w32 : (1 < 32)%N. Proof. lia. Qed.
Lemma bmi32 : bf_max_index 32 = max_index. Proof. done. Qed.
Lemma de_uint_ok w n : (n < 2 ^ w)%N -> de_uint w (JNum n) = DOk n.
Proof. intros H. cbn. by rewrite (proj2 (N.ltb_lt _ _) H). Qed.
Lemma de_uint_num w n : de_uint w (JNum n) = DOk n \/ de_uint w (JNum n) = DErr.
Proof. unfold de_uint. destruct (n <? 2 ^ w)%N; auto. Qed.
Lemma rt_nat w : round_trip (fun n => (N.of_nat n < 2 ^ w)%N) ser_nat (de_nat w).
Proof.
  intros n v Hn ->%sd_num. unfold de_nat. rewrite de_uint_ok by done. cbn. by rewrite Nat2N.id.
Qed.

(** Indices of any width *)
Lemma rt_ix w : (1 < w <= 64)%N -> round_trip (fun x => (x <= ix_max_index w)%N) (ser_ix w) (de_ix w).
Proof.
  intros Hw x v Hx ->%sd_num. assert (Hw1 : (1 < w)%N) by lia.
  assert (Ei : ix_index w x = x).
  { pose proof (pack_index_unchecked w Hw1 x false Hx) as E. unfold pack in E. by rewrite N.add_0_r in E || exact E. }
  assert (Hlt : (x < 2 ^ 64)%N).
  { pose proof (pack_lt w Hw1 x false Hx) as E. rewrite <- (pow_w w Hw1) in E.
    assert (2 ^ w <= 2 ^ 64)%N by (apply N.pow_le_mono_r; lia). unfold pack in E. lia. }
  unfold de_ix. rewrite Ei, de_uint_ok by done. cbn. unfold ix_new.
  pose proof (bf_new_pack w Hw1 x false Hx) as E. unfold pack in E. by rewrite E.
Qed.

Lemma ser_ix_atom w x v : same_doc (ser_ix w x) v -> v = ser_ix w x.
Proof. apply sd_num. Qed.
(** Optional indices *)
Lemma rt_mi w : (1 < w <= 64)%N ->
  round_trip (fun x => x = bf_none w \/ (x <= ix_max_index w)%N) (ser_mi w) (de_mi w).
Proof.
  intros Hw x v Hx Hs. assert (Hw1 : (1 < w)%N) by lia. unfold ser_mi, mi_to_option in Hs.
  destruct Hx as [->|Hx].
  - unfold bf_is_none in Hs. rewrite N.eqb_refl in Hs. apply sd_null in Hs as ->. done.
  - pose proof (pack_not_none w Hw1 x false Hx) as E. change (pack w x false) with x in E. rewrite E in Hs.
    pose proof (rt_ix w Hw x v Hx Hs) as Ed. apply ser_ix_atom in Hs as ->. unfold de_mi, ser_ix in *.
    rewrite Ed. cbn. by rewrite E.
Qed.
Lemma rt_idx : round_trip (fun i => (N.of_nat i <= max_index)%N) ser_idx de_idx.
Proof.
  intros i v Hi Hs. unfold de_idx. rewrite (rt_ix 32 ltac:(lia) (N.of_nat i) v Hi Hs). cbn. by rewrite Nat2N.id.
Qed.
Lemma rt_midx : round_trip opt_fits ser_midx de_midx.
Proof.
  intros o v Ho Hs. unfold de_midx. erewrite (rt_mi 32 ltac:(lia) _ v); [|..|exact Hs].
  - cbn. unfold mi_to_option. destruct o as [i|].
    + pose proof (pack_not_none 32 w32 (N.of_nat i) false (Ho i eq_refl)) as E.
      change (pack 32 (N.of_nat i) false) with (N.of_nat i) in E. rewrite E. cbn. by rewrite Nat2N.id.
    + done.
  - destruct o as [i|]; [right; by apply Ho|by left].
Qed.
Lemma rt_dir : round_trip (fun _ => True) ser_dir de_dir.
Proof. intros [] v _ Hs; apply sd_atom in Hs as ->; done. Qed.
Lemma rt_bool : round_trip (fun _ => True) JBool de_bool.
Proof. intros b v _ Hs; apply sd_atom in Hs as ->; done. Qed.

Ltac de_fields H :=
  let l := fresh "l" in let E := fresh "E" in let HF := fresh "HF" in
  apply fields_ser in H as (l & E & HF); [|vm_compute; repeat constructor; set_solver|done];
  repeat match goal with
  | HF : Forall2 _ (_ :: _) _ |- _ =>
      let Hx := fresh "Hd" in inversion HF as [|? ? ? ? Hx ?]; subst; clear HF
  | HF : Forall2 _ [] _ |- _ => inversion HF; subst; clear HF
  end;
  rewrite E; cbn [fmap list_fmap field ofield].

Lemma rt_po w x named d i v : (1 < w <= 64)%N -> (i <= po_max_offset w)%N -> po_new w d i = Ok x ->
  exists u, ser_po named w x = Ok u /\ (same_doc u v -> de_po w v = DOk x).
Proof.
  intros Hw Hi Hn. assert (Hw1 : (1 < w)%N) by lia. pose proof Hn as Hn'. unfold po_new in Hn'.
  rewrite (bf_new_pack w Hw1 i _ Hi) in Hn'. injection Hn' as <-.
  unfold ser_po, po_index, po_direction. rewrite (pack_index w Hw1) by done. rewrite (pack_flag w Hw1) by done. cbn [unwrap mbind res_bind].
  eexists; split; [done|]. intros Hs. unfold de_po. de_fields Hs.
  rewrite (sd_num _ _ Hd). rewrite de_uint_ok.
  2: { pose proof (pack_lt w Hw1 i false Hi) as E'. rewrite <- (pow_w w Hw1) in E'.
       assert (2 ^ w <= 2 ^ 64)%N by (apply N.pow_le_mono_r; lia). unfold pack in E'. lia. }
  cbn [mbind dres_bind]. rewrite (rt_dir _ _ I Hd0). cbn.
  replace (if bool_decide (d = Outgoing) then Outgoing else Incoming) with d by by destruct d. by rewrite Hn.
Qed.
Lemma rt_nm named : round_trip (fun m => (N.of_nat (nm_first m) <= max_index)%N /\
  (N.of_nat (nm_inc m) <= 65534)%N /\ (N.of_nat (nm_out m) <= 65535)%N /\ (N.of_nat (nm_cap m) <= 65535)%N) (ser_nm named) de_nm.
Proof.
  intros [a b c d] v (H1 & H2 & H3 & H4) Hs. cbn in *. unfold de_nm. de_fields Hs.
  rewrite (rt_idx _ _ H1 Hd). cbn [mbind dres_bind]. rewrite (sd_num _ _ Hd0). unfold de_nonzero.
  rewrite de_uint_ok by (change (2 ^ 16)%N with 65536%N; lia). cbn [mbind dres_bind].
  destruct (N.eqb_spec (N.of_nat (b + 1)) 0); [lia|]. cbn [mbind dres_bind].
  rewrite (rt_nat 16 _ _ (ltac:(change (2 ^ 16)%N with 65536%N; lia) : (N.of_nat c < 2 ^ 16)%N) Hd1). cbn [mbind dres_bind].
  rewrite (rt_nat 16 _ _ (ltac:(change (2 ^ 16)%N with 65536%N; lia) : (N.of_nat d < 2 ^ 16)%N) Hd2). cbn [mbind dres_bind].
  do 2 f_equal. lia.
Qed.
Definition ne_fits (e : node_entry) : Prop :=
  match e with
  | NFree a b => opt_fits a /\ opt_fits b
  | NNode m => (N.of_nat (nm_first m) <= max_index)%N /\
      (N.of_nat (nm_inc m) <= 65534)%N /\ (N.of_nat (nm_out m) <= 65535)%N /\ (N.of_nat (nm_cap m) <= 65535)%N
  end.
Lemma sd_single k x v : same_doc (JObj [(k, x)]) v -> exists y, v = JObj [(k, y)] /\ same_doc x y.
Proof.
  intros H. inversion H as [| |? l' l'' HF HP]; subst.
  - exists x. split; [done|constructor].
  - inversion HF as [|? [k' y] ? ? [Hk Hs] HF']; subst. inversion HF'; subst. cbn in *. subst.
    apply Permutation_singleton_l in HP. subst. eauto.
Qed.
Lemma rt_ne named : round_trip ne_fits (ser_ne named) de_ne.
Proof.
  intros [a b|m] v Hf Hs; cbn in Hs; apply sd_single in Hs as (y & -> & Hs); cbn [de_ne].
  - destruct Hf as [Ha Hb]. rewrite decide_True by done. unfold de_fn. unfold ser_fn in Hs. de_fields Hs.
    rewrite (rt_midx _ _ Ha Hd). cbn [mbind dres_bind]. by rewrite (rt_midx _ _ Hb Hd0).
  - rewrite decide_False by done. rewrite decide_True by done. by rewrite (rt_nm named _ _ Hf Hs).
Qed.
Definition pe_fits (e : port_entry) : Prop := match e with PFree => True | PPort n d => (N.of_nat n <= max_index)%N end.
Lemma rt_pe : round_trip pe_fits ser_pe de_pe.
Proof.
  intros [|n d] v Hf Hs; cbn in Hs; [by apply sd_null in Hs as ->|]. apply sd_num in Hs as ->.
  unfold de_pe, de_nonzero. pose proof (pmeta_new_nonzero (N.of_nat n) d Hf) as [H1 H2]. rewrite de_uint_ok by done.
  cbn [mbind dres_bind]. destruct (N.eqb_spec (pmeta_new (N.of_nat n) d) 0); [lia|]. cbn [mbind dres_bind].
  rewrite pmeta_direction_new by done. pose proof (pmeta_node_new (N.of_nat n) d Hf) as E.
  unfold pmeta_node in E. destruct (N.leb_spec 1 (N.land (pmeta_new (N.of_nat n) d) pmeta_mask)) as [Hl|]; [|done].
  unfold ix_new, bf_new, from_usize in E. destruct (_ <=? _)%N; [|done]. cbn [mbind res_bind] in E. injection E as E.
  unfold max_index, pe_fits in Hf. change (2 ^ 32)%N with 4294967296%N.
  assert (Ex : N.land (pmeta_new (N.of_nat n) d) pmeta_mask = (N.of_nat n + 1)%N) by lia. rewrite Ex.
  do 2 f_equal. unfold max_index in Hf. lia.
Qed.
Record pg_fits (g : pg) : Prop := {
  pf_nodes : Forall ne_fits (pg_nodes g);
  pf_link : Forall opt_fits (pg_link g);
  pf_pmeta : Forall pe_fits (pg_pmeta g);
  pf_nfree : opt_fits (pg_nfree g);
  pf_pfree : Forall opt_fits (pg_pfree g);
  pf_nc : (N.of_nat (pg_ncount g) < 2 ^ 64)%N;
  pf_pc : (N.of_nat (pg_pcount g) < 2 ^ 64)%N;
  pf_lc : (N.of_nat (pg_lcount g) < 2 ^ 64)%N;
}.
Lemma rt_pg named : round_trip pg_fits (ser_pg named) de_pg.
Proof.
  intros g v [H1 H2 H3 H4 H5 H6 H7 H8] Hs. unfold de_pg. unfold ser_pg in Hs. de_fields Hs.
  rewrite (rt_vec _ _ _ (rt_ne named) _ _ H1 Hd). cbn [mbind dres_bind].
  rewrite (rt_vec _ _ _ rt_midx _ _ H2 Hd0). cbn [mbind dres_bind].
  rewrite (rt_vec _ _ _ rt_pe _ _ H3 Hd1). cbn [mbind dres_bind].
  rewrite (rt_midx _ _ H4 Hd2). cbn [mbind dres_bind].
  rewrite (rt_vec _ _ _ rt_midx _ _ H5 Hd3). cbn [mbind dres_bind].
  rewrite (rt_nat 64 _ _ H6 Hd4), (rt_nat 64 _ _ H7 Hd5), (rt_nat 64 _ _ H8 Hd6). cbn [mbind dres_bind].
  rewrite (sd_null _ Hd7). cbn. by destruct g.
Qed.

(** ** Everything a graph stores fits its type *)
Lemma card_le (P : nat -> Prop) n L : (forall x, P x -> x < L) -> card P n -> n <= L.
Proof.
  intros H HP. destruct (card_minus (fun x => 0 <= x < 0 + L) P L n) as [? _]; [|apply card_seq|done|done].
  intros x Hx. apply H in Hx. lia.
Qed.
Lemma opt_fits_le o L : (forall i, o = Some i -> i < L) -> (N.of_nat L <= max_index + 1)%N -> opt_fits o.
Proof. intros H HL i Hi. apply H in Hi. lia. Qed.
Lemma inv_fits g : Inv g -> pg_fits g.
Proof.
  intros (fnl & F & [Hlen [Hm Hp] [S1 S2 S3 S4 S5] [C1 C2] [L1 L2] [N1 N2 N3 N4] (K1 & K2 & K3) Hn Hps]).
  assert (HFb : forall k i p, F k !! i = Some p -> p < length (pg_pmeta g)).
  { intros k i p Hi. apply elem_of_list_lookup_2, S4 in Hi. lia. }
  assert (Hfn : forall i n, fnl !! i = Some n -> n < length (pg_nodes g)).
  { intros i n Hi. apply elem_of_list_lookup_2, N3 in Hi as [[a b] Hi]. apply nfree_Some in Hi. by eapply lookup_lt_Some. }
  assert (Hpl : forall p q, plink g p = Some q -> q < length (pg_pmeta g)).
  { intros p q Hq. destruct (pmeta g p) as [[n d]|] eqn:Ep.
    - destruct (L1 _ _ _ _ Ep Hq) as [_ [n' Hq']]. by eapply pmeta_lt.
    - destruct (decide (Exists (fun k => p ∈ F k) (seq 0 (length (pg_pfree g))))) as [(k & _ & [i Hi]%elem_of_list_lookup)%Exists_exists|Hno].
      + rewrite (C2 _ _ _ Hi) in Hq. by eapply HFb.
      + rewrite L2 in Hq; [done|done|]. intros k Hk. apply Hno. apply Exists_exists. exists k. split; [|done]. apply elem_of_seq.
        destruct (decide (k < length (pg_pfree g))) as [|Hge]; [lia|]. exfalso.
        pose proof (C1 k) as C. rewrite (lookup_ge_None_2 (pg_pfree g)) in C by lia. cbn in C.
        destruct (F k); [by apply elem_of_nil in Hk|done]. }
  assert (H64 : (2147483647 < 2 ^ 64)%N) by done. unfold max_index in *.
  constructor.
  - apply Forall_forall. intros e [n Hn']%elem_of_list_lookup. destruct e as [a b|m]; cbn.
    + assert (E : nfree g n = Some (a, b)) by (unfold nfree; by rewrite Hn').
      pose proof (proj2 (N3 n) (ex_intro _ _ E)) as [i Hi]%elem_of_list_lookup.
      pose proof (N4 _ _ Hi) as E2. rewrite E in E2. injection E2 as Ea Eb.
      split; (eapply opt_fits_le; [|exact Hn]); intros j Hj; subst.
      * destruct i as [|i]; [done|]. by eapply Hfn.
      * by eapply Hfn.
    + assert (E : nmeta g n = Some m) by (unfold nmeta; by rewrite Hn').
      destruct (Hm _ _ E) as (M1 & M2 & M3 & M4 & M5). unfold max_index.
      destruct (decide (nm_cap m = 0)) as [Hz|Hz]; [rewrite (M2 Hz)|]; lia.
  - apply Forall_forall. intros o [p Hp']%elem_of_list_lookup. eapply opt_fits_le; [|exact Hps].
    intros q ->. apply (Hpl p). unfold plink. by rewrite Hp'.
  - apply Forall_forall. intros e [p Hp']%elem_of_list_lookup. destruct e as [|n d]; [done|]. cbn.
    assert (E : pmeta g p = Some (n, d)) by (unfold pmeta; by rewrite Hp').
    apply Hp in E as (m & E & _). apply nmeta_lt in E. unfold max_index. lia.
  - eapply opt_fits_le; [|exact Hn]. intros i Hi. rewrite N1 in Hi. by eapply Hfn.
  - apply Forall_forall. intros o [k Hk]%elem_of_list_lookup. eapply opt_fits_le; [|exact Hps].
    intros q ->. pose proof (C1 k) as C. rewrite Hk in C. by eapply HFb.
  - apply (card_le _ _ (length (pg_nodes g))) in K1; [lia|].
    intros x Hx. destruct (nmeta g x) eqn:E; [by eapply nmeta_lt|done].
  - apply (card_le _ _ (length (pg_pmeta g))) in K2; [lia|].
    intros x Hx. destruct (pmeta g x) eqn:E; [by eapply pmeta_lt|done].
  - apply (card_le _ _ (length (pg_pmeta g))) in K3; [lia|].
    intros x [[n Hx] _]. by eapply pmeta_lt.
Qed.
Lemma reach_fits w g : reach w g -> pg_fits g.
Proof. intros H. by eapply inv_fits, reach_inv. Qed.

Lemma rt_mpg named w : (2 < w <= 63)%N -> round_trip (mreach w) (ser_mpg named) de_mpg.
Proof.
  intros Hw m v Hm Hs. pose proof (mreach_minv w Hw m Hm) as I. pose proof (mi_reach _ _ _ I) as R.
  pose proof (reach_fits _ _ R) as Hf. pose proof (reach_inv _ _ R) as (fnl & F & J).
  pose proof (i_nsize _ _ _ J) as Hn. pose proof (i_psize _ _ _ J) as Hp.
  assert (H64 : (2147483647 < 2 ^ 64)%N) by done. unfold max_index in *.
  assert (Hcc : (N.of_nat (m_ccount m) < 2 ^ 64)%N).
  { pose proof (mi_cc _ _ _ I) as C. apply (card_le _ _ (length (pg_nodes (m_graph m)))) in C; [lia|].
    intros c Hc. destruct (mi_copy _ _ _ I c Hc) as (q & d & E & _). unfold ports in E.
    destruct (nmeta (m_graph m) c) eqn:En; [by eapply nmeta_lt|done]. }
  assert (Hsc : (N.of_nat (m_scount m) < 2 ^ 64)%N).
  { pose proof (mi_sc _ _ _ I) as C. apply (card_le _ _ (length (pg_pmeta (m_graph m)))) in C; [lia|].
    intros s (c & d & E & _). by eapply pmeta_lt. }
  unfold ser_mpg in Hs. unfold de_mpg. de_fields Hs.
  rewrite (rt_pg named _ _ Hf Hd). cbn [mbind dres_bind].
  rewrite (rt_vec _ _ _ rt_bool _ _ (ltac:(by apply Forall_forall) : Forall (fun _ => True) (m_multi m)) Hd0). cbn [mbind dres_bind].
  rewrite (rt_vec _ _ _ rt_bool _ _ (ltac:(by apply Forall_forall) : Forall (fun _ => True) (m_copy m)) Hd1). cbn [mbind dres_bind].
  rewrite (rt_nat 64 _ _ Hcc Hd2), (rt_nat 64 _ _ Hsc Hd3). cbn. by destruct m.
Qed.
Lemma rt_sp named : round_trip (fun s => (N.of_nat s.1 <= max_index)%N /\ (N.of_nat s.2 < 65536)%N) (ser_sp named) de_sp.
Proof.
  intros [p k] v [H1 H2] Hs. unfold ser_sp in Hs. unfold de_sp. de_fields Hs. cbn in *.
  rewrite (rt_idx _ _ H1 Hd). cbn [mbind dres_bind]. by rewrite (rt_nat 16 _ _ H2 Hd0).
Qed.
Lemma rt_um {A} (P : A -> Prop) s d named : round_trip P s d ->
  round_trip (fun m => Forall P (um_data m) /\ P (um_default m)) (ser_um s named) (de_um d).
Proof.
  intros H m v [H1 H2] Hs. unfold ser_um in Hs. unfold de_um. de_fields Hs.
  rewrite (rt_vec _ _ _ H _ _ H1 Hd). cbn [mbind dres_bind]. rewrite (sd_null _ Hd0). cbn [de_unit mbind dres_bind].
  rewrite (H _ _ H2 Hd1). cbn. by destruct m.
Qed.
Lemma rt_w {A B} (P : A -> Prop) (Q : B -> Prop) sa da sb db named : round_trip P sa da -> round_trip Q sb db ->
  round_trip (fun x => (Forall P (um_data (w_nodes x)) /\ P (um_default (w_nodes x))) /\
                       (Forall Q (um_data (w_ports x)) /\ Q (um_default (w_ports x)))) (ser_w sa sb named) (de_w da db).
Proof.
  intros H1 H2 x v [HA HB] Hs. unfold ser_w in Hs. unfold de_w. de_fields Hs.
  rewrite (rt_um _ _ _ named H1 _ _ HA Hd). cbn [mbind dres_bind].
  rewrite (rt_um _ _ _ named H2 _ _ HB Hd0). cbn. by destruct x.
Qed.
Lemma rt_pair {A} (P : A -> Prop) s d : round_trip P s d ->
  round_trip (fun x => P x.1 /\ P x.2) (fun x => JArr [s x.1; s x.2]) (de_pair d).
Proof.
  intros H [x y] v [H1 H2] (l & -> & HF)%sd_arr_inv. inversion HF as [|? a ? ? Ha HF1]; subst.
  inversion HF1 as [|? b ? ? Hb HF2]; subst. inversion HF2; subst. cbn in *.
  rewrite (H _ _ H1 Ha). cbn. by rewrite (H _ _ H2 Hb).
Qed.
Lemma rt_nd named : round_trip nd_fits (ser_nd named) de_nd.
Proof.
  intros [a b c p e f] v (H1 & H2 & H3 & H4 & H5 & H6) Hs. unfold ser_nd in Hs. unfold de_nd. cbn in *. de_fields Hs.
  rewrite (rt_pair _ _ _ rt_midx (a, b) _ (conj H1 H2) Hd). cbn [mbind dres_bind].
  rewrite (rt_nat 32 _ _ H6 Hd0). cbn [mbind dres_bind]. rewrite (rt_midx _ _ H3 Hd1). cbn [mbind dres_bind].
  by rewrite (rt_pair _ _ _ rt_midx (e, f) _ (conj H4 H5) Hd2).
Qed.
Lemma rt_h named : round_trip h_fits (ser_h named) de_h.
Proof.
  intros h v Hf Hs. unfold ser_h in Hs. unfold de_h. de_fields Hs. by apply (rt_um _ _ _ named (rt_nd named)).
Qed.

(** ** Small numbers do not make a decoder panic *)
Definition safe {A} (k : N) (d : jval -> dres A) : Prop := forall v, nums_le k v -> d v <> DPanic.
Lemma bind_safe {A B} (x : dres A) (f : A -> dres B) : x <> DPanic -> (forall a, f a <> DPanic) -> x ≫= f <> DPanic.
Proof. intros Hx Hf. destruct x; [apply Hf|discriminate|by destruct Hx]. Qed.
Lemma fields_safe k names v l : nums_le k v -> fields names v = Some l ->
  Forall (fun o => forall x, o = Some x -> nums_le k x) l.
Proof.
  intros Hv E. inversion Hv as [| | | |a Ha|a Ha|]; subst; try done.
  - cbn in E. destruct (decide _); [|done]. injection E as <-. apply Forall_fmap.
    eapply Forall_impl; [exact Ha|]. intros x Hx y [= <-]. done.
  - unfold fields in E. destruct (decide _); [|done]. injection E as <-. apply Forall_fmap, Forall_forall.
    intros k1 _ x Hx%kv_Some. rewrite Forall_forall in Ha. exact (Ha _ Hx).
Qed.
Lemma field_safe {A} k (d : jval -> dres A) o : safe k d -> (forall x, o = Some x -> nums_le k x) -> field d o <> DPanic.
Proof. intros Hd Ho. destruct o as [x|]; [|done]. by apply Hd, Ho. Qed.
Lemma ofield_safe {A} k (d : jval -> dres A) o : safe k d -> (forall x, o = Some x -> nums_le k x) -> ofield d o <> DPanic.
Proof. intros Hd Ho. destruct o as [x|]; apply Hd; [by apply Ho|constructor]. Qed.
Lemma uint_safe k w : safe k (de_uint w).
Proof. intros [] _; cbn; try done. by destruct (_ <? _)%N. Qed.
Lemma nat_safe k w : safe k (de_nat w).
Proof. intros v Hv. apply bind_safe; [by eapply uint_safe|done]. Qed.
Lemma nonzero_safe k w : safe k (de_nonzero w).
Proof. intros v Hv. apply bind_safe; [by eapply uint_safe|]. intros a. by destruct (_ =? _)%N. Qed.
Lemma bool_safe k : safe k de_bool. Proof. intros [] _; discriminate. Qed.
Lemma unit_safe k : safe k de_unit. Proof. intros [] _; discriminate. Qed.
Lemma dir_safe k : safe k de_dir.
Proof.
  assert (H : forall s, dir_named s <> DPanic) by (intros s; unfold dir_named; repeat destruct (decide _); done).
  intros v _. destruct v as [| | | | |l|]; cbn; try done. destruct l as [|[s []] []]; done.
Qed.
Lemma list_safe {A} k (d : jval -> dres A) l : safe k d -> Forall (nums_le k) l -> de_list d l <> DPanic.
Proof.
  intros Hd. induction 1 as [|v l Hv _ IH]; [done|]. cbn. apply bind_safe; [by apply Hd|]. intros a.
  by apply bind_safe.
Qed.
Lemma vec_safe {A} k (d : jval -> dres A) : safe k d -> safe k (de_vec d).
Proof. intros Hd v Hv. inversion Hv; subst; cbn; try done. by eapply list_safe. Qed.
Lemma pair_safe {A} k (d : jval -> dres A) : safe k d -> safe k (de_pair d).
Proof.
  intros Hd v Hv. inversion Hv as [| | | |l Hl|l Hl|]; subst; cbn; try done.
  destruct l as [|x [|y []]]; try done. apply Forall_cons in Hl as [Hx Hl]. apply Forall_cons in Hl as [Hy _].
  apply bind_safe; [by apply Hd|]. intros a. apply bind_safe; [by apply Hd|done].
Qed.
Lemma ix_safe w k : (1 < w)%N -> (k <= 2 ^ w - 1)%N -> safe k (de_ix w).
Proof.
  intros Hw Hk v Hv. inversion Hv as [| |n Hn| | | |]; subst; cbn; try done.
  destruct (_ <? _)%N; [|done]. cbn [mbind dres_bind]. rewrite (ix_new_eq w Hw). unfold umax.
  destruct (N.ltb_spec (2 ^ w - 1) n); [lia|done].
Qed.
Lemma mi_safe w k : (1 < w)%N -> (k <= 2 ^ w - 2)%N -> safe k (de_mi w).
Proof.
  intros Hw Hk v Hv. pose proof (pow_w w Hw). pose proof (h_ge w Hw).
  inversion Hv as [| |n Hn| | | |]; subst; cbn; try done.
  destruct (_ <? _)%N; [|done]. cbn [mbind dres_bind]. rewrite (ix_new_eq w Hw). unfold umax.
  destruct (N.ltb_spec (2 ^ w - 1) n); [lia|]. cbn [of_res mbind dres_bind mi_new].
  rewrite (is_none_eq w Hw). destruct (N.eqb_spec n (2 * 2 ^ (w - 1) - 1)); [lia|done].
Qed.
Lemma po_safe w k : (1 < w)%N -> (k <= 2 ^ w - 2)%N -> safe k (de_po w).
Proof.
  intros Hw Hk v Hv. pose proof (pow_w w Hw). pose proof (h_ge w Hw). unfold de_po.
  destruct (fields po_names v) as [l|] eqn:E; [|done].
  apply (fields_safe k) in E; [|done]. destruct l as [|i [|d []]]; try done.
  apply Forall_cons in E as [Hi E]. apply Forall_cons in E as [Hd _].
  destruct i as [i|]; [|done]. specialize (Hi i eq_refl). cbn [field].
  inversion Hi as [| |n Hn| | | |]; subst; cbn; try done. destruct (n <? _)%N; [|done]. cbn [mbind dres_bind].
  apply bind_safe; [by eapply field_safe; [apply dir_safe|exact Hd]|]. intros a.
  unfold po_new, bf_new, from_usize, umax. destruct (N.leb_spec n (2 ^ w - 1)); [|lia]. cbn [mbind res_bind].
  destruct (bool_decide _); [|done]. unfold bf_set_flag. rewrite (is_none_eq w Hw).
  destruct (N.eqb_spec n (2 * 2 ^ (w - 1) - 1)); [lia|done].
Qed.
Notation K32 := (2 ^ 32 - 2)%N.
Lemma idx_safe : safe K32 de_idx.
Proof. intros v Hv. apply bind_safe; [|done]. by eapply (ix_safe 32 K32). Qed.
Lemma midx_safe : safe K32 de_midx.
Proof. intros v Hv. apply bind_safe; [|done]. by eapply (mi_safe 32 K32). Qed.
Ltac safe_fields Hv :=
  match goal with |- context [fields ?n ?v] =>
    let E := fresh "E" in let l := fresh "l" in
    destruct (fields n v) as [l|] eqn:E; [|done]; apply (fields_safe _ _ _ _ Hv) in E;
    repeat (destruct l as [|? l]; try done);
    repeat (apply Forall_cons in E as [? E])
  end.
Ltac safe_step :=
  first [ done
        | apply bind_safe; [first [eapply field_safe; [eauto|eassumption] | eapply ofield_safe; [eauto|eassumption]]|intros ?] ].
Global Hint Resolve uint_safe nat_safe nonzero_safe bool_safe unit_safe vec_safe pair_safe idx_safe midx_safe : dsafe.
Lemma nm_safe : safe K32 de_nm.
Proof. intros v Hv. unfold de_nm. safe_fields Hv. repeat (apply bind_safe; [eapply field_safe; [eauto with dsafe|eassumption]|intros ?]). done. Qed.
Lemma fn_safe : safe K32 de_fn.
Proof. intros v Hv. unfold de_fn. safe_fields Hv. repeat (apply bind_safe; [eapply ofield_safe; [eauto with dsafe|eassumption]|intros ?]). done. Qed.
Lemma ne_safe : safe K32 de_ne.
Proof.
  intros v Hv. inversion Hv as [| | | |l Hl|l Hl|]; subst; try done. destruct l as [|[s x] []]; try done.
  apply Forall_cons in Hl as [Hx _]. cbn in Hx |- *. destruct (decide _); [by apply fn_safe|].
  destruct (decide _); [|done]. apply bind_safe; [by apply nm_safe|done].
Qed.
Lemma pe_safe k : safe k de_pe.
Proof.
  intros [|b|n|t|l|l|] Hv; [discriminate|discriminate| |discriminate|discriminate|discriminate|discriminate].
  unfold de_pe. apply bind_safe; [by eapply nonzero_safe|]. intros a. generalize (N.to_nat ((N.land a pmeta_mask + (2 ^ 32 - 1)) mod 2 ^ 32)). intros m H. discriminate H.
Qed.
Global Hint Resolve ne_safe pe_safe : dsafe.
Lemma pg_safe : safe K32 de_pg.
Proof.
  intros v Hv. unfold de_pg. safe_fields Hv.
  repeat (apply bind_safe; [first [eapply field_safe; [by eauto with dsafe|eassumption]|eapply ofield_safe; [by eauto with dsafe|eassumption]]|intros ?]). done.
Qed.
Global Hint Resolve pg_safe : dsafe.
Lemma mpg_safe : safe K32 de_mpg.
Proof. intros v Hv. unfold de_mpg. safe_fields Hv. repeat (apply bind_safe; [eapply field_safe; [by eauto with dsafe|eassumption]|intros ?]). done. Qed.
Lemma sp_safe : safe K32 de_sp.
Proof. intros v Hv. unfold de_sp. safe_fields Hv. repeat (apply bind_safe; [eapply field_safe; [by eauto with dsafe|eassumption]|intros ?]). done. Qed.
Lemma nd_safe : safe K32 de_nd.
Proof.
  intros v Hv. unfold de_nd. safe_fields Hv.
  repeat (apply bind_safe; [first [eapply field_safe; [by eauto with dsafe|eassumption]|eapply ofield_safe; [by eauto with dsafe|eassumption]]|intros ?]). done.
Qed.
Lemma um_safe {A} k (d : jval -> dres A) : safe k d -> safe k (de_um d).
Proof. intros Hd v Hv. unfold de_um. safe_fields Hv. repeat (apply bind_safe; [eapply field_safe; [by eauto with dsafe|eassumption]|intros ?]). done. Qed.
Lemma h_safe : safe K32 de_h.
Proof. intros v Hv. unfold de_h. safe_fields Hv. eapply field_safe; [apply um_safe, nd_safe|eassumption]. Qed.
