(** Proofs of the theorems of SerdeProps.v. *)
From Coq Require Import String.
From Verif Require Export SerdeProofs.
From Verif Require Import PGObs MultiOps9.

Lemma C118_index_round_trip_pf :
forall w, (1 < w <= 64)%N ->
  round_trip (fun x => (x <= ix_max_index w)%N) (ser_ix w) (de_ix w) /\
  round_trip (fun x => x = bf_none w \/ (x <= ix_max_index w)%N) (ser_mi w) (de_mi w) /\
  forall named d i x, (i <= po_max_offset w)%N -> po_new w d i = Ok x ->
    exists u, ser_po named w x = Ok u /\ forall v, same_doc u v -> de_po w v = DOk x.
Proof.
intros w Hw. split_and!; [by apply rt_ix|by apply rt_mi|]. intros named d i x Hi Hx.
destruct (rt_po w x named d i JNull Hw Hi Hx) as (u & Eu & _). exists u. split; [done|]. intros v.
destruct (rt_po w x named d i v Hw Hi Hx) as (u' & Eu' & H). rewrite Eu in Eu'. by injection Eu' as <-.
Qed.

Lemma C118_graph_round_trip_pf :
forall named,
  (forall w, round_trip (reach w) (ser_pg named) de_pg) /\
  (forall w, (2 < w <= 63)%N -> round_trip (mreach w) (ser_mpg named) de_mpg) /\
  round_trip (fun s => (N.of_nat s.1 <= max_index)%N /\ (N.of_nat s.2 < 65536)%N) (ser_sp named) de_sp.
Proof.
intros named. split_and!.
- intros w. eapply rt_mono; [|apply rt_pg]. intros g Hg. by eapply reach_fits.
- intros w Hw. by apply rt_mpg.
- apply rt_sp.
Qed.

Lemma C118_map_round_trip_pf :
forall named,
  (forall A (P : A -> Prop) s d, round_trip P s d ->
     round_trip (fun m => Forall P (um_data m) /\ P (um_default m)) (ser_um s named) (de_um d)) /\
  (forall A B (P : A -> Prop) (Q : B -> Prop) sa da sb db, round_trip P sa da -> round_trip Q sb db ->
     round_trip (fun x => (Forall P (um_data (w_nodes x)) /\ P (um_default (w_nodes x))) /\
                          (Forall Q (um_data (w_ports x)) /\ Q (um_default (w_ports x))))
       (ser_w sa sb named) (de_w da db)) /\
  round_trip h_fits (ser_h named) de_h.
Proof.
intros named. split_and!; [intros; by apply rt_um|intros; by apply rt_w|apply rt_h].
Qed.

Lemma C119_read_refuted_pf :
exists n v vm vh o k x,
  de_ix 32 (JNum n) = DPanic /\ de_pg v = DPanic /\ de_mpg vm = DPanic /\ de_h vh = DPanic /\
  de_po 16 o = DPanic /\ de_ix 32 (JNum k) = DOk x /\ ix_index 32 x = 0%N /\ (k > ix_max_index 32)%N.
Proof.
set (bad := JObj [("node_meta", JArr []); ("port_link", JArr [JNum (2 ^ 32)]); ("port_meta", JArr [JNull]);
  ("node_free", JNull); ("port_free", JArr []); ("node_count", JNum 0); ("port_count", JNum 0); ("link_count", JNum 0); ("_marker", JNull)]%string).
exists (2 ^ 32)%N, bad, (JObj [("graph", bad)]%string),
  (JObj [("data", JObj [("data", JArr [JObj [("children", JArr [JNum (2 ^ 32); JNull])]])])]%string),
  (JObj [("index", JNum (2 ^ 16)); ("direction", JStr "Incoming")]%string), (2 ^ 31)%N, (2 ^ 31)%N.
vm_compute. done.
Qed.

Lemma C119_read_partial_pf :
(forall w v, (1 < w)%N -> nums_le (2 ^ w - 2) v ->
   de_ix w v <> DPanic /\ de_mi w v <> DPanic /\ de_po w v <> DPanic) /\
(forall v, nums_le (2 ^ 32 - 2) v ->
   de_pg v <> DPanic /\ de_mpg v <> DPanic /\ de_h v <> DPanic /\ de_sp v <> DPanic) /\
(forall w n x, (1 < w)%N -> (n <= ix_max_index w)%N -> de_ix w (JNum n) = DOk x -> ix_index w x = n) /\
(forall w n x d i, (1 < w)%N -> de_po w n = DOk x -> fields po_names n = Some [Some (JNum i); Some (ser_dir d)] ->
   (i <= po_max_offset w)%N -> po_index w x = Ok i /\ po_direction w x = Ok d).
Proof.
split_and!.
- intros w v Hw Hv. split_and!; [eapply ix_safe; [done| |exact Hv]; lia|eapply mi_safe; [done| |exact Hv]; lia|eapply po_safe; [done| |exact Hv]; lia].
- intros v Hv. split_and!; [by apply pg_safe|by apply mpg_safe|by apply h_safe|by apply sp_safe].
- intros w n x Hw Hn E. unfold de_ix in E. destruct (de_uint_num 64 n) as [Eu|Eu]; rewrite Eu in E; [|done]. cbn [mbind dres_bind] in E.
  unfold ix_new in E. rewrite (bf_new_pack w Hw n false Hn) in E. injection E as <-. exact (pack_index_unchecked w Hw n false Hn).
- intros w n x d i Hw E Hf Hi. unfold de_po in E. rewrite Hf in E. cbn [field] in E.
  destruct (de_uint_num 64 i) as [Eu|Eu]; rewrite Eu in E; [|done]. cbn [mbind dres_bind] in E.
  rewrite (rt_dir d (ser_dir d) I (sd_refl _)) in E. cbn [mbind dres_bind] in E. unfold po_new in E.
  rewrite (bf_new_pack w Hw i _ Hi) in E. injection E as <-. unfold po_index, po_direction.
  rewrite (pack_index w Hw), (pack_flag w Hw) by done. cbn [unwrap mbind res_bind]. by destruct d.
Qed.

Lemma C120_read_usable_refuted_pf :
exists v g p, de_pg v = DOk g /\ contains_port g p = true /\ unlink_port g p = Panic /\ (forall w, ~ reach w g).
Proof.
exists (JObj [("node_meta", JArr [JObj [("n", JObj [("first_port", JNum 0); ("incoming", JNum 2); ("outgoing", JNum 0); ("capacity", JNum 1)])]]);
  ("port_link", JArr [JNum 5]); ("port_meta", JArr [JNum 1]);
  ("node_free", JNull); ("port_free", JArr []); ("node_count", JNum 1); ("port_count", JNum 1); ("link_count", JNum 0); ("_marker", JNull)]%string).
eexists _, 0. split; [vm_compute; reflexivity|]. split; [done|]. split; [done|].
intros w (fnl & F & I)%reach_inv. destruct (i_links _ _ _ I) as [L _].
destruct (L 0 5 0 Incoming) as [L1 _]; [done|done|]. done.
Qed.

Lemma C120_read_usable_partial_pf :
forall named,
  (forall w ops g v, hist w ops g -> same_doc (ser_pg named g) v -> exists g', de_pg v = DOk g' /\ hist w ops g') /\
  (forall w g g' , reach w g -> reach w g' -> same_doc (ser_pg named g) (ser_pg named g') -> g = g') /\
  (forall w m m', (2 < w <= 63)%N -> mreach w m -> mreach w m' -> same_doc (ser_mpg named m) (ser_mpg named m') -> m = m').
Proof.
intros named. split_and!.
- intros w ops g v Hh Hs. exists g. split; [|done]. apply (rt_pg named); [|done]. eapply reach_fits. by exists ops.
- intros w g g' Hg Hg' Hs. pose proof (rt_pg named g _ (reach_fits _ _ Hg) Hs) as E.
  rewrite (rt_pg named g' _ (reach_fits _ _ Hg') (sd_refl _)) in E. by injection E.
- intros w m m' Hw Hm Hm' Hs. pose proof (rt_mpg named w Hw m _ Hm Hs) as E.
  rewrite (rt_mpg named w Hw m' _ Hm' (sd_refl _)) in E. by injection E.
Qed.

Lemma dbind_inv {A B} (x : dres A) (f : A -> dres B) b : (x ≫= f) = DOk b -> exists a, x = DOk a /\ f a = DOk b.
Proof. destruct x; [eauto|discriminate|discriminate]. Qed.
Lemma filter_keys (names : list string) (l : list (string * jval)) :
  filter (fun k => k ∈ names) l.*1 = (filter (fun x => x.1 ∈ names) l).*1.
Proof.
  induction l as [|[k x] l IH]; [done|]. rewrite fmap_cons, !filter_cons. cbn [fst].
  destruct (decide (k ∈ names)); [rewrite fmap_cons; cbn [fst]; by rewrite IH|done].
Qed.
Lemma kv_filter (names : list string) k l : k ∈ names -> key_value k (filter (fun x => x.1 ∈ names) l) = key_value k l.
Proof.
  intros Hk. unfold key_value. f_equal. f_equal. induction l as [|[k' x] l IH]; [done|]. rewrite !filter_cons. cbn [fst].
  destruct (decide (k' ∈ names)) as [Hn|Hn]; [rewrite filter_cons; cbn [fst]; by rewrite IH|].
  rewrite (decide_False (P := k' = k)); [done|]. by intros ->.
Qed.
Lemma fields_only names l l' : filter (fun x => x.1 ∈ names) l = filter (fun x => x.1 ∈ names) l' -> fields names (JObj l) = fields names (JObj l').
Proof.
  intros E. unfold fields. rewrite !filter_keys, E. destruct (decide _); [|done]. f_equal. apply list_fmap_ext.
  intros i k Hk%elem_of_list_lookup_2. rewrite <- (kv_filter names k l), <- (kv_filter names k l') by done. by rewrite E.
Qed.
Lemma fields_twice names l k x y i j : k ∈ names -> i <> j -> l !! i = Some (k, x) -> l !! j = Some (k, y) -> fields names (JObj l) = None.
Proof.
  intros Hk Hij Hi Hj. unfold fields. rewrite decide_False; [done|]. intros Hn%(nodup_key _ _ _ Hk). clear Hk.
  revert i j Hij Hi Hj. induction l as [|[k' z] l IH]; intros i j Hij Hi Hj; [done|]. rewrite fmap_cons, filter_cons in Hn. cbn [fst] in Hn.
  assert (Hin : forall i x, l !! i = Some (k, x) -> k ∈ filter (fun k' => k' = k) l.*1).
  { intros i' x' Hx. apply elem_of_list_filter. split; [done|]. apply elem_of_list_fmap. exists (k, x'). split; [done|]. by eapply elem_of_list_lookup_2. }
  destruct i as [|i], j as [|j]; [done| | |].
  - cbn in Hi, Hj. injection Hi as -> _. rewrite decide_True in Hn by done. apply NoDup_cons in Hn as [Hn _]. apply Hn. by eapply Hin.
  - cbn in Hi, Hj. injection Hj as -> _. rewrite decide_True in Hn by done. apply NoDup_cons in Hn as [Hn _]. apply Hn. by eapply Hin.
  - cbn in Hi, Hj. apply (IH (ltac:(destruct (decide _); [by apply NoDup_cons in Hn as [_ Hn]|done])) i j); [lia|done|done].
Qed.
Lemma kv_missing k l : k ∉ l.*1 -> key_value k l = None.
Proof. intros H. apply kv_None. intros x Hx. apply H. apply elem_of_list_fmap. by exists (k, x). Qed.
Lemma kv_cons k k' x l : k' <> k -> key_value k ((k', x) :: l) = key_value k l.
Proof. intros H. unfold key_value. rewrite filter_cons. cbn [fst]. by rewrite decide_False. Qed.
Lemma kv_here k x l : key_value k ((k, x) :: l) = Some x.
Proof. unfold key_value. rewrite filter_cons. cbn [fst]. by rewrite decide_True. Qed.

Lemma C123_members_pf :
forall l : list (string * jval),
  (forall l', filter (fun x => x.1 ∈ pg_names) l = filter (fun x => x.1 ∈ pg_names) l' -> de_pg (JObj l) = de_pg (JObj l')) /\
  (forall l', filter (fun x => x.1 ∈ mpg_names) l = filter (fun x => x.1 ∈ mpg_names) l' -> de_mpg (JObj l) = de_mpg (JObj l')) /\
  ("node_free"%string ∉ l.*1 -> de_pg (JObj l) = de_pg (JObj (("node_free"%string, JNull) :: l))) /\
  (forall k i j x y, i <> j -> l !! i = Some (k, x) -> l !! j = Some (k, y) ->
     (k ∈ pg_names -> de_pg (JObj l) = DErr) /\ (k ∈ mpg_names -> de_mpg (JObj l) = DErr)) /\
  (forall k, k ∉ l.*1 ->
     (k ∈ pg_names -> k <> "node_free"%string -> forall g, de_pg (JObj l) <> DOk g) /\ (k ∈ mpg_names -> forall m, de_mpg (JObj l) <> DOk m)).
Proof.
intros l. split_and!.
- intros l' E. unfold de_pg. by rewrite (fields_only _ l l').
- intros l' E. unfold de_mpg. by rewrite (fields_only _ l l').
- intros Hl. unfold de_pg.
  assert (E : fields pg_names (JObj (("node_free"%string, JNull) :: l)) = (list_insert 3 (Some JNull) : list (option jval) -> list (option jval)) <$> fields pg_names (JObj l)).
  { unfold fields. rewrite fmap_cons, filter_cons. cbn [fst]. rewrite (decide_True (P := "node_free"%string ∈ pg_names)) by (cbn; set_solver).
    destruct (decide (NoDup (filter (fun k => k ∈ pg_names) l.*1))) as [Hn|Hn].
    - rewrite decide_True; [|constructor; [|done]; intros [_ Hx]%elem_of_list_filter; done].
      reflexivity.
    - rewrite decide_False; [done|]. by intros [_ Hx]%NoDup_cons. }
  rewrite E. unfold fields. destruct (decide _); [|done]. cbn [fmap option_fmap option_map]. unfold pg_names. cbn [fmap list_fmap list_insert].
  by rewrite (kv_missing "node_free" l Hl).
- intros k i j x y Hij Hi Hj. split; intros Hk; unfold de_pg, de_mpg; by rewrite (fields_twice _ _ _ _ _ _ _ Hk Hij Hi Hj).
- intros k Hl. pose proof (kv_missing k l Hl) as Hm. split.
  + intros Hk Hf g E. unfold de_pg, fields in E. destruct (decide _); [|discriminate E]. unfold pg_names in E, Hk. cbn [fmap list_fmap] in E.
    repeat (apply elem_of_cons in Hk as [Hk|Hk]); try by apply elem_of_nil in Hk.
    all: try (by apply Hf). all: subst k; rewrite Hm in E. all: repeat (apply dbind_inv in E as (? & ? & E); try done).
  + intros Hk g E. unfold de_mpg, fields in E. destruct (decide _); [|discriminate E]. unfold mpg_names in E, Hk. cbn [fmap list_fmap] in E.
    repeat (apply elem_of_cons in Hk as [Hk|Hk]); try by apply elem_of_nil in Hk.
    all: subst k; rewrite Hm in E. all: repeat (apply dbind_inv in E as (? & ? & E); try done).
Qed.
