(** Lemmas about weights kept beside a graph. *)
From Verif Require Export WeightSpec MapThms PG2Thms MultiOps3 MultiThms.

(** * The maps *)
Section maps.
  Context {V : Type} (d : V).

  Lemma swap_shows m f a b : shows_map d m f -> exists m', um_swap m a b = Ok m' /\ shows_map d m' (tswap f a b).
  Proof.
    intros S. destruct (um_step_ok d d m f (MapSpec.MSwap a b) S I) as (m' & E & S'). cbn in E, S'.
    destruct (um_swap m a b) as [m1|]; [|done]. cbn in E. injection E as <-. eauto.
  Qed.
  Lemma rekey_shows m f a o : shows_map d m f -> exists m', um_rekey d m a o = Ok m' /\
    shows_map d m' (match o with Some b => trekey d f a b | None => tset f a d end).
  Proof.
    intros S. destruct (um_step_ok d d m f (MRekey a o) S eq_refl) as (m' & E & S'). cbn in E.
    destruct (um_rekey d m a o) as [m1|]; [|done]. cbn in E. injection E as <-. exists m1. split; [done|]. by destruct o.
  Qed.
  Lemma set_shows m f a v : shows_map d m f -> exists m', um_set m a v = Ok m' /\ shows_map d m' (tset f a v).
  Proof.
    intros S. destruct (um_step_ok d d m f (MSet a v) S I) as (m' & E & S'). cbn in E, S'.
    destruct (um_set m a v) as [m1|]; [|done]. cbn in E. injection E as <-. eauto.
  Qed.

  Definition mv (sty : style) := match sty with BySwap => move_by_swap | ByRekey => move_by_rekey d end.
  Definition rn (sty : style) := match sty with BySwap => renum_by_swap | ByRekey => renum_by_rekey d end.
  Definition mv_f (sty : style) (log : list (nat * port_op)) (f : nat -> V) : nat -> V :=
    match sty with BySwap => replay_swap log f | ByRekey => replay_rekey d log f end.
  Definition rn_f (sty : style) (log : list (nat * nat)) (f : nat -> V) : nat -> V :=
    match sty with BySwap => replay_swaps log f | ByRekey => replay_rekeys d log f end.

  Lemma moves_show sty log : forall m f, shows_map d m f -> exists m', rfold (mv sty) log m = Ok m' /\ shows_map d m' (mv_f sty log f).
  Proof.
    induction log as [|[p o] log IH]; intros m f S.
    { exists m. split; [done|]. by destruct sty. }
    assert (H : exists m1, mv sty m (p, o) = Ok m1 /\ shows_map d m1 (mv_f sty [(p, o)] f)).
    { destruct sty; cbn; unfold move_by_swap, move_by_rekey; cbn [fst snd].
      - destruct o; [by apply swap_shows|eauto].
      - destruct (rekey_shows m f p (match o with Moved new => Some new | Removed _ => None end) S) as (m1 & E1 & S1).
        exists m1. split; [done|]. by destruct o. }
    destruct H as (m1 & E1 & S1). destruct (IH m1 _ S1) as (m' & E' & S'). exists m'. split.
    - cbn [rfold]. by rewrite E1, bind_Ok.
    - by destruct sty.
  Qed.
  Lemma renums_show sty log : forall m f, shows_map d m f -> exists m', rfold (rn sty) log m = Ok m' /\ shows_map d m' (rn_f sty log f).
  Proof.
    induction log as [|[p o] log IH]; intros m f S.
    { exists m. split; [done|]. by destruct sty. }
    assert (H : exists m1, rn sty m (p, o) = Ok m1 /\ shows_map d m1 (rn_f sty [(p, o)] f)).
    { destruct sty; cbn; unfold renum_by_swap, renum_by_rekey; cbn [fst snd].
      - by apply swap_shows.
      - exact (rekey_shows m f p (Some o) S). }
    destruct H as (m1 & E1 & S1). destruct (IH m1 _ S1) as (m' & E' & S'). exists m'. split.
    - cbn [rfold]. by rewrite E1, bind_Ok.
    - by destruct sty.
  Qed.
End maps.

(** The weights show two functions. *)
Definition wshows {A B} (adef : A) (bdef : B) (ws : weights A B) (f : nat -> A) (h : nat -> B) : Prop :=
  shows_map adef (w_nodes ws) f /\ shows_map bdef (w_ports ws) h.

Section upd.
  Context {A B : Type} (adef : A) (bdef : B).
  Definition node_f (sty : style) (x : news) (f : nat -> A) : nat -> A :=
    match x with NodeRenum log => rn_f adef sty log f | NodeSwap a b => tswap f a b | _ => f end.
  Definition port_f (sty : style) (x : news) (f : nat -> B) : nat -> B :=
    match x with PortMoves log => mv_f bdef sty log f | PortRenum log => rn_f bdef sty log f | _ => f end.
  Lemma update_shows sty x ws f h : wshows adef bdef ws f h ->
    exists ws', w_update adef bdef sty x ws = Ok ws' /\ wshows adef bdef ws' (node_f sty x f) (port_f sty x h).
  Proof.
    intros [Sn Sp]. destruct x as [|log|log|log|a b]; cbn [w_update node_f port_f].
    - by exists ws.
    - destruct (moves_show bdef sty log _ _ Sp) as (m & E & S). unfold w_on_ports. unfold mv in E. rewrite E, bind_Ok. by eexists.
    - destruct (renums_show adef sty log _ _ Sn) as (m & E & S). unfold w_on_nodes. unfold rn in E. rewrite E, bind_Ok. by eexists.
    - destruct (renums_show bdef sty log _ _ Sp) as (m & E & S). unfold w_on_ports. unfold rn in E. rewrite E, bind_Ok. by eexists.
    - destruct (swap_shows adef _ _ a b Sn) as (m & E & S). unfold w_on_nodes. rewrite E, bind_Ok. by eexists.
  Qed.
  Lemma set_node_shows ws f h n v : wshows adef bdef ws f h ->
    exists ws', w_set_node ws n v = Ok ws' /\ wshows adef bdef ws' (tset f n v) h.
  Proof. intros [Sn Sp]. destruct (set_shows adef _ _ n v Sn) as (m & E & S). unfold w_set_node. rewrite E, bind_Ok. by eexists. Qed.
  Lemma set_port_shows ws f h n v : wshows adef bdef ws f h ->
    exists ws', w_set_port ws n v = Ok ws' /\ wshows adef bdef ws' f (tset h n v).
  Proof. intros [Sn Sp]. destruct (set_shows bdef _ _ n v Sp) as (m & E & S). unfold w_set_port. rewrite E, bind_Ok. by eexists. Qed.
  (** Weights with the right defaults show what they read. *)
  Definition wok (ws : weights A B) : Prop := um_default (w_nodes ws) = adef /\ um_default (w_ports ws) = bdef.
  Lemma wok_shows ws : wok ws -> wshows adef bdef ws (w_node ws) (w_port ws).
  Proof. intros [H1 H2]. by split; split. Qed.
  Lemma wshows_ok ws f h : wshows adef bdef ws f h -> wok ws /\ (forall n, w_node ws n = f n) /\ (forall p, w_port ws p = h p).
  Proof. intros [[H1 H2] [H3 H4]]. done. Qed.

  Lemma wstep_ok w sty s x s' : wok s.2 -> wstep adef bdef w sty s x = Ok s' -> wok s'.2.
  Proof.
    intros H%wok_shows E. destruct x as [o|n v|p v]; cbn [wstep] in E.
    - apply bind_inv in E as ([g r] & _ & E). destruct (update_shows sty (pg_news o r) _ _ _ H) as (ws & Ew & S).
      rewrite Ew, bind_Ok in E. injection E as <-. by apply wshows_ok in S as [? _].
    - destruct (set_node_shows _ _ _ n v H) as (ws & Ew & S). rewrite Ew, bind_Ok in E. injection E as <-. by apply wshows_ok in S as [? _].
    - destruct (set_port_shows _ _ _ p v H) as (ws & Ew & S). rewrite Ew, bind_Ok in E. injection E as <-. by apply wshows_ok in S as [? _].
  Qed.
  Lemma wreach_ok w sty s : wreach adef bdef w sty s -> wok s.2 /\ reach w s.1.
  Proof.
    induction 1 as [|s x s' _ [H1 H2] Ha E].
    - split; [done|]. exists []. constructor.
    - split; [by eapply wstep_ok|]. destruct x as [o|n v|p v]; cbn [wstep] in E.
      + apply bind_inv in E as ([g r] & Eg & E). apply bind_inv in E as (ws & _ & E). injection E as <-. by eapply reach_step.
      + apply bind_inv in E as (ws & _ & E). by injection E as <-.
      + apply bind_inv in E as (ws & _ & E). by injection E as <-.
  Qed.
  Lemma mwstep_ok w sty s x s' : wok s.2 -> mwstep adef bdef w sty s x = Ok s' -> wok s'.2.
  Proof.
    intros H%wok_shows E. destruct x as [o|n v|p v]; cbn [mwstep] in E.
    - apply bind_inv in E as ([g r] & _ & E). destruct (update_shows sty (m_news o r) _ _ _ H) as (ws & Ew & S).
      rewrite Ew, bind_Ok in E. injection E as <-. by apply wshows_ok in S as [? _].
    - destruct (set_node_shows _ _ _ n v H) as (ws & Ew & S). rewrite Ew, bind_Ok in E. injection E as <-. by apply wshows_ok in S as [? _].
    - destruct (set_port_shows _ _ _ p v H) as (ws & Ew & S). rewrite Ew, bind_Ok in E. injection E as <-. by apply wshows_ok in S as [? _].
  Qed.
  Lemma mwreach_ok w sty s : mwreach adef bdef w sty s -> wok s.2 /\ mreach w s.1.
  Proof.
    induction 1 as [g Hg|s x s' _ [H1 H2] Ha E].
    - split; [done|]. exists []. by constructor.
    - split; [by eapply mwstep_ok|]. destruct x as [o|n v|p v]; cbn [mwstep] in E.
      + apply bind_inv in E as ([g r] & Eg & E). apply bind_inv in E as (ws & _ & E). injection E as <-. by eapply mreach_step.
      + apply bind_inv in E as (ws & _ & E). by injection E as <-.
      + apply bind_inv in E as (ws & _ & E). by injection E as <-.
  Qed.
End upd.

(** * Where the nodes and ports go *)
Lemma zip_of {X Y} (l : list (X * Y)) : l = zip l.*1 l.*2.
Proof. induction l as [|[x y] l IH]; [done|]. cbn. by f_equal. Qed.

(** The position of an element of a sorted list. *)
Lemma sorted_rank (P : nat -> Prop) `{!forall x, Decision (P x)} (l : list nat) k x : StronglySorted lt l -> (forall y, y ∈ l <-> P y) -> l !! k = Some x ->
  length (filter P (seq 0 x)) = k.
Proof.
  intros Hs Hl Hk. assert (Hp : Permutation (filter P (seq 0 x)) (take k l)).
  { apply NoDup_Permutation.
    - apply NoDup_filter, NoDup_seq.
    - assert (NoDup l) as Hn; [|by rewrite <- (take_drop k l) in Hn; apply NoDup_app in Hn as (? & _)].
      clear -Hs. induction Hs as [|y l Hs IH Hf]; [constructor|]. apply NoDup_cons. split; [|done].
      intros Hy. rewrite Forall_forall in Hf. specialize (Hf _ Hy). lia.
    - intros y. rewrite elem_of_list_filter, elem_of_seq.
      assert (Hmono : forall a b u v, l !! a = Some u -> l !! b = Some v -> a < b -> u < v).
      { clear -Hs. induction Hs as [|y l Hs IH Hf]; [done|]. intros [|a] [|b] u v Ha Hb Hab; cbn in *; try lia.
        - injection Ha as <-. rewrite Forall_forall in Hf. apply Hf. by eapply elem_of_list_lookup_2.
        - eapply (IH a b); [done..|lia]. }
      split.
      + intros [Py [_ Hlt]]. apply Hl in Py. apply elem_of_list_lookup_1 in Py as [i Hi]. apply elem_of_list_lookup. exists i.
        rewrite lookup_take; [done|]. destruct (decide (i < k)) as [?|Hge]; [done|]. exfalso.
        destruct (decide (i = k)) as [->|Hne]; [assert (x = y) by congruence; lia|].
        specialize (Hmono k i x y Hk Hi ltac:(lia)). lia.
      + intros Hy. apply elem_of_take in Hy as (i & Hi & Hlt). split; [apply Hl; by eapply elem_of_list_lookup_2|].
        specialize (Hmono i k y x Hi Hk Hlt). lia. }
  rewrite Hp. rewrite take_length. apply lookup_lt_Some in Hk. lia.
Qed.

Section goes.
  Context (w : N) (g : pg) (R : reach w g).

  Lemma compact_nodes_log g' log n n' : compact_nodes g = Ok (g', log) ->
    (n, n') ∈ log <-> contains_node g n = true /\ n' = length (filter (fun x => contains_node g x = true) (seq 0 n)).
  Proof.
    intros E. destruct (C12_compact_nodes_pf w g R) as (g1 & l & E1 & _ & L1 & L2 & Hs & Hin & _). rewrite E in E1. injection E1 as <- <-.
    assert (Hpos : forall k, log !! k = Some (n, n') -> log.*1 !! k = Some n /\ n' = k).
    { intros k Hk. rewrite !list_lookup_fmap, Hk. split; [done|]. assert (Hk2 : log.*2 !! k = Some n') by (by rewrite list_lookup_fmap, Hk).
      rewrite L2 in Hk2. apply lookup_seq in Hk2 as [-> _]. done. }
    split.
    - intros Hm. split; [apply Hin; by apply (elem_of_list_fmap_1 fst) in Hm|].
      apply elem_of_list_lookup_1 in Hm as [k Hk]. destruct (Hpos k Hk) as [H1 ->]. symmetry.
      exact (sorted_rank (fun x => contains_node g x = true) _ _ _ Hs Hin H1).
    - intros [Hc ->]. apply Hin in Hc. apply elem_of_list_lookup_1 in Hc as [k Hk].
      rewrite (sorted_rank (fun x => contains_node g x = true) _ _ _ Hs Hin Hk).
      rewrite list_lookup_fmap in Hk. destruct (log !! k) as [[a b]|] eqn:Ek; [|done]. cbn in Hk. injection Hk as ->.
      assert (Hk2 : log.*2 !! k = Some b) by (by rewrite list_lookup_fmap, Ek). rewrite L2 in Hk2. apply lookup_seq in Hk2 as [-> _].
      by eapply elem_of_list_lookup_2.
  Qed.
  Lemma compact_ports_log g' log p p' : (forall n, ~ hollow g n) -> compact_ports g = Ok (g', log) ->
    (p, p') ∈ log <-> exists n d k, port_at g n d k p /\ port_at g' n d k p'.
  Proof.
    intros Hh E. destruct (C13_compact_ports_pf w g R Hh) as (g1 & l & E1 & R' & L1 & L2 & Hs & Hin & _ & _ & _ & Hat & _).
    rewrite E in E1. injection E1 as <- <-. split.
    - intros Hm. assert (Hc : contains_port g p = true) by (apply Hin; by apply (elem_of_list_fmap_1 fst) in Hm).
      apply contains_port_true in Hc as [[n d] Hp]. destruct (r_pos w g R _ _ _ Hp) as [k Hk].
      exists n, d, k. split; [done|]. by apply (Hat p p' n d k Hm).
    - intros (n & d & k & A & B). assert (Hc : contains_port g p = true) by (apply contains_port_true; eexists; by eapply (r_look w g R)).
      apply Hin in Hc. apply elem_of_list_fmap in Hc as ([a b] & -> & Hm). cbn in *.
      apply (Hat a b n d k Hm) in A. unfold port_at in *. assert (b = p') as -> by congruence. done.
  Qed.
  Lemma snp_missing n i j g' log : contains_node g n = false -> set_num_ports g n i j = Ok (g', log) -> g' = g /\ log = [].
  Proof.
    unfold set_num_ports. intros Hn E. apply bind_inv in E as ([] & _ & E). apply bind_inv in E as ([] & _ & E).
    assert (nmeta g n = None) as Hm.
    { unfold contains_node in Hn. apply bool_decide_eq_false in Hn. destruct (nmeta g n) eqn:E'; [|done]. exfalso. apply Hn. eauto. }
    rewrite Hm in E. injection E as <- <-. done.
  Qed.

  (** What the callbacks do to a node or port that goes somewhere. *)
  Lemma node_follow {A} (adef : A) sty o g' r f n n' : allowed g o -> step w g o = Ok (g', r) -> node_goes o g g' n n' ->
    node_f adef sty (pg_news o r) f n' = f n.
  Proof.
    intros Ha E (Hc & Hc' & Hn). destruct o as [i j|k|a b|p|k i j|a b| | | |x y|]; cbn in E.
    1-5,8: apply bind_inv in E as ([??] & _ & E) || apply bind_inv in E as (? & _ & E); injection E as <- <-; cbn; by rewrite Hn.
    3-5: injection E as <- <-; cbn; by rewrite Hn.
    - apply bind_inv in E as (? & _ & E). injection E as <- <-. cbn. rewrite Hn. unfold tswap.
      repeat case_decide; congruence.
    - apply bind_inv in E as ([g1 log] & E1 & E). injection E as <- <-. cbn.
      destruct (C67_side_tables_pf w g A adef f R) as [H _].
      destruct (H g1 log E1 n n') as [H1 H2]; [apply (compact_nodes_log _ _ _ _ E1); done|]. by destruct sty.
  Qed.
  Lemma port_follow {B} (bdef : B) sty o g' r f p p' : allowed g o -> step w g o = Ok (g', r) -> port_goes o g g' p p' ->
    port_f bdef sty (pg_news o r) f p' = f p.
  Proof.
    intros Ha E Hp. destruct o as [i j|k|a b|q|k i j|a b| | | |x y|]; cbn in E.
    1-4,6: apply bind_inv in E as ([??] & _ & E) || apply bind_inv in E as (? & _ & E); injection E as <- <-; cbn; by destruct Hp as (_ & _ & ->).
    - apply bind_inv in E as ([g1 log] & E1 & E). injection E as <- <-. cbn in Hp |- *.
      destruct (contains_node g k) eqn:Hk.
      + destruct (C11_set_num_ports_callbacks_pf w g k i j g1 log R Hk E1) as (_ & H1 & H2).
        destruct sty; [by apply H1|by apply H2].
      + destruct (snp_missing _ _ _ _ _ Hk E1) as [-> ->]. destruct Hp as [(d & k' & A & B')|(_ & _ & ->)]; [|by destruct sty].
        unfold port_at in *. assert (p' = p) as -> by congruence. by destruct sty.
    - apply bind_inv in E as ([g1 log] & E1 & E). injection E as <- <-. cbn. by destruct Hp as (_ & _ & ->).
    - apply bind_inv in E as ([g1 log] & E1 & E). injection E as <- <-. cbn in Hp |- *.
      destruct (C67_side_tables_pf w g B bdef f R) as [_ H].
      destruct (H Ha g1 log E1 p p') as [H1 H2]; [by apply (compact_ports_log _ _ _ _ Ha E1)|]. by destruct sty.
    - injection E as <- <-. cbn. by destruct Hp as (_ & _ & ->).
    - injection E as <- <-. cbn. by destruct Hp as (_ & _ & ->).
    - injection E as <- <-. cbn. by destruct Hp as (_ & _ & ->).
  Qed.
End goes.

(** * Rekeying leaves nothing behind *)
Lemma rekey_ext {V} (d : V) log : forall (f h : nat -> V), (forall k, f k = h k) -> forall z, replay_rekey d log f z = replay_rekey d log h z.
Proof.
  unfold replay_rekey. induction log as [|[p o] log IH]; intros f h E z; [apply E|]. cbn. apply IH. intros k.
  destruct o; unfold trekey; repeat case_decide; auto.
Qed.
Lemma rekeys_ext {V} (d : V) log : forall (f h : nat -> V), (forall k, f k = h k) -> forall z, replay_rekeys d log f z = replay_rekeys d log h z.
Proof.
  unfold replay_rekeys. induction log as [|[p o] log IH]; intros f h E z; [apply E|]. cbn. apply IH. intros k.
  unfold trekey; repeat case_decide; auto.
Qed.
Lemma rekey_nat {V} (d : V) (f : nat -> V) log : forall (h : nat -> option nat) z,
  replay_rekey d log (fun x => from_option f d (h x)) z = from_option f d (replay_rekey None log h z).
Proof.
  pose proof (@rekey_ext V d) as X. unfold replay_rekey in *. induction log as [|[p o] log IH]; intros h z; [done|]. cbn. rewrite <- IH.
  apply (X log). intros k. destruct o; unfold trekey; repeat case_decide; done.
Qed.
Lemma rekeys_nat {V} (d : V) (f : nat -> V) log : forall (h : nat -> option nat) z,
  replay_rekeys d log (fun x => from_option f d (h x)) z = from_option f d (replay_rekeys None log h z).
Proof.
  pose proof (@rekeys_ext V d) as X. unfold replay_rekeys in *. induction log as [|[p o] log IH]; intros h z; [done|]. cbn. rewrite <- IH.
  apply (X log). intros k. unfold trekey; repeat case_decide; done.
Qed.
Definition uniq (h : nat -> option nat) : Prop := forall x y a, h x = Some a -> h y = Some a -> x = y.
Lemma trekey_uniq (h : nat -> option nat) p q : uniq h -> uniq (trekey None h p q).
Proof.
  intros H x y a. unfold trekey. destruct (decide (x = q)) as [->|Hxq].
  - destruct (decide (y = q)) as [->|Hyq]; [done|]. destruct (decide (y = p)) as [->|Hyp]; [done|].
    intros Hx Hy. pose proof (H _ _ _ Hx Hy). congruence.
  - destruct (decide (x = p)) as [->|Hxp]; [done|]. destruct (decide (y = q)) as [->|Hyq].
    + intros Hx Hy. pose proof (H _ _ _ Hx Hy). congruence.
    + destruct (decide (y = p)) as [->|Hyp]; [done|]. apply H.
Qed.
Lemma tnone_uniq (h : nat -> option nat) p : uniq h -> uniq (fun y => if decide (y = p) then None else h y).
Proof. intros H x y a. repeat case_decide; subst; try done. apply H. Qed.
Lemma rekey_uniq log : forall h, uniq h -> uniq (replay_rekey None log h).
Proof.
  unfold replay_rekey. induction log as [|[p o] log IH]; intros h H; [done|]. cbn. apply IH. destruct o; [by apply trekey_uniq|by apply tnone_uniq].
Qed.
Lemma rekeys_uniq log : forall h, uniq h -> uniq (replay_rekeys None log h).
Proof. unfold replay_rekeys. induction log as [|[p o] log IH]; intros h H; [done|]. cbn. apply IH. by apply trekey_uniq. Qed.
Lemma rekey_range log : forall (h : nat -> option nat) z a, replay_rekey None log h z = Some a -> exists y, h y = Some a.
Proof.
  unfold replay_rekey. induction log as [|[p o] log IH]; intros h z a H; [eauto|]. cbn in H. apply IH in H as [y H].
  destruct o; unfold trekey in H; repeat case_decide; try done; eauto.
Qed.
Lemma rekeys_range log : forall (h : nat -> option nat) z a, replay_rekeys None log h z = Some a -> exists y, h y = Some a.
Proof.
  unfold replay_rekeys. induction log as [|[p o] log IH]; intros h z a H; [eauto|]. cbn in H. apply IH in H as [y H].
  unfold trekey in H; repeat case_decide; try done; eauto.
Qed.
Lemma rekey_removed_none rl : forall (h : nat -> option nat) z, (forall p o, (p, o) ∈ rl -> exists l, o = Removed l) ->
  replay_rekey None rl h z = if decide (z ∈ rl.*1) then None else h z.
Proof.
  unfold replay_rekey. induction rl as [|[p o] rl IH]; intros h z H; [done|]. cbn [foldl fst snd fmap list_fmap].
  destruct (H p o ltac:(by left)) as [l ->]. rewrite IH by (intros p' o' Hp; eapply H; by right). cbn.
  destruct (decide (z ∈ rl.*1)) as [Hin|Hin].
  - rewrite decide_True; [done|]. by right.
  - destruct (decide (z = p)) as [->|Hne].
    + rewrite decide_True; [done|]. by left.
    + rewrite decide_False; [done|]. rewrite elem_of_cons. by intros [?|?].
Qed.

Section tidy.
  Context (w : N) (Hw : (1 < w <= 63)%N) (g : pg) (R : reach w g).
  Definition mark (c : nat -> bool) (x : nat) : option nat := if c x then Some x else None.
  Lemma mark_uniq c : uniq (mark c).
  Proof. intros x y a. unfold mark. destruct (c x), (c y); congruence. Qed.
  Lemma mark_some c x a : mark c x = Some a -> x = a /\ c a = true.
  Proof. unfold mark. destruct (c x) eqn:E; intros [= <-]. done. Qed.
  Lemma mark_nat {V} c (d : V) f : (forall x, c x = false -> f x = d) -> forall x, f x = from_option f d (mark c x).
  Proof. intros H x. unfold mark. destruct (c x) eqn:E; [done|]. by apply H. Qed.

  Lemma snp_tidy {V} (d : V) f n i j g' log z : set_num_ports g n i j = Ok (g', log) ->
    (forall p, contains_port g p = false -> f p = d) -> (forall p, ~ survives g g' n p z) -> replay_rekey d log f z = d.
  Proof.
    intros E Hf Hz.
    assert (Hr : replay_rekey d log f z = from_option f d (replay_rekey None log (mark (contains_port g)) z)).
    { rewrite <- rekey_nat. apply rekey_ext. exact (mark_nat _ d f Hf). }
    rewrite Hr. destruct (replay_rekey None log (mark (contains_port g)) z) as [a|] eqn:Ea; [|done]. exfalso.
    destruct (contains_node g n) eqn:Hn.
    - destruct (C11_set_num_ports_callbacks_pf w g n i j g' log R Hn E) as ((rl & ml & Elog & Erl & Hrl & _) & _ & Hrep).
      assert (Ha : contains_port g a = true /\ a ∉ rl.*1).
      { rewrite Elog in Ea. unfold replay_rekey in Ea. rewrite foldl_app in Ea. apply rekey_range in Ea as [y Hy].
        fold (replay_rekey None rl (mark (contains_port g))) in Hy. rewrite rekey_removed_none in Hy.
        - destruct (decide (y ∈ rl.*1)) as [|Hy']; [done|]. apply mark_some in Hy as [-> Hc]. done.
        - intros p o Hp. apply elem_of_list_lookup_1 in Hp as [k Hk]. destruct (Hrl k p o Hk) as (l & -> & _). eauto. }
      destruct Ha as [Hc Ha]. apply contains_port_true in Hc as Hc'.
      destruct (live_surv w Hw g R n i j g' log Hn E a Hc') as [[a' S]|Hd]; [|rewrite Erl in Ha; done].
      assert (a' = z) as ->; [|by eapply Hz].
      eapply (rekey_uniq log _ (mark_uniq (contains_port g))); [|exact Ea].
      rewrite (Hrep _ None (mark (contains_port g)) a a' S). unfold mark. by rewrite Hc.
    - destruct (snp_missing g _ _ _ _ _ Hn E) as [-> ->]. cbn in Ea. apply mark_some in Ea as [-> Hc].
      apply (Hz a). right. split; [done|]. split; [|done]. intros Hpn.
      apply contains_port_true in Hc as [[x dd] Hp]. rewrite (pm_node _ _ _ _ Hp) in Hpn. injection Hpn as ->.
      apply (r_node w g R) in Hp. congruence.
  Qed.
  Lemma renum_tidy {V} (d : V) f c log z : (forall x, c x = true -> exists x', (x, x') ∈ log /\ forall (U : Type) (du : U) h, replay_rekeys du log h x' = h x) ->
    (forall x, c x = false -> f x = d) -> (forall x, (x, z) ∉ log) -> replay_rekeys d log f z = d.
  Proof.
    intros Hlog Hf Hz.
    assert (Hr : replay_rekeys d log f z = from_option f d (replay_rekeys None log (mark c) z)).
    { rewrite <- rekeys_nat. apply rekeys_ext. exact (mark_nat c d f Hf). }
    rewrite Hr. destruct (replay_rekeys None log (mark c) z) as [a|] eqn:Ea; [|done]. exfalso.
    destruct (rekeys_range _ _ _ _ Ea) as [y [-> Hc]%mark_some]. destruct (Hlog a Hc) as (a' & Hin & Ha').
    assert (a' = z) as ->; [|by eapply Hz]. eapply (rekeys_uniq log _ (mark_uniq c)); [|exact Ea].
    rewrite Ha'. unfold mark. by rewrite Hc.
  Qed.
End tidy.

(** * Running a client, for examples *)
Fixpoint wrun {A B} (adef : A) (bdef : B) (w : N) (sty : style) (l : list (wop A B op)) (s : pg * weights A B) : option (pg * weights A B) :=
  match l with
  | [] => Some s
  | x :: l' =>
      if match x with WCall o => allowedb s.1 o | _ => true end then
        match wstep adef bdef w sty s x with Ok s' => wrun adef bdef w sty l' s' | Panic => None end
      else None
  end.
Lemma wrun_reach {A B} (adef : A) (bdef : B) w sty l : forall s s', wreach adef bdef w sty s -> wrun adef bdef w sty l s = Some s' -> wreach adef bdef w sty s'.
Proof.
  induction l as [|x l IH]; intros s s' Hs E; cbn in E; [by injection E as <-|].
  destruct (match x with WCall o => allowedb s.1 o | _ => true end) eqn:Ea; [|done].
  destruct (wstep adef bdef w sty s x) as [s1|] eqn:E1; [|done]. eapply IH; [|exact E]. eapply wreach_step; [done| |done].
  destruct x; [|done..]. by apply allowedb_sound.
Qed.

Lemma swap_live w g a b g' : reach w g -> allowed g (OSwap a b) -> swap_nodes g a b = Ok g' ->
  (forall x, contains_node g' x = contains_node g (if decide (x = a) then b else if decide (x = b) then a else x)) /\
  (forall p, contains_port g' p = contains_port g p).
Proof.
  intros (fnl & F & I)%reach_inv Ha E. destruct (swap_nodes_allowed g fnl F a b I Ha) as (g1 & E1 & _ & P). rewrite E in E1. injection E1 as <-. split.
  - intros x. unfold contains_node. by rewrite (sn_nmeta _ _ _ _ P).
  - intros p. unfold contains_port. rewrite (sn_pmeta _ _ _ _ P). apply bool_decide_ext. by rewrite fmap_is_Some.
Qed.
