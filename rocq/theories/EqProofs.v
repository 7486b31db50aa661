(** Proofs about equality of graphs. *)
From Verif Require Export EqSpec MultiPG.
From Verif Require Import PGReplay.

Lemma pg_eqb_eq g g' : pg_eqb g g' = true <-> g = g'.
Proof.
  unfold pg_eqb. rewrite !andb_true_iff, !bool_decide_eq_true. split.
  - destruct g, g'. cbn. by intros (((((((-> & ->) & ->) & ->) & ->) & ->) & ->) & ->).
  - by intros ->.
Qed.

Lemma ok_inj {A} (a b : A) : Ok a = Ok b -> a = b.
Proof. by intros [=]. Qed.
Lemma rfold_keep {S A T} (f : S -> A -> res S) (k : S -> T) l : forall s s', (forall s a s', f s a = Ok s' -> k s' = k s) ->
  rfold f l s = Ok s' -> k s' = k s.
Proof.
  induction l as [|a l IH]; intros s s' H E; cbn [rfold] in E; [by injection E as ->|].
  destruct (f s a) as [s1|] eqn:Ea; [|done]. cbn [mbind res_bind] in E. apply IH in E; [|done]. by rewrite E, (H _ _ _ Ea).
Qed.
Lemma rfold_pres {S A} (f : S -> A -> res S) (P : S -> Prop) l : forall s s', (forall s a s', f s a = Ok s' -> P s -> P s') ->
  rfold f l s = Ok s' -> P s -> P s'.
Proof.
  induction l as [|a l IH]; intros s s' H E; cbn [rfold] in E; [by injection E as ->|].
  destruct (f s a) as [s1|] eqn:Ea; [|done]. cbn [mbind res_bind] in E. intros Hs. eapply IH; [done|exact E|]. by eapply H.
Qed.
Ltac rok := repeat match goal with
  | H : Ok _ = Ok _ |- _ => injection H as H; subst
  | H : Panic = Ok _ |- _ => discriminate H
  | H : mbind _ ?x = Ok _ |- _ => let E := fresh "E" in destruct x eqn:E; cbn [mbind res_bind] in H
  | H : (let '(_, _) := ?x in _) = Ok _ |- _ => destruct x
  | H : (_, _) = (_, _) |- _ => injection H as ?; subst
  | H : match ?x with _ => _ end = Ok _ |- _ => let E := fresh "E" in destruct x eqn:E
  end.

(** ** Which calls leave unused slots *)
Definition NC (g : pg) : Prop := pg_nfree g = None.
Definition nonfree (l : list port_entry) : Prop := Forall (fun e => e <> PFree) l.
Definition PC (g : pg) : Prop := pg_pfree g = [] /\ nonfree (pg_pmeta g).

Lemma vset_nonfree l i x l' : vset l i x = Ok l' -> x <> PFree -> nonfree l -> nonfree l'.
Proof. unfold vset. destruct (decide _); [|done]. intros E Hx Hl. apply ok_inj in E as <-. by apply Forall_insert. Qed.
Lemma relabel_nonfree pm n m pm' : relabel_ports pm n m = Ok pm' -> nonfree pm -> nonfree pm'.
Proof.
  unfold relabel_ports. intros E Hp. destruct (rfold _ (nm_ports m Incoming) pm) as [pm1|] eqn:E1; [|done]. cbn [mbind res_bind] in E.
  eapply (rfold_pres _ nonfree); [|exact E|]; [intros ? ? ? Hs Hl; eapply vset_nonfree; [exact Hs|done|exact Hl]|].
  eapply (rfold_pres _ nonfree); [|exact E1|exact Hp]. intros ? ? ? Hs Hl; eapply vset_nonfree; [exact Hs|done|exact Hl].
Qed.
Lemma link_keep g a b g' r : link_ports g a b = Ok (g', r) -> pg_nfree g' = pg_nfree g /\ pg_pfree g' = pg_pfree g /\ pg_pmeta g' = pg_pmeta g.
Proof. unfold link_ports. intros E. rok; done. Qed.
Lemma unlink_keep g p g' r : unlink_port g p = Ok (g', r) -> pg_nfree g' = pg_nfree g /\ pg_pfree g' = pg_pfree g /\ pg_pmeta g' = pg_pmeta g.
Proof. unfold unlink_port. intros E. rok; done. Qed.
Lemma alloc_nfree g n i j e g' m : alloc_ports g n i j e = Ok (g', m) -> pg_nfree g' = pg_nfree g.
Proof. unfold alloc_ports. intros E. rok; done. Qed.
Lemma drop_nfree l s s' : rfold drop_step l s = Ok s' -> pg_nfree s'.1 = pg_nfree s.1.
Proof. apply (rfold_keep drop_step (fun s => pg_nfree s.1)). clear. intros s a s' E. unfold drop_step in E. rok. cbn. by eapply unlink_keep. Qed.
Lemma free_ports_nfree g a b g' : free_ports g a b = Ok g' -> pg_nfree g' = pg_nfree g.
Proof.
  unfold free_ports. intros E.
  assert (H0 : pg_nfree (if decide (length (pg_pfree g) < b) then with_pfree g (resize b None (pg_pfree g)) else g) = pg_nfree g) by (destruct (decide (length (pg_pfree g) < b)); reflexivity).
  destruct (decide (b = 0)); [apply ok_inj in E as <-; exact H0|].
  match type of E with mbind _ (rfold _ _ ?x) = _ => set (g0 := x) in * end.
  destruct (rfold free_port_step (seq a b) g0) as [g1|] eqn:E1; [|done]. cbn [mbind res_bind] in E.
  apply (rfold_keep free_port_step pg_nfree) in E1; [|clear; intros s i s' E; unfold free_port_step in E; rok; done].
  rok. cbn. by rewrite E1.
Qed.
Lemma set_ports_nfree g n i j g' log : set_num_ports g n i j = Ok (g', log) -> pg_nfree g' = pg_nfree g.
Proof.
  unfold set_num_ports. intros E. destruct (assert (N.of_nat i <=? 65534)%N); [|done]. destruct (assert (N.of_nat j <=? 65535)%N); [|done]. cbn [mbind res_bind] in E.
  destruct (nmeta g n) as [m|]; [|rok; done]. destruct (decide _); [rok; done|]. destruct (decide _).
  - unfold resize_inplace in E. rok.
    repeat match goal with
    | H : rfold drop_step _ _ = Ok _ |- _ => apply drop_nfree in H
    | H : rfold move_step _ _ = Ok _ |- _ => apply (rfold_keep move_step (fun s => pg_nfree s.1)) in H; [|clear; intros s [? ?] s' H; unfold move_step in H; rok; done]
    | H : rfold (init_step ?a ?b) _ _ = Ok _ |- _ => apply (rfold_keep (init_step a b) pg_nfree) in H; [|clear; intros s ? s' H; unfold init_step in H; rok; done]
    | H : rfold empty_step _ _ = Ok _ |- _ => apply (rfold_keep empty_step pg_nfree) in H; [|clear; intros s ? s' H; unfold empty_step in H; rok; done]
    end. cbn in *. congruence.
  - rok.
    repeat match goal with
    | H : rfold drop_step _ _ = Ok _ |- _ => apply drop_nfree in H
    | H : alloc_ports _ _ _ _ _ = Ok _ |- _ => apply alloc_nfree in H
    | H : free_ports _ _ _ = Ok _ |- _ => apply free_ports_nfree in H
    | H : rfold realloc_step _ _ = Ok _ |- _ => apply (rfold_keep realloc_step (fun s => pg_nfree s.1)) in H; [|clear; intros s [? ?] s' H; unfold realloc_step in H; rok; done]
    end. cbn in *. congruence.
Qed.
Lemma add_clean w g i j g' n : add_node w g i j = Ok (g', n) -> (NC g -> NC g') /\ (PC g -> PC g').
Proof.
  unfold add_node. intros E. destruct (assert (N.of_nat i <=? w)%N); [|done]. destruct (assert (N.of_nat j <=? w)%N); [|done]. cbn [mbind res_bind] in E.
  destruct (alloc_node g) as [[g1 n1]|] eqn:E1; [|done]. cbn [mbind res_bind] in E.
  destruct (alloc_ports g1 n1 i j 0) as [[g2 m]|] eqn:E2; [|done]. cbn [mbind res_bind] in E.
  assert (pg_nfree g' = pg_nfree g2 /\ pg_pfree g' = pg_pfree g2 /\ pg_pmeta g' = pg_pmeta g2) as (H1 & H2 & H3) by (rok; done).
  assert (pg_pfree g1 = pg_pfree g /\ pg_pmeta g1 = pg_pmeta g) as (H4 & H5) by (unfold alloc_node in E1; rok; done).
  split.
  - unfold NC. intros Hn. rewrite H1, (alloc_nfree _ _ _ _ _ _ _ E2). unfold alloc_node in E1. rewrite Hn in E1. rok. done.
  - unfold PC. rewrite H2, H3, <- H4, <- H5. intros [Hf Hp]. clear - E2 Hf Hp. unfold alloc_ports in E2. rewrite Hf in E2.
    destruct (decide _); [rok; done|]. rewrite lookup_nil in E2.
    destruct (idx_new _); [|done]. cbn [mbind res_bind] in E2. destruct (nm_new _ _ _ _); [|done]. cbn [mbind res_bind] in E2. rok. split; [done|].
    cbn [pg_pmeta with_pmeta with_link].
    rewrite (resize_all_alt (resize (length (pg_pmeta g1) + i + j) _ _)) by (rewrite resize_length; lia).
    apply Forall_resize; [done|]. by apply Forall_resize.
Qed.
Lemma swap_clean g a b g' : swap_nodes g a b = Ok g' -> pg_nfree g' = pg_nfree g /\ pg_pfree g' = pg_pfree g /\ (nonfree (pg_pmeta g) -> nonfree (pg_pmeta g')).
Proof.
  unfold swap_nodes. intros E.
  destruct (vget (pg_nodes g) a) as [ma|]; [|done]. cbn [mbind res_bind] in E. destruct (vget (pg_nodes g) b) as [mb|]; [|done]. cbn [mbind res_bind] in E.
  destruct (vset (pg_nodes g) a mb) as [ns|]; [|done]. cbn [mbind res_bind] in E. destruct (vset ns b ma) as [ns'|]; [|done]. cbn [mbind res_bind] in E.
  destruct (match mb with NFree _ _ => Ok (pg_pmeta g) | NNode m => relabel_ports (pg_pmeta g) a m end) as [pm|] eqn:E1; [|done]. cbn [mbind res_bind] in E.
  destruct (match ma with NFree _ _ => Ok pm | NNode m => relabel_ports pm b m end) as [pm'|] eqn:E2; [|done]. cbn [mbind res_bind] in E.
  match type of E with mbind _ ?x = _ => destruct x end; [|done]. cbn [mbind res_bind] in E. rok; (split; [done|split; [done|]]); cbn; intros Hp;
    repeat (eapply relabel_nonfree; [eassumption|]); done.
Qed.
Lemma compact_nodes_nonfree es : forall old new pm ns pm' log, compact_nodes_loop es old new pm = Ok (ns, pm', log) -> nonfree pm -> nonfree pm'.
Proof.
  induction es as [|[p x|m] es IH]; intros old new pm ns pm' log E; cbn [compact_nodes_loop] in E; [rok; done|by eapply IH|].
  destruct (relabel_ports pm new m) as [pm1|] eqn:E1; [|done]. cbn [mbind res_bind] in E.
  destruct (compact_nodes_loop es (S old) (S new) pm1) as [[[ns1 pm2] log1]|] eqn:E2; [|done]. cbn [mbind res_bind] in E. rok.
  intros Hp. eapply IH; [exact E2|]. by eapply relabel_nonfree.
Qed.
Lemma compact_pmeta_nonfree es : forall old new ns pm ns' log, compact_pmeta_loop es old new ns = Ok (pm, ns', log) -> nonfree pm.
Proof.
  induction es as [|[|n d] es IH]; intros old new ns pm ns' log E; cbn [compact_pmeta_loop] in E; [rok; constructor|by eapply IH|].
  destruct (vget ns n) as [[|m]|]; [done| |done]. cbn [mbind res_bind] in E.
  match type of E with mbind _ ?x = _ => destruct x as [ns1|] end; [|done]. cbn [mbind res_bind] in E.
  destruct (compact_pmeta_loop es (S old) (S new) ns1) as [[[pm1 ns2] log1]|] eqn:E2; [|done]. cbn [mbind res_bind] in E. rok. constructor; [done|]. by eapply IH.
Qed.
Lemma step_clean w g o g' r (s : bool * bool) : step w g o = Ok (g', r) -> (s.1 = false -> NC g) -> (s.2 = false -> PC g) ->
  ((leaves s o).1 = false -> NC g') /\ ((leaves s o).2 = false -> PC g').
Proof.
  intros E Hn Hp. destruct o as [i j|n|a b|p|n i j|a b| | | |a b|]; cbn [step leaves fst snd] in *.
  - destruct (add_node _ g i j) as [[g1 n]|] eqn:E1; [|done]. rok. apply add_clean in E1 as [H1 H2]. auto.
  - done.
  - destruct (link_ports g a b) as [[g1 n]|] eqn:E1; [|done]. rok. apply link_keep in E1 as (H1 & H2 & H3). unfold NC, PC in *. rewrite H1, H2, H3. auto.
  - destruct (unlink_port g p) as [[g1 n]|] eqn:E1; [|done]. rok. apply unlink_keep in E1 as (H1 & H2 & H3). unfold NC, PC in *. rewrite H1, H2, H3. auto.
  - split; [|done]. destruct (set_num_ports g n i j) as [[g1 l]|] eqn:E1; [|done]. rok. apply set_ports_nfree in E1. unfold NC in *. rewrite E1. auto.
  - destruct (swap_nodes g a b) as [g1|] eqn:E1; [|done]. cbn [mbind res_bind] in E. rok. apply swap_clean in E1 as (H1 & H2 & H3). unfold NC, PC in *. rewrite H1, H2. split; [auto|].
    intros Hs. destruct (Hp Hs). auto.
  - destruct (compact_nodes g) as [[g1 l]|] eqn:E1; [|done]. rok. unfold compact_nodes in E1.
    destruct (compact_nodes_loop _ _ _ _) as [[[ns pm] lg]|] eqn:E2; [|done]. cbn [mbind res_bind] in E1. rok. split; [done|]. intros Hs. destruct (Hp Hs). split; [done|].
    by eapply compact_nodes_nonfree.
  - destruct (compact_ports g) as [[g1 l]|] eqn:E1; [|done]. rok. unfold compact_ports in E1.
    destruct (compact_links_loop _ _ _ _ _) as [[lk k]|]; [|done]. cbn [mbind res_bind] in E1.
    destruct (compact_pmeta_loop _ _ _ _) as [[[pm ns] lg]|] eqn:E2; [|done]. cbn [mbind res_bind] in E1. rok. split; [done|]. intros _. split; [done|].
    by eapply compact_pmeta_nonfree.
  - rok. split; intros _; [done|]. split; [done|constructor].
  - rok. done.
  - rok. done.
Qed.
Lemma hist_clean w ops g : hist w ops g ->
  ((foldl leaves (false, false) ops).1 = false -> NC g) /\ ((foldl leaves (false, false) ops).2 = false -> PC g).
Proof.
  induction 1 as [|ops g o g' r Hh [H1 H2] Ha Hs]; [split; intros _; [done|split; [done|constructor]]|].
  rewrite foldl_app. cbn [foldl]. by eapply step_clean.
Qed.

(** ** Without unused slots, observations determine the representation *)
Section tight.
  Context (g : pg) (fnl : list nat) (F : nat -> list nat) (I : InvG g fnl F) (Hn : NC g) (Hp : PC g).
  Lemma tight_node n : pg_nodes g !! n = NNode <$> nmeta g n.
  Proof.
    unfold nmeta. destruct (pg_nodes g !! n) as [[a b|m]|] eqn:E; [|done|done]. exfalso.
    assert (Hf : is_Some (nfree g n)) by (unfold nfree; rewrite E; eauto).
    apply (nf_mem _ _ _ (i_nfree _ _ _ I)) in Hf. pose proof (nf_head _ _ _ (i_nfree _ _ _ I)) as Hh. rewrite Hn in Hh.
    destruct fnl as [|x l]; [by apply elem_of_nil in Hf|done].
  Qed.
  Lemma tight_port p : pg_pmeta g !! p = (fun x => PPort x.1 x.2) <$> pmeta g p.
  Proof.
    unfold pmeta. destruct (pg_pmeta g !! p) as [[|n d]|] eqn:E; [|done|done]. exfalso.
    destruct Hp as [_ Hf]. unfold nonfree in Hf. rewrite Forall_lookup in Hf. by apply (Hf _ _ E).
  Qed.
  Lemma tight_cap n m : nmeta g n = Some m -> nm_cap m = nm_inc m + nm_out m.
  Proof.
    intros Hm. pose proof (inv_meta_ok _ _ _ I _ _ Hm) as (H1 & _ & H3 & _).
    destruct (decide (nm_cap m = nm_inc m + nm_out m)) as [|Hne]; [done|exfalso].
    set (p := nm_first m + (nm_inc m + nm_out m)). assert (Hlt : p < length (pg_pmeta g)) by (unfold p; lia).
    apply lookup_lt_is_Some_2 in Hlt as [e He]. rewrite tight_port in He. destruct (pmeta g p) as [[n' d]|] eqn:Ep; [|done].
    pose proof (inv_slab_owner _ _ _ I n m p (n', d) Hm) as Ho. specialize (Ho ltac:(unfold in_slab, p; lia) Ep). cbn in Ho.
    apply (inv_pmeta _ _ _ I) in Ep as (m' & Hm' & Hr). assert (n' = n) as -> by naive_solver. assert (m' = m) as -> by congruence.
    unfold in_range in Hr. destruct d; cbn in Hr; unfold p in Hr; lia.
  Qed.
  Lemma tight_link p : pg_link g !! p = (fun _ => lk g p) <$> pmeta g p.
  Proof.
    destruct (pmeta g p) as [x|] eqn:Ep.
    - rewrite (inv_plink_lookup _ _ _ I _ _ Ep). unfold lk. rewrite (port_link_eq _ _ _ I), Ep. done.
    - apply lookup_ge_None. rewrite (i_len _ _ _ I). apply lookup_ge_None. rewrite tight_port, Ep. done.
  Qed.
End tight.

Lemma tight_eq w w' g g' : reach w g -> reach w' g' -> NC g -> PC g -> NC g' -> PC g' -> same_graph g g' -> g = g'.
Proof.
  intros (fnl & F & I)%reach_inv (fnl' & F' & I')%reach_inv Hn Hp Hn' Hp' (Sn & Sp & C1 & C2 & C3).
  assert (Hpm : forall p, pmeta g p = pmeta g' p).
  { intros p. destruct (Sp p) as (_ & H1 & H2 & _). unfold port_node, port_direction in *. destruct (pmeta g p) as [[n d]|], (pmeta g' p) as [[n' d']|]; naive_solver. }
  assert (Hnm : forall n, nmeta g n = nmeta g' n).
  { intros n. destruct (Sn n) as (H1 & H2). unfold contains_node in H1. unfold ports in H2.
    destruct (nmeta g n) as [m|] eqn:Em, (nmeta g' n) as [m'|] eqn:Em'.
    - f_equal. pose proof (tight_cap _ _ _ I Hp _ _ Em) as Hc. pose proof (tight_cap _ _ _ I' Hp' _ _ Em') as Hc'.
      pose proof (inv_meta_ok _ _ _ I _ _ Em) as (_ & Hz & _). pose proof (inv_meta_ok _ _ _ I' _ _ Em') as (_ & Hz' & _).
      pose proof (H2 Incoming) as Hi. pose proof (H2 Outgoing) as Ho. unfold nm_ports in Hi, Ho. cbn [nm_start nm_num] in Hi, Ho.
      pose proof (f_equal length Hi) as Li. pose proof (f_equal length Ho) as Lo. rewrite !seq_length in Li, Lo.
      destruct m as [f i o c], m' as [f' i' o' c']. cbn [nm_first nm_inc nm_out nm_cap] in *. subst i' o' c c'. f_equal.
      destruct i as [|i]; [|by injection Hi]. destruct o as [|o]; [rewrite Hz, Hz' by lia; done|]. injection Ho as Ho _. lia.
    - rewrite bool_decide_eq_false_2, bool_decide_eq_true_2 in H1; [done|eauto|by intros []].
    - rewrite bool_decide_eq_true_2, bool_decide_eq_false_2 in H1; [done|by intros []|eauto].
    - done. }
  assert (Hlk : forall p, lk g p = lk g' p) by (intros p; unfold lk; destruct (Sp p) as (_ & _ & _ & ->); done).
  assert (E1 : pg_nodes g = pg_nodes g') by (apply list_eq; intros n; rewrite (tight_node _ _ _ I Hn), (tight_node _ _ _ I' Hn'); by rewrite Hnm).
  assert (E2 : pg_pmeta g = pg_pmeta g') by (apply list_eq; intros n; rewrite (tight_port _ Hp), (tight_port _ Hp'); by rewrite Hpm).
  assert (E3 : pg_link g = pg_link g') by (apply list_eq; intros n; rewrite (tight_link _ _ _ I Hp), (tight_link _ _ _ I' Hp'); by rewrite Hpm, Hlk).
  unfold NC in *. destruct Hp as [E4 _], Hp' as [E4' _]. unfold node_count, port_count, link_count in *.
  destruct g, g'. cbn in *. congruence.
Qed.
