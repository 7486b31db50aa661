(** How much a call can enlarge the arrays. *)
From Verif Require Export PGObs.

Ltac binv H :=
  repeat match type of H with
  | mbind _ _ = Ok _ =>
      let x := fresh "x" in let E := fresh "E" in let H' := fresh "H" in
      apply bind_inv in H as (x & E & H'); rename H' into H;
      try (is_var x; destruct x)
  end.

Lemma alloc_node_grow g g' n : alloc_node g = Ok (g', n) ->
  length (pg_nodes g') <= length (pg_nodes g) + 1 /\ pg_pmeta g' = pg_pmeta g.
Proof.
  unfold alloc_node. intros H. destruct (pg_nfree g) as [h|].
  - apply bind_inv in H as (e & _ & H). destruct e as [p nx|]; [|done].
    destruct nx as [x|]; [|injection H as <- <-; cbn; split; [lia|done]].
    apply bind_inv in H as (e & _ & H). destruct e as [p' nx|]; [|done].
    apply bind_inv in H as (ns & (_ & ->)%vset_inv & H). injection H as <- <-. cbn. rewrite insert_length. split; [lia|done].
  - apply bind_inv in H as (x & _ & H). injection H as <- <-. cbn. rewrite app_length. cbn. split; [lia|done].
Qed.

Lemma alloc_ports_grow g n i o e g' m : alloc_ports g n i o e = Ok (g', m) ->
  pg_nodes g' = pg_nodes g /\ length (pg_pmeta g') <= length (pg_pmeta g) + (i + o + e).
Proof.
  unfold alloc_ports. intros H. destruct (decide _) as [|Hne]; [injection H as <- <-; split; [done|lia]|].
  destruct (pg_pfree g !! _) as [[p|]|]; cbn zeta in H.
  1: { apply bind_inv in H as (x & _ & H). apply bind_inv in H as (x1 & _ & H). apply bind_inv in H as (x2 & _ & H).
    apply bind_inv in H as (x3 & _ & H). apply bind_inv in H as (pm1 & E1 & H). apply bind_inv in H as (pm2 & E2 & H).
    apply bind_inv in H as (x4 & _ & H). apply bind_inv in H as (pm3 & E3 & H). apply bind_inv in H as (x5 & _ & H).
    injection H as <- <-. cbn. split; [done|].
    apply vfill_inv in E1 as [? ->]. apply vfill_inv in E2 as [? ->]. apply vfill_inv in E3 as [? ->].
    rewrite !inserts_length. lia. }
  all: apply bind_inv in H as (x & _ & H); apply bind_inv in H as (x1 & _ & H); injection H as <- <-; cbn;
    split; [done|]; rewrite resize_length; lia.
Qed.

Lemma free_node_grow g n g' : free_node g n = Ok g' ->
  length (pg_nodes g') = length (pg_nodes g) /\ pg_pmeta g' = pg_pmeta g.
Proof.
  unfold free_node. intros H. apply bind_inv in H as (ns & E & H). apply bind_inv in H as (ns' & (_ & ->)%vset_inv & H).
  injection H as <-. cbn. rewrite insert_length. split; [|done].
  destruct (pg_nfree g); [|by injection E as <-].
  apply bind_inv in E as (e & _ & E). destruct e; [|done]. apply vset_inv in E as (_ & ->). apply insert_length.
Qed.

Definition same_len (g g' : pg) : Prop :=
  length (pg_nodes g') = length (pg_nodes g) /\ length (pg_pmeta g') = length (pg_pmeta g).

Lemma rfold_same_len {A S} (f : S -> A -> res S) (pr : S -> pg) l s s' :
  (forall s a s', f s a = Ok s' -> same_len (pr s) (pr s')) ->
  rfold f l s = Ok s' -> same_len (pr s) (pr s').
Proof.
  intros Hf. revert s. induction l as [|a l IH]; intros s; cbn [rfold].
  - by intros [= ->].
  - intros (s1 & E & H)%bind_inv. apply Hf in E. apply IH in H. unfold same_len in *. lia.
Qed.

Lemma free_ports_grow g s n g' : free_ports g s n = Ok g' -> same_len g g'.
Proof.
  unfold free_ports. set (g0 := if decide (length _ < _) then _ else _). intros H.
  assert (E0 : same_len g g0) by (unfold g0; destruct (decide _); done). clearbody g0.
  destruct (decide _); [by injection H as <-|].
  apply bind_inv in H as (g1 & E1 & H). apply (rfold_same_len _ id) in E1.
  2:{ clear. intros g i g'. unfold free_port_step. intros (pm & (_ & ->)%vset_inv & H)%bind_inv.
      apply bind_inv in H as (l & _ & H). apply bind_inv in H as (lk & _ & H).
      destruct l; [|injection H as <-; cbn; split; [done|]; cbn; by rewrite insert_length].
      apply bind_inv in H as (lk' & _ & H). apply bind_inv in H as (c & _ & H).
      injection H as <-. split; [done|]; cbn; by rewrite insert_length. }
  apply bind_inv in H as (x & _ & H). apply bind_inv in H as (x1 & _ & H). apply bind_inv in H as (x2 & _ & H).
  injection H as <-. unfold same_len in *. cbn in *. lia.
Qed.

Lemma unlink_port_grow g p g' r : unlink_port g p = Ok (g', r) -> same_len g g'.
Proof.
  unfold unlink_port. destruct (pmeta g p); [|by intros [= <- <-]].
  intros (l & _ & H)%bind_inv. destruct l; [|by injection H as <- <-].
  apply bind_inv in H as (x & _ & H). apply bind_inv in H as (x1 & _ & H). apply bind_inv in H as (x2 & _ & H).
  by injection H as <- <-.
Qed.
Lemma drop_grow l s s' : rfold drop_step l s = Ok s' -> same_len s.1 s'.1.
Proof.
  apply (rfold_same_len _ fst). clear. intros [g lg] a s'. unfold drop_step.
  intros ([g1 l] & E & H)%bind_inv. injection H as <-. by eapply unlink_port_grow.
Qed.

Lemma realloc_grow l s s' : rfold realloc_step l s = Ok s' -> same_len s.1 s'.1.
Proof.
  apply (rfold_same_len _ fst). clear. intros [g lg] [o w] s'. unfold realloc_step. cbn.
  intros (l & _ & H)%bind_inv. apply bind_inv in H as (x & _ & H). apply bind_inv in H as (x1 & _ & H).
  apply bind_inv in H as (x2 & _ & H). apply bind_inv in H as (x3 & _ & H). apply bind_inv in H as (x4 & _ & H).
  apply bind_inv in H as (pm & (_ & ->)%vset_inv & H). injection H as <-. split; [done|]. cbn. by rewrite insert_length.
Qed.
Lemma move_grow l s s' : rfold move_step l s = Ok s' -> same_len s.1 s'.1.
Proof.
  apply (rfold_same_len _ fst). clear. intros [g lg] [o w] s'. unfold move_step. cbn.
  intros (l & _ & H)%bind_inv. apply bind_inv in H as (x & _ & H). apply bind_inv in H as (x1 & _ & H).
  apply bind_inv in H as (pm & (_ & ->)%vset_inv & H). apply bind_inv in H as (x3 & _ & H).
  injection H as <-. split; [done|]. cbn. by rewrite insert_length.
Qed.
Lemma init_grow n d l s s' : rfold (init_step n d) l s = Ok s' -> same_len s s'.
Proof.
  apply (rfold_same_len _ id). clear. intros g p s'. unfold init_step. cbn.
  intros (l & _ & H)%bind_inv. apply bind_inv in H as (pm & (_ & ->)%vset_inv & H).
  injection H as <-. split; [done|]. cbn. by rewrite insert_length.
Qed.
Lemma empty_grow l s s' : rfold empty_step l s = Ok s' -> same_len s s'.
Proof.
  apply (rfold_same_len _ id). clear. intros g p s'. unfold empty_step. cbn.
  intros (l & _ & H)%bind_inv. apply bind_inv in H as (pm & (_ & ->)%vset_inv & H).
  injection H as <-. split; [done|]. cbn. by rewrite insert_length.
Qed.

Lemma set_num_ports_grow g n i o g' log : set_num_ports g n i o = Ok (g', log) ->
  length (pg_nodes g') = length (pg_nodes g) /\
  length (pg_pmeta g') <= length (pg_pmeta g) + next_pow2 (i + o).
Proof.
  unfold set_num_ports. intros (_u & _ & H)%bind_inv. apply bind_inv in H as (_u' & _ & H).
  destruct (nmeta g n) as [m|] eqn:Em; [|injection H as <- <-; split; [done|lia]].
  destruct (decide _); [injection H as <- <-; split; [done|lia]|].
  destruct (decide _).
  - unfold resize_inplace in H. rewrite Em in H. cbn [unwrap] in H. rewrite bind_Ok in H.
    apply bind_inv in H as (m' & _ & H). apply bind_inv in H as ([g1 l1] & E1%drop_grow & H).
    apply bind_inv in H as ([g2 l2] & E2%move_grow & H).
    apply bind_inv in H as (g3 & E3%init_grow & H). apply bind_inv in H as (g4 & E4%init_grow & H).
    apply bind_inv in H as (g5 & E5%empty_grow & H). apply bind_inv in H as (ns & (_ & ->)%vset_inv & H).
    apply bind_inv in H as (pc & _ & H). injection H as <- <-.
    unfold same_len in *. cbn in *. rewrite insert_length. lia.
  - apply bind_inv in H as ([g1 l1] & E1%drop_grow & H).
    apply bind_inv in H as ([g2 m'] & (E2 & E2')%alloc_ports_grow & H).
    apply bind_inv in H as ([g3 l3] & E3%realloc_grow & H). apply bind_inv in H as ([g4 l4] & E4%realloc_grow & H).
    apply bind_inv in H as (ns & (_ & ->)%vset_inv & H). apply bind_inv in H as (g5 & E5%free_ports_grow & H).
    apply bind_inv in H as (pc & _ & H). injection H as <- <-.
    pose proof (next_pow2_ge (i + o)).
    unfold same_len in *. cbn in *. rewrite insert_length in E5.
    assert (length (pg_nodes g2) = length (pg_nodes g1)) by (by rewrite E2). lia.
Qed.

Lemma step_grow w g o g' r : Inv g -> allowed g o -> step w g o = Ok (g', r) ->
  length (pg_nodes g') <= length (pg_nodes g) + node_cost o /\
  length (pg_pmeta g') <= length (pg_pmeta g) + port_cost o.
Proof.
  intros (fnl & F & I) Ha. unfold step. destruct o as [inc o|n|a b|p|n inc o|a b| | | |a b|]; cbn [node_cost port_cost].
  - intros ([g1 n] & E & H)%bind_inv. injection H as <- <-. unfold add_node in E.
    apply bind_inv in E as (? & _ & E). apply bind_inv in E as (? & _ & E).
    apply bind_inv in E as ([g2 n2] & (L1 & L2)%alloc_node_grow & E).
    apply bind_inv in E as ([g3 m3] & (L3 & L4)%alloc_ports_grow & E).
    apply bind_inv in E as (ns & (_ & ->)%vset_inv & E). injection E as <- <-. cbn. rewrite insert_length.
    rewrite L3. rewrite L2 in L4. lia.
  - intros (g1 & E & H)%bind_inv. injection H as <- <-. unfold remove_node in E.
    destruct (pg_nodes g !! n) as [[|m]|]; [injection E as <-; lia| |injection E as <-; lia].
    apply bind_inv in E as (g2 & (L1 & L2)%free_node_grow & E). apply bind_inv in E as (nc & _ & E).
    destruct (decide _).
    + apply bind_inv in E as (pc & _ & E). apply bind_inv in E as (? & _ & E). apply bind_inv in E as (? & _ & E).
      apply free_ports_grow in E. unfold same_len in E. cbn in E. rewrite L2 in E. lia.
    + injection E as <-. cbn. rewrite L2. lia.
  - intros ([g1 r1] & E & H)%bind_inv. injection H as <- <-.
    destruct (link_ports_spec g fnl F a b I) as (g2 & r2 & E2 & Hs). rewrite E in E2. injection E2 as <- <-.
    destruct r1; [destruct Hs as [-> _]; lia|]. destruct Hs as (_ & _ & Hs & _).
    rewrite (sb_nodes _ _ Hs), (sb_pmeta _ _ Hs). lia.
  - intros ([g1 r1] & E & H)%bind_inv. injection H as <- <-. apply unlink_port_grow in E. unfold same_len in E. lia.
  - intros ([g1 r1] & E & H)%bind_inv. injection H as <- <-. apply set_num_ports_grow in E. lia.
  - intros (g1 & E & H)%bind_inv. injection H as <- <-.
    clear Ha. unfold swap_nodes in E.
    apply bind_inv in E as (ma & _ & E). apply bind_inv in E as (mb & _ & E).
    apply bind_inv in E as (n1 & (_ & ->)%vset_inv & E). apply bind_inv in E as (n2 & (_ & ->)%vset_inv & E).
    apply bind_inv in E as (pm1 & E1 & E). apply bind_inv in E as (pm2 & E2 & E).
    apply bind_inv in E as (ns & E3 & E). injection E as <-. cbn.
    assert (Hu : forall ns n p x ns', update_free_list ns n p x = Ok ns' -> length ns' = length ns).
    { clear. intros ns n p x ns'. unfold update_free_list. intros (n1 & E & H)%bind_inv.
      assert (length n1 = length ns).
      { destruct p; [|by injection E as <-]. apply bind_inv in E as (e & _ & E). destruct e; [|done].
        apply vset_inv in E as (_ & ->). apply insert_length. }
      destruct x; [|injection H as <-; done]. apply bind_inv in H as (e & _ & H). destruct e; [|done].
      apply vset_inv in H as (_ & ->). by rewrite insert_length. }
    assert (L3 : length ns = length (pg_nodes g)).
    { destruct ma, mb; try (apply Hu in E3); try (injection E3 as <-); by rewrite ?insert_length in *. }
    assert (Hrl : forall pm n m pm', relabel_ports pm n m = Ok pm' -> length pm' = length pm).
    { clear. intros pm n m pm'. unfold relabel_ports. intros (pm1 & E & H)%bind_inv.
      assert (Hv : forall e l (pm pm' : list port_entry), rfold (fun pm p => vset pm p e) l pm = Ok pm' -> length pm' = length pm).
      { clear. intros e l. induction l as [|x l IH]; cbn [rfold]; intros pm pm'.
        - by intros [= ->].
        - intros (pm1 & (_ & ->)%vset_inv & H)%bind_inv. apply IH in H. by rewrite insert_length in H. }
      apply Hv in E. apply Hv in H. lia. }
    destruct ma, mb; try apply Hrl in E1; try apply Hrl in E2; try (injection E1 as <-); try (injection E2 as <-); lia.
  - intros ([g1 l] & E & H)%bind_inv. injection H as <- <-. unfold compact_nodes in E.
    apply bind_inv in E as ([[ns pm] lg] & E1 & E). injection E as <- <-. cbn.
    destruct (compact_nodes_loop_spec (pg_nodes g) 0 0 (pg_pmeta g)) as (pm' & E2 & L & _).
    { intros i m Hm. assert (Hm' : nmeta g i = Some m) by (unfold nmeta; by rewrite Hm).
      pose proof (inv_meta_ok _ _ _ I _ _ Hm'). unfold meta_ok in *. lia. }
    { intros i j m m' d d' p Hne Hi Hj Hr Hr'.
      assert (Hi' : nmeta g i = Some m) by (unfold nmeta; by rewrite Hi).
      assert (Hj' : nmeta g j = Some m') by (unfold nmeta; by rewrite Hj).
      pose proof (inv_pmeta_range _ _ _ I _ _ _ _ Hi' Hr). pose proof (inv_pmeta_range _ _ _ I _ _ _ _ Hj' Hr'). congruence. }
    rewrite E1 in E2. injection E2 as -> -> _. rewrite L.
    pose proof (filter_length (fun e => is_nnode e = true) (pg_nodes g)). lia.
  - intros ([g1 l] & E & H)%bind_inv. injection H as <- <-.
    assert (Hl : forall es o n ns pm ns' lg, compact_pmeta_loop es o n ns = Ok (pm, ns', lg) ->
      length ns' = length ns /\ length pm <= length es).
    { clear. induction es as [|e es IH]; intros o n ns pm ns' lg; cbn [compact_pmeta_loop].
      - intros [= <- <- <-]. cbn. lia.
      - destruct e as [|x d]; [intros H%IH; cbn; lia|]. intros (e & _ & H)%bind_inv. destruct e as [|m]; [done|].
        apply bind_inv in H as (ns1 & E1 & H). apply bind_inv in H as ([[pm1 ns2] lg1] & (L1 & L2)%IH & H).
        injection H as <- <- <-. cbn. assert (length ns1 = length ns); [|lia].
        destruct (decide _); [|by injection E1 as <-]. apply bind_inv in E1 as (m' & _ & (_ & ->)%vset_inv). apply insert_length. }
    unfold compact_ports in E. apply bind_inv in E as ([lk k] & _ & E). apply bind_inv in E as ([[pm ns] lg] & (L1 & L2)%Hl & E).
    injection E as <- <-. cbn. lia.
  - intros [= <- <-]. cbn. lia.
  - intros [= <- <-]. unfold reserve, shrink_to_fit. lia.
  - intros [= <- <-]. unfold reserve, shrink_to_fit. lia.
Qed.

Lemma hist_grow w ops g : hist w ops g ->
  length (pg_nodes g) <= sum_list (node_cost <$> ops) /\ length (pg_pmeta g) <= sum_list (port_cost <$> ops).
Proof.
  intros H. induction H as [|ops g o g' r Hh IH Ha Hs]; [done|].
  assert (HI : Inv g) by (eapply reach_inv; by exists ops).
  apply step_grow in Hs; [|done|done]. rewrite !fmap_app, !sum_list_with_app. cbn.
  unfold sum_list_with in *. lia.
Qed.
