(** Proofs about the [Debug] output. *)
From Coq Require Import Ascii String Sorted.
From stdpp Require Import pretty.
From Verif Require Export DebugSpec DotTextThms MultiPG.
From Verif Require Import DynThms PGReplay PG1Thms.
Open Scope list_scope.
Open Scope string_scope.

(** ** Lists with separators *)
Lemma join_cons sep x l : join_with sep (x :: l) = x +:+ foldr String.append "" (String.append sep <$> l).
Proof.
  revert x. induction l as [|y l IH]; intros x; cbn [join_with].
  - cbn. induction x as [|c x IH]; [done|]. change (String c x = String c (x +:+ "")). by rewrite <- IH.
  - rewrite fmap_cons. cbn [foldr]. rewrite sapp. by rewrite <- IH.
Qed.
(** What [f a] stands for can be read off the front of a text that begins with it. *)
Definition front {A} (R : A -> A -> Prop) (f : A -> string) : Prop := forall a b t u, f a +:+ t = f b +:+ u -> R a b /\ t = u.
Lemma join_inj {A} (R : A -> A -> Prop) (f : A -> string) l l' t u : front R f -> (forall a x y, f a +:+ x <> "}" +:+ y) ->
  join_with ", " (f <$> l) +:+ ("}" +:+ t) = join_with ", " (f <$> l') +:+ ("}" +:+ u) -> Forall2 R l l' /\ t = u.
Proof.
  intros Hf Hne.
  assert (Htl : forall l l' t u, foldr String.append "" (String.append ", " <$> (f <$> l)) +:+ ("}" +:+ t) =
      foldr String.append "" (String.append ", " <$> (f <$> l')) +:+ ("}" +:+ u) -> Forall2 R l l' /\ t = u).
  { clear l l' t u. induction l as [|a l IH]; intros [|b l'] t u E.
    - apply (append_inj "}") in E. split; [constructor|done].
    - rewrite !fmap_cons in E. cbn [foldr] in E. rewrite !sapp in E. discriminate E.
    - rewrite !fmap_cons in E. cbn [foldr] in E. rewrite !sapp in E. discriminate E.
    - rewrite !fmap_cons in E. cbn [foldr] in E. rewrite !sapp in E. apply append_inj in E. apply Hf in E as [HR E]. apply IH in E as [HF ->].
      split; [by constructor|done]. }
  destruct l as [|a l], l' as [|b l']; intros E.
  - apply (append_inj "}") in E. split; [constructor|done].
  - exfalso. rewrite !fmap_cons, join_cons, sapp in E. symmetry in E. by apply Hne in E.
  - exfalso. rewrite !fmap_cons, join_cons, sapp in E. by apply Hne in E.
  - rewrite !fmap_cons, !join_cons, !sapp in E. apply Hf in E as [HR E]. apply Htl in E as [HF ->]. split; [by constructor|done].
Qed.

(** ** Indices *)
Definition lo31 (n : nat) : Prop := (N.of_nat n <= max_index + 1)%N.
Lemma ix_lo n : lo31 n -> ix_index 32 (N.of_nat n) = N.of_nat n.
Proof.
  unfold lo31, max_index. intros H. unfold ix_index, bf_index_unchecked.
  assert (bnot 32 (msb_mask 32) = N.ones 31) as -> by reflexivity. rewrite N.land_ones. apply N.mod_small. 
  change (2 ^ 31)%N with 2147483648%N. lia.
Qed.
Definition ix_text (name : string) (n : nat) : string := name +:+ "(" +:+ pretty n +:+ ")".
Lemma dbg_ix_lo name n : lo31 n -> dbg_ix name 32 (N.of_nat n) = ix_text name n.
Proof. intros H. unfold dbg_ix. by rewrite ix_lo. Qed.
Lemma ix_new_lo n : lo31 n -> ix_new 32 (N.of_nat n) = Ok (N.of_nat n).
Proof.
  unfold lo31, max_index. intros H. unfold ix_new, bf_new, from_usize. 
  assert (umax 32 = 4294967295%N) as -> by reflexivity. destruct (N.leb_spec (N.of_nat n) 4294967295) as [_|Hn]; [done|lia].
Qed.
Lemma ix_inj name n m t u : ix_text name n +:+ t = ix_text name m +:+ u -> n = m /\ t = u.
Proof. unfold ix_text. rewrite !sapp. intros E. apply append_inj, append_inj in E. by apply num_lit in E. Qed.

(** ** Ranges *)
Definition range_text (start len : nat) : string :=
  match len with
  | 0 => "[]"
  | 1 => "[" +:+ ix_text "PortIndex" start +:+ "]"
  | _ => ix_text "PortIndex" start +:+ ".." +:+ ix_text "PortIndex" (start + len)
  end.
Lemma range_ok s k : (0 < k -> lo31 (s + k)) -> dbg_range s k = Ok (range_text s k).
Proof.
  intros H. unfold dbg_range, range_text, dbg_new_port. destruct k as [|[|k]]; [done| |].
  - specialize (H ltac:(lia)). assert (lo31 s) as H' by (unfold lo31 in *; lia). rewrite ix_new_lo by done. cbn [mbind res_bind]. by rewrite dbg_ix_lo.
  - specialize (H ltac:(lia)). assert (lo31 s) as H' by (unfold lo31 in *; lia). rewrite !ix_new_lo by done. cbn [mbind res_bind]. by rewrite !dbg_ix_lo.
Qed.
Lemma range_inj s k s' k' t u : range_text s k +:+ t = range_text s' k' +:+ u -> seq s k = seq s' k' /\ t = u.
Proof.
  intros E. destruct k as [|[|k]], k' as [|[|k']]; unfold range_text in E; try discriminate E.
  - by apply append_inj in E.
  - rewrite !sapp in E. apply append_inj in E. apply ix_inj in E as [-> E]. by apply append_inj in E.
  - rewrite !sapp in E. apply ix_inj in E as [-> E]. apply append_inj in E. apply ix_inj in E as [Ek ->]. split; [|done]. f_equal. lia.
Qed.
Lemma seq_range s k s' k' : seq s k = seq s' k' -> range_text s k = range_text s' k'.
Proof.
  intros E. assert (k = k') as <- by (apply (f_equal length) in E; by rewrite !seq_length in E).
  destruct k as [|k]; [done|]. cbn in E. injection E as -> _. done.
Qed.

(** ** Entries *)
Definition node_text (x : nat * (nat * nat) * (nat * nat)) : string :=
  dbg_entry (ix_text "NodeIndex" x.1.1, debug_struct "Node" [("inputs", range_text x.1.2.1 x.1.2.2); ("outputs", range_text x.2.1 x.2.2)]).
Definition port_text (x : nat * (nat * dir) * option nat) : string :=
  dbg_entry (ix_text "PortIndex" x.1.1, debug_struct "Port" ([("node", ix_text "NodeIndex" x.1.2.1); ("direction", dbg_dir x.1.2.2)]
     ++ match x.2 with Some q => [("link", ix_text "PortIndex" q)] | None => [] end)).

Definition same_ninfo (x y : nat * (nat * nat) * (nat * nat)) : Prop :=
  x.1.1 = y.1.1 /\ seq x.1.2.1 x.1.2.2 = seq y.1.2.1 y.1.2.2 /\ seq x.2.1 x.2.2 = seq y.2.1 y.2.2.
Lemma node_front : front same_ninfo node_text.
Proof.
  intros [[n [a b]] [c d]] [[n' [a' b']] [c' d']] t u E. unfold node_text, dbg_entry, debug_struct in E. cbn [fst snd join_with fmap list_fmap] in E.
  unfold dbg_entry in E. cbn [fst snd] in E. rewrite !sapp in E.
  apply ix_inj in E as [-> E]. do 3 apply append_inj in E. do 2 apply append_inj in E. apply range_inj in E as [E1 E].
  do 3 apply append_inj in E. apply range_inj in E as [E2 E]. apply append_inj in E. done.
Qed.
Lemma node_not_end x y z : node_text x +:+ y <> "}" +:+ z.
Proof. unfold node_text, dbg_entry, ix_text. cbn [fst snd]. rewrite !sapp. discriminate. Qed.
Lemma port_front : front eq port_text.
Proof.
  intros [[p [n d]] l] [[p' [n' d']] l'] t u E. unfold port_text, dbg_entry, debug_struct in E. cbn [fst snd] in E. rewrite !sapp in E.
  apply ix_inj in E as [-> E]. do 3 apply append_inj in E.
  destruct l as [q|], l' as [q'|]; cbn [app fmap list_fmap join_with] in E; unfold dbg_entry in E; cbn [fst snd] in E; rewrite !sapp in E;
    do 2 apply append_inj in E; apply ix_inj in E as [-> E]; do 3 apply append_inj in E; destruct d, d'; try discriminate E; apply append_inj in E; try discriminate E.
  - do 3 apply append_inj in E. apply ix_inj in E as [-> E]. apply append_inj in E. done.
  - do 3 apply append_inj in E. apply ix_inj in E as [-> E]. apply append_inj in E. done.
  - apply append_inj in E. done.
  - apply append_inj in E. done.
Qed.
Lemma port_not_end x y z : port_text x +:+ y <> "}" +:+ z.
Proof. unfold port_text, dbg_entry, ix_text. cbn [fst snd]. rewrite !sapp. discriminate. Qed.

(** ** Graphs *)
Definition nrange (g : pg) (n : nat) (d : dir) : nat * nat := match nmeta g n with Some m => (nm_start m d, nm_num m d) | None => (0, 0) end.
Definition node_info (g : pg) (n : nat) := (n, nrange g n Incoming, nrange g n Outgoing).
Definition port_info (g : pg) (p : nat) := (p, default (0, Incoming) (pmeta g p), lk g p).
Definition pg_text (g : pg) : string :=
  "PortGraph { nodes: {" +:+ join_with ", " (node_text <$> (node_info g <$> nodes_iter g)) +:+ "}, ports: {"
  +:+ join_with ", " (port_text <$> (port_info g <$> ports_iter g)) +:+ "} }".
Lemma nrange_ports g n d : seq (nrange g n d).1 (nrange g n d).2 = ports g n d.
Proof. unfold nrange, ports. by destruct (nmeta g n). Qed.
Lemma res_map_ok {A B} (f : A -> res B) (h : A -> B) l : (forall a, a ∈ l -> f a = Ok (h a)) -> res_map f l = Ok (h <$> l).
Proof.
  induction l as [|a l IH]; intros H; [done|]. cbn [res_map]. rewrite H by (by left). cbn [mbind res_bind]. rewrite IH; [done|].
  intros b Hb. apply H. by right.
Qed.

Section graph.
  Context (w : N) (g : pg) (R : reach w g).
  Lemma node_lo n : contains_node g n = true -> lo31 n.
  Proof.
    destruct (reach_inv _ _ R) as (fnl & F & I). intros [m Hm]%contains_node_true. unfold nmeta in Hm. destruct (pg_nodes g !! n) as [e|] eqn:En; [|done].
    apply lookup_lt_Some in En. pose proof (i_nsize _ _ _ I). unfold lo31. lia.
  Qed.
  Lemma port_lo p : contains_port g p = true -> lo31 (p + 1).
  Proof.
    destruct (reach_inv _ _ R) as (fnl & F & I). intros [m Hm]%contains_port_true. unfold pmeta in Hm. destruct (pg_pmeta g !! p) as [e|] eqn:En; [|done].
    apply lookup_lt_Some in En. pose proof (i_psize _ _ _ I). unfold lo31. lia.
  Qed.
  Lemma nodes_in n : n ∈ nodes_iter g <-> contains_node g n = true.
  Proof. rewrite nodes_iter_eq, node_ids_elem. symmetry. apply contains_node_true. Qed.
  Lemma ports_in n : n ∈ ports_iter g <-> contains_port g n = true.
  Proof. rewrite ports_iter_eq, port_ids_elem. symmetry. apply contains_port_true. Qed.
  Lemma ports_dbg n d : dbg_ports g n d = Ok (range_text (nrange g n d).1 (nrange g n d).2).
  Proof.
    unfold dbg_ports. pose proof (nrange_ports g n d) as Hs. unfold nrange in *. destruct (nmeta g n) as [m|] eqn:Em; [|done]. cbn [fst snd] in *.
    apply range_ok. intros Hk. assert (nm_start m d + (nm_num m d - 1) ∈ ports g n d) as Hp by (rewrite <- Hs; apply elem_of_seq; lia).
    apply (r_elem w g R) in Hp. assert (contains_port g (nm_start m d + (nm_num m d - 1)) = true) as Hl%port_lo by (apply contains_port_true; eauto).
    unfold lo31 in *. lia.
  Qed.
  Lemma lk_lo p q : lk g p = Some q -> lo31 q.
  Proof.
    intros Hq. assert (contains_port g q = true) as Hl%port_lo; [|unfold lo31 in *; lia].
    apply (r_lk_meta w g R) in Hq as (n & d & n' & _ & Hq). apply contains_port_true. eauto.
  Qed.
  Lemma dbg_pg_text : dbg_pg g = Ok (pg_text g).
  Proof.
    unfold dbg_pg. rewrite (res_map_ok (dbg_node g) (fun n => (ix_text "NodeIndex" n, debug_struct "Node" [("inputs", range_text (nrange g n Incoming).1 (nrange g n Incoming).2); ("outputs", range_text (nrange g n Outgoing).1 (nrange g n Outgoing).2)]))).
    2: { intros n Hn%nodes_in. unfold dbg_node. rewrite !ports_dbg. cbn [mbind res_bind]. unfold dbg_node_ix. by rewrite dbg_ix_lo by (by apply node_lo). }
    cbn [mbind res_bind].
    rewrite (res_map_ok (dbg_port g) (fun p => (ix_text "PortIndex" p, debug_struct "Port" ([("node", ix_text "NodeIndex" (default (0, Incoming) (pmeta g p)).1); ("direction", dbg_dir (default (0, Incoming) (pmeta g p)).2)]
      ++ match lk g p with Some q => [("link", ix_text "PortIndex" q)] | None => [] end)))).
    2: { intros p Hp. apply ports_in in Hp. pose proof (port_lo p Hp) as Hlo. apply contains_port_true in Hp as [[n d] Hp]. unfold dbg_port, port_direction, port_node.
      rewrite (r_port_link w g R p _ Hp), Hp. cbn [mbind res_bind unwrap fmap option_fmap option_map fst snd default from_option id].
      unfold dbg_port_ix, dbg_node_ix. rewrite dbg_ix_lo by (unfold lo31 in *; lia). rewrite dbg_ix_lo by (by eapply node_lo, (r_node w g R)).
      destruct (lk g p) as [q|] eqn:Eq; [|done]. by rewrite dbg_ix_lo by (by eapply lk_lo). }
    cbn [mbind res_bind]. unfold debug_map, pg_text. rewrite <- !list_fmap_compose.
    match goal with |- context [join_with ", " (?f <$> nodes_iter g)] => change (join_with ", " (f <$> nodes_iter g)) with (join_with ", " (node_text ∘ node_info g <$> nodes_iter g)) end.
    match goal with |- context [join_with ", " (?f <$> ports_iter g)] => change (join_with ", " (f <$> ports_iter g)) with (join_with ", " (port_text ∘ port_info g <$> ports_iter g)) end.
    generalize (join_with ", " (node_text ∘ node_info g <$> nodes_iter g)) (join_with ", " (port_text ∘ port_info g <$> ports_iter g)). intros X Y.
    unfold debug_struct. cbn [fmap list_fmap join_with]. unfold dbg_entry. cbn [fst snd]. by rewrite !sapp.
  Qed.
End graph.

Lemma ok_inj {A} (a b : A) : Ok a = Ok b -> a = b.
Proof. by intros [=]. Qed.
Lemma f2_eq {A} (a b : list A) : Forall2 eq a b -> a = b.
Proof. induction 1 as [|x y a b -> _ IH]; [done|by rewrite IH]. Qed.

(** The part of [same_graph] the text is about. *)
Definition dbg_same (g g' : pg) : Prop :=
  (forall n, contains_node g n = contains_node g' n) /\
  (forall n d, ports g n d = ports g' n d) /\
  (forall p q, linked g p q <-> linked g' p q).

Section two.
  Context (w w' : N) (g g' : pg) (R : reach w g) (R' : reach w' g').
  Lemma same_pmeta : dbg_same g g' -> forall p, pmeta g p = pmeta g' p.
  Proof.
    intros (_ & Hp & _) p. apply option_eq. intros [n d]. rewrite <- (r_elem w g R), <- (r_elem w' g' R'). by rewrite Hp.
  Qed.
  Lemma linked_lk p q (h : pg) v : reach v h -> linked h p q <-> lk h p = Some q.
  Proof.
    intros Rh. unfold linked. destruct (pmeta h p) as [x|] eqn:Ep.
    - rewrite (r_port_link v h Rh p x Ep). split; [by intros [= ->]|by intros ->].
    - rewrite (r_port_link_none v h Rh p Ep), (r_lk_none v h Rh p Ep). done.
  Qed.
  Lemma text_same : pg_text g = pg_text g' -> dbg_same g g'.
  Proof.
    intros E. unfold pg_text in E. apply append_inj in E.
    apply (join_inj same_ninfo node_text _ _ (", ports: {" +:+ _) (", ports: {" +:+ _)) in E as [En E]; [|apply node_front|apply node_not_end].
    apply append_inj in E. apply (join_inj eq port_text _ _ " }" " }") in E as [Ep _]; [|apply port_front|apply port_not_end].
    apply f2_eq in Ep.
    assert (Hn : nodes_iter g = nodes_iter g' /\ forall n d, n ∈ nodes_iter g -> ports g n d = ports g' n d).
    { revert En. generalize (nodes_iter g) (nodes_iter g'). intros l l' H. apply Forall2_fmap_1 in H.
      induction H as [|x y a b (H1 & H2 & H3) H IH]; [split; [done|by intros ? ? ?%elem_of_nil]|].
      destruct IH as [-> IH]. cbn in H1. subst y. split; [done|]. intros n d [-> |Hn]%elem_of_cons; [|by apply IH].
      rewrite <- !nrange_ports. destruct d; [exact H2|exact H3]. }
    destruct Hn as [Hn Hports].
    assert (Hl : ports_iter g = ports_iter g' /\ forall p, p ∈ ports_iter g -> lk g p = lk g' p).
    { revert Ep. generalize (ports_iter g) (ports_iter g'). induction l as [|p l IH]; intros [|q l'] Ep; try discriminate Ep; [split; [done|by intros ? ?%elem_of_nil]|].
      rewrite !fmap_cons in Ep. injection Ep as -> Em Ek Ep. apply IH in Ep as [-> Hk]. split; [done|]. intros r [-> |Hr]%elem_of_cons; [done|by apply Hk]. }
    destruct Hl as [Hl Hlk].
    assert (Hc : forall n, contains_node g n = contains_node g' n).
    { intros n. apply eq_bool_prop_intro. split; intros H%Is_true_true; apply Is_true_true; apply nodes_in; apply nodes_in in H; congruence. }
    split; [exact Hc|]. split.
    - intros n d. destruct (contains_node g n) eqn:Ec; [apply Hports; by apply nodes_in|]. rewrite (r_dead g n d Ec). rewrite Hc in Ec. by rewrite (r_dead g' n d Ec).
    - intros p q. rewrite (linked_lk p q g w R), (linked_lk p q g' w' R').
      destruct (contains_port g p) eqn:Ec; [rewrite (Hlk p); [done|by apply ports_in]|].
      rewrite (r_lk_none w g R) by (by apply contains_port_false). rewrite (r_lk_none w' g' R'); [done|]. apply contains_port_false.
      destruct (contains_port g' p) eqn:Ec'; [|done]. apply ports_in in Ec'. rewrite <- Hl in Ec'. apply ports_in in Ec'. congruence.
  Qed.
  Lemma same_text : dbg_same g g' -> pg_text g = pg_text g'.
  Proof.
    intros Hs. pose proof (same_pmeta Hs) as Hpm. destruct Hs as (Hc & Hp & Hl). unfold pg_text.
    assert (nodes_iter g = nodes_iter g') as <-.
    { apply sorted_ext; [rewrite nodes_iter_eq; apply node_ids_sorted|rewrite nodes_iter_eq; apply node_ids_sorted|]. intros n. rewrite !nodes_in. by rewrite Hc. }
    assert (ports_iter g = ports_iter g') as <-.
    { apply sorted_ext; [rewrite ports_iter_eq; apply port_ids_sorted|rewrite ports_iter_eq; apply port_ids_sorted|]. intros n. rewrite !ports_in.
      unfold contains_port. by rewrite Hpm. }
    f_equal. f_equal; [|f_equal; f_equal].
    - f_equal. rewrite <- !list_fmap_compose. apply list_fmap_ext. intros _ n _. unfold compose, node_text, node_info. cbn [fst snd].
      rewrite (seq_range (nrange g n Incoming).1 (nrange g n Incoming).2 (nrange g' n Incoming).1 (nrange g' n Incoming).2) by (by rewrite !nrange_ports).
      rewrite (seq_range (nrange g n Outgoing).1 (nrange g n Outgoing).2 (nrange g' n Outgoing).1 (nrange g' n Outgoing).2) by (by rewrite !nrange_ports). done.
    - f_equal. f_equal. apply list_fmap_ext. intros _ p _. unfold port_info. rewrite Hpm. f_equal.
      apply option_eq. intros q. rewrite <- (linked_lk p q g w R), <- (linked_lk p q g' w' R'). apply Hl.
  Qed.
  Lemma dbg_same_graph : dbg_same g g' <-> same_graph g g'.
  Proof.
    split.
    - intros Hs. pose proof (same_pmeta Hs) as Hpm. destruct Hs as (Hc & Hp & Hl).
      assert (Hpc : forall p, contains_port g' p = contains_port g p) by (intros p; unfold contains_port; by rewrite Hpm).
      assert (Hpd : forall p, port_direction g' p = port_direction g p) by (intros p; unfold port_direction; by rewrite Hpm).
      destruct (C03_counts_pf w g R) as (N1 & P1 & L1 & _). destruct (C03_counts_pf w' g' R') as (N2 & P2 & L2 & _).
      split; [|split; [|split; [|split]]].
      + intros n. split; [done|]. intros d. done.
      + intros p. split; [done|]. split; [unfold port_node; by rewrite Hpm|]. split; [done|].
        destruct (pmeta g p) as [x|] eqn:Ep.
        * rewrite (r_port_link w g R p x Ep), (r_port_link w' g' R' p x) by (by rewrite <- Hpm). f_equal.
          apply option_eq. intros q. rewrite <- (linked_lk p q g w R), <- (linked_lk p q g' w' R'). symmetry. apply Hl.
        * rewrite (r_port_link_none w g R p Ep), (r_port_link_none w' g' R' p) by (by rewrite <- Hpm). done.
      + eapply card_unique; [exact N2|]. eapply card_ext; [|exact N1]. intros n. cbn beta. by rewrite Hc.
      + eapply card_unique; [exact P2|]. eapply card_ext; [|exact P1]. intros n. cbn beta. by rewrite Hpc.
      + eapply card_unique; [exact L2|]. eapply card_ext; [|exact L1]. intros n. cbn beta. rewrite Hpd.
        split; intros (H & q & Hq); (split; [done|]); exists q; by apply Hl.
    - intros (Hn & Hp & _). split; [|split].
      + intros n. symmetry. apply Hn.
      + intros n d. symmetry. apply Hn.
      + intros p q. unfold linked. destruct (Hp p) as (_ & _ & _ & ->). done.
  Qed.
  Lemma debug_text : dbg_pg g = Ok (pg_text g) /\ (dbg_pg g' = Ok (pg_text g) <-> same_graph g g').
  Proof.
    split; [by eapply dbg_pg_text|]. rewrite (dbg_pg_text w' g' R'), <- dbg_same_graph. split.
    - intros E%ok_inj. apply text_same. by symmetry.
    - intros Hs%same_text. by rewrite Hs.
  Qed.
End two.
