(** What the reading functions of a multigraph return. *)
From Verif Require Export MultiOps8.

Section read.
  Context (w : N) (Hw : (1 < w <= 63)%N) (m : mpg) (I : minv w m []).
  Notation g := (m_graph m).
  Let R := mi_reach _ _ _ I.

  Lemma rlink_sym x y : rlink m x y -> rlink m y x.
  Proof. intros (Vx & Vy & s & t & Hs & Ht & L). split; [done|]. split; [done|]. exists t, s. split_and!; try done. by apply (r_lk_sym w g R). Qed.
  Lemma rlink_fun x y y' : rlink m x y -> rlink m x y' -> y = y'.
  Proof.
    intros (Vx & Vy & s & t & Hs & Ht & L) (_ & Vy' & s' & t' & Hs' & Ht' & L'). assert (s' = s) as -> by congruence. assert (t' = t) as -> by congruence.
    destruct y as [q j], y' as [q' j']. cbn in *. by destruct (raws_inj w Hw m I q j q' j' t Vy Vy' Ht Ht') as [-> ->].
  Qed.
  Lemma rlink_dir x y : rlink m x y -> exists n d n', pmeta g x.1 = Some (n, d) /\ pmeta g y.1 = Some (n', rev_dir d) /\ is_copy m n = false /\ is_copy m n' = false.
  Proof.
    intros (Vx & Vy & s & t & Hs & Ht & L). pose proof Vx as (n & d & Mx & Cn). pose proof Vy as (n' & d' & My & Cn').
    destruct (raws_some w Hw m I _ _ _ _ _ Mx Cn Hs) as (_ & [c Ms] & _). destruct (raws_some w Hw m I _ _ _ _ _ My Cn' Ht) as (_ & [c' Mt] & _).
    destruct (r_lk_meta w g R _ _ L) as (? & d1 & ? & Ms' & Mt'). rewrite Ms in Ms'. injection Ms' as -> ->. rewrite Mt in Mt'. injection Mt' as -> ->.
    by exists n, d1, n'.
  Qed.
  Lemma rlink_dec x : (exists y, rlink m x y) \/ (forall y, ~ rlink m x y).
  Proof.
    destruct (raws m x.1 !! x.2) as [s|] eqn:Hs; [|right; intros y (_ & _ & s & t & H & _); congruence].
    destruct (vis_dec m x.1) as [V|V]; [|right; intros y H; by destruct H].
    destruct (lk g s) as [t|] eqn:L; [|right; intros y (_ & _ & s' & t & H & _ & L'); congruence].
    left. exists (psub w m t). destruct V as (n & d & M & C).
    destruct (raws_some w Hw m I _ _ _ _ _ M C Hs) as (F & _). destruct (lk_psub w Hw m I s t L F) as (_ & V' & Ht).
    split; [by exists n, d|]. split; [done|]. by exists s, t.
  Qed.

  (** [subport_link] *)
  Lemma subport_link_eq p k s : vis m p -> raws m p !! k = Some s -> m_subport_link w m (p, k) = Ok (option_map (psub w m) (lk g s)).
  Proof.
    intros V Hs. pose proof V as (n & d & Mp & Cn). destruct (raws_some w Hw m I _ _ _ _ _ Mp Cn Hs) as (F & [c Ms] & _).
    unfold m_subport_link. rewrite (sub_to_port_raw w Hw m I (p, k) s V Hs), bind_Ok, (r_port_link w g R _ _ Ms), bind_Ok.
    destruct (lk g s) as [t|] eqn:L; [|done]. destruct (lk_psub w Hw m I s t L F) as (E & _). done.
  Qed.
  Lemma subport_link_rlink x y : rlink m x y -> m_subport_link w m x = Ok (Some y).
  Proof.
    intros (Vx & Vy & s & t & Hs & Ht & L). destruct x as [p k], y as [q j]. cbn [fst snd] in *. rewrite (subport_link_eq p k s Vx Hs), L. cbn. do 2 f_equal.
    by apply (psub_raw w Hw m I).
  Qed.
  Lemma subport_link_none x : vis m x.1 -> (N.of_nat x.2 <= po_max_offset w)%N -> (is_multi m x.1 = false -> x.2 = 0) -> (forall y, ~ rlink m x y) -> m_subport_link w m x = Ok None.
  Proof.
    intros V Hx Hu Hn. destruct x as [p k]. cbn [fst snd] in *. destruct (raws m p !! k) as [s|] eqn:Hs.
    - rewrite (subport_link_eq p k s V Hs). destruct (lk g s) as [t|] eqn:L; [|done]. exfalso.
      pose proof V as (n & d & Mp & Cn). destruct (raws_some w Hw m I _ _ _ _ _ Mp Cn Hs) as (F & _).
      destruct (lk_psub w Hw m I s t L F) as (_ & V' & Ht). apply (Hn (psub w m t)). split; [done|]. split; [done|]. by exists s, t.
    - unfold m_subport_link. rewrite (raws_sub_to_port w Hw m I p k V Hx). destruct (is_multi m p) eqn:F; [by rewrite Hs, bind_Ok|].
      rewrite (Hu eq_refl), raws_single in Hs; done.
  Qed.

  (** Subports *)
  Definition subs (p : nat) : list subport := map (fun i => (p, i)) (seq 0 (length (raws m p))).
  Lemma subports_eq p : vis m p -> m_port_subports m p = Ok (subs p).
  Proof.
    intros (n & d & Mp & Cn). unfold m_port_subports, subs. destruct (is_multi m p) eqn:Fp.
    - destruct (flag_vis w m I p n d Fp Mp Cn) as (q & c & Lp & Lq & Fq & Mq & Cc & Pq & Hr & H2 & Hmax & Ho).
      rewrite (pm_dir _ _ _ _ Mp). cbn [unwrap]. rewrite bind_Ok. unfold get_copy_node.
      rewrite (r_port_link w _ R _ _ Mp), bind_Ok, Lp, (pm_node _ _ _ _ Mq), bind_Ok. cbn [unwrap]. rewrite bind_Ok.
      rewrite Hr, (r_len (m_graph m)).
      assert (Hb : (N.of_nat (num_ports (m_graph m) c d) <= 65534)%N).
      { pose proof (r_num w _ R c). assert (num_ports (m_graph m) c (rev_dir d) = 1) by (by rewrite <- (r_len (m_graph m)), Pq). destruct d; cbn [rev_dir] in *; lia. }
      apply rmap_map. intros i Hi%elem_of_seq. unfold sp_multi. rewrite (proj2 (N.ltb_lt _ _)) by lia. cbn. by rewrite Nat2N.id.
    - by rewrite raws_single.
  Qed.
  Lemma subs_elem p x : x ∈ subs p <-> x.1 = p /\ x.2 < length (raws m p).
  Proof.
    unfold subs. rewrite elem_of_list_fmap. destruct x as [q i]. cbn. split.
    - intros (k & [= -> ->] & Hk%elem_of_seq). lia.
    - intros [-> H]. exists i. split; [done|]. apply elem_of_seq. lia.
  Qed.
  Lemma subs_len p : length (subs p) = length (raws m p).
  Proof. unfold subs. by rewrite map_length, seq_length. Qed.
  Lemma room_roomy p : vis m p -> room w m p <-> roomy w m p.
  Proof.
    intros V. unfold room, roomy. split.
    - intros H. specialize (H _ (subports_eq p V)). rewrite subs_len in H. destruct H as [H|(s & Hs & E)]; [by left|right].
      apply subs_elem in Hs as [H1 H2]. destruct s as [q k]. cbn in *. subst q. apply lookup_lt_is_Some in H2 as [r Hr].
      rewrite (subport_link_eq p k r V Hr) in E. destruct (lk g r) eqn:L; [done|]. exists r. split; [by eapply elem_of_list_lookup_2|done].
    - intros H l E. rewrite (subports_eq p V) in E. injection E as <-. rewrite subs_len. destruct H as [H|(s & Hs & L)]; [by left|right].
      apply elem_of_list_lookup_1 in Hs as [k Hk]. exists (p, k). split; [apply subs_elem; split; [done|by eapply lookup_lt_Some]|].
      by rewrite (subport_link_eq p k s V Hk), L.
  Qed.

  (** [port_links] reports links from both ends *)
  Lemma times_sym p q : vis m p -> vis m q -> times q (plinks w m p) = times p (plinks w m q).
  Proof.
    intros V V'. unfold times.
    assert (C1 := card_list _ (NoDup_filter (fun x : subport * subport => x.2.1 = q) _ (plinks_nodup w Hw m p))).
    assert (C2 := card_list _ (NoDup_filter (fun x : subport * subport => x.2.1 = p) _ (plinks_nodup w Hw m q))).
    eapply card_unique; [|exact C2]. eapply (card_rel _ _ (fun x y => y = (x.2, x.1))); [| | | |exact C1].
    - intros [x y] H. exists (y, x). split; [done|]. apply elem_of_list_filter in H as [E H]. cbn in E. apply (plinks_elem w Hw m I p x y V) in H as [Ex H].
      apply elem_of_list_filter. split; [done|]. apply (plinks_elem w Hw m I q y x V'). split; [done|by apply rlink_sym].
    - intros [y x] H. exists (x, y). split; [done|]. apply elem_of_list_filter in H as [E H]. cbn in E. apply (plinks_elem w Hw m I q y x V') in H as [Ex H].
      apply elem_of_list_filter. split; [done|]. apply (plinks_elem w Hw m I p x y V). split; [done|by apply rlink_sym].
    - intros [] [] ? -> H. cbn in H. congruence.
    - intros ? ? ? -> ->. done.
  Qed.

  (** [nodes_iter], [ports_iter] *)
  Lemma nodes_iter_elem n : n ∈ m_nodes_iter m <-> m_contains_node m n = true.
  Proof.
    unfold m_nodes_iter, m_contains_node. rewrite elem_of_list_filter. destruct (reach_inv _ _ R) as (fnl & F & IG).
    rewrite andb_true_iff, negb_true_iff, contains_node_true, nodes_iter_eq. pose proof (node_ids_elem g n). tauto.
  Qed.
  Lemma contains_node_m n : m_contains_node m n = true <-> contains_node g n = true /\ is_copy m n = false.
  Proof. unfold m_contains_node. by rewrite andb_true_iff, negb_true_iff. Qed.

  Lemma all_ports_app n : all_ports g n = ports g n Incoming ++ ports g n Outgoing.
  Proof.
    unfold ports, all_ports. destruct (nmeta g n) as [x|]; [|done]. unfold nm_ports, nm_all_ports. cbn. by rewrite <- seq_app.
  Qed.
  Lemma ports_iter_ok : exists l, m_ports_iter m = Ok l /\ (forall p, p ∈ l <-> m_contains_port m p = true) /\ StronglySorted lt l.
  Proof.
    destruct (C17_nodes_and_ports_pf w g R) as (_ & _ & _ & _ & HP & HS & _). unfold m_ports_iter.
    rewrite (rmap_map (B := nat * bool) _ (fun p => (p, match port_node g p with Some n => is_copy m n | None => true end))).
    2:{ intros p Hp%HP. unfold contains_port in Hp. apply bool_decide_eq_true in Hp as [[n d] Mp]. by rewrite (pm_node _ _ _ _ Mp). }
    rewrite bind_Ok. eexists. split; [reflexivity|]. split.
    - intros p. rewrite <- vis_contains. rewrite elem_of_list_fmap. split.
      + intros ([q b] & -> & [Hb Hin]%elem_of_list_filter). cbn in *. subst b. apply elem_of_list_fmap in Hin as (p & [= -> Hb] & Hp).
        unfold port_node in Hb. destruct (pmeta g p) as [[n d]|] eqn:Mp; [|done]. by exists n, d.
      + intros (n & d & Mp & Cn). exists (p, false). split; [done|]. apply elem_of_list_filter. split; [done|].
        apply elem_of_list_fmap. exists p. rewrite (pm_node _ _ _ _ Mp), Cn. split; [done|]. apply HP, contains_port_true. eauto.
    - clear HP. induction HS as [|p l HS IH Hp]; [constructor|]. cbn [map].
      set (b := match port_node g p with Some n => is_copy m n | None => true end) in *.
      rewrite filter_cons. destruct (decide ((p, b).2 = false)); [|done]. cbn. constructor; [done|]. apply Forall_forall. intros q Hq.
      apply elem_of_list_fmap in Hq as ([q' b'] & -> & [_ Hin]%elem_of_list_filter). apply elem_of_list_fmap in Hin as (q & [= -> _] & Hq). cbn.
      by apply (proj1 (Forall_forall _ _) Hp).
  Qed.
  Lemma nodes_iter_sorted : StronglySorted lt (m_nodes_iter m).
  Proof.
    destruct (C17_nodes_and_ports_pf w g R) as (_ & HS & _). unfold m_nodes_iter.
    induction HS as [|p l HS IH Hp]; [constructor|]. rewrite filter_cons. destruct (decide _); [|done]. constructor; [done|].
    apply Forall_forall. intros q [_ Hq]%elem_of_list_filter. by apply (proj1 (Forall_forall _ _) Hp).
  Qed.

  (** [links], [all_links], [get_connections] *)
  Lemma vis_port n d p : is_copy m n = false -> p ∈ ports g n d -> vis m p.
  Proof. intros Cn Hp%(r_elem w g R). by exists n, d. Qed.
  Lemma vis_all n p : is_copy m n = false -> p ∈ all_ports g n -> vis m p.
  Proof. rewrite all_ports_app, elem_of_app. intros Cn [H|H]; by eapply vis_port. Qed.
  Lemma links_eq n d : is_copy m n = false -> m_links w m n d = Ok (concat (map (plinks w m) (ports g n d))).
  Proof.
    intros Cn. unfold m_links, m_node_links. rewrite (rmap_map (B := list (subport * subport)) _ (plinks w m)).
    - rewrite bind_Ok. f_equal. induction (concat _) as [|x l IH]; [done|]. rewrite filter_cons, decide_True by done. by rewrite IH.
    - intros p Hp. apply (port_links_eq w Hw m I). by eapply vis_port.
  Qed.
  Definition not_own (n : nat) (x : subport * subport) : Prop := x.2.1 ∉ ports g n Outgoing.
  Global Instance not_own_dec n x : Decision (not_own n x).
  Proof. unfold not_own. apply _. Defined.
  Lemma all_links_eq n : is_copy m n = false -> m_all_links w m n = Ok (filter (not_own n) (concat (map (plinks w m) (all_ports g n)))).
  Proof.
    intros Cn. unfold m_all_links, m_node_links. rewrite (rmap_map (B := list (subport * subport)) _ (plinks w m)).
    - rewrite bind_Ok. f_equal. apply list_filter_iff. intros x. unfold not_own. by rewrite bool_decide_eq_false.
    - intros p Hp. apply (port_links_eq w Hw m I). by eapply vis_all.
  Qed.

  (** [neighbours], [all_neighbours]: the nodes at the other ends of [links], [all_links] *)
  Definition nitem (n : nat) (ig : bool) (p : nat) (x : nat * nat) : option nat :=
    match lk g x.2 with
    | None => None
    | Some t => match pmeta g (psub w m t).1 with
                | Some (n', d) => if decide (ig = true /\ n' = n /\ d = Outgoing) then None else Some n'
                | None => None
                end
    end.
  Lemma neigh_item_eq n ig p k s : vis m p -> raws m p !! k = Some s -> m_neigh_item w m n ig (p, k) = Ok (nitem n ig p (k, s)).
  Proof.
    intros V Hs. pose proof V as (n0 & d0 & Mp & Cn). destruct (raws_some w Hw m I _ _ _ _ _ Mp Cn Hs) as (F & [c Ms] & Hk & _).
    unfold m_neigh_item, nitem. cbn [fst snd].
    assert (E : (if is_multi m p then
         c ← get_copy_node m p; c ← unwrap c;
         d ← unwrap (port_direction (m_graph m) p);
         o ← po_new w d (N.of_nat k);
         i ← port_index w (m_graph m) c o; i ← unwrap i;
         port_link (m_graph m) i
       else port_link (m_graph m) p) = Ok (lk g s)).
    { destruct (is_multi m p) eqn:Fp.
      - destruct (flag_vis w m I p _ _ Fp Mp Cn) as (q & c' & Lp & Lq & Fq & Mq & Cc & Pq & Hr & _).
        unfold get_copy_node. rewrite (r_port_link w g R _ _ Mp), bind_Ok, Lp, (pm_node _ _ _ _ Mq), bind_Ok. cbn [unwrap]. rewrite bind_Ok.
        rewrite (pm_dir _ _ _ _ Mp). cbn [unwrap]. rewrite bind_Ok. destruct (r_port_index w g c' d0 k Hw Hk) as (o & Eo & Ei).
        rewrite Eo, bind_Ok, Ei, bind_Ok, <- Hr, Hs. cbn [unwrap]. rewrite bind_Ok. by eapply (r_port_link w g R).
      - rewrite raws_single in Hs by done. apply list_lookup_singleton_Some in Hs as [_ <-]. by eapply (r_port_link w g R). }
    rewrite E, bind_Ok. destruct (lk g s) as [t|] eqn:L; [|done]. destruct (lk_psub w Hw m I s t L F) as (Ep & (n1 & d1 & M1 & C1) & _).
    rewrite Ep, bind_Ok. cbn [unwrap]. rewrite bind_Ok, (pm_node _ _ _ _ M1). cbn [unwrap]. rewrite bind_Ok, (pm_dir _ _ _ _ M1). cbn [unwrap]. rewrite bind_Ok.
    by rewrite M1.
  Qed.
  Lemma rmap_app {A B} (f : A -> res B) l l' r r' : rmap f l = Ok r -> rmap f l' = Ok r' -> rmap f (l ++ l') = Ok (r ++ r').
  Proof.
    revert r. induction l as [|a l IH]; intros r; cbn [rmap app]; [by intros [= <-] ->|]. destruct (f a); [|done]. rewrite !bind_Ok.
    destruct (rmap f l) as [x|]; [|done]. rewrite bind_Ok. intros [= <-] H. by rewrite (IH x eq_refl H), bind_Ok.
  Qed.
  Lemma neigh_port n ig p : vis m p -> rmap (m_neigh_item w m n ig) (subs p) = Ok (map (nitem n ig p) (enumerate (raws m p))).
  Proof.
    intros V. unfold subs. apply rmap_Forall2, Forall2_same_length_lookup. rewrite !map_length, seq_length. split.
    { unfold enumerate. by rewrite imap_length. }
    intros k x y Hx Hy. apply list_lookup_fmap_inv in Hx as (i & -> & Hi), Hy as ([i' s] & -> & Hi').
    apply lookup_seq in Hi as [-> Hlt]. cbn in *. unfold enumerate in Hi'. rewrite list_lookup_imap in Hi'.
    destruct (raws m p !! k) as [s'|] eqn:Hs; [|done]. injection Hi' as -> ->. by apply neigh_item_eq.
  Qed.
  Lemma neigh_ports n ig ps : (forall p, p ∈ ps -> vis m p) ->
    rmap (m_neigh_item w m n ig) (concat (map subs ps)) = Ok (concat (map (fun p => map (nitem n ig p) (enumerate (raws m p))) ps)).
  Proof.
    induction ps as [|p ps IH]; intros H; [done|]. cbn [map concat]. apply rmap_app; [apply neigh_port, H; by left|]. apply IH. intros; apply H; by right.
  Qed.
  Lemma subs_all ps : (forall p, p ∈ ps -> vis m p) -> rmap (m_port_subports m) ps = Ok (map subs ps).
  Proof. intros H. apply rmap_map. intros p Hp. by apply subports_eq, H. Qed.
  Lemma somes_app {A} (l l' : list (option A)) : somes (l ++ l') = somes l ++ somes l'.
  Proof. induction l as [|[a|] l IH]; cbn; [done|by rewrite IH|done]. Qed.

  Definition other_node (x : subport * subport) (n : nat) : Prop := port_node g x.2.1 = Some n.
  Lemma nitem_links n p : vis m p -> Forall2 other_node (plinks w m p) (somes (map (nitem n false p) (enumerate (raws m p)))).
  Proof.
    intros V. unfold plinks. rewrite somes_omap. pose proof V as (n0 & d0 & Mp & Cn).
    assert (H : forall x, x ∈ enumerate (raws m p) -> is_multi m x.2 = false).
    { intros [k s] Hk%elem_enum. by destruct (raws_some w Hw m I _ _ _ _ _ Mp Cn Hk). }
    induction (enumerate (raws m p)) as [|[k s] l IH]; [constructor|]. cbn. unfold nitem at 1. cbn [fst snd].
    pose proof (H (k, s) ltac:(by left)) as F. cbn in F. specialize (IH ltac:(intros; apply H; by right)).
    destruct (lk g s) as [t|] eqn:L; [|done]. destruct (lk_psub w Hw m I s t L F) as (Ep & (n1 & d1 & M1 & C1) & _). rewrite M1.
    rewrite decide_False by (by intros [? _]). cbn. constructor; [|done]. unfold other_node. cbn. by eapply pm_node.
  Qed.
  Lemma neighbours_ok n d : is_copy m n = false -> exists l r, m_links w m n d = Ok l /\ m_neighbours w m n d = Ok r /\ Forall2 other_node l r.
  Proof.
    intros Cn. eexists _, _. split; [by apply links_eq|]. split.
    - unfold m_neighbours, m_subports. rewrite subs_all by (intros p Hp; by eapply vis_port). rewrite !bind_Ok.
      rewrite neigh_ports by (intros p Hp; by eapply vis_port). rewrite bind_Ok. reflexivity.
    - assert (H : forall p, p ∈ ports g n d -> vis m p) by (intros p Hp; by eapply vis_port).
      induction (ports g n d) as [|p ps IH]; [constructor|]. cbn [map concat]. rewrite somes_app. apply Forall2_app; [apply nitem_links, H; by left|].
      apply IH. intros; apply H; by right.
  Qed.
  Lemma nitem_all_links n p : vis m p -> Forall2 other_node (filter (not_own n) (plinks w m p)) (somes (map (nitem n true p) (enumerate (raws m p)))).
  Proof.
    intros V. unfold plinks. rewrite somes_omap. pose proof V as (n0 & d0 & Mp & Cn).
    assert (H : forall x, x ∈ enumerate (raws m p) -> is_multi m x.2 = false).
    { intros [k s] Hk%elem_enum. by destruct (raws_some w Hw m I _ _ _ _ _ Mp Cn Hk). }
    induction (enumerate (raws m p)) as [|[k s] l IH]; [constructor|]. cbn [omap list_omap fst snd]. unfold nitem at 1. cbn [fst snd].
    pose proof (H (k, s) ltac:(by left)) as F. cbn in F. specialize (IH ltac:(intros; apply H; by right)).
    destruct (lk g s) as [t|] eqn:L; [|done]. destruct (lk_psub w Hw m I s t L F) as (Ep & (n1 & d1 & M1 & C1) & _). rewrite M1. cbn [option_map].
    rewrite filter_cons.
    destruct (decide (not_own n (p, k, psub w m t))) as [N|N]; unfold not_own in N; cbn [fst snd] in N; rewrite (r_elem w g R) in N.
    - rewrite decide_False by (intros (_ & -> & ->); done). constructor; [|done]. unfold other_node. cbn. by eapply pm_node.
    - apply dec_stable in N. rewrite M1 in N. injection N as -> ->. by rewrite decide_True.
  Qed.
  Lemma all_neighbours_ok n : is_copy m n = false -> exists l r, m_all_links w m n = Ok l /\ m_all_neighbours w m n = Ok r /\ Forall2 other_node l r.
  Proof.
    intros Cn. eexists _, _. split; [by apply all_links_eq|]. split.
    - unfold m_all_neighbours, m_all_subports. rewrite subs_all by (intros p Hp; by eapply vis_all). rewrite !bind_Ok.
      rewrite neigh_ports by (intros p Hp; by eapply vis_all). rewrite bind_Ok. reflexivity.
    - assert (H : forall p, p ∈ all_ports g n -> vis m p) by (intros p Hp; by eapply vis_all).
      induction (all_ports g n) as [|p ps IH]; [constructor|]. cbn [map concat]. rewrite somes_app, filter_app. apply Forall2_app; [apply nitem_all_links, H; by left|].
      apply IH. intros; apply H; by right.
  Qed.
End read.
