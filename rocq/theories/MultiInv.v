(** The invariant of [MultiPortGraph], and what reading functions return under it. *)
From Verif Require Export MultiPG.

Definition paired (m : mpg) (x : nat) : Prop :=
  exists n d y n', pmeta (m_graph m) x = Some (n, d) /\ lk (m_graph m) x = Some y /\ is_multi m y = true /\
    pmeta (m_graph m) y = Some (n', rev_dir d) /\ is_copy m n' = negb (is_copy m n).

(** [D]: pairs of a main port and the copy node's port that was linked to it,
    whose copy node is about to be removed. *)
Record minv (w : N) (m : mpg) (D : list (nat * nat)) : Prop := {
  mi_reach : reach w (m_graph m);
  mi_flag : forall x, is_multi m x = true -> x ∈ D.*1 \/ x ∈ D.*2 \/ paired m x;
  mi_copy : forall c, is_copy m c = true -> exists q d, ports (m_graph m) c d = [q] /\ is_multi m q = true /\
    2 <= num_ports (m_graph m) c (rev_dir d) /\
    (N.of_nat (num_ports (m_graph m) c (rev_dir d)) <= po_max_offset w + 1)%N /\
    forall s, s ∈ ports (m_graph m) c (rev_dir d) -> is_multi m s = false;
  mi_dang : forall p q, (p, q) ∈ D -> is_multi m p = true /\ is_multi m q = true /\
    (exists c d, pmeta (m_graph m) q = Some (c, d) /\ is_copy m c = true) /\
    (forall n d, pmeta (m_graph m) p = Some (n, d) -> is_copy m n = false) /\
    (forall y, lk (m_graph m) p = Some y -> y = q) /\ (forall y, lk (m_graph m) q = Some y -> y = p);
  mi_nd1 : NoDup D.*1;
  mi_nd2 : NoDup D.*2;
  mi_cc : card (fun c => is_copy m c = true) (m_ccount m);
  mi_sc : card (fun s => exists c d, pmeta (m_graph m) s = Some (c, d) /\ is_copy m c = true /\ is_multi m s = false) (m_scount m);
}.

Definition vis (m : mpg) (p : nat) : Prop := exists n d, pmeta (m_graph m) p = Some (n, d) /\ is_copy m n = false.

Lemma vis_contains m p : vis m p <-> m_contains_port m p = true.
Proof.
  unfold vis, m_contains_port, port_node. destruct (pmeta (m_graph m) p) as [[n d]|]; cbn.
  - rewrite negb_true_iff. split; [naive_solver|eauto].
  - split; [naive_solver|done].
Qed.
Lemma not_internal m p n d : ~ internal m p -> pmeta (m_graph m) p = Some (n, d) -> is_copy m n = false.
Proof.
  intros H Hp. unfold internal, m_contains_port, port_node in H. rewrite Hp in H. cbn in H.
  destruct (is_copy m n) eqn:E; [|done]. exfalso. apply H. split; [|done]. apply contains_port_true. eauto.
Qed.

(** The ports of the underlying graph that hold the links of port [p]. *)
Definition raws (m : mpg) (p : nat) : list nat :=
  if is_multi m p then
    match lk (m_graph m) p, pmeta (m_graph m) p with
    | Some q, Some (_, d) => match pmeta (m_graph m) q with Some (c, _) => ports (m_graph m) c d | None => [] end
    | _, _ => []
    end
  else [p].

Lemma somes_omap {A B} (f : A -> option B) l : somes (map f l) = omap f l.
Proof. induction l as [|a l IH]; [done|]. cbn. destruct (f a); cbn; by rewrite IH. Qed.

Section inv.
  Context (w : N) (Hw : (1 < w <= 63)%N) (m : mpg).
  Notation g := (m_graph m).

  Section withD.
  Context (D : list (nat * nat)) (I : minv w m D).
  Let R := mi_reach _ _ _ I.

  Lemma copy_port c q d d' q' : is_copy m c = true -> ports g c d = [q] -> is_multi m q = true ->
    (forall s, s ∈ ports g c (rev_dir d) -> is_multi m s = false) ->
    pmeta g q' = Some (c, d') -> is_multi m q' = true -> q' = q /\ d' = d.
  Proof.
    intros Hc Hq Hf Ho Hq' Hf'. destruct (dir_rev_or d d') as [->| ->].
    - apply (r_elem w g R) in Hq'. rewrite Hq in Hq'. by apply elem_of_list_singleton in Hq' as ->.
    - apply (r_elem w g R) in Hq'. rewrite (Ho _ Hq') in Hf'. done.
  Qed.
  Lemma copy_main_eq c q d : is_copy m c = true -> ports g c d = [q] -> 2 <= num_ports g c (rev_dir d) ->
    copy_main_port m c = Ok (lk g q).
  Proof.
    intros Hc Hq Hn. rewrite <- (r_len g) in Hn. unfold copy_main_port.
    assert (Hl : port_link g q = Ok (lk g q)).
    { eapply (r_port_link w g R). apply (r_elem w g R). rewrite Hq. by left. }
    destruct d; cbn [rev_dir] in Hn.
    - rewrite Hq. destruct (ports g c Outgoing) as [|x [|y l]]; cbn in Hn; [lia|lia|]. by rewrite bind_Ok.
    - rewrite Hq. destruct (ports g c Incoming) as [|x [|y l]]; cbn in Hn; [lia|lia|]. by rewrite bind_Ok.
  Qed.
  Lemma sub_unique t n d : pmeta g t = Some (n, d) -> is_copy m n = false -> port_to_sub w m t = Ok (Some (t, 0)).
  Proof. intros Ht Hn. unfold port_to_sub. rewrite (pm_node _ _ _ _ Ht). cbn [unwrap]. rewrite bind_Ok, Hn. done. Qed.
  End withD.

  Context (I : minv w m []).
  Let R := mi_reach _ _ _ I.

  Lemma flag_paired x : is_multi m x = true -> paired m x.
  Proof. intros H. destruct (mi_flag _ _ _ I x H) as [H1|[H1|H1]]; [by apply elem_of_nil in H1..|done]. Qed.

  (** A visible port with several subports, and its copy node. *)
  Lemma flag_vis p n d : is_multi m p = true -> pmeta g p = Some (n, d) -> is_copy m n = false ->
    exists q c, lk g p = Some q /\ lk g q = Some p /\ is_multi m q = true /\ pmeta g q = Some (c, rev_dir d) /\ is_copy m c = true /\
      ports g c (rev_dir d) = [q] /\ raws m p = ports g c d /\ 2 <= num_ports g c d /\
      (N.of_nat (num_ports g c d) <= po_max_offset w + 1)%N /\
      forall s, s ∈ ports g c d -> is_multi m s = false.
  Proof.
    intros Hf Hp Hn. destruct (flag_paired p Hf) as (n0 & d0 & q & c & Hp' & Hl & Hfq & Hq & Hc).
    rewrite Hp in Hp'. injection Hp' as <- <-. rewrite Hn in Hc. cbn in Hc.
    destruct (mi_copy _ _ _ I c Hc) as (q' & d' & Hq' & Hf' & H2 & Hmax & Ho).
    destruct (copy_port _ I c q' d' _ q Hc Hq' Hf' Ho Hq Hfq) as [-> <-]. rewrite rev_rev in *.
    exists q', c. split_and!; try done.
    - by apply (r_lk_sym w g R).
    - unfold raws. by rewrite Hf, Hl, Hp, Hq.
  Qed.
  (** A copy node, and its visible port. *)
  Lemma copy_vis c : is_copy m c = true ->
    exists q d p n, ports g c d = [q] /\ is_multi m q = true /\ lk g q = Some p /\ lk g p = Some q /\
      is_multi m p = true /\ pmeta g p = Some (n, rev_dir d) /\ pmeta g q = Some (c, d) /\ is_copy m n = false /\
      raws m p = ports g c (rev_dir d) /\ copy_main_port m c = Ok (Some p) /\
      2 <= num_ports g c (rev_dir d) /\ (N.of_nat (num_ports g c (rev_dir d)) <= po_max_offset w + 1)%N /\
      forall s, s ∈ ports g c (rev_dir d) -> is_multi m s = false.
  Proof.
    intros Hc. destruct (mi_copy _ _ _ I c Hc) as (q & d & Hq & Hf & H2 & Hmax & Ho).
    assert (Hmq : pmeta g q = Some (c, d)). { apply (r_elem w g R). rewrite Hq. by left. }
    destruct (flag_paired q Hf) as (n0 & d0 & p & n & Hp' & Hl & Hfp & Hp & Hn).
    rewrite Hmq in Hp'. injection Hp' as <- <-. rewrite Hc in Hn. cbn in Hn.
    assert (Hl' : lk g p = Some q) by (by apply (r_lk_sym w g R)).
    exists q, d, p, n. split_and!; try done.
    - unfold raws. by rewrite Hfp, Hl', Hp, Hmq.
    - rewrite <- Hl. by eapply copy_main_eq.
  Qed.
  Lemma raws_single p : is_multi m p = false -> raws m p = [p].
  Proof. unfold raws. by intros ->. Qed.
  Lemma raws_some p i s n d : pmeta g p = Some (n, d) -> is_copy m n = false -> raws m p !! i = Some s ->
    is_multi m s = false /\ (exists c, pmeta g s = Some (c, d)) /\ (N.of_nat i <= po_max_offset w)%N /\ (N.of_nat i < 65535)%N.
  Proof.
    intros Hp Hn Hs. destruct (is_multi m p) eqn:Hf.
    - destruct (flag_vis p n d Hf Hp Hn) as (q & c & _ & _ & _ & _ & _ & Hq & Hr & _ & Hmax & Ho). rewrite Hr in Hs.
      pose proof (r_look w g R _ _ _ _ Hs). pose proof (lookup_lt_Some _ _ _ Hs) as Hlt. rewrite (r_len g) in Hlt.
      pose proof (r_num w g R c) as Hnum. assert (num_ports g c (rev_dir d) = 1) by (by rewrite <- (r_len g), Hq).
      split_and!; [apply Ho; by apply (r_elem w g R)|eauto|lia|]. destruct d; cbn [rev_dir] in *; lia.
    - rewrite raws_single in Hs by done. apply list_lookup_singleton_Some in Hs as [-> ->].
      split_and!; [done|eauto| |]; lia.
  Qed.
  Lemma raws_port_to_sub p i s : vis m p -> raws m p !! i = Some s -> port_to_sub w m s = Ok (Some (p, i)).
  Proof.
    intros (n & d & Hp & Hn) Hs. pose proof (raws_some p i s n d Hp Hn Hs) as (_ & _ & Hi & Hi').
    destruct (is_multi m p) eqn:Hf.
    - destruct (flag_vis p n d Hf Hp Hn) as (q & c & Hl & Hl' & _ & Hmq & Hc & Hq & Hr & H2 & Hmax & Ho).
      rewrite Hr in Hs. unfold port_to_sub. rewrite (pm_node g s c d) by (by eapply (r_look w g R)).
      cbn [unwrap]. rewrite bind_Ok, Hc.
      rewrite (copy_main_eq _ I c q (rev_dir d)) by (rewrite ?rev_rev; done). rewrite Hl', bind_Ok.
      destruct (r_port_offset w g R c d i s Hw Hi Hs) as (o & Eo & Eix). rewrite Eo, bind_Ok, Eix, bind_Ok.
      unfold sp_multi. rewrite (proj2 (N.ltb_lt _ _) Hi'). cbn [assert]. rewrite !bind_Ok, Nat2N.id. done.
    - rewrite raws_single in Hs by done. apply list_lookup_singleton_Some in Hs as [-> ->]. by eapply sub_unique.
  Qed.
  Lemma raws_inj p i p' i' s : vis m p -> vis m p' -> raws m p !! i = Some s -> raws m p' !! i' = Some s -> p = p' /\ i = i'.
  Proof.
    intros V V' H H'. pose proof (raws_port_to_sub p i s V H) as E. rewrite (raws_port_to_sub p' i' s V' H') in E. naive_solver.
  Qed.
  Lemma raws_surj s : is_Some (pmeta g s) -> is_multi m s = false -> exists p i, vis m p /\ raws m p !! i = Some s.
  Proof.
    intros [[c d] Hs] Hf. destruct (is_copy m c) eqn:Hc.
    - destruct (copy_vis c Hc) as (q & d' & p & n & Hq & Hfq & _ & _ & Hfp & Hp & Hmq & Hn & Hr & _).
      destruct (dir_rev_or d' d) as [->| ->].
      { apply (r_elem w g R) in Hs. rewrite Hq in Hs. apply elem_of_list_singleton in Hs as ->. congruence. }
      destruct (r_pos w g R _ _ _ Hs) as [k Hk]. exists p, k. split; [|by rewrite Hr]. by exists n, (rev_dir d').
    - exists s, 0. split; [by exists c, d|]. by rewrite raws_single.
  Qed.
  Lemma raws_sub_to_port p i : vis m p -> (N.of_nat i <= po_max_offset w)%N ->
    sub_to_port w m (p, i) = Ok (if is_multi m p then raws m p !! i else Some p).
  Proof.
    intros (n & d & Hp & Hn) Hi. unfold sub_to_port. cbn [fst snd]. destruct (is_multi m p) eqn:Hf; [|done].
    destruct (flag_vis p n d Hf Hp Hn) as (q & c & Hl & Hl' & _ & Hmq & Hc & Hq & Hr & H2 & Hmax & Ho).
    unfold get_copy_node. rewrite (r_port_link w g R _ _ Hp), bind_Ok, Hl. cbn [mbind res_bind].
    rewrite (pm_node _ _ _ _ Hmq), (pm_dir _ _ _ _ Hp).
    destruct (r_port_index w g c d i Hw Hi) as (o & Eo & Ei). rewrite Eo. cbn [mbind res_bind]. by rewrite Ei, Hr.
  Qed.
  Lemma sub_to_port_raw x s : vis m x.1 -> raws m x.1 !! x.2 = Some s -> sub_to_port w m x = Ok (Some s).
  Proof.
    destruct x as [p i]. cbn [fst snd]. intros V Hs. pose proof V as (n & d & Hp & Hn).
    pose proof (raws_some p i s n d Hp Hn Hs) as (_ & _ & Hi & _). rewrite raws_sub_to_port by done.
    destruct (is_multi m p) eqn:Hf; [by rewrite Hs|].
    rewrite raws_single in Hs by done. by apply list_lookup_singleton_Some in Hs as [-> ->].
  Qed.
  Lemma lk_unflagged s t : lk g s = Some t -> is_multi m s = false -> is_multi m t = false.
  Proof.
    intros Hl Hs. destruct (is_multi m t) eqn:Ht; [|done]. destruct (flag_paired t Ht) as (n & d & y & n' & _ & Hy & Hfy & _).
    apply (r_lk_sym w g R) in Hl. congruence.
  Qed.

  (** Links between subports, through the underlying ports *)
  Definition rlink (x y : subport) : Prop :=
    vis m x.1 /\ vis m y.1 /\ exists s t, raws m x.1 !! x.2 = Some s /\ raws m y.1 !! y.2 = Some t /\ lk g s = Some t.

  Definition psub (t : nat) : subport := match port_to_sub w m t with Ok (Some s) => s | _ => (t, 0) end.
  Lemma psub_raw p i s : vis m p -> raws m p !! i = Some s -> psub s = (p, i).
  Proof. intros V H. unfold psub. by rewrite (raws_port_to_sub p i). Qed.
  Lemma psub_ok t : is_Some (pmeta g t) -> is_multi m t = false ->
    port_to_sub w m t = Ok (Some (psub t)) /\ vis m (psub t).1 /\ raws m (psub t).1 !! (psub t).2 = Some t.
  Proof.
    intros Ht Hf. destruct (raws_surj t Ht Hf) as (p & i & V & Hi). rewrite (psub_raw p i t V Hi). cbn.
    by rewrite (raws_port_to_sub p i).
  Qed.
  Lemma lk_psub s t : lk g s = Some t -> is_multi m s = false ->
    port_to_sub w m t = Ok (Some (psub t)) /\ vis m (psub t).1 /\ raws m (psub t).1 !! (psub t).2 = Some t.
  Proof.
    intros Hl Hs. apply psub_ok; [|by eapply lk_unflagged]. destruct (r_lk_meta w g R _ _ Hl) as (? & ? & ? & _ & E). eauto.
  Qed.
  Definition plinks (p : nat) : list (subport * subport) :=
    omap (fun x : nat * nat => option_map (fun t => ((p, x.1), psub t)) (lk g x.2)) (enumerate (raws m p)).
  Lemma rmap_map {A B} (f : A -> res B) (h : A -> B) l : (forall a, a ∈ l -> f a = Ok (h a)) -> rmap f l = Ok (map h l).
  Proof.
    intros H. apply rmap_Forall2. induction l as [|a l IH]; constructor; [apply H; by left|].
    apply IH. intros b Hb. apply H. by right.
  Qed.
  Lemma elem_enum {A} (l : list A) i x : (i, x) ∈ enumerate l <-> l !! i = Some x.
  Proof.
    unfold enumerate. rewrite elem_of_lookup_imap. split.
    - intros (j & y & [= -> ->] & H). done.
    - intros H. by exists i, x.
  Qed.
  Lemma enum_fst {A} (l : list A) : (enumerate l).*1 = seq 0 (length l).
  Proof.
    apply list_eq. intros i. unfold enumerate. rewrite list_lookup_fmap, list_lookup_imap.
    destruct (l !! i) as [x|] eqn:E; cbn.
    - symmetry. apply lookup_seq. split; [lia|]. by eapply lookup_lt_Some.
    - symmetry. apply lookup_ge_None. rewrite seq_length. by apply lookup_ge_None.
  Qed.
  Lemma enum_nodup {A} (l : list A) : NoDup (enumerate l).
  Proof. apply (NoDup_fmap_1 fst). rewrite enum_fst. apply NoDup_seq. Qed.

  Lemma link_item_eq p i s : vis m p -> raws m p !! i = Some s ->
    m_link_item w m (p, i) s = Ok (option_map (fun t => ((p, i), psub t)) (lk g s)).
  Proof.
    intros V Hs. pose proof V as (n & d & Hp & Hn). destruct (raws_some p i s n d Hp Hn Hs) as (Hf & [c Hms] & _).
    unfold m_link_item. rewrite (r_port_link w g R _ _ Hms), bind_Ok. destruct (lk g s) as [t|] eqn:El; [|done].
    destruct (lk_psub s t El Hf) as (E & _). rewrite E, bind_Ok. done.
  Qed.
  Lemma port_links_eq p : vis m p -> m_port_links w m p = Ok (plinks p).
  Proof.
    intros V. pose proof V as (n & d & Hp & Hn). unfold m_port_links, plinks. destruct (is_multi m p) eqn:Hf.
    - destruct (flag_vis p n d Hf Hp Hn) as (q & c & Hl & Hl' & _ & Hmq & Hc & Hq & Hr & H2 & Hmax & Ho).
      unfold get_copy_node. rewrite (r_port_link w g R _ _ Hp), bind_Ok, Hl. cbn [mbind res_bind].
      rewrite (pm_node _ _ _ _ Hmq), (pm_dir _ _ _ _ Hp). cbn [unwrap]. rewrite !bind_Ok.
      rewrite (rmap_map (B := option (subport * subport)) _ (fun x => option_map (fun t => ((p, x.1), psub t)) (lk g x.2))) .
      + cbn [mbind res_bind]. rewrite somes_omap. by rewrite Hr.
      + intros [i s] Hs%elem_enum. cbn [fst snd]. rewrite <- Hr in Hs.
        destruct (raws_some p i s n d Hp Hn Hs) as (_ & _ & _ & Hi').
        unfold sp_multi. rewrite (proj2 (N.ltb_lt _ _) Hi'). cbn [assert]. rewrite !bind_Ok, Nat2N.id.
        by apply link_item_eq.
    - unfold sp_unique. rewrite link_item_eq by (try done; by rewrite raws_single). rewrite bind_Ok, raws_single by done.
      cbn. by destruct (lk g p).
  Qed.
  Lemma plinks_elem p x y : vis m p -> (x, y) ∈ plinks p <-> x.1 = p /\ rlink x y.
  Proof.
    intros V. unfold plinks. rewrite elem_of_list_omap. split.
    - intros ([i s] & Hs%elem_enum & E). cbn [fst snd] in E. destruct (lk g s) as [t|] eqn:El; [|done].
      cbn in E. injection E as <- <-. split; [done|]. pose proof V as (n & d & Hp & Hn).
      destruct (raws_some p i s n d Hp Hn Hs) as (Hf & _).
      destruct (lk_psub s t El Hf) as (_ & V' & Ht). split; [done|]. split; [done|]. exists s, t. done.
    - destruct x as [x i], y as [q j]. cbn [fst snd]. intros [-> (_ & V' & s & t & Hs & Ht & El)]. cbn [fst snd] in *.
      exists (i, s). split; [by apply elem_enum|]. cbn [fst snd]. rewrite El. cbn. by rewrite (psub_raw q j t).
  Qed.
  Lemma plinks_nodup p : NoDup (plinks p).
  Proof.
    unfold plinks. assert (Hn : NoDup (enumerate (raws m p)).*1) by (rewrite enum_fst; apply NoDup_seq).
    induction (enumerate (raws m p)) as [|[i s] l IH]; [apply NoDup_nil_2|].
    cbn in Hn. apply NoDup_cons in Hn as [Hi Hn]. cbn. destruct (lk g s) as [t|]; cbn; [|by apply IH].
    apply NoDup_cons. split; [|by apply IH]. rewrite elem_of_list_omap. intros ([j s'] & Hj & E). cbn in E.
    destruct (lk g s'); [|done]. cbn in E. injection E as -> _. apply Hi. apply (elem_of_list_fmap_1 fst) in Hj. done.
  Qed.
  Lemma mlinked_iff x y : mlinked w m x y <-> rlink x y.
  Proof.
    unfold mlinked. rewrite <- vis_contains. split.
    - intros (V & l & E & Hl). rewrite port_links_eq in E by done. injection E as <-. by apply (plinks_elem _ _ _ V).
    - intros H. pose proof H as (V & _). split; [done|]. exists (plinks x.1). split; [by apply port_links_eq|].
      by apply plinks_elem.
  Qed.
End inv.
