(** Simulation proofs for the iterators of [MultiPortGraph]. *)
From Verif Require Export IterProofs.

Definition nis (s : nodes_state) (l : list nat) : Prop := l = omap ndsel s.1 /\ s.2 = length l.
Definition pis (s : ports_state) (l : list nat) : Prop := l = omap ptsel s.1 /\ s.2 = length l.
Lemma nis_next s l : nis s l -> exists s', nodes_next s = Ok (head l, s') /\ nis s' (tail l).
Proof.
  intros [-> E]. destruct s as [es k]. cbn in E. subst k. unfold nodes_next. cbn [fst snd].
  destruct (nodes_scan_sim es) as (l' & -> & ->). eexists. split; [done|]. done.
Qed.
Lemma pis_next s l : pis s l -> exists s', ports_next s = Ok (head l, s') /\ pis s' (tail l).
Proof.
  intros [-> E]. destruct s as [es k]. cbn in E. subst k. unfold ports_next. cbn [fst snd].
  destruct (ports_scan_sim es) as (l' & -> & ->). eexists. split; [done|]. done.
Qed.
Lemma nis_back s l : nis s l -> exists s', nodes_next_back s = Ok (last l, s') /\ nis s' (removelast l).
Proof.
  intros [-> E]. destruct s as [es k]. cbn in E. subst k. unfold nodes_next_back. cbn [fst snd].
  destruct (decide _) as [E|E].
  - apply nil_length_inv in E. rewrite E. exists (es, 0). split; [done|]. split; cbn; [by rewrite E|done].
  - pose proof (nodes_scan_sim (rev es)) as (l' & H1 & H2). rewrite omap_rev, rev_length in *. rewrite H1, bind_Ok.
    destruct (rev_head (omap ndsel es)) as [-> H3]. eexists. split; [done|]. split; cbn; rewrite ?omap_rev, <- H2; [done|].
    by rewrite <- H3, rev_length.
Qed.
Lemma pis_back s l : pis s l -> exists s', ports_next_back s = Ok (last l, s') /\ pis s' (removelast l).
Proof.
  intros [-> E]. destruct s as [es k]. cbn in E. subst k. unfold ports_next_back. cbn [fst snd].
  pose proof (ports_scan_sim (rev es)) as (l' & H1 & H2). rewrite omap_rev, rev_length in *. rewrite H1, bind_Ok.
  destruct (rev_head (omap ptsel es)) as [-> H3]. eexists. split; [done|]. split; cbn; rewrite ?omap_rev, <- H2; [done|].
  by rewrite <- H3, rev_length.
Qed.

Section multi.
  Context (w : N) (Hw : (1 < w <= 63)%N) (m : mpg) (I : minv w m []).
  Notation g := (m_graph m).
  Let R := mi_reach _ _ _ I.

  (** ** Nodes *)
  Definition seen (n : nat) : Prop := is_copy m n = false.
  Global Instance seen_dec n : Decision (seen n).
  Proof. unfold seen. apply _. Defined.
  Definition mns (s : mn_state) (l : list nat) : Prop := exists l0, nis s.1 l0 /\ l = filter seen l0 /\ s.2 = length l.
  Lemma mn_fwd fuel s k l0 : nis s l0 -> k = length (filter seen l0) -> length l0 < fuel ->
    exists s', mn_loop m nodes_next fuel (s, k) = Ok (head (filter seen l0), s') /\ mns s' (tail (filter seen l0)).
  Proof.
    revert s k l0. induction fuel as [|f IH]; intros s k l0 H -> Hf; [lia|]. cbn [mn_loop fst snd].
    destruct (nis_next _ _ H) as (s2 & -> & H2). rewrite bind_Ok. destruct l0 as [|n l0]; cbn [head tail] in *.
    - eexists. split; [done|]. by exists [].
    - rewrite filter_cons in *. destruct (is_copy m n) eqn:C.
      + rewrite decide_False by (unfold seen; congruence). apply IH; [done|done|]. cbn in Hf. lia.
      + rewrite decide_True by done. cbn [length]. rewrite b_usub by lia. eexists. split; [done|]. exists l0. split_and!; [done|done|]. cbn. lia.
  Qed.
  Lemma mn_bwd fuel s k l0 : nis s l0 -> k = length (filter seen l0) -> length l0 < fuel ->
    exists s', mn_loop m nodes_next_back fuel (s, k) = Ok (last (filter seen l0), s') /\ mns s' (removelast (filter seen l0)).
  Proof.
    revert s k l0. induction fuel as [|f IH]; intros s k l0 H -> Hf; [lia|]. cbn [mn_loop fst snd].
    destruct (nis_back _ _ H) as (s2 & -> & H2). rewrite bind_Ok. destruct (list_snoc l0) as [->|(l' & n & ->)].
    - eexists. split; [done|]. by exists [].
    - destruct (last_removelast l' n) as [E1 E2]. rewrite E1, E2 in *. rewrite filter_app, filter_cons, filter_nil. destruct (is_copy m n) eqn:C.
      + rewrite decide_False by (unfold seen; congruence). rewrite app_nil_r. apply IH; [done|done|]. rewrite app_length in Hf. cbn in Hf. lia.
      + rewrite decide_True by done. destruct (last_removelast (filter seen l') n) as [-> ->]. rewrite app_length. cbn [length].
        rewrite b_usub by lia. eexists. split; [done|]. exists l'. split_and!; [done|done|]. cbn. lia.
  Qed.
  Lemma mns_iter s l : mns s l -> iter_ok (mn_next m) (mn_next_back m) mn_hint s l.
  Proof.
    apply (iter_ok_sim _ _ _ mns).
    - intros [s' k] l' (l0 & H & -> & Hk). unfold mn_next. apply mn_fwd; [done|done|]. destruct H as [-> _]. cbn [fst]. pose proof (omap_le ndsel s'.1). lia.
    - intros [s' k] l' (l0 & H & -> & Hk). cbn in *. split; [cbn; lia|]. intros u [= <-]. lia.
    - intros [s' k] l' (l0 & H & -> & Hk). unfold mn_next_back. apply mn_bwd; [done|done|]. destruct H as [-> _]. cbn [fst]. pose proof (omap_le ndsel s'.1). lia.
  Qed.

  (** ** Ports *)
  Definition pseen (p : nat) : Prop := match port_node g p with Some n => is_copy m n = false | None => False end.
  Global Instance pseen_dec p : Decision (pseen p).
  Proof. unfold pseen. destruct (port_node g p); apply _. Defined.
  Definition mps (s : ports_state) (l : list nat) : Prop :=
    exists l0, pis s l0 /\ (forall p, p ∈ l0 -> is_Some (port_node g p)) /\ l = filter pseen l0.
  Lemma mp_fwd fuel s l0 : pis s l0 -> (forall p, p ∈ l0 -> is_Some (port_node g p)) -> length l0 < fuel ->
    exists s', mp_loop m ports_next fuel s = Ok (head (filter pseen l0), s') /\ mps s' (tail (filter pseen l0)).
  Proof.
    revert s l0. induction fuel as [|f IH]; intros s l0 H P Hf; [lia|]. cbn [mp_loop fst snd].
    destruct (pis_next _ _ H) as (s2 & -> & H2). rewrite bind_Ok. destruct l0 as [|p l0]; cbn [head tail] in *.
    - eexists. split; [done|]. by exists [].
    - destruct (P p) as [n Hn]; [by left|]. rewrite Hn. cbn [unwrap]. rewrite bind_Ok, filter_cons.
      assert (P' : forall p, p ∈ l0 -> is_Some (port_node g p)) by (intros; apply P; by right). destruct (is_copy m n) eqn:C.
      + rewrite decide_False by (unfold pseen; rewrite Hn; congruence). apply IH; [done|done|]. cbn in Hf. lia.
      + rewrite decide_True by (unfold pseen; by rewrite Hn). eexists. split; [done|]. by exists l0.
  Qed.
  Lemma mp_bwd fuel s l0 : pis s l0 -> (forall p, p ∈ l0 -> is_Some (port_node g p)) -> length l0 < fuel ->
    exists s', mp_loop m ports_next_back fuel s = Ok (last (filter pseen l0), s') /\ mps s' (removelast (filter pseen l0)).
  Proof.
    revert s l0. induction fuel as [|f IH]; intros s l0 H P Hf; [lia|]. cbn [mp_loop fst snd].
    destruct (pis_back _ _ H) as (s2 & -> & H2). rewrite bind_Ok. destruct (list_snoc l0) as [->|(l' & p & ->)].
    - eexists. split; [done|]. by exists [].
    - destruct (last_removelast l' p) as [E1 E2]. rewrite E1, E2 in *. destruct (P p) as [n Hn]; [apply elem_of_app; right; by left|].
      rewrite Hn. cbn [unwrap]. rewrite bind_Ok, filter_app, filter_cons, filter_nil.
      assert (P' : forall p, p ∈ l' -> is_Some (port_node g p)) by (intros; apply P, elem_of_app; by left). destruct (is_copy m n) eqn:C.
      + rewrite decide_False by (unfold pseen; rewrite Hn; congruence). rewrite app_nil_r. apply IH; [done|done|]. rewrite app_length in Hf. cbn in Hf. lia.
      + rewrite decide_True by (unfold pseen; by rewrite Hn). destruct (last_removelast (filter pseen l') p) as [-> ->]. eexists. split; [done|]. by exists l'.
  Qed.
  Lemma mps_iter s l : mps s l -> iter_ok (mp_next m) (mp_next_back m) mp_hint s l.
  Proof.
    apply (iter_ok_sim _ _ _ mps).
    - intros s' l' (l0 & H & P & ->). unfold mp_next. apply mp_fwd; [done|done|]. destruct H as [-> _]. pose proof (omap_le ptsel s'.1). lia.
    - intros s' l' (l0 & [_ H] & P & ->). split; [cbn; lia|]. intros u [= <-]. rewrite H. apply filter_length.
    - intros s' l' (l0 & H & P & ->). unfold mp_next_back. apply mp_bwd; [done|done|]. destruct H as [-> _]. pose proof (omap_le ptsel s'.1). lia.
  Qed.
  Lemma mp_list : m_ports_iter m = Ok (filter pseen (ports_iter g)).
  Proof.
    destruct (C17_nodes_and_ports_pf w g R) as (_ & _ & _ & _ & HP & _). unfold m_ports_iter.
    rewrite (rmap_map (B := nat * bool) _ (fun p => (p, bool_decide (~ pseen p)))).
    - rewrite bind_Ok. f_equal. clear HP. induction (ports_iter g) as [|p l IH]; [done|]. cbn [map]. rewrite !filter_cons. cbn [snd].
      destruct (decide (pseen p)) as [Hp|Hp].
      + rewrite decide_True by (rewrite bool_decide_eq_false; tauto). cbn [map]. by rewrite IH.
      + rewrite decide_False by (rewrite bool_decide_eq_false; tauto). done.
    - intros p Hp%HP. unfold contains_port in Hp. apply bool_decide_eq_true in Hp as [[n d] Mp].
      assert (E : pseen p <-> is_copy m n = false) by (unfold pseen; by rewrite (pm_node _ _ _ _ Mp)). rewrite (pm_node _ _ _ _ Mp).
      cbn [unwrap]. rewrite bind_Ok. do 2 f_equal. destruct (is_copy m n); symmetry; [apply bool_decide_eq_true|apply bool_decide_eq_false]; rewrite E; [done|tauto].
  Qed.

  (** ** Links of a port *)
  Definition pitem (p : nat) (x : nat * nat) : option (subport * subport) := option_map (fun t => ((p, x.1), psub w m t)) (lk g x.2).
  Definition pls (s : pl_state) (l : list (subport * subport)) : Prop :=
    match s with
    | PLSingle _ true => l = []
    | PLSingle p false => vis m p /\ is_multi m p = false /\ l = plinks w m p
    | PLMulti p rest => vis m p /\ (forall i s, (i, s) ∈ rest -> raws m p !! i = Some s) /\ l = omap (pitem p) rest
    end.
  Lemma pl_new_sim p : vis m p -> exists s, pl_new m p = Ok s /\ pls s (plinks w m p).
  Proof.
    intros V. unfold pl_new. destruct (is_multi m p) eqn:Fp; [|eexists; split; [done|]; done]. pose proof V as (n & d & Mp & Cn).
    destruct (flag_vis w m I p n d Fp Mp Cn) as (q & c & Lp & Lq & Fq & Mq & Cc & Pq & Hr & H2 & Hmax & Ho).
    unfold get_copy_node. rewrite (r_port_link w g R _ _ Mp), bind_Ok, Lp, (pm_node _ _ _ _ Mq), bind_Ok. cbn [unwrap].
    rewrite bind_Ok, (pm_dir _ _ _ _ Mp). cbn [unwrap]. rewrite bind_Ok. eexists. split; [done|]. split; [done|]. rewrite <- Hr. split; [|done].
    intros i s H. by apply elem_enum.
  Qed.
  Lemma pl_scan_sim p rest : vis m p -> (forall i s, (i, s) ∈ rest -> raws m p !! i = Some s) ->
    exists k r, pl_scan w m p rest = Ok (head (omap (pitem p) rest), r) /\ tail (omap (pitem p) rest) = omap (pitem p) r /\ rest = k ++ r.
  Proof.
    intros V. pose proof V as (n & d & Mp & Cn). induction rest as [|[off i] rest IH]; intros H; [by exists [], []|]. cbn [pl_scan]. rewrite omap_cons'.
    assert (Hs : raws m p !! off = Some i) by (apply H; by left). assert (Ei : pitem p (off, i) = option_map (fun t => ((p, off), psub w m t)) (lk g i)) by done. rewrite Ei.
    destruct (raws_some w Hw m I p off i n d Mp Cn Hs) as (Hf & [c Ms] & _ & Ho). rewrite (r_port_link w g R _ _ Ms), bind_Ok.
    destruct (lk g i) as [t|] eqn:L; cbn [option_map].
    - destruct (lk_psub w Hw m I i t L Hf) as (E & _). rewrite E, bind_Ok. unfold sp_multi. rewrite (proj2 (N.ltb_lt _ _) Ho). cbn [assert].
      rewrite !bind_Ok, Nat2N.id. exists [(off, i)], rest. done.
    - rewrite bind_Ok. destruct IH as (k & r & E & E2 & ->); [intros; apply H; by right|]. rewrite E. by exists ((off, i) :: k), r.
  Qed.
  Lemma pls_next s l : pls s l -> exists s', pl_next w m s = Ok (head l, s') /\ pls s' (tail l).
  Proof.
    destruct s as [p [|]|p rest]; cbn [pls pl_next].
    - intros ->. by eexists.
    - intros (V & F & ->). unfold sp_unique. rewrite (link_item_eq w Hw m I) by (try done; by rewrite raws_single). rewrite bind_Ok.
      exists (PLSingle p true). unfold plinks. rewrite raws_single by done. cbn. by destruct (lk g p).
    - intros (V & H & ->). destruct (pl_scan_sim p rest V H) as (k & r & -> & E & ->). rewrite bind_Ok. eexists. split; [done|]. split; [done|].
      rewrite E. split; [|done]. intros i s Hs. apply H, elem_of_app. by right.
  Qed.
  Lemma pls_back s l : pls s l -> exists s', pl_next_back w m s = Ok (last l, s') /\ pls s' (removelast l).
  Proof.
    destruct s as [p [|]|p rest]; cbn [pls pl_next_back].
    - intros ->. by eexists.
    - intros (V & F & ->). unfold sp_unique. rewrite (link_item_eq w Hw m I) by (try done; by rewrite raws_single). rewrite bind_Ok.
      exists (PLSingle p true). unfold plinks. rewrite raws_single by done. cbn. by destruct (lk g p).
    - intros (V & H & ->). destruct (pl_scan_sim p (rev rest) V) as (k & r & -> & E & Ek).
      { intros i s Hs%elem_of_list_In. apply H, elem_of_list_In. by apply in_rev. }
      rewrite bind_Ok, omap_rev in *. destruct (rev_head (omap (pitem p) rest)) as [-> H3]. eexists. split; [done|]. split; [done|].
      split; [|by rewrite <- H3, E, omap_rev]. intros i s Hs. apply H. rewrite <- (rev_involutive rest), Ek, rev_app_distr. apply elem_of_app. by left.
  Qed.
  Lemma plinks_single p : is_multi m p = false -> length (plinks w m p) <= 1.
  Proof. intros F. unfold plinks. rewrite raws_single by done. cbn. destruct (lk g p); cbn; lia. Qed.
  Lemma pls_iter s l : pls s l -> iter_ok (pl_next w m) (pl_next_back w m) (fun s => (0, (pl_hint s).2)) s l.
  Proof.
    apply (iter_ok_sim _ _ _ pls); [apply pls_next| |apply pls_back].
    intros s' l' H. split; [cbn; lia|]. destruct s' as [p [|]|p rest]; cbn in *; intros u [= <-].
    - by rewrite H.
    - destruct H as (V & F & ->). by apply plinks_single.
    - destruct H as (V & F & ->). apply omap_le.
  Qed.
  Definition pls1 (s : pl_state) (l : list (subport * subport)) : Prop := pls s l /\ match s with PLSingle _ false => l <> [] | _ => True end.
  Lemma pls1_iter s l : pls1 s l -> iter_ok (pl_next w m) (pl_next_back w m) pl_hint s l.
  Proof.
    assert (HH : forall s o s', pl_next w m s = Ok (o, s') -> match s' with PLSingle _ false => False | _ => True end).
    { intros [p [|]|p rest] o s'; cbn; [by intros [= <- <-]|destruct (m_link_item _ _ _ _); [by intros [= <- <-]|done]|].
      destruct (pl_scan _ _ _ _) as [[]|]; [by intros [= <- <-]|done]. }
    assert (HH' : forall s o s', pl_next_back w m s = Ok (o, s') -> match s' with PLSingle _ false => False | _ => True end).
    { intros [p [|]|p rest] o s'; cbn; [by intros [= <- <-]|destruct (m_link_item _ _ _ _); [by intros [= <- <-]|done]|].
      destruct (pl_scan _ _ _ _) as [[]|]; [by intros [= <- <-]|done]. }
    apply (iter_ok_sim _ _ _ pls1).
    - intros s' l' [H _]. destruct (pls_next _ _ H) as (s2 & E & H2). exists s2. split; [done|]. split; [done|]. specialize (HH _ _ _ E). by destruct s2 as [p [|]|].
    - intros s' l' [H Hne]. destruct (pls_iter _ _ H) as [[_ Hu] _]. split; [|done]. destruct s' as [p [|]|p rest]; cbn in *; [lia| |lia].
      destruct l'; [done|cbn; lia].
    - intros s' l' [H _]. destruct (pls_back _ _ H) as (s2 & E & H2). exists s2. split; [done|]. split; [done|]. specialize (HH' _ _ _ E). by destruct s2 as [p [|]|].
  Qed.

  (** ** Subports *)
  Definition cur_items (s : ns_state) : list subport :=
    match ns_cur s with Some p => map (pair p) (seq (ns_offs s).1 ((ns_offs s).2 - (ns_offs s).1)) | None => [] end.
  Record nss (s : ns_state) (l : list subport) : Prop := {
    nss_vis : forall p, p ∈ ns_ports s -> vis m p;
    nss_cur : (ns_offs s).1 < (ns_offs s).2 -> exists p, ns_cur s = Some p /\ vis m p /\ is_multi m p = true /\ (ns_offs s).2 = length (raws m p);
    nss_items : l = cur_items s ++ concat (map (subs m) (ns_ports s));
  }.
  Lemma raws_len p : vis m p -> is_multi m p = true -> 2 <= length (raws m p) /\ (N.of_nat (length (raws m p)) <= 65535)%N.
  Proof.
    intros (n & d & Mp & Cn) F. destruct (flag_vis w m I p n d F Mp Cn) as (q & c & Lp & Lq & Fq & Mq & Cc & Pq & Hr & H2 & Hmax & Ho).
    rewrite Hr, (r_len g). split; [done|]. pose proof (r_num w g R c). assert (num_ports g c (rev_dir d) = 1) by (by rewrite <- (r_len g), Pq).
    destruct d; cbn [rev_dir] in *; lia.
  Qed.
  Lemma subs_ne p : vis m p -> 1 <= length (subs m p).
  Proof.
    intros V. rewrite subs_len. destruct (is_multi m p) eqn:F; [|by rewrite raws_single]. destruct (raws_len p V F). lia.
  Qed.
  (** The items of the current port, one at a time. *)
  Lemma nss_step s l a b p : nss s l -> ns_offs s = (a, b) -> a < b -> ns_cur s = Some p -> is_multi m p = true ->
    l = (p, a) :: tail l /\ nss (NS (ns_ports s) (ns_cur s) (S a, b)) (tail l) /\ sp_multi p (N.of_nat a) = Ok (p, a) /\ vis m p /\ b = length (raws m p).
  Proof.
    intros [V C E] Ho Hab Hc F. rewrite Ho in C. cbn in C. destruct (C Hab) as (p' & Hp' & Vp & _ & Hb). assert (p' = p) as -> by congruence.
    assert (El : l = (p, a) :: map (pair p) (seq (S a) (b - S a)) ++ concat (map (subs m) (ns_ports s))).
    { rewrite E. unfold cur_items. rewrite Hc, Ho. cbn [fst snd]. replace (b - a) with (S (b - S a)) by lia. done. }
    rewrite El. cbn [tail]. split_and!; [done| | |done|done].
    - constructor; cbn; [done| |].
      + intros _. rewrite Hc. exists p. done.
      + unfold cur_items. cbn. by rewrite Hc.
    - destruct (raws_len p Vp F). unfold sp_multi. rewrite (proj2 (N.ltb_lt _ _)) by lia. cbn [assert]. by rewrite bind_Ok, Nat2N.id.
  Qed.
  Definition nss_link (s s' : ns_state) (o : option subport) : Prop :=
    match o with
    | Some x =>
        if is_multi m x.1 then
          ns_cur s' = Some x.1 /\ (x.2 = 0 \/ ns_cur s = Some x.1 /\ 0 < (ns_offs s).1 < (ns_offs s).2)
        else ~ (ns_offs s').1 < (ns_offs s').2
    | None => ~ (ns_offs s').1 < (ns_offs s').2
    end.
  Lemma nss_next' s l : nss s l -> exists s', ns_next m s = Ok (head l, s') /\ nss s' (tail l) /\ nss_link s s' (head l).
  Proof.
    destruct s as [ps cur [a b]]. intros H. unfold ns_next. cbn [ns_ports ns_cur ns_offs].
    destruct (decide (a < b)) as [Hab|Hab].
    { destruct (nss_cur _ _ H Hab) as (p & Hc & Vp & F & Hb). cbn [ns_cur] in Hc. subst cur.
      destruct (nss_step _ _ a b p H eq_refl Hab eq_refl F) as (El & H2 & Es & _). 
      assert (E : ns_loop m ps (Some p) (a, b) = Ok (Some (p, a), NS ps (Some p) (S a, b))).
      { destruct ps; cbn [ns_loop]; unfold rng_next; cbn [fst snd]; rewrite decide_True by done; cbn [unwrap]; by rewrite bind_Ok, Es, bind_Ok. }
      rewrite E. eexists. split; [by rewrite El|]. split; [done|]. rewrite El. cbn. rewrite F. split; [done|]. destruct a; [by left|right; split; [done|lia]]. }
    destruct H as [V C E]. cbn [ns_ports ns_cur ns_offs fst snd] in *.
    assert (Ec : cur_items (NS ps cur (a, b)) = []) by (unfold cur_items; cbn; replace (b - a) with 0 by lia; by destruct cur).
    rewrite Ec in E. cbn in E. destruct ps as [|p ps]; cbn [ns_loop]; unfold rng_next at 1; cbn [fst snd]; rewrite decide_False by done.
    { subst l. eexists. split; [done|]. split; [|done]. constructor; [done|cbn; lia|by rewrite Ec]. }
    assert (Vp : vis m p) by (apply V; by left). assert (V' : forall x, x ∈ ps -> vis m x) by (intros; apply V; by right).
    cbn [map concat] in E. destruct (is_multi m p) eqn:F.
    - pose proof Vp as (n & d & Mp & Cn). destruct (flag_vis w m I p n d F Mp Cn) as (q & c & Lp & Lq & Fq & Mq & Cc & Pq & Hr & H2 & Hmax & Hos).
      rewrite (pm_dir _ _ _ _ Mp). cbn [unwrap]. rewrite bind_Ok. unfold get_copy_node.
      rewrite (r_port_link w g R _ _ Mp), bind_Ok, Lp, (pm_node _ _ _ _ Mq), bind_Ok. cbn [unwrap]. rewrite bind_Ok.
      assert (Eo : match d with Incoming => (port_offsets_init g c d).1 | Outgoing => (port_offsets_init g c d).2 end = (0, length (raws m p))).
      { rewrite Hr, (r_len g). by destruct d. }
      rewrite Eo. destruct (raws_len p Vp F) as [Hl2 _].
      assert (Hs : nss (NS ps (Some p) (0, length (raws m p))) l).
      { constructor; cbn; [done|intros _; eauto 6|]. unfold cur_items. cbn. rewrite Nat.sub_0_r, E. done. }
      destruct (nss_step _ _ 0 (length (raws m p)) p Hs eq_refl ltac:(lia) eq_refl F) as (El & Hn & Es & _).
      assert (E' : ns_loop m ps (Some p) (0, length (raws m p)) = Ok (Some (p, 0), NS ps (Some p) (1, length (raws m p)))).
      { destruct ps; cbn [ns_loop]; unfold rng_next; cbn [fst snd]; rewrite decide_True by lia; cbn [unwrap]; by rewrite bind_Ok, Es, bind_Ok. }
      rewrite E'. eexists. split; [by rewrite El|]. split; [done|]. rewrite El. cbn. rewrite F. split; [done|by left].
    - assert (Es : subs m p = [(p, 0)]) by (unfold subs; by rewrite raws_single). rewrite Es in E. subst l. cbn [app head tail].
      eexists. split; [done|]. split; [|cbn; by rewrite F]. constructor; cbn; [done|lia|]. unfold cur_items. cbn. by replace (b - a) with 0 by lia.
  Qed.
  Lemma nss_next s l : nss s l -> exists s', ns_next m s = Ok (head l, s') /\ nss s' (tail l).
  Proof. intros H. destruct (nss_next' s l H) as (s' & H1 & H2 & _). eauto. Qed.
  Lemma concat_subs_len ps : (forall p, p ∈ ps -> vis m p) -> length ps <= length (concat (map (subs m) ps)).
  Proof.
    induction ps as [|p ps IH]; intros H; [done|]. cbn [map concat length]. rewrite app_length. pose proof (subs_ne p (H p ltac:(by left))).
    specialize (IH ltac:(intros; apply H; by right)). lia.
  Qed.
  Lemma nss_hint s l : nss s l -> hint_ok (ns_hint s) l.
  Proof.
    intros [V C ->]. split; [|done]. cbn. rewrite app_length. pose proof (concat_subs_len _ V). unfold cur_items, rng_len.
    destruct (decide ((ns_offs s).1 < (ns_offs s).2)) as [Hl|Hl]; [|lia]. destruct (C Hl) as (p & -> & _). rewrite map_length, seq_length. lia.
  Qed.
  Lemma nss_init ps : (forall p, p ∈ ps -> vis m p) -> nss (ns_init ps) (concat (map (subs m) ps)).
  Proof. intros H. constructor; [done|cbn; lia|done]. Qed.
  Lemma nss_iter s l : nss s l -> fwd_ok (ns_next m) ns_hint s l.
  Proof. apply (fwd_ok_sim _ _ nss); [apply nss_next|apply nss_hint]. Qed.
End multi.
