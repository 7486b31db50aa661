(** Simulation proofs for the iterators of IterModel.v. *)
From Verif Require Export IterSpec MultiThms.

Section sim.
  Context {S A : Type} (next next_back : S -> res (option A * S)) (h : S -> hint) (sim : S -> list A -> Prop).
  Context (Hn : forall s l, sim s l -> exists s', next s = Ok (head l, s') /\ sim s' (tail l)).
  Context (Hh : forall s l, sim s l -> hint_ok (h s) l).
  Lemma fwd_ok_sim s l : sim s l -> fwd_ok next h s l.
  Proof.
    intros H. split; [by apply Hh|]. intros k. revert s l H. induction k as [|k IH]; intros s l Hs; [eexists; split; [done|constructor]|].
    cbn [replicate run_hint deque_rest]. destruct (Hn s l Hs) as (s' & -> & Hs'). destruct (IH s' _ Hs') as (r & E & F).
    rewrite bind_Ok, E, bind_Ok. eexists. split; [done|]. constructor; [|done]. split; [done|]. by apply Hh.
  Qed.
  Context (Hb : forall s l, sim s l -> exists s', next_back s = Ok (last l, s') /\ sim s' (removelast l)).
  Lemma iter_ok_sim s l : sim s l -> iter_ok next next_back h s l.
  Proof.
    intros H. split; [by apply Hh|]. intros sched. revert s l H. induction sched as [|b sched IH]; intros s l Hs; [eexists; split; [done|constructor]|].
    destruct b; cbn [run_hint deque_rest].
    - destruct (Hn s l Hs) as (s' & -> & Hs'). destruct (IH s' _ Hs') as (r & E & F).
      rewrite bind_Ok, E, bind_Ok. eexists. split; [done|]. constructor; [|done]. split; [done|]. by apply Hh.
    - destruct (Hb s l Hs) as (s' & -> & Hs'). destruct (IH s' _ Hs') as (r & E & F).
      rewrite bind_Ok, E, bind_Ok. eexists. split; [done|]. constructor; [|done]. split; [done|]. by apply Hh.
  Qed.
End sim.
Lemma removelast_map {A B} (f : A -> B) (l : list A) : removelast (map f l) = map f (removelast l).
Proof. destruct (list_snoc l) as [->|(l' & x & ->)]; [done|]. rewrite map_app. cbn. by rewrite !removelast_last. Qed.
Lemma last_map {A B} (f : A -> B) (l : list A) : last (map f l) = f <$> last l.
Proof. apply fmap_last. Qed.
Lemma head_map {A B} (f : A -> B) (l : list A) : head (map f l) = f <$> head l.
Proof. by destruct l. Qed.
Lemma tail_map {A B} (f : A -> B) (l : list A) : tail (map f l) = map f (tail l).
Proof. by destruct l. Qed.
Lemma elem_tail {A} (x : A) l : x ∈ tail l -> x ∈ l.
Proof. destruct l; [done|]. by right. Qed.
Lemma elem_removelast {A} (x : A) l : x ∈ removelast l -> x ∈ l.
Proof. destruct (list_snoc l) as [->|(l' & y & ->)]; [done|]. rewrite removelast_last. intros H. apply elem_of_app. by left. Qed.
Lemma elem_head {A} (x : A) l : head l = Some x -> x ∈ l.
Proof. destruct l; [done|]. intros [= ->]. by left. Qed.
Lemma elem_last {A} (x : A) l : last l = Some x -> x ∈ l.
Proof. intros H. by apply last_Some_elem_of. Qed.

(** ** Links of a [PortGraph] *)
Definition psel (x : nat * option nat) : option (nat * nat) := match x.2 with Some q => Some (x.1, q) | None => None end.
Definition noign (s : links_state) : Prop := forall p q, (p, Some q) ∈ s.1 -> ~ (s.2.1 <= q < s.2.2).
Definition lsim (s : links_state) (l : list (nat * nat)) : Prop := noign s /\ l = omap psel s.1.
Lemma lsim_list s l : lsim s l -> links_list s = l.
Proof.
  intros [H ->]. unfold links_list. apply omap_ext'. intros [p [q|]] Hx; [|done]. unfold psel. cbn. by rewrite decide_False by (by apply (H p q)).
Qed.
Lemma links_scan_lsim l ig : (forall p q, (p, Some q) ∈ l -> ~ (ig.1 <= q < ig.2)) ->
  exists k l', links_scan l ig = (head (omap psel l), (l', ig)) /\ tail (omap psel l) = omap psel l' /\ l = k ++ l'.
Proof.
  induction l as [|[p [q|]] l IH]; intros H; [by exists [], []|..]; cbn [links_scan]; rewrite omap_cons'; unfold psel at 1 3; cbn [fst snd].
  - rewrite decide_False by (apply (H p q); by left). exists [(p, Some q)], l. done.
  - destruct IH as (k & l' & E1 & E2 & ->); [intros p' q' Hq; apply (H p' q'); by right|]. rewrite E1. exists ((p, None) :: k), l'. done.
Qed.
Lemma links_scan_back_lsim l :
  exists k l', links_scan_back l = (head (omap psel l), l') /\ tail (omap psel l) = omap psel l' /\ l = k ++ l'.
Proof.
  induction l as [|[p [q|]] l IH]; [by exists [], []|..]; cbn [links_scan_back]; rewrite omap_cons'; unfold psel at 1 3; cbn [fst snd].
  - exists [(p, Some q)], l. done.
  - destruct IH as (k & l' & E1 & E2 & ->). rewrite E1. exists ((p, None) :: k), l'. done.
Qed.
Lemma lsim_next s l : lsim s l -> exists s', links_next s = (head l, s') /\ lsim s' (tail l).
Proof.
  intros [H ->]. destruct s as [es ig]. unfold links_next. cbn [fst snd] in *. destruct (links_scan_lsim es ig) as (k & l' & -> & E & ->); [done|].
  eexists. split; [done|]. split; [|by rewrite E]. intros p q Hq. apply (H p q). cbn in *. apply elem_of_app. by right.
Qed.
Lemma lsim_next_back s l : lsim s l -> exists s', links_next_back s = (last l, s') /\ lsim s' (removelast l).
Proof.
  intros [H ->]. destruct s as [es ig]. unfold links_next_back. cbn [fst snd] in *. destruct (links_scan_back_lsim (rev es)) as (k & l' & -> & E & Ek).
  rewrite omap_rev in *. destruct (rev_head (omap psel es)) as [H1 H2]. rewrite H1. eexists. split; [done|].
  split; [|cbn; rewrite omap_rev, <- E; by rewrite H2]. intros p q Hq. apply (H p q). cbn in *.
  rewrite <- (rev_involutive es), Ek, rev_app_distr. apply elem_of_app. by left.
Qed.
Lemma omap_le {A B} (f : A -> option B) l : length (omap f l) <= length l.
Proof. induction l as [|x l IH]; [done|]. rewrite omap_cons'. destruct (f x); cbn; lia. Qed.
Lemma lsim_hint s l : lsim s l -> hint_ok (links_hint s) l.
Proof. intros [_ ->]. split; [cbn; lia|]. intros u [= <-]. apply omap_le. Qed.
Lemma lsim_iter s l : lsim s l -> iter_ok (fun s => Ok (links_next s)) (fun s => Ok (links_next_back s)) links_hint s l.
Proof.
  apply (iter_ok_sim _ _ _ lsim); [|apply lsim_hint|].
  - intros s' l' H. destruct (lsim_next _ _ H) as (s2 & -> & H2). eauto.
  - intros s' l' H. destruct (lsim_next_back _ _ H) as (s2 & -> & H2). eauto.
Qed.
(** Without the condition on ignored targets, forwards. *)
Lemma list_hint s : hint_ok (links_hint s) (links_list s).
Proof. split; [cbn; lia|]. intros u [= <-]. apply omap_le. Qed.
Lemma links_fwd s l : links_list s = l -> fwd_ok (fun s => Ok (links_next s)) links_hint s l.
Proof.
  apply (fwd_ok_sim _ _ (fun s l => links_list s = l)).
  - intros s' l' H. destruct (links_next_sim s' l' H) as (s2 & -> & H2 & _). eauto.
  - intros s' l' <-. apply list_hint.
Qed.

Section pg.
  Context (g : pg).
  Definition pn (x : nat * nat) : nat := default 0 (port_node g x.2).
  Definition has_pn (L : list (nat * nat)) : Prop := forall x, x ∈ L -> port_node g x.2 = Some (pn x).
  Lemma pn_list L N : Forall2 (fun x m => port_node g x.2 = Some m) L N -> has_pn L /\ N = map pn L.
  Proof.
    induction 1 as [|x m L N Hx _ [IH ->]]; [split; [|done]; by intros x Hx%elem_of_nil|].
    assert (E : pn x = m) by (unfold pn; by rewrite Hx). split; [|by rewrite <- E]. intros y [-> |Hy]%elem_of_cons; [by rewrite E|by apply IH].
  Qed.
  Definition nsim (s : links_state) (l : list nat) : Prop := exists L, lsim s L /\ has_pn L /\ l = map pn L.
  Lemma nsim_iter s l : nsim s l -> iter_ok (neigh_next g) (neigh_next_back g) links_hint s l.
  Proof.
    apply (iter_ok_sim _ _ _ nsim).
    - intros s' l' (L & H & P & ->). destruct (lsim_next _ _ H) as (s2 & E & H2). unfold neigh_next. rewrite E.
      exists s2. split.
      + rewrite head_map. destruct (head L) as [[p q]|] eqn:Eh; [|done]. cbn. pose proof (P (p, q) ltac:(by apply elem_head)) as Ep.
        cbn in Ep. by rewrite Ep.
      + exists (tail L). rewrite tail_map. split_and!; [done| |done]. intros x Hx. by apply P, elem_tail.
    - intros s' l' (L & H & P & ->). destruct (lsim_hint _ _ H) as [H1 H2]. split; rewrite map_length; done.
    - intros s' l' (L & H & P & ->). destruct (lsim_next_back _ _ H) as (s2 & E & H2). unfold neigh_next_back. rewrite E.
      exists s2. split.
      + rewrite last_map. destruct (last L) as [[p q]|] eqn:Eh; [|done]. cbn. pose proof (P (p, q) ltac:(by apply elem_last)) as Ep.
        cbn in Ep. by rewrite Ep.
      + exists (removelast L). rewrite removelast_map. split_and!; [done| |done]. intros x Hx. by apply P, elem_removelast.
  Qed.
  Lemma neigh_fwd s L N : links_list s = L -> Forall2 (fun x m => port_node g x.2 = Some m) L N -> fwd_ok (neigh_next g) links_hint s N.
  Proof.
    intros <- [P ->]%pn_list. apply (fwd_ok_sim _ _ (fun s l => has_pn (links_list s) /\ l = map pn (links_list s))); [| |done].
    - intros s' l' [P' ->]. destruct (links_next_sim s' _ eq_refl) as (s2 & E & H2 & _). unfold neigh_next. rewrite E. exists s2. split.
      + rewrite head_map. destruct (head _) as [[p q]|] eqn:Eh; [|done]. cbn. pose proof (P' (p, q) ltac:(by apply elem_head)) as Ep.
        cbn in Ep. by rewrite Ep.
      + rewrite H2, tail_map. split; [|done]. intros x Hx. by apply P', elem_tail.
    - intros s' l' [P' ->]. destruct (list_hint s') as [H1 H2]. split; rewrite map_length; done.
  Qed.
  Context (b : nat).
  Definition toB (x : nat * nat) : Prop := port_node g x.2 = Some b.
  Global Instance toB_dec x : Decision (toB x).
  Proof. unfold toB. apply _. Defined.
  Definition csim (s : links_state) (l : list (nat * nat)) : Prop := exists L, lsim s L /\ l = filter toB L.
  Lemma conn_fwd fuel s L : lsim s L -> length L <= fuel ->
    exists s', conn_scan g b fuel s = (head (filter toB L), s') /\ csim s' (tail (filter toB L)).
  Proof.
    revert s L. induction fuel as [|f IH]; intros s L H Hf; cbn [conn_scan]; destruct (lsim_next _ _ H) as (s2 & -> & H2).
    - destruct L; [|cbn in Hf; lia]. exists s2. split; [done|]. by exists [].
    - destruct L as [|[p q] L]; [exists s2; split; [done|]; by exists []|]. cbn [head tail] in *. rewrite filter_cons.
      destruct (decide (port_node g q = Some b)) as [Hq|Hq].
      + rewrite decide_True by done. exists s2. split; [done|]. by exists L.
      + rewrite decide_False by done. apply IH; [done|]. cbn in Hf. lia.
  Qed.
  Lemma conn_bwd fuel s L : lsim s L -> length L <= fuel ->
    exists s', conn_scan_back g b fuel s = (last (filter toB L), s') /\ csim s' (removelast (filter toB L)).
  Proof.
    revert s L. induction fuel as [|f IH]; intros s L H Hf; cbn [conn_scan_back]; destruct (lsim_next_back _ _ H) as (s2 & -> & H2).
    - destruct L; [|cbn in Hf; lia]. exists s2. split; [done|]. by exists [].
    - destruct (list_snoc L) as [->|(L' & [p q] & ->)]; [exists s2; split; [done|]; by exists []|].
      destruct (last_removelast L' (p, q)) as [E1 E2]. rewrite E1, E2 in *. rewrite filter_app, filter_cons, filter_nil.
      destruct (decide (port_node g q = Some b)) as [Hq|Hq].
      + rewrite decide_True by done. destruct (last_removelast (filter toB L') (p, q)) as [-> ->]. exists s2. split; [done|]. by exists L'.
      + rewrite decide_False by done. rewrite app_nil_r. apply IH; [done|]. rewrite app_length in Hf. cbn in Hf. lia.
  Qed.
  Lemma csim_iter s l : csim s l -> iter_ok (fun s => Ok (conn_next g b s)) (fun s => Ok (conn_next_back g b s)) links_hint s l.
  Proof.
    apply (iter_ok_sim _ _ _ csim).
    - intros s' l' (L & H & ->). unfold conn_next. destruct (conn_fwd (length s'.1) s' L H) as (s2 & -> & H2); [|eauto].
      destruct H as [_ ->]. apply omap_le.
    - intros s' l' (L & H & ->). destruct (lsim_hint _ _ H) as [H1 H2]. split; [cbn; lia|]. intros u Hu. specialize (H2 u Hu).
      pose proof (filter_length toB L). lia.
    - intros s' l' (L & H & ->). unfold conn_next_back. destruct (conn_bwd (length s'.1) s' L H) as (s2 & -> & H2); [|eauto].
      destruct H as [_ ->]. apply omap_le.
  Qed.
End pg.

(** The entries of the states. *)
Section entries.
  Context (g : pg) (fnl : list nat) (F : nat -> list nat) (I : InvG g fnl F).
  Lemma links_noign n d s : links_init g n d = Ok s -> noign s.
  Proof.
    unfold links_init. destruct (nmeta g n); [|intros [= <-]; by intros p q Hq%elem_of_nil].
    destruct (vslice _ _ _); [|done]. intros [= <-] p q _. cbn. lia.
  Qed.
  Lemma all_links_noign n s : (forall p q, linked g p q -> port_node g p = Some n -> port_node g q <> Some n) ->
    all_links_init g n = Ok s -> noign s.
  Proof.
    intros Hs. unfold all_links_init. destruct (nmeta g n) as [m|] eqn:Hm; [|intros [= <-]; by intros p q Hq%elem_of_nil].
    unfold vslice. case_decide as Hd; [|done]. rewrite bind_Ok. intros [= <-] p q Hpq Hr. cbn [fst snd] in *.
    apply elem_of_list_lookup in Hpq as [i Hi]. rewrite lookup_zip_with in Hi.
    destruct (nm_all_ports m !! i) as [p'|] eqn:Ep; [|done]. cbn in Hi. destruct (take _ _ !! i) as [o|] eqn:Eo; [|done].
    cbn in Hi. injection Hi as -> ->. unfold nm_all_ports in Ep. apply lookup_seq in Ep as [-> Hlt].
    rewrite lookup_take in Eo by done. rewrite lookup_drop in Eo.
    assert (exists d, pmeta g (nm_first m + i) = Some (n, d)) as [d Hp].
    { destruct (decide (i < nm_inc m)); [exists Incoming|exists Outgoing];
      apply (inv_pmeta_range _ _ _ I _ _ _ _ Hm); unfold in_range; cbn; lia. }
    apply (Hs (nm_first m + i) q).
    - apply (linked_iff _ _ _ I). split; [eauto|]. unfold plink. by rewrite Eo.
    - unfold port_node. by rewrite Hp.
    - unfold port_node. rewrite (inv_pmeta_range _ _ _ I _ _ Outgoing q Hm); [done|]. unfold in_range. cbn. cbn in Hr. lia.
  Qed.
End entries.
