(** Proofs of the theorems stated in PG3Props.v. *)
From Verif Require Export PG2Thms.

Section iter.
  Context {S A : Type} (next next_back : S -> res (option A * S)) (len : S -> nat).
  Context (sim : S -> list A -> Prop).
  Context (Hn : forall s l, sim s l -> exists s', next s = Ok (head l, s') /\ sim s' (tail l)).
  Context (Hb : forall s l, sim s l -> exists s', next_back s = Ok (last l, s') /\ sim s' (removelast l)).
  Context (Hl : forall s l, sim s l -> len s = length l).
  Lemma run_iter_sim sched s l : sim s l -> run_iter next next_back len sched s = Ok (deque sched l).
  Proof.
    revert s l. induction sched as [|b sched IH]; intros s l Hs; [done|]. cbn [run_iter deque].
    destruct b.
    - destruct (Hn s l Hs) as (s' & -> & Hs'). rewrite bind_Ok, (IH _ _ Hs'), bind_Ok, (Hl _ _ Hs'). done.
    - destruct (Hb s l Hs) as (s' & -> & Hs'). rewrite bind_Ok, (IH _ _ Hs'), bind_Ok, (Hl _ _ Hs'). done.
  Qed.
End iter.
Section iterf.
  Context {S A : Type} (next : S -> res (option A * S)) (sim : S -> list A -> Prop).
  Context (Hn : forall s l, sim s l -> exists s', next s = Ok (head l, s') /\ sim s' (tail l)).
  Lemma run_fwd_sim k s l : sim s l -> run_fwd next k s = Ok (fwd k l).
  Proof.
    revert s l. induction k as [|k IH]; intros s l Hs; [done|]. cbn [run_fwd].
    destruct (Hn s l Hs) as (s' & -> & Hs'). rewrite bind_Ok, (IH _ _ Hs'), bind_Ok. f_equal.
    unfold fwd. cbn [seq fmap list_fmap]. f_equal; [by destruct l|].
    rewrite <- seq_shift, <- list_fmap_compose. apply list_fmap_ext. intros _ x _. cbn. by destruct l.
  Qed.
End iterf.

Lemma last_removelast {A} (l : list A) x : last (l ++ [x]) = Some x /\ removelast (l ++ [x]) = l.
Proof. split; [by rewrite last_snoc|apply removelast_last]. Qed.
Lemma list_snoc {A} (l : list A) : l = [] \/ exists l' x, l = l' ++ [x].
Proof. induction l as [|x l _] using rev_ind; [by left|right; eauto]. Qed.

(** Ranges. *)
Lemma rng_next_sim (r : nat * nat) l : l = seq r.1 (r.2 - r.1) ->
  exists r', rng_next r = (head l, r') /\ tail l = seq r'.1 (r'.2 - r'.1).
Proof.
  intros ->. unfold rng_next. destruct r as [a b]; cbn. destruct (decide (a < b)).
  - exists (S a, b). cbn. destruct (b - a) as [|k] eqn:E; [lia|]. cbn. split; [done|]. f_equal. lia.
  - exists (a, b). cbn. replace (b - a) with 0 by lia. done.
Qed.
Lemma rng_next_back_sim (r : nat * nat) l : l = seq r.1 (r.2 - r.1) ->
  exists r', rng_next_back r = (last l, r') /\ removelast l = seq r'.1 (r'.2 - r'.1).
Proof.
  intros ->. unfold rng_next_back. destruct r as [a b]; cbn. destruct (decide (a < b)).
  - exists (a, b - 1). cbn. destruct (b - a) as [|k] eqn:E; [lia|]. rewrite seq_S.
    destruct (last_removelast (seq a k) (a + k)) as [-> ->]. split; [do 2 f_equal; lia|]. f_equal. lia.
  - exists (a, b). cbn. replace (b - a) with 0 by lia. done.
Qed.

(** Scans over enumerated entries. *)
Definition ndsel (x : nat * node_entry) : option nat := match x with (i, NNode _) => Some i | _ => None end.
Definition ptsel (x : nat * port_entry) : option nat := match x with (i, PPort _ _) => Some i | _ => None end.
Lemma nodes_scan_sim l : exists l', nodes_scan l (length (omap ndsel l)) = Ok (head (omap ndsel l), (l', length (omap ndsel l'))) /\
  tail (omap ndsel l) = omap ndsel l'.
Proof.
  induction l as [|[i e] l IH]; [by exists []|]. rewrite omap_cons'. destruct e; cbn [ndsel nodes_scan]; [done|].
  exists l. cbn. split; [|done]. rewrite b_usub by lia. do 3 f_equal. lia.
Qed.
Lemma ports_scan_sim l : exists l', ports_scan l (length (omap ptsel l)) = Ok (head (omap ptsel l), (l', length (omap ptsel l'))) /\
  tail (omap ptsel l) = omap ptsel l'.
Proof.
  induction l as [|[i e] l IH]; [by exists []|]. rewrite omap_cons'. destruct e; cbn [ptsel ports_scan]; [done|].
  exists l. cbn. split; [|done]. rewrite b_usub by lia. do 3 f_equal. lia.
Qed.
Lemma omap_rev {A B} (f : A -> option B) l : omap f (rev l) = rev (omap f l).
Proof.
  induction l as [|x l IH]; [done|]. cbn [rev]. rewrite omap_app, !omap_cons', IH.
  destruct (f x); cbn; [done|by rewrite app_nil_r].
Qed.
Lemma omap_ext' {A B} (f h : A -> option B) (l : list A) : (forall x, x ∈ l -> f x = h x) -> omap f l = omap h l.
Proof.
  induction l as [|x l IH]; intros H; [done|]. rewrite !omap_cons', (H x) by (by left). rewrite IH; [done|].
  intros y Hy. apply H. by right.
Qed.
Lemma rev_head {A} (l : list A) : head (rev l) = last l /\ rev (tail (rev l)) = removelast l.
Proof.
  destruct (list_snoc l) as [->|(l' & x & ->)]; [done|].
  destruct (last_removelast l' x) as [-> ->]. rewrite rev_app_distr. cbn. split; [done|]. apply rev_involutive.
Qed.

(** Links. *)
Lemma links_scan_sim l ig : exists l', links_scan l ig = (head (links_list (l, ig)), (l', ig)) /\
  tail (links_list (l, ig)) = links_list (l', ig) /\ (l <> [] -> length l' < length l).
Proof.
  induction l as [|[p [q|]] l IH].
  - by exists [].
  - unfold links_list in *. cbn [links_scan fst snd] in *. rewrite omap_cons'. cbn [fst snd]. destruct (decide _) as [|].
    + destruct IH as (l' & H1 & H2 & H3). exists l'. split_and!; [done|done|]. cbn. destruct l; [|cbn in *; specialize (H3 ltac:(done)); lia]. cbn in H1. injection H1 as <-. cbn. lia.
    + exists l. cbn. split_and!; [done|done|lia].
  - destruct IH as (l' & H1 & H2 & H3). exists l'. unfold links_list in *. cbn [links_scan fst snd] in *. rewrite omap_cons'. split_and!; [done|done|]. cbn. destruct l; [|cbn in *; specialize (H3 ltac:(done)); lia]. cbn in H1. injection H1 as <-. cbn. lia.
Qed.
Lemma links_next_sim (s : links_state) l : links_list s = l ->
  exists s', links_next s = (head l, s') /\ links_list s' = tail l /\ (s.1 <> [] -> length s'.1 < length s.1).
Proof.
  intros <-. destruct s as [l ig]. destruct (links_scan_sim l ig) as (l' & H1 & H2 & H3).
  exists (l', ig). unfold links_next. cbn [fst snd]. by rewrite H1, H2.
Qed.

Lemma rmap_Forall2 {A B} (f : A -> res B) l l' : Forall2 (fun a b => f a = Ok b) l l' -> rmap f l = Ok l'.
Proof. induction 1 as [|a b l l' H _ IH]; [done|]. cbn. rewrite H, bind_Ok, IH. done. Qed.

(** The link entries of a run of ports. *)
Lemma links_run g s n : s + n <= length (pg_link g) -> forall ig,
  exists l, vslice (pg_link g) s n = Ok l /\
  links_list (zip (seq s n) l, ig) =
    omap (fun p => match plink g p with Some q => if decide (ig.1 <= q < ig.2) then None else Some (p, q) | None => None end) (seq s n).
Proof.
  intros Hl ig. unfold vslice. rewrite decide_True by done. eexists. split; [done|].
  unfold links_list. cbn [fst snd]. revert s Hl. induction n as [|n IH]; intros s Hl; [done|].
  cbn [seq]. rewrite omap_cons'. destruct (lookup_lt_is_Some_2 (pg_link g) s ltac:(lia)) as [e He].
  rewrite (drop_S _ _ _ He). cbn [take zip_with]. rewrite omap_cons'. rewrite (IH (S s)) by lia.
  assert (Ep : plink g s = e) by (unfold plink; rewrite He; by destruct e). cbv beta. rewrite Ep. done.
Qed.

Section obs.
  Context (g : pg) (fnl : list nat) (F : nat -> list nat) (I : InvG g fnl F).
  Lemma link_of_eq p : link_of g p = if pmeta g p then pair p <$> plink g p else None.
  Proof. unfold link_of. rewrite (port_link_eq _ _ _ I). destruct (pmeta g p); [|done]. by destruct (plink g p). Qed.
  Lemma links_spec n d : exists s, links_init g n d = Ok s /\ links_list s = omap (link_of g) (ports g n d).
  Proof.
    unfold links_init, ports. destruct (nmeta g n) as [m|] eqn:Hm; [|by eexists].
    pose proof (inv_meta_ok _ _ _ I _ _ Hm) as Hok. pose proof (i_len _ _ _ I) as Hlen.
    assert (Hb : nm_start m d + nm_num m d <= length (pg_link g)) by (unfold meta_ok in Hok; destruct d; cbn; lia).
    destruct (links_run g (nm_start m d) (nm_num m d) Hb (0, 0)) as (l & -> & H). rewrite bind_Ok.
    eexists. split; [done|]. unfold nm_ports. rewrite H. apply omap_ext'. intros p Hp%elem_of_seq.
    rewrite link_of_eq. rewrite (inv_pmeta_range _ _ _ I _ _ d p Hm) by (unfold in_range; lia).
    destruct (plink g p); [|done]. cbn. by rewrite decide_False by lia.
  Qed.
  Lemma all_links_spec n : exists s, all_links_init g n = Ok s /\ links_list s =
    omap (fun p => x ← link_of g p; if decide (port_node g x.2 = Some n /\ port_direction g x.2 = Some Outgoing) then None else Some x) (all_ports g n).
  Proof.
    unfold all_links_init, all_ports. destruct (nmeta g n) as [m|] eqn:Hm; [|by eexists].
    pose proof (inv_meta_ok _ _ _ I _ _ Hm) as Hok. pose proof (i_len _ _ _ I) as Hlen.
    destruct (links_run g (nm_first m) (nm_inc m + nm_out m) ltac:(unfold meta_ok in Hok; lia)
       (nm_start m Outgoing, nm_start m Outgoing + nm_out m)) as (l & -> & H). rewrite bind_Ok.
    eexists. split; [done|]. unfold nm_all_ports. rewrite H. apply omap_ext'. intros p Hp%elem_of_seq.
    rewrite link_of_eq.
    assert (exists d, pmeta g p = Some (n, d)) as [d Hd].
    { destruct (decide (p < nm_first m + nm_inc m)); [exists Incoming|exists Outgoing];
      apply (inv_pmeta_range _ _ _ I _ _ _ _ Hm); unfold in_range; cbn; lia. }
    rewrite Hd. destruct (plink g p) as [q|] eqn:El; [|done]. cbn.
    destruct (inv_link _ _ _ I _ _ _ _ Hd El) as [_ [n3 Hq]].
    assert (HH : (nm_first m + nm_inc m <= q < nm_first m + nm_inc m + nm_out m) <-> port_node g q = Some n /\ port_direction g q = Some Outgoing).
    { unfold port_node, port_direction. rewrite Hq. cbn. split.
      - intros Hr. assert (Hq' : pmeta g q = Some (n, Outgoing)) by (apply (inv_pmeta_range _ _ _ I _ _ _ _ Hm); unfold in_range; cbn; lia).
        rewrite Hq in Hq'. by injection Hq' as -> ->.
      - intros [[= ->] [= E]]. rewrite E in Hq. apply (inv_pmeta _ _ _ I) in Hq as (m2 & Hm2 & Hr).
        rewrite Hm in Hm2. injection Hm2 as <-. unfold in_range in Hr. cbn in Hr. lia. }
    destruct (decide _) as [Hx|Hx].
    - rewrite decide_True by (by apply HH). done.
    - rewrite decide_False; [done|]. by rewrite <- HH.
  Qed.
  Lemma link_of_Some p x : link_of g p = Some x <-> x.1 = p /\ linked g p x.2.
  Proof.
    unfold link_of, linked. destruct x as [a b]. cbn. destruct (port_link g p) as [[q|]|]; split; try (by intros [_ ?]); try done.
    - by intros [= -> ->].
    - by intros [-> [= ->]].
  Qed.
  Lemma linked_node p q : linked g p q -> exists m, port_node g q = Some m.
  Proof.
    intros [[[n d] Hp] Hl]%(linked_iff _ _ _ I). destruct (inv_link _ _ _ I _ _ _ _ Hp Hl) as [_ [n3 Hq]].
    unfold port_node. rewrite Hq. eauto.
  Qed.
  Lemma neigh_list L : (forall x, x ∈ L -> linked g x.1 x.2) ->
    exists N, rmap (fun x => unwrap (port_node g x.2)) L = Ok N /\ Forall2 (fun x m => port_node g x.2 = Some m) L N.
  Proof.
    intros H. cut (exists N, Forall2 (fun x m => port_node g x.2 = Some m) L N).
    { intros [N HN]. exists N. split; [|done]. apply rmap_Forall2. eapply Forall2_impl; [done|]. intros x m E. cbn. by rewrite E. }
    induction L as [|x L IH]; [by exists []|]. destruct IH as [N HN]; [intros y Hy; apply H; by right|].
    destruct (linked_node x.1 x.2) as [m Hm]; [apply H; by left|]. exists (m :: N). by constructor.
  Qed.
End obs.


Lemma C17_nodes_and_ports_pf :
  forall w g, reach w g ->
    (forall n, n ∈ nodes_iter g <-> contains_node g n = true) /\
    StronglySorted lt (nodes_iter g) /\ length (nodes_iter g) = node_count g /\
    (forall sched, run_iter nodes_next nodes_next_back snd sched (nodes_init g) = Ok (deque sched (nodes_iter g))) /\
    (forall p, p ∈ ports_iter g <-> contains_port g p = true) /\
    StronglySorted lt (ports_iter g) /\ length (ports_iter g) = port_count g /\
    (forall sched, run_iter ports_next ports_next_back snd sched (ports_iter_init g) = Ok (deque sched (ports_iter g))).
Proof.
  intros w g (fnl & F & I)%reach_inv. split_and!.
  - intros n. by rewrite nodes_iter_eq, node_ids_elem, contains_node_true.
  - rewrite nodes_iter_eq. apply node_ids_sorted.
  - rewrite nodes_iter_eq. by eapply node_ids_length.
  - intros sched. apply (run_iter_sim _ _ _ (fun s l => l = omap ndsel s.1 /\ s.2 = length l)).
    + intros [es k] l [-> E]. cbn in E. subst k. destruct (nodes_scan_sim es) as (l' & H1 & H2).
      eexists. unfold nodes_next. cbn. rewrite H1. split; [done|]. cbn. by rewrite H2.
    + intros [es k] l [-> E]. cbn in E. subst k. unfold nodes_next_back. cbn.
      destruct (decide (length (omap ndsel es) = 0)) as [Hz|Hz].
      * apply nil_length_inv in Hz. rewrite Hz. eexists. split; [done|]. cbn. by rewrite Hz.
      * destruct (nodes_scan_sim (rev es)) as (l' & H1 & H2). rewrite omap_rev in H1, H2.
        destruct (rev_head (omap ndsel es)) as [R1 R2]. rewrite rev_length in H1. rewrite H1, bind_Ok, R1.
        eexists. split; [done|]. cbn. rewrite omap_rev, <- R2, H2. split; [done|]. by rewrite rev_length.
    + by intros s l [_ ->].
    + cbn. split; [done|]. unfold nodes_init. cbn. rewrite nodes_iter_eq. symmetry. by eapply node_ids_length.
  - intros n. by rewrite ports_iter_eq, port_ids_elem, contains_port_true.
  - rewrite ports_iter_eq. apply port_ids_sorted.
  - rewrite ports_iter_eq. by eapply port_ids_length.
  - intros sched. apply (run_iter_sim _ _ _ (fun s l => l = omap ptsel s.1 /\ s.2 = length l)).
    + intros [es k] l [-> E]. cbn in E. subst k. destruct (ports_scan_sim es) as (l' & H1 & H2).
      eexists. unfold ports_next. cbn. rewrite H1. split; [done|]. cbn. by rewrite H2.
    + intros [es k] l [-> E]. cbn in E. subst k. unfold ports_next_back. cbn.
      destruct (ports_scan_sim (rev es)) as (l' & H1 & H2). rewrite omap_rev in H1, H2.
      destruct (rev_head (omap ptsel es)) as [R1 R2]. rewrite rev_length in H1. rewrite H1, bind_Ok, R1.
      eexists. split; [done|]. cbn. rewrite omap_rev, <- R2, H2. split; [done|]. by rewrite rev_length.
    + by intros s l [_ ->].
    + cbn. split; [done|]. unfold ports_iter_init. cbn. rewrite ports_iter_eq. symmetry. by eapply port_ids_length.
Qed.

Definition po_enc (w : N) (d : dir) (k : nat) : N := match po_new w d (N.of_nat k) with Ok o => o | Panic => 0%N end.
Lemma po_enc_ok w d k : (1 < w)%N -> (N.of_nat k <= po_max_offset w)%N -> po_new w d (N.of_nat k) = Ok (po_enc w d k).
Proof. intros Hw Hk. unfold po_enc. by destruct (po_new_ok w d (N.of_nat k) Hw Hk) as (o & -> & _). Qed.
Lemma offs_sim w (s : offs_state) l : (1 < w)%N ->
  (N.of_nat s.1.2 <= po_max_offset w + 1)%N -> (N.of_nat s.2.2 <= po_max_offset w + 1)%N ->
  l = (po_enc w Incoming <$> seq s.1.1 (s.1.2 - s.1.1)) ++ (po_enc w Outgoing <$> seq s.2.1 (s.2.2 - s.2.1)) ->
  (exists s', offs_next w s = Ok (head l, s') /\
    (N.of_nat s'.1.2 <= po_max_offset w + 1)%N /\ (N.of_nat s'.2.2 <= po_max_offset w + 1)%N /\
    tail l = (po_enc w Incoming <$> seq s'.1.1 (s'.1.2 - s'.1.1)) ++ (po_enc w Outgoing <$> seq s'.2.1 (s'.2.2 - s'.2.1))) /\
  (exists s', offs_next_back w s = Ok (last l, s') /\
    (N.of_nat s'.1.2 <= po_max_offset w + 1)%N /\ (N.of_nat s'.2.2 <= po_max_offset w + 1)%N /\
    removelast l = (po_enc w Incoming <$> seq s'.1.1 (s'.1.2 - s'.1.1)) ++ (po_enc w Outgoing <$> seq s'.2.1 (s'.2.2 - s'.2.1))).
Proof.
  destruct s as [[a b] [c d]]. cbn [fst snd]. intros Hw Hb Hd ->. split.
  - unfold offs_next, rng_next. cbn [fst snd]. destruct (decide (a < b)) as [Hab|Hab].
    + rewrite po_enc_ok by (done || lia). rewrite bind_Ok. exists (S a, b, (c, d)). cbn [fst snd].
      destruct (b - a) as [|k] eqn:E; [lia|]. replace (b - S a) with k by lia. done.
    + replace (b - a) with 0 by lia. destruct (decide (c < d)) as [Hcd|Hcd].
      * rewrite po_enc_ok by (done || lia). rewrite bind_Ok. exists (a, b, (S c, d)). cbn [fst snd]. replace (b - a) with 0 by lia.
        destruct (d - c) as [|k] eqn:E; [lia|]. replace (d - S c) with k by lia. done.
      * exists (a, b, (c, d)). cbn [fst snd]. replace (d - c) with 0 by lia. replace (b - a) with 0 by lia. done.
  - unfold offs_next_back, rng_next_back. cbn [fst snd]. destruct (decide (c < d)) as [Hcd|Hcd].
    + rewrite po_enc_ok by (done || lia). rewrite bind_Ok. exists (a, b, (c, d - 1)). cbn [fst snd].
      replace (d - 1 - c) with (d - c - 1) by lia.
      destruct (d - c) as [|k] eqn:E; [lia|]. replace (S k - 1) with k by lia. rewrite (seq_S k c), fmap_app. cbn [fmap list_fmap]. rewrite app_assoc.
      destruct (last_removelast ((po_enc w Incoming <$> seq a (b - a)) ++ (po_enc w Outgoing <$> seq c k)) (po_enc w Outgoing (c + k))) as [-> ->].
      replace (d - 1) with (c + k) by lia. split_and!; [done|done|lia|done].
    + replace (d - c) with 0 by lia. cbn [seq fmap list_fmap]. rewrite app_nil_r. destruct (decide (a < b)) as [Hab|Hab].
      * rewrite po_enc_ok by (done || lia). rewrite bind_Ok. exists (a, b - 1, (c, d)). cbn [fst snd].
        replace (d - c) with 0 by lia. cbn [seq fmap list_fmap]. rewrite app_nil_r.
        replace (b - 1 - a) with (b - a - 1) by lia.
        destruct (b - a) as [|k] eqn:E; [lia|]. replace (S k - 1) with k by lia. rewrite (seq_S k a), fmap_app. cbn [fmap list_fmap].
        destruct (last_removelast (po_enc w Incoming <$> seq a k) (po_enc w Incoming (a + k))) as [-> ->].
        replace (b - 1) with (a + k) by lia. split_and!; [done|lia|done|done].
      * exists (a, b, (c, d)). cbn [fst snd]. replace (d - c) with 0 by lia. replace (b - a) with 0 by lia. done.
Qed.
Lemma offs_run w s sched : (1 < w)%N -> (N.of_nat s.1.2 <= po_max_offset w + 1)%N -> (N.of_nat s.2.2 <= po_max_offset w + 1)%N ->
  run_iter (offs_next w) (offs_next_back w) offs_len sched s =
  Ok (deque sched ((po_enc w Incoming <$> seq s.1.1 (s.1.2 - s.1.1)) ++ (po_enc w Outgoing <$> seq s.2.1 (s.2.2 - s.2.1)))).
Proof.
  intros Hw H1 H2. apply (run_iter_sim _ _ _ (fun s l =>
    (N.of_nat s.1.2 <= po_max_offset w + 1)%N /\ (N.of_nat s.2.2 <= po_max_offset w + 1)%N /\
    l = (po_enc w Incoming <$> seq s.1.1 (s.1.2 - s.1.1)) ++ (po_enc w Outgoing <$> seq s.2.1 (s.2.2 - s.2.1)))).
  - intros s' l (A & B & C). by destruct (offs_sim w s' l Hw A B C) as [X _].
  - intros s' l (A & B & C). by destruct (offs_sim w s' l Hw A B C) as [_ X].
  - intros s' l (A & B & ->). unfold offs_len, rng_len. by rewrite app_length, !fmap_length, !seq_length.
  - done.
Qed.

Lemma C17_node_ports_pf :
  forall w g n, (1 < w <= 63)%N -> reach w g ->
    (forall d, (N.of_nat (num_ports g n d) <= po_max_offset w + 1)%N) ->
    (forall d sched, run_iter (fun r => Ok (rng_next r)) (fun r => Ok (rng_next_back r)) rng_len sched (ports_init g n d)
       = Ok (deque sched (ports g n d))) /\
    (forall sched, run_iter (fun r => Ok (rng_next r)) (fun r => Ok (rng_next_back r)) rng_len sched (all_ports_init g n)
       = Ok (deque sched (ports g n Incoming ++ ports g n Outgoing))) /\
    exists oi oo,
      length oi = num_ports g n Incoming /\ length oo = num_ports g n Outgoing /\
      (forall k o, oi !! k = Some o -> po_new w Incoming (N.of_nat k) = Ok o /\
         port_index w g n o = Ok (ports g n Incoming !! k)) /\
      (forall k o, oo !! k = Some o -> po_new w Outgoing (N.of_nat k) = Ok o /\
         port_index w g n o = Ok (ports g n Outgoing !! k)) /\
      (forall sched, run_iter (offs_next w) (offs_next_back w) offs_len sched (port_offsets_init g n Incoming) = Ok (deque sched oi)) /\
      (forall sched, run_iter (offs_next w) (offs_next_back w) offs_len sched (port_offsets_init g n Outgoing) = Ok (deque sched oo)) /\
      (forall sched, run_iter (offs_next w) (offs_next_back w) offs_len sched (all_port_offsets_init g n) = Ok (deque sched (oi ++ oo))).
Proof.
  intros w g n Hw Hr Hmax. pose proof Hr as (fnl & F & I)%reach_inv.
  assert (Hrng : forall r sched, run_iter (fun r => Ok (rng_next r)) (fun r => Ok (rng_next_back r)) rng_len sched r = Ok (deque sched (seq r.1 (r.2 - r.1)))).
  { intros r sched. apply (run_iter_sim _ _ _ (fun r l => l = seq r.1 (r.2 - r.1))).
    - intros s l H. destruct (rng_next_sim s l H) as (r' & -> & H'). eauto.
    - intros s l H. destruct (rng_next_back_sim s l H) as (r' & -> & H'). eauto.
    - intros s l ->. unfold rng_len. by rewrite seq_length.
    - done. }
  assert (Henc : forall d k o, (po_enc w d <$> seq 0 (num_ports g n d)) !! k = Some o ->
     po_new w d (N.of_nat k) = Ok o /\ port_index w g n o = Ok (ports g n d !! k)).
  { intros d k o Hk. rewrite list_lookup_fmap in Hk. destruct (seq 0 _ !! k) as [k'|] eqn:Es; [|done].
    apply lookup_seq in Es as [-> Hlt]. injection Hk as <-. cbn.
    assert (Hkm : (N.of_nat k <= po_max_offset w)%N) by (specialize (Hmax d); lia).
    destruct (po_new_ok w d (N.of_nat k) ltac:(lia) Hkm) as (o & Ho & Hd & Hix).
    unfold po_enc. rewrite Ho. split; [done|]. unfold port_index, ports. destruct (nmeta g n); [|done].
    by rewrite Hd, bind_Ok, Hix, bind_Ok, Nat2N.id. }
  split_and!.
  - intros d sched. rewrite Hrng. do 2 f_equal. unfold ports_init, ports. destruct (nmeta g n); [|done]. cbn. unfold nm_ports. f_equal. lia.
  - intros sched. rewrite Hrng. do 2 f_equal. unfold all_ports_init, ports. destruct (nmeta g n) as [m|]; [|done].
    cbn [fst snd]. unfold nm_ports. cbn [nm_start nm_num].
    replace (nm_first m + (nm_inc m + nm_out m) - nm_first m) with (nm_inc m + nm_out m) by lia. apply seq_app.
  - exists (po_enc w Incoming <$> seq 0 (num_ports g n Incoming)), (po_enc w Outgoing <$> seq 0 (num_ports g n Outgoing)).
    pose proof (Hmax Incoming). pose proof (Hmax Outgoing).
    split_and!; [by rewrite fmap_length, seq_length|by rewrite fmap_length, seq_length|apply Henc|apply Henc|..].
    + intros sched. rewrite offs_run by (cbn; lia). cbn. by rewrite Nat.sub_0_r, app_nil_r.
    + intros sched. rewrite offs_run by (cbn; lia). cbn. by rewrite Nat.sub_0_r.
    + intros sched. rewrite offs_run by (cbn; lia). cbn. by rewrite !Nat.sub_0_r.
Qed.

Lemma fwd_links s L : links_list s = L -> forall k, run_fwd (fun s => Ok (links_next s)) k s = Ok (fwd k L).
Proof.
  intros H k. apply (run_fwd_sim _ (fun s l => links_list s = l)); [|done].
  intros s' l Hl. destruct (links_next_sim s' l Hl) as (s2 & -> & H2 & _). eauto.
Qed.
Lemma fwd_neigh g s L N : links_list s = L -> Forall2 (fun x m => port_node g x.2 = Some m) L N ->
  forall k, run_fwd (neigh_next g) k s = Ok (fwd k N).
Proof.
  intros H HN k. apply (run_fwd_sim _ (fun s l => Forall2 (fun x m => port_node g x.2 = Some m) (links_list s) l)); [|by rewrite H].
  intros s' l Hl. destruct (links_next_sim s' _ eq_refl) as (s2 & E & H2 & _). unfold neigh_next. rewrite E.
  inversion Hl as [E1 E2|x m L' l' Hx Hr E1 E2].
  - cbn. eexists. split; [done|]. rewrite H2, <- E1. constructor.
  - cbn. destruct x as [p q]. cbn in Hx. rewrite Hx. cbn. eexists. split; [done|]. rewrite H2, <- E1. cbn. done.
Qed.

Lemma C18_links_pf :
  forall w g n, reach w g ->
    (forall d, exists L N s,
       links g n d = Ok L /\ L = omap (link_of g) (ports g n d) /\
       neighbours g n d = Ok N /\ Forall2 (fun x m => port_node g x.2 = Some m) L N /\
       links_init g n d = Ok s /\
       (forall k, run_fwd (fun s => Ok (links_next s)) k s = Ok (fwd k L)) /\
       (forall k, run_fwd (neigh_next g) k s = Ok (fwd k N))) /\
    (exists L N s,
       all_links g n = Ok L /\
       L = filter (fun x => ~ (port_direction g x.1 = Some Incoming /\ port_node g x.2 = Some n))
             (omap (link_of g) (ports g n Incoming ++ ports g n Outgoing)) /\
       all_neighbours g n = Ok N /\ Forall2 (fun x m => port_node g x.2 = Some m) L N /\
       NoDup L /\
       (forall p q, (p, q) ∈ L -> linked g p q /\ port_node g p = Some n) /\
       (forall p q, linked g p q -> port_node g p = Some n -> port_node g q <> Some n -> (p, q) ∈ L) /\
       (forall p q, linked g p q -> port_node g p = Some n -> port_node g q = Some n ->
          ((p, q) ∈ L <-> port_direction g p = Some Outgoing) /\ ((q, p) ∈ L <-> (p, q) ∉ L)) /\
       all_links_init g n = Ok s /\
       (forall k, run_fwd (fun s => Ok (links_next s)) k s = Ok (fwd k L)) /\
       (forall k, run_fwd (neigh_next g) k s = Ok (fwd k N))).
Proof.
  intros w g n (fnl & F & I)%reach_inv. split.
  - intros d. destruct (links_spec _ _ _ I n d) as (s & Hs & HL).
    destruct (neigh_list _ _ _ I (omap (link_of g) (ports g n d))) as (N & HN & HF).
    { intros x (p & _ & [<- Hx]%link_of_Some)%elem_of_list_omap. done. }
    exists (omap (link_of g) (ports g n d)), N, s. unfold neighbours, links. rewrite Hs, !bind_Ok, HL. cbn.
    split_and!; [done|done|done|done|done|by apply fwd_links|]. by eapply fwd_neigh.
  - destruct (all_links_spec _ _ _ I n) as (s & Hs & HL).
    set (L := links_list s) in *.
    assert (EL : L = filter (fun x => ~ (port_direction g x.1 = Some Incoming /\ port_node g x.2 = Some n))
             (omap (link_of g) (ports g n Incoming ++ ports g n Outgoing))).
    { rewrite HL.
      assert (Eap : ports g n Incoming ++ ports g n Outgoing = all_ports g n).
      { unfold ports, all_ports. destruct (nmeta g n) as [m|]; [|done]. unfold nm_ports, nm_all_ports. cbn. by rewrite <- seq_app. }
      rewrite <- Eap.
      assert (Hown : forall p, p ∈ ports g n Incoming ++ ports g n Outgoing -> True) by done.
      revert Hown. generalize (ports g n Incoming ++ ports g n Outgoing). intros l _.
      induction l as [|p l IH]; [done|]. rewrite !omap_cons', IH.
      destruct (link_of g p) as [x|] eqn:Ex; [|done]. cbn [mbind option_bind]. rewrite filter_cons.
      apply link_of_Some in Ex as [<- Hx].
      assert (HH : port_direction g x.1 = Some Incoming <-> port_direction g x.2 = Some Outgoing).
      { apply (linked_iff _ _ _ I) in Hx as [[[n1 d] Hp] Hx]. destruct (inv_link _ _ _ I _ _ _ _ Hp Hx) as [_ [n3 Hq]].
        unfold port_direction. rewrite Hp, Hq. cbn. destruct d; cbn; split; congruence. }
      destruct (decide (port_node g x.2 = Some n /\ _)) as [Hd|Hd].
      - rewrite decide_False; [done|]. rewrite HH. tauto.
      - rewrite decide_True; [done|]. rewrite HH. tauto. }
    assert (Hin : forall p q, (p, q) ∈ L <-> linked g p q /\ port_node g p = Some n /\ ~ (port_direction g p = Some Incoming /\ port_node g q = Some n)).
    { intros p q. rewrite EL, elem_of_list_filter, elem_of_list_omap. cbn. split.
      - intros [Hn (p' & Hp & [<- Hl]%link_of_Some)]. cbn in *. split_and!; [done| |done].
        apply port_node_iff. apply elem_of_app in Hp as [Hp|Hp]; apply (elem_ports _ _ _ I) in Hp; eauto.
      - intros (Hl & [d Hd]%port_node_iff & Hn). split; [done|]. exists p. split; [|by apply link_of_Some].
        apply elem_of_app. destruct d; [left|right]; by apply (elem_ports _ _ _ I). }
    destruct (neigh_list _ _ _ I L) as (N & HN & HF).
    { intros [p q] Hx. apply Hin in Hx. tauto. }
    exists L, N, s. unfold all_neighbours, all_links. rewrite Hs, !bind_Ok. fold L.
    split_and!; [done|done|done|done| | | | |done|exact (fwd_links s L eq_refl)|exact (fwd_neigh g s L N eq_refl HF)].
    + rewrite EL. apply NoDup_filter.
      assert (Hnd : NoDup (ports g n Incoming ++ ports g n Outgoing)).
      { unfold ports. destruct (nmeta g n) as [m|]; [|constructor]. unfold nm_ports. cbn. rewrite <- seq_app. apply NoDup_seq. }
      revert Hnd. generalize (ports g n Incoming ++ ports g n Outgoing). intros l Hnd.
      induction Hnd as [|p l Hp Hnd IH]; [constructor|]. rewrite omap_cons'. destruct (link_of g p) as [x|] eqn:Ex; [|done].
      constructor; [|done]. intros (p' & Hp' & Ex')%elem_of_list_omap. apply link_of_Some in Ex as [<- _]. apply link_of_Some in Ex' as [E _]. by rewrite E in Hp.
    + intros p q Hx. apply Hin in Hx. tauto.
    + intros p q Hl Hp Hq. apply Hin. tauto.
    + intros p q Hl Hp Hq. rewrite !Hin.
      pose proof Hl as [[[n1 d] Hpm] Hx]%(linked_iff _ _ _ I). destruct (inv_link _ _ _ I _ _ _ _ Hpm Hx) as [Hx' [n3 Hqm]].
      assert (Hl' : linked g q p) by (apply (linked_iff _ _ _ I); eauto).
      unfold port_direction. rewrite Hpm, Hqm. cbn. destruct d; cbn; split; split; intros; try tauto; try congruence.
      * split_and!; try done. intros [? _]; congruence.
      * split_and!; try done. intros [? _]; congruence.
      * exfalso. apply H. split_and!; try done. intros [? _]; congruence.
Qed.

Lemma C18_connections_pf :
  forall w g a b, reach w g ->
    exists C s, get_connections g a b = Ok C /\
      C = filter (fun x => port_node g x.2 = Some b) (omap (link_of g) (ports g a Outgoing)) /\
      (forall p q, (p, q) ∈ C <-> linked g p q /\ port_node g p = Some a /\ port_direction g p = Some Outgoing /\
         port_node g q = Some b /\ port_direction g q = Some Incoming) /\
      NoDup C /\
      get_connection g a b = Ok (head C) /\
      (exists c, connected g a b = Ok c /\ (c = true <-> exists p q, linked g p q /\ port_node g p = Some a /\
         port_direction g p = Some Outgoing /\ port_node g q = Some b)) /\
      links_init g a Outgoing = Ok s /\
      (forall k, run_fwd (fun s => Ok (conn_next g b s)) k s = Ok (fwd k C)).
Proof.
  intros w g a b (fnl & F & I)%reach_inv. destruct (links_spec _ _ _ I a Outgoing) as (s & Hs & HL).
  set (C := filter (fun x => port_node g x.2 = Some b) (omap (link_of g) (ports g a Outgoing))).
  assert (HC : get_connections g a b = Ok C).
  { unfold get_connections, links. rewrite Hs, !bind_Ok. cbn. by rewrite HL. }
  assert (Hin : forall p q, (p, q) ∈ C <-> linked g p q /\ port_node g p = Some a /\ port_direction g p = Some Outgoing /\
         port_node g q = Some b /\ port_direction g q = Some Incoming).
  { intros p q. unfold C. rewrite elem_of_list_filter, elem_of_list_omap. cbn. split.
    - intros [Hn (p' & Hp & [<- Hl]%link_of_Some)]. cbn in *. apply (elem_ports _ _ _ I) in Hp.
      pose proof Hl as [_ Hx]%(linked_iff _ _ _ I). destruct (inv_link _ _ _ I _ _ _ _ Hp Hx) as [Hx' [n3 Hqm]].
      unfold port_node, port_direction in *. rewrite Hp, Hqm in *. done.
    - intros (Hl & [d Hd]%port_node_iff & Hdir & Hn & _). split; [done|]. exists p. split; [|by apply link_of_Some].
      apply (elem_ports _ _ _ I). unfold port_direction in Hdir. rewrite Hd in Hdir. cbn in Hdir. congruence. }
  exists C, s. split_and!; [done|done|done| | | |done|].
  - unfold C. apply NoDup_filter.
    assert (Hnd : NoDup (ports g a Outgoing)).
    { unfold ports. destruct (nmeta g a) as [m|]; [|constructor]. apply NoDup_seq. }
    revert Hnd. generalize (ports g a Outgoing). intros l Hnd.
    induction Hnd as [|p l Hp Hnd IH]; [constructor|]. rewrite omap_cons'. destruct (link_of g p) as [x|] eqn:Ex; [|done].
    constructor; [|done]. intros (p' & Hp' & Ex')%elem_of_list_omap. apply link_of_Some in Ex as [<- _]. apply link_of_Some in Ex' as [E _]. by rewrite E in Hp.
  - unfold get_connection. by rewrite HC.
  - unfold connected, get_connection. rewrite HC, !bind_Ok. eexists. split; [done|]. rewrite bool_decide_eq_true. split.
    + intros [[p q] Hx]. destruct C as [|y C']; [done|]. injection Hx as ->.
      destruct (proj1 (Hin p q)) as (H1 & H2 & H3 & H4 & _); [by left|]. eauto 6.
    + intros (p & q & H1 & H2 & H3 & H4). assert (Hq : (p, q) ∈ C).
      { apply Hin. split_and!; try done. pose proof H1 as [[[n1 d] Hpm] Hx]%(linked_iff _ _ _ I). destruct (inv_link _ _ _ I _ _ _ _ Hpm Hx) as [Hx' [n3 Hqm]].
        unfold port_direction in *. rewrite Hpm in H3. rewrite Hqm. cbn in *. injection H3 as ->. done. }
      destruct C; [by apply elem_of_nil in Hq|eauto].
  - intros k. apply (run_fwd_sim _ (fun s l => filter (fun x => port_node g x.2 = Some b) (links_list s) = l)); [|by rewrite HL].
    clear. intros s l <-. unfold conn_next.
    assert (HH : forall fuel s, length s.1 <= fuel -> exists s', conn_scan g b fuel s = (head (filter (fun x => port_node g x.2 = Some b) (links_list s)), s') /\
      filter (fun x => port_node g x.2 = Some b) (links_list s') = tail (filter (fun x => port_node g x.2 = Some b) (links_list s))).
    { induction fuel as [|fuel IH]; intros s' Hf.
      - destruct s' as [l ig]. destruct l; [|cbn in Hf; lia]. by eexists.
      - cbn [conn_scan]. destruct (links_next_sim s' _ eq_refl) as (s2 & -> & H2 & Hlt).
        destruct (links_list s') as [|[p q] L] eqn:EL.
        + exists s2. cbn in *. by rewrite H2.
        + cbn [head tail] in *. rewrite filter_cons. destruct (decide (port_node g q = Some b)) as [Hq|Hq].
          * rewrite decide_True by done. exists s2. by rewrite H2.
          * rewrite decide_False by done. destruct (IH s2) as (s3 & -> & H3).
            { destruct s' as [[|y l] ig]; [done|]. cbn [fst] in *. specialize (Hlt ltac:(done)). cbn in *. lia. }
            exists s3. by rewrite H3, H2. }
    destruct (HH (length s.1) s) as (s' & -> & H2); [done|]. eauto.
Qed.
