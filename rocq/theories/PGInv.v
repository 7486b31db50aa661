(** The representation invariant of [PortGraph] used by the proofs. Nothing in
    this file models Rust code, except [plink]. *)
From Verif Require Export BaseLemmas PGModel.

(** portgraph.rs:726-732: the target of [port_links] (raw entry) *)
Definition plink (g : pg) (p : nat) : option nat :=
  match pg_link g !! p with Some (Some q) => Some q | _ => None end.

Definition in_range (m : node_meta) (d : dir) (p : nat) : Prop :=
  nm_start m d <= p < nm_start m d + nm_num m d.
Definition in_slab (m : node_meta) (p : nat) : Prop :=
  nm_first m <= p < nm_first m + nm_cap m.
Definition disj (s l s' l' : nat) : Prop :=
  l = 0 \/ l' = 0 \/ s + l <= s' \/ s' + l' <= s.

Definition meta_ok (L : nat) (m : node_meta) : Prop :=
  nm_inc m + nm_out m <= nm_cap m /\
  (nm_cap m = 0 -> nm_first m = 0) /\
  nm_first m + nm_cap m <= L /\
  (N.of_nat (nm_inc m) <= 65534)%N /\
  (N.of_nat (nm_cap m) <= 65535)%N.

(** Ports belong to the nodes. *)
Definition ports_ok (nm : nat -> option node_meta) (pm : nat -> option (nat * dir)) (L : nat) : Prop :=
  (forall n m, nm n = Some m -> meta_ok L m) /\
  (forall p n d, pm p = Some (n, d) <-> exists m, nm n = Some m /\ in_range m d p).

(** Slabs are disjoint. *)
Record slabs_ok (nm : nat -> option node_meta) (F : nat -> list nat) (L : nat) : Prop := {
  sl_live : forall n m n' m', n <> n' -> nm n = Some m -> nm n' = Some m' ->
      disj (nm_first m) (nm_cap m) (nm_first m') (nm_cap m');
  sl_mixed : forall n m k p, nm n = Some m -> p ∈ F k -> disj (nm_first m) (nm_cap m) p (S k);
  sl_free : forall k p k' p', p ∈ F k -> p' ∈ F k' -> (k, p) <> (k', p') -> disj p (S k) p' (S k');
  sl_bound : forall k p, p ∈ F k -> p + S k <= L;
  sl_nodup : forall k, NoDup (F k);
}.

(** The free slabs are the linked lists starting in [port_free]. *)
Definition chains_ok (pf : list (option nat)) (pl : nat -> option nat) (F : nat -> list nat) : Prop :=
  (forall k, F k !! 0 = mjoin (pf !! k)) /\
  (forall k i p, F k !! i = Some p -> pl p = F k !! S i).

(** Links are symmetric and connect opposite directions; unused slots hold no link. *)
Definition links_sym (pm : nat -> option (nat * dir)) (pl : nat -> option nat) : Prop :=
  forall p q n d, pm p = Some (n, d) -> pl p = Some q ->
    pl q = Some p /\ exists n', pm q = Some (n', rev_dir d).
Definition links_ok (pm : nat -> option (nat * dir)) (pl : nat -> option nat) (F : nat -> list nat) : Prop :=
  links_sym pm pl /\
  (forall p, pm p = None -> (forall k, p ∉ F k) -> pl p = None).

(** The free nodes form a doubly linked list. *)
Record nfree_ok (head : option nat) (nf : nat -> option (option nat * option nat)) (l : list nat) : Prop := {
  nf_head : head = l !! 0;
  nf_nodup : NoDup l;
  nf_mem : forall n, n ∈ l <-> is_Some (nf n);
  nf_chain : forall i n, l !! i = Some n ->
      nf n = Some (match i with 0 => None | S j => l !! j end, l !! S i);
}.

Definition counts_ok (nm : nat -> option node_meta) (pm : nat -> option (nat * dir))
    (pl : nat -> option nat) (nc pc lc : nat) : Prop :=
  card (fun n => nm n <> None) nc /\
  card (fun p => pm p <> None) pc /\
  card (fun p => (exists n, pm p = Some (n, Outgoing)) /\ pl p <> None) lc.

Record InvG (g : pg) (fnl : list nat) (F : nat -> list nat) : Prop := {
  i_len : length (pg_link g) = length (pg_pmeta g);
  i_ports : ports_ok (nmeta g) (pmeta g) (length (pg_pmeta g));
  i_slabs : slabs_ok (nmeta g) F (length (pg_pmeta g));
  i_chains : chains_ok (pg_pfree g) (plink g) F;
  i_links : links_ok (pmeta g) (plink g) F;
  i_nfree : nfree_ok (pg_nfree g) (nfree g) fnl;
  i_counts : counts_ok (nmeta g) (pmeta g) (plink g) (pg_ncount g) (pg_pcount g) (pg_lcount g);
  i_nsize : (N.of_nat (length (pg_nodes g)) <= max_index + 1)%N;
  i_psize : (N.of_nat (length (pg_pmeta g)) <= max_index + 1)%N;
}.

Definition Inv (g : pg) : Prop := exists fnl F, InvG g fnl F.

(** ** Pointwise reading of list updates *)
Definition ne_meta (e : option node_entry) : option node_meta :=
  match e with Some (NNode m) => Some m | _ => None end.
Definition ne_free (e : option node_entry) : option (option nat * option nat) :=
  match e with Some (NFree a b) => Some (a, b) | _ => None end.
Definition pe_meta (e : option port_entry) : option (nat * dir) :=
  match e with Some (PPort n d) => Some (n, d) | _ => None end.

Lemma nmeta_eq g n : nmeta g n = ne_meta (pg_nodes g !! n). Proof. done. Qed.
Lemma nfree_eq g n : nfree g n = ne_free (pg_nodes g !! n). Proof. done. Qed.
Lemma pmeta_eq g n : pmeta g n = pe_meta (pg_pmeta g !! n). Proof. done. Qed.
Lemma plink_eq g p : plink g p = mjoin (pg_link g !! p).
Proof. unfold plink. by destruct (pg_link g !! p) as [[]|]. Qed.

Lemma nmeta_lt g n m : nmeta g n = Some m -> n < length (pg_nodes g).
Proof. unfold nmeta. destruct (pg_nodes g !! n) eqn:E; [|done]. intros _. by eapply lookup_lt_Some. Qed.
Lemma nmeta_Some g n m : nmeta g n = Some m -> pg_nodes g !! n = Some (NNode m).
Proof. unfold nmeta. destruct (pg_nodes g !! n) as [[]|]; congruence. Qed.
Lemma nfree_Some g n a b : nfree g n = Some (a, b) -> pg_nodes g !! n = Some (NFree a b).
Proof. unfold nfree. destruct (pg_nodes g !! n) as [[]|]; congruence. Qed.
Lemma pmeta_Some g p n d : pmeta g p = Some (n, d) -> pg_pmeta g !! p = Some (PPort n d).
Proof. unfold pmeta. destruct (pg_pmeta g !! p) as [[]|]; congruence. Qed.
Lemma pmeta_lt g p x : pmeta g p = Some x -> p < length (pg_pmeta g).
Proof. unfold pmeta. destruct (pg_pmeta g !! p) eqn:E; [|done]. intros _. by eapply lookup_lt_Some. Qed.
Lemma plink_lt g p q : plink g p = Some q -> p < length (pg_link g).
Proof. unfold plink. destruct (pg_link g !! p) eqn:E; [|done]. intros _. by eapply lookup_lt_Some. Qed.
Lemma plink_lookup g p : p < length (pg_link g) -> pg_link g !! p = Some (plink g p).
Proof.
  intros [x Hx]%lookup_lt_is_Some. unfold plink. rewrite Hx. by destruct x.
Qed.
Lemma plink_ge g p : length (pg_link g) <= p -> plink g p = None.
Proof. intros H. unfold plink. by rewrite lookup_ge_None_2. Qed.
Lemma pmeta_ge g p : length (pg_pmeta g) <= p -> pmeta g p = None.
Proof. intros H. unfold pmeta. by rewrite lookup_ge_None_2. Qed.
Lemma nmeta_ge g n : length (pg_nodes g) <= n -> nmeta g n = None.
Proof. intros H. unfold nmeta. by rewrite lookup_ge_None_2. Qed.
Lemma nmeta_nfree g n m : nmeta g n = Some m -> nfree g n = None.
Proof. unfold nmeta, nfree. by destruct (pg_nodes g !! n) as [[]|]. Qed.

(** ** Basic geometry *)
Lemma in_range_slab L m d p : meta_ok L m -> in_range m d p -> in_slab m p.
Proof. unfold meta_ok, in_range, in_slab. destruct d; cbn; lia. Qed.
Lemma in_range_dir m d d' p : in_range m d p -> in_range m d' p -> d = d'.
Proof. unfold in_range. destruct d, d'; cbn; [done|lia|lia|done]. Qed.
Lemma in_range_ports m d p : p ∈ nm_ports m d <-> in_range m d p.
Proof. unfold nm_ports, in_range. rewrite elem_of_seq. done. Qed.

Global Instance in_range_dec m d p : Decision (in_range m d p).
Proof. unfold in_range. apply _. Defined.
Global Instance in_slab_dec m p : Decision (in_slab m p).
Proof. unfold in_slab. apply _. Defined.

Section inv.
  Context (g : pg) (fnl : list nat) (F : nat -> list nat) (I : InvG g fnl F).

  Lemma inv_meta_ok n m : nmeta g n = Some m -> meta_ok (length (pg_pmeta g)) m.
  Proof. apply (i_ports _ _ _ I). Qed.

  Lemma inv_pmeta p n d : pmeta g p = Some (n, d) <-> exists m, nmeta g n = Some m /\ in_range m d p.
  Proof. apply (i_ports _ _ _ I). Qed.

  Lemma inv_pmeta_range n m d p : nmeta g n = Some m -> in_range m d p -> pmeta g p = Some (n, d).
  Proof. intros. apply inv_pmeta. eauto. Qed.

  (** Inside a live slab, only the owner's ports are in use. *)
  Lemma inv_slab_owner n m p x : nmeta g n = Some m -> in_slab m p -> pmeta g p = Some x ->
    x.1 = n /\ in_range m x.2 p.
  Proof.
    destruct x as [n' d]. cbn. intros Hm Hs (m' & Hm' & Hr)%inv_pmeta.
    destruct (decide (n = n')) as [->|Hne].
    - split; [done|]. congruence.
    - exfalso. pose proof (sl_live _ _ _ (i_slabs _ _ _ I) _ _ _ _ Hne Hm Hm') as Hd.
      pose proof (in_range_slab _ _ _ _ (inv_meta_ok _ _ Hm') Hr).
      unfold disj, in_slab in *. lia.
  Qed.

  Lemma inv_unused n m p : nmeta g n = Some m ->
    nm_first m + nm_inc m + nm_out m <= p < nm_first m + nm_cap m -> pmeta g p = None.
  Proof.
    intros Hm Hp. destruct (pmeta g p) as [[n' d]|] eqn:E; [|done]. exfalso.
    assert (Hs : in_slab m p) by (unfold in_slab; lia).
    destruct (inv_slab_owner n m p _ Hm Hs E) as [_ Hr].
    - cbn in Hr. unfold in_range in Hr. destruct d; cbn in Hr; lia.
  Qed.

  (** Free slabs contain no port. *)
  Lemma inv_free_slab k s p : s ∈ F k -> s <= p < s + S k -> pmeta g p = None.
  Proof.
    intros Hs Hp. destruct (pmeta g p) as [[n' d]|] eqn:E; [|done]. exfalso.
    apply inv_pmeta in E as (m' & Hm' & Hr).
    pose proof (sl_mixed _ _ _ (i_slabs _ _ _ I) _ _ _ _ Hm' Hs).
    pose proof (in_range_slab _ _ _ _ (inv_meta_ok _ _ Hm') Hr).
    unfold disj, in_slab in *. lia.
  Qed.

  Lemma inv_port_not_head p x k : pmeta g p = Some x -> p ∉ F k.
  Proof. intros E Hk. rewrite (inv_free_slab k p p) in E; [done|done|lia]. Qed.

  Lemma inv_slab_not_head n m p k : nmeta g n = Some m -> in_slab m p -> p ∉ F k.
  Proof.
    intros Hm Hs Hk. pose proof (sl_mixed _ _ _ (i_slabs _ _ _ I) _ _ _ _ Hm Hk).
    unfold disj, in_slab in *. lia.
  Qed.

  (** Slots of a live slab only hold symmetric links. *)
  Lemma inv_slab_link n m p q : nmeta g n = Some m -> in_slab m p -> plink g p = Some q ->
    exists d n', pmeta g p = Some (n, d) /\ plink g q = Some p /\ pmeta g q = Some (n', rev_dir d).
  Proof.
    intros Hm Hs Hl. destruct (i_links _ _ _ I) as [Hsym Hnone].
    destruct (pmeta g p) as [[n' d]|] eqn:E.
    - destruct (Hsym _ _ _ _ E Hl) as [? [n2 ?]].
      destruct (inv_slab_owner _ _ _ _ Hm Hs E) as [? _]. cbn in *. subst. eauto 10.
    - rewrite Hnone in Hl; [done|done|]. intros k. by eapply inv_slab_not_head.
  Qed.

  Lemma inv_link p q n d : pmeta g p = Some (n, d) -> plink g p = Some q ->
    plink g q = Some p /\ exists n', pmeta g q = Some (n', rev_dir d).
  Proof. apply (i_links _ _ _ I). Qed.

  Lemma inv_link_ne p q : is_Some (pmeta g p) -> plink g p = Some q -> p <> q.
  Proof.
    intros [[n d] Hp] Hl ->. destruct (inv_link _ _ _ _ Hp Hl) as [_ [n' Hp']].
    rewrite Hp in Hp'. destruct d; cbn in *; congruence.
  Qed.

  Lemma inv_plink_lookup p x : pmeta g p = Some x -> pg_link g !! p = Some (plink g p).
  Proof. intros H. apply plink_lookup. rewrite (i_len _ _ _ I). by eapply pmeta_lt. Qed.
End inv.

(** Replacing the slab of one node (the core of add, remove and resize). *)
Lemma ports_ok_change nm pm L nm' pm' L' n :
  ports_ok nm pm L -> L <= L' ->
  (forall n1 m1 n2 m2, n1 <> n2 -> nm n1 = Some m1 -> nm n2 = Some m2 ->
     disj (nm_first m1) (nm_cap m1) (nm_first m2) (nm_cap m2)) ->
  (forall n2 m2 m', n2 <> n -> nm' n = Some m' -> nm n2 = Some m2 ->
     disj (nm_first m') (nm_cap m') (nm_first m2) (nm_cap m2)) ->
  (forall n2, n2 <> n -> nm' n2 = nm n2) ->
  (forall m', nm' n = Some m' -> meta_ok L' m') ->
  (forall m' d p, nm' n = Some m' -> in_range m' d p -> pm' p = Some (n, d)) ->
  (forall m' p, nm' n = Some m' -> in_slab m' p -> (forall d, ~ in_range m' d p) -> pm' p = None) ->
  (forall m p, nm n = Some m -> in_slab m p -> (forall m', nm' n = Some m' -> ~ in_slab m' p) -> pm' p = None) ->
  (forall p, (forall m, nm n = Some m -> ~ in_slab m p) -> (forall m, nm' n = Some m -> ~ in_slab m p) -> pm' p = pm p) ->
  ports_ok nm' pm' L'.
Proof.
  intros [Hmo Hpm] HL Hd Hd' Hnm Hmo' H1 H2 H3 H4. split.
  { intros n2 m2 Hm2. destruct (decide (n2 = n)) as [->|Hne]; [by apply Hmo'|].
    rewrite Hnm in Hm2 by done. apply Hmo in Hm2. unfold meta_ok in *. lia. }
  intros p n2 d. split.
  - intros Hp.
    destruct (nm' n) as [m'|] eqn:Em'.
    + destruct (decide (in_slab m' p)) as [Hs|Hs].
      * destruct (decide (in_range m' Incoming p)) as [Hr|Hr];
          [|destruct (decide (in_range m' Outgoing p)) as [Hr'|Hr']].
        -- rewrite (H1 _ _ _ eq_refl Hr) in Hp. injection Hp as <- <-. eauto.
        -- rewrite (H1 _ _ _ eq_refl Hr') in Hp. injection Hp as <- <-. eauto.
        -- rewrite (H2 _ _ eq_refl Hs) in Hp; [done|]. by intros [].
      * destruct (nm n) as [m|] eqn:Em; [destruct (decide (in_slab m p)) as [Hs2|Hs2]|].
        -- rewrite (H3 m p) in Hp; [done|done|done|]. congruence.
        -- rewrite H4 in Hp by congruence. apply Hpm in Hp as (m2 & Hm2 & Hr2).
           destruct (decide (n2 = n)) as [->|Hne].
           ++ exfalso. apply Hs2. assert (m2 = m) as -> by congruence.
              eapply in_range_slab; eauto.
           ++ exists m2. rewrite Hnm by done. done.
        -- rewrite H4 in Hp by congruence. apply Hpm in Hp as (m2 & Hm2 & Hr2).
           destruct (decide (n2 = n)) as [->|Hne]; [congruence|].
           exists m2. rewrite Hnm by done. done.
    + destruct (nm n) as [m|] eqn:Em; [destruct (decide (in_slab m p)) as [Hs2|Hs2]|].
      * rewrite (H3 m p) in Hp; [done|done|done|]. congruence.
      * rewrite H4 in Hp by congruence. apply Hpm in Hp as (m2 & Hm2 & Hr2).
        destruct (decide (n2 = n)) as [->|Hne].
        -- exfalso. apply Hs2. assert (m2 = m) as -> by congruence.
           eapply in_range_slab; eauto.
        -- exists m2. rewrite Hnm by done. done.
      * rewrite H4 in Hp by congruence. apply Hpm in Hp as (m2 & Hm2 & Hr2).
        destruct (decide (n2 = n)) as [->|Hne]; [congruence|].
        exists m2. rewrite Hnm by done. done.
  - intros (m2 & Hm2 & Hr2). destruct (decide (n2 = n)) as [->|Hne]; [by eapply H1|].
    pose proof Hm2 as Hm2'. rewrite Hnm in Hm2' by done.
    rewrite H4; [apply Hpm; eauto| |].
    + intros m Hm Hs. pose proof (Hd n m n2 m2 (not_eq_sym Hne) Hm Hm2').
      pose proof (in_range_slab _ _ _ _ (Hmo _ _ Hm2') Hr2). unfold disj, in_slab in *. lia.
    + intros m Hm Hs. pose proof (Hd' n2 m2 m Hne Hm Hm2').
      pose proof (in_range_slab _ _ _ _ (Hmo _ _ Hm2') Hr2). unfold disj, in_slab in *. lia.
Qed.
