(** The line partition on graphs whose ports may carry several links. *)
From Verif Require Export LccQuery.

Lemma rfold_app {A S} (f : S -> A -> res S) (l k : list A) s : rfold f (l ++ k) s = rfold f l s ≫= rfold f k.
Proof. revert s. induction l as [|a l IH]; intros s; [done|]. cbn [app rfold]. destruct (f s a); [|done]. cbn [mbind res_bind]. apply IH. Qed.

(** How often [p] occurs. *)
Definition occ (p : nat) (l : list nat) : nat := length (filter (fun x => x = p) l).
Lemma occ_cons p x l : occ p (x :: l) = (if decide (x = p) then 1 else 0) + occ p l.
Proof. unfold occ. rewrite filter_cons. by destruct (decide (x = p)). Qed.
Lemma occ_app p l k : occ p (l ++ k) = occ p l + occ p k.
Proof. unfold occ. by rewrite filter_app, app_length. Qed.
Lemma occ_in p l : 0 < occ p l <-> p ∈ l.
Proof.
  induction l as [|x l IH]; [split; [cbn; lia|by intros ?%elem_of_nil]|]. rewrite occ_cons, elem_of_cons, <- IH.
  destruct (decide (x = p)) as [->|Hx]; [split; [by left|lia]|]. split; [intros; by right|]. intros [->|?]; [done|lia].
Qed.
Lemma occ_0 p l : p ∉ l -> occ p l = 0.
Proof. intros Hp. destruct (occ p l) eqn:E; [done|]. exfalso. apply Hp, occ_in. lia. Qed.

(** ** The frontier *)
(** The lines that wait at a port, and their position. *)
Definition stk (f : gmap nat lpos) (p : nat) : list nat := match f !! p with Some x => lp_lines x | None => [] end.
Definition fps (f : gmap nat lpos) (p : nat) : nat := match f !! p with Some x => lp_pos x | None => 0 end.
(** No line waits twice. *)
Definition GF (f : gmap nat lpos) : Prop :=
  (forall p, NoDup (stk f p)) /\ forall k p p', k ∈ stk f p -> k ∈ stk f p' -> p = p'.

Lemma stk_insert f p x q : stk (<[p := x]> f) q = if decide (q = p) then lp_lines x else stk f q.
Proof. unfold stk. destruct (decide (q = p)) as [->|Hq]; [by rewrite lookup_insert|by rewrite lookup_insert_ne]. Qed.
Lemma fps_insert f p x q : fps (<[p := x]> f) q = if decide (q = p) then lp_pos x else fps f q.
Proof. unfold fps. destruct (decide (q = p)) as [->|Hq]; [by rewrite lookup_insert|by rewrite lookup_insert_ne]. Qed.

Lemma in_steps_m P : forall f ls mx, GF f -> (forall p, occ p P <= length (stk f p)) ->
  exists f' K mx', rfold lcc_in_step P (f, ls, mx) = Ok (f', ls ++ K, mx') /\ GF f' /\ NoDup K
    /\ (forall p k, k ∈ stk f' p <-> k ∈ stk f p /\ k ∉ K)
    /\ (forall p, length (stk f' p) + occ p P = length (stk f p))
    /\ (forall p, fps f' p = fps f p)
    /\ (forall k, k ∈ K -> exists p, p ∈ P /\ k ∈ stk f p)
    /\ (forall p, p ∈ P -> exists k, k ∈ K /\ k ∈ stk f p)
    /\ (forall x, mx = Some x -> exists y, mx' = Some y /\ x <= y)
    /\ (forall p, p ∈ P -> exists y, mx' = Some y /\ fps f p <= y).
Proof.
  induction P as [|p P IH]; intros f ls mx HG Hf; cbn [rfold].
  - exists f, [], mx. rewrite app_nil_r. split; [done|]. split; [done|]. split; [constructor|].
    split; [intros p k; split; [intros H; split; [done|apply not_elem_of_nil]|by intros []]|].
    split; [intros p; cbn; lia|]. split; [done|]. split; [by intros k ?%elem_of_nil|]. split; [by intros k ?%elem_of_nil|].
    split; [by eauto|]. by intros p ?%elem_of_nil.
  - pose proof (Hf p) as Hp. rewrite occ_cons, decide_True in Hp by done.
    destruct (stk f p) as [|k0 ks0] eqn:Es; [cbn in Hp; lia|]. assert (Hne : k0 :: ks0 <> []) by done.
    destruct (exists_last Hne) as (ks & k & Ek). rewrite Ek in Es, Hp. clear k0 ks0 Hne Ek.
    assert (Hfp : f !! p = Some (LP (ks ++ [k]) (fps f p))).
    { unfold stk in Es. unfold fps. destruct (f !! p) as [[l x]|]; cbn in *; [congruence|by destruct ks]. }
    unfold lcc_in_step at 2. unfold pop_frontier. rewrite Hfp. cbn [lp_lines lp_pos]. rewrite last_snoc, removelast_last. cbn [unwrap mbind res_bind].
    set (f1 := <[p := LP ks (fps f p)]> f). set (mx1 := Some _).
    destruct HG as [HG1 HG2].
    assert (Hnd : NoDup (ks ++ [k])) by (rewrite <- Es; apply HG1). apply NoDup_app in Hnd as (Hnd & Hkk & _).
    assert (Hkks : k ∉ ks) by (intros Hk; apply (Hkk k Hk); by left).
    assert (Hmem : forall q j, j ∈ stk f1 q <-> j ∈ stk f q /\ j <> k).
    { intros q j. unfold f1. rewrite stk_insert. destruct (decide (q = p)) as [->|Hq].
      - cbn [lp_lines]. rewrite Es, elem_of_app, elem_of_list_singleton. split; [intros Hj; split; [by left|by intros ->]|]. by intros [[?| ->] ?].
      - split; [|by intros []]. intros Hj. split; [done|]. intros ->. apply Hq. apply (HG2 k); [done|]. rewrite Es. set_solver. }
    assert (HGF1 : GF f1).
    { split.
      - intros q. unfold f1. rewrite stk_insert. destruct (decide (q = p)); [done|apply HG1].
      - intros j q q' [H1 _]%Hmem [H2 _]%Hmem. by apply (HG2 j). }
    assert (Hlen : forall q, length (stk f1 q) + (if decide (p = q) then 1 else 0) = length (stk f q)).
    { intros q. unfold f1. rewrite stk_insert. destruct (decide (q = p)) as [->|Hq].
      - rewrite decide_True by done. rewrite Es, app_length. cbn. lia.
      - rewrite decide_False by congruence. lia. }
    assert (Hfps : forall q, fps f1 q = fps f q).
    { intros q. unfold f1. rewrite fps_insert. by destruct (decide (q = p)) as [->|]. }
    destruct (IH f1 (ls ++ [k]) mx1 HGF1) as (f' & K & mx' & E & G1 & G2 & G3 & G4 & G5 & G6 & G7 & G8 & G9).
    { intros q. specialize (Hf q). rewrite occ_cons in Hf. specialize (Hlen q). destruct (decide (p = q)); lia. }
    exists f', (k :: K), mx'. split; [rewrite E, <- app_assoc; done|]. split; [done|]. split.
    { constructor; [|done]. intros (q & _ & [_ ?]%Hmem)%G6. done. }
    split; [intros q j; rewrite G3, Hmem, elem_of_cons; naive_solver|].
    split; [intros q; rewrite occ_cons, <- Hlen, <- G4; lia|]. split; [intros q; by rewrite G5|].
    split. { intros j [->|(q & Hq & [Hj _]%Hmem)%G6]%elem_of_cons; [exists p; split; [by left|rewrite Es; set_solver]|exists q; split; [by right|done]]. }
    split. { intros q [->|(j & Hj & [Hjq _]%Hmem)%G7]%elem_of_cons; [exists k; split; [by left|rewrite Es; set_solver]|exists j; split; [by right|done]]. }
    split.
    + intros x ->. destruct (G8 _ eq_refl) as (y & -> & Hy). exists y. split; [done|]. lia.
    + intros q [->|Hq]%elem_of_cons.
      * destruct (G8 _ eq_refl) as (y & -> & Hy). exists y. split; [done|]. destruct mx; lia.
      * rewrite <- Hfps. by apply G9.
Qed.

Lemma out_steps_m n_in pos T : forall f n ls free,
  free <= n_in -> n_in <= length ls -> (free < n_in -> length ls = n_in) -> NoDup ls -> (forall k, k ∈ ls -> k < n) ->
  GF f -> (forall k p, k ∈ stk f p -> k < n) -> (forall j k p, free <= j < n_in -> ls !! j = Some k -> k ∉ stk f p) ->
  exists f' m free', rfold (fun s p => lcc_out_step n_in pos p s) T (f, n, ls, free) = Ok (f', n + m, ls ++ seq n m, free')
    /\ GF f' /\ (forall p, length (stk f' p) = length (stk f p) + occ p T)
    /\ (forall p k, k ∈ stk f' p -> k ∈ stk f p \/ (p ∈ T /\ k ∈ ls ++ seq n m))
    /\ (forall p k, k ∈ stk f p -> k ∈ stk f' p)
    /\ (forall p, p ∈ T -> fps f' p = pos) /\ (forall p, p ∉ T -> f' !! p = f !! p).
Proof.
  induction T as [|p T IH]; intros f n ls free H1 H2 H3 Hnd Hsm HG Hfn Hfree; cbn [rfold].
  - exists f, 0, free. rewrite Nat.add_0_r, app_nil_r. split; [done|]. split; [done|]. split; [intros p; cbn; lia|]. split; [by left|].
    split; [done|]. split; [by intros p ?%elem_of_nil|done].
  - unfold lcc_out_step at 2. unfold push_frontier.
    assert (Hdf : lp_lines (default lp_default (f !! p)) = stk f p) by (unfold stk; by destruct (f !! p)). rewrite Hdf.
    assert (Hpush : forall l, (forall q, l ∉ stk f q) -> let f1 := <[p := LP (stk f p ++ [l]) pos]> f in
      GF f1 /\ (forall q k, k ∈ stk f1 q <-> k ∈ stk f q \/ (q = p /\ k = l)) /\ (forall q, length (stk f1 q) = length (stk f q) + (if decide (p = q) then 1 else 0))
      /\ fps f1 p = pos /\ forall q, q <> p -> f1 !! q = f !! q).
    { intros l Hl f1. destruct HG as [HG1 HG2].
      assert (Hm : forall q k, k ∈ stk f1 q <-> k ∈ stk f q \/ (q = p /\ k = l)).
      { intros q k. unfold f1. rewrite stk_insert. destruct (decide (q = p)) as [->|Hq].
        - cbn [lp_lines]. rewrite elem_of_app, elem_of_list_singleton. naive_solver.
        - naive_solver. }
      split; [|split; [done|]].
      - split.
        + intros q. unfold f1. rewrite stk_insert. destruct (decide (q = p)) as [->|Hq]; [|apply HG1]. cbn [lp_lines].
          apply NoDup_app. split; [apply HG1|]. split; [|apply NoDup_singleton]. intros x Hx ->%elem_of_list_singleton. by apply (Hl p).
        + intros k q q' [Hq|[-> ->]]%Hm [Hq'|[-> E]]%Hm; [by apply (HG2 k)|subst; by destruct (Hl q)|by destruct (Hl q')|done].
      - split; [|split].
        + intros q. unfold f1. rewrite stk_insert. destruct (decide (q = p)) as [->|Hq].
          * rewrite decide_True by done. cbn [lp_lines]. by rewrite app_length.
          * rewrite decide_False by congruence. lia.
        + unfold f1. rewrite fps_insert. by rewrite decide_True.
        + intros q Hq. unfold f1. by rewrite lookup_insert_ne. }
    destruct (decide (free < n_in)) as [Hlt|Hlt].
    + destruct (lookup_lt_is_Some_2 ls free) as [l Hl]; [lia|]. unfold vget. rewrite Hl. cbn [unwrap mbind res_bind].
      assert (Hln : l < n) by (apply Hsm; by eapply elem_of_list_lookup_2).
      destruct (Hpush l) as (P1 & P2 & P3 & P4 & P5); [intros q; apply (Hfree free); [lia|done]|]. set (f1 := <[p := LP (stk f p ++ [l]) pos]> f) in *.
      destruct (IH f1 n ls (free + 1)) as (f' & m & free' & E & G1 & G2 & G3 & G4 & G5 & G6); try done; [lia|lia| | |].
      { intros k q [Hk|[-> ->]]%P2; [by eapply Hfn|done]. }
      { intros j k q Hj Hk [Hkq|[-> ->]]%P2; [apply (Hfree j k q); [lia|done|done]|]. pose proof (NoDup_lookup _ _ _ _ Hnd Hk Hl). lia. }
      exists f', m, free'. split; [done|]. split; [done|]. split; [intros q; rewrite G2, P3, occ_cons; destruct (decide (p = q)); lia|].
      split. { intros q k Hk. destruct (G3 q k Hk) as [[Hk'|[-> ->]]%P2|[Hq Hk']]; [by left| |right; split; [by right|done]].
        right. split; [by left|]. apply elem_of_app. left. by eapply elem_of_list_lookup_2. }
      split; [intros q k Hk; apply G4, P2; by left|]. split.
      * intros q [->|Hq]%elem_of_cons; [|by apply G5]. destruct (decide (p ∈ T)); [by apply G5|]. unfold fps. rewrite G6 by done. fold (fps f1 p). done.
      * intros q [Hq Hq']%not_elem_of_cons. rewrite G6 by done. by apply P5.
    + cbn [mbind res_bind]. destruct (Hpush n) as (P1 & P2 & P3 & P4 & P5); [intros q Hq; pose proof (Hfn _ _ Hq); lia|].
      set (f1 := <[p := LP (stk f p ++ [n]) pos]> f) in *.
      destruct (IH f1 (n + 1) (ls ++ [n]) free) as (f' & m & free' & E & G1 & G2 & G3 & G4 & G5 & G6); try done; [rewrite app_length; lia| | | | |].
      { apply NoDup_app. split; [done|]. split; [|apply NoDup_singleton]. intros x Hx ->%elem_of_list_singleton. pose proof (Hsm _ Hx). lia. }
      { intros k [Hk| ->%elem_of_list_singleton]%elem_of_app; [pose proof (Hsm _ Hk); lia|lia]. }
      { intros k q [Hk|[-> ->]]%P2; [pose proof (Hfn _ _ Hk); lia|lia]. }
      { intros j k q Hj. lia. }
      assert (Es : (ls ++ [n]) ++ seq (n + 1) m = ls ++ seq n (S m)).
      { rewrite <- app_assoc. cbn. by rewrite Nat.add_1_r. }
      rewrite Es in *. exists f', (S m), free'. split; [rewrite E; by replace (n + S m) with (n + 1 + m) by lia|]. split; [done|].
      split; [intros q; rewrite G2, P3, occ_cons; destruct (decide (p = q)); lia|].
      split. { intros q k Hk. destruct (G3 q k Hk) as [[Hk'|[-> ->]]%P2|[Hq Hk']]; [by left| |right; split; [by right|done]].
        right. split; [by left|]. apply elem_of_app. right. apply elem_of_seq. lia. }
      split; [intros q k Hk; apply G4, P2; by left|]. split.
      * intros q [->|Hq]%elem_of_cons; [|by apply G5]. destruct (decide (p ∈ T)); [by apply G5|]. unfold fps. rewrite G6 by done. fold (fps f1 p). done.
      * intros q [Hq Hq']%not_elem_of_cons. rewrite G6 by done. by apply P5.
Qed.

(** ** Building the lines *)
Section build.
  Context (v : gview) (Nd : nat -> Prop) (Lk : nat -> list nat).
  Notation inp n := (gv_ports v n Incoming).
  Notation outp n := (gv_ports v n Outgoing).
  Context (Hnd : forall n d, Nd n -> NoDup (gv_ports v n d)).
  Context (Hown : forall p n d n' d', Nd n -> Nd n' -> p ∈ gv_ports v n d -> p ∈ gv_ports v n' d' -> n = n' /\ d = d').
  Context (Hlk : forall n d p, Nd n -> p ∈ gv_ports v n d -> gv_links v p = Ok (Lk p)).
  Context (Hopp : forall n d p q, Nd n -> p ∈ gv_ports v n d -> q ∈ Lk p -> exists m, Nd m /\ q ∈ gv_ports v m (rev_dir d)).
  Context (Hcnt : forall a b p q, Nd a -> Nd b -> p ∈ outp a -> q ∈ inp b -> occ q (Lk p) = occ p (Lk q)).
  Definition lge (a b : nat) : Prop := Nd a /\ Nd b /\ exists p q, p ∈ outp a /\ q ∈ Lk p /\ q ∈ inp b.

  Definition ins (D : list nat) : list nat := concat (map (fun n => inp n) D).
  Lemma ins_elem D q : q ∈ ins D <-> exists n, n ∈ D /\ q ∈ inp n.
  Proof.
    unfold ins. rewrite elem_of_list_In, in_concat. setoid_rewrite in_map_iff. setoid_rewrite <- elem_of_list_In. split.
    - intros (l & (n & <- & Hn) & Hq). by exists n.
    - intros (n & Hn & Hq). exists (inp n). split; [by exists n|done].
  Qed.
  (** Links to nodes that are still to come. *)
  Definition pend (D : list nat) (p : nat) : nat := length (filter (fun q => q ∉ ins D) (Lk p)).

  Lemma occ_split (I l : list nat) : NoDup I -> length (filter (fun q => q ∈ I) l) = sum_list (map (fun q => occ q l) I).
  Proof.
    clear. induction 1 as [|q I Hq HI IH].
    - cbn. replace (filter (fun q => q ∈ []) l) with (@nil nat); [done|]. induction l as [|x l IH]; [done|].
      rewrite filter_cons_False by apply not_elem_of_nil. done.
    - change (sum_list (map (fun q => occ q l) (q :: I))) with (occ q l + sum_list (map (fun q => occ q l) I)). rewrite <- IH. clear IH.
      induction l as [|x l IH]; [done|]. rewrite occ_cons, !filter_cons. destruct (decide (x = q)) as [->|Hx].
      + rewrite decide_True by by left. rewrite decide_False by done. cbn [length]. lia.
      + destruct (decide (x ∈ I)) as [HxI|HxI]; [rewrite decide_True by (by right); cbn [length]; lia|].
        rewrite decide_False by (by intros [?|?]%elem_of_cons). lia.
  Qed.
  Lemma occ_concat p ls : occ p (concat ls) = sum_list (map (occ p) ls).
  Proof. clear. induction ls as [|l ls IH]; [done|]. cbn [concat]. by rewrite occ_app, IH. Qed.

  Definition prevs (b : nat) : list nat := concat (map Lk (inp b)).
  Lemma prevs_elem b p : p ∈ prevs b <-> exists q, q ∈ inp b /\ p ∈ Lk q.
  Proof.
    unfold prevs. rewrite elem_of_list_In, in_concat. setoid_rewrite in_map_iff. setoid_rewrite <- elem_of_list_In. split.
    - intros (l & (n & <- & Hn) & Hq). by exists n.
    - intros (n & Hn & Hq). exists (Lk n). split; [by exists n|done].
  Qed.
  Lemma prevs_occ a b p : Nd a -> Nd b -> p ∈ outp a -> occ p (prevs b) = length (filter (fun q => q ∈ inp b) (Lk p)).
  Proof.
    intros Ha Hb Hp. rewrite occ_split by (by apply Hnd). unfold prevs. rewrite occ_concat, map_map. f_equal.
    apply map_ext_in. intros q Hq%elem_of_list_In. symmetry. by apply (Hcnt a b).
  Qed.
  Lemma pend_snoc a b p D : Nd a -> Nd b -> (forall n, n ∈ D -> Nd n) -> b ∉ D -> p ∈ outp a -> pend (D ++ [b]) p + occ p (prevs b) = pend D p.
  Proof.
    intros Ha Hb HD HbD Hp. rewrite (prevs_occ a b) by done. unfold pend.
    assert (Hdis : forall q, q ∈ inp b -> q ∉ ins D).
    { intros q Hq (n & Hn & Hq')%ins_elem. destruct (Hown q b Incoming n Incoming) as [-> _]; try done. by apply HD. }
    assert (Hi : forall q, q ∈ ins (D ++ [b]) <-> q ∈ ins D \/ q ∈ inp b).
    { intros q. rewrite !ins_elem. setoid_rewrite elem_of_app. setoid_rewrite elem_of_list_singleton. naive_solver. }
    generalize (Lk p). intros l. induction l as [|q l IH]; [done|]. rewrite !filter_cons.
    destruct (decide (q ∈ inp b)) as [H1|H1].
    - rewrite (decide_False (P := q ∉ ins (D ++ [b]))) by (intros H; apply H, Hi; by right). rewrite (decide_True (P := q ∉ ins D)) by (by apply Hdis). cbn [length]. lia.
    - destruct (decide (q ∈ ins D)) as [H2|H2].
      + rewrite (decide_False (P := q ∉ ins (D ++ [b]))) by (intros H; apply H, Hi; by left). rewrite (decide_False (P := q ∉ ins D)) by (by intros H). done.
      + rewrite (decide_True (P := q ∉ ins (D ++ [b]))) by (by intros [?|?]%Hi). rewrite (decide_True (P := q ∉ ins D)) by done. cbn [length]. lia.
  Qed.

  Lemma prev_ok_m b : Nd b -> exists prev, rmap (gv_links v) (inp b) = Ok prev /\ mjoin prev = prevs b.
  Proof.
    intros Hb. unfold prevs. assert (H : forall p, p ∈ inp b -> gv_links v p = Ok (Lk p)) by (intros p; by apply Hlk).
    revert H. generalize (inp b). intros l. induction l as [|p l IH]; intros H; cbn [rmap].
    - exists []. done.
    - rewrite H by by left. cbn [mbind res_bind]. destruct IH as (prev & -> & E); [intros x Hx; apply H; by right|].
      cbn [mbind res_bind]. eexists. split; [done|]. cbn [map concat]. rewrite <- E. done.
  Qed.
  (** The outgoing ports, each as often as it has links. *)
  Definition outs (b : nat) : list nat := concat (map (fun p => replicate (length (Lk p)) p) (outp b)).
  Lemma occ_repl (p x m : nat) : occ p (replicate m x) = if decide (x = p) then m else 0.
  Proof.
    clear. induction m as [|m IH]; cbn [replicate]; [by destruct (decide (x = p))|]. rewrite occ_cons, IH. by destruct (decide (x = p)).
  Qed.
  Lemma outs_occ b p : Nd b -> occ p (outs b) = if decide (p ∈ outp b) then length (Lk p) else 0.
  Proof.
    intros Hb. unfold outs. pose proof (Hnd b Outgoing Hb) as H. induction H as [|x l Hx Hl IH]; cbn [map concat].
    - by rewrite decide_False by apply not_elem_of_nil.
    - rewrite occ_app, IH, occ_repl. destruct (decide (x = p)) as [->|Hxp].
      + rewrite decide_False by done. rewrite decide_True by by left. lia.
      + cbn [plus]. apply decide_ext. rewrite elem_of_cons. naive_solver.
  Qed.
  Lemma outs_in b p : Nd b -> p ∈ outs b -> p ∈ outp b.
  Proof. intros Hb Hp%occ_in. rewrite outs_occ in Hp by done. destruct (decide (p ∈ outp b)); [done|lia]. Qed.
  Lemma out_ports_eq b n_in pos s : Nd b ->
    rfold (lcc_out_port v n_in pos) (outp b) s = rfold (fun s p => lcc_out_step n_in pos p s) (outs b) s.
  Proof.
    intros Hb. unfold outs. assert (H : forall p, p ∈ outp b -> gv_links v p = Ok (Lk p)) by (intros p; by apply Hlk).
    revert s H. generalize (outp b). intros l. induction l as [|p l IH]; intros s H; [done|]. cbn [rfold map concat]. rewrite rfold_app.
    assert (E : lcc_out_port v n_in pos s p = rfold (fun s p => lcc_out_step n_in pos p s) (replicate (length (Lk p)) p) s).
    { unfold lcc_out_port. rewrite H by by left. cbn [mbind res_bind]. generalize (Lk p). clear. intros l. revert s.
      induction l as [|q l IH]; intros s; [done|]. cbn [rfold length replicate]. destruct (lcc_out_step n_in pos p s); [|done]. cbn [mbind res_bind]. apply IH. }
    rewrite E. destruct (rfold _ _ s) as [s'|]; [|done]. cbn [mbind res_bind]. apply IH. intros; apply H; by right.
  Qed.

  Lemma extend_m f n b : Nd b -> GF f -> (forall p, occ p (prevs b) <= length (stk f p)) -> (forall k p, k ∈ stk f p -> k < n) ->
    exists f' K m position, let ls := K ++ seq n m in
      lcc_extend v (f, n) b = Ok (LP ls position, (f', n + m))
      /\ ls <> [] /\ NoDup ls /\ (forall k, k ∈ K -> k < n)
      /\ (forall k, k ∈ K -> exists p, p ∈ prevs b /\ k ∈ stk f p)
      /\ (forall p, p ∈ prevs b -> exists k, k ∈ K /\ k ∈ stk f p)
      /\ (forall p, p ∈ prevs b -> fps f p < position)
      /\ GF f'
      /\ (forall p, length (stk f' p) + occ p (prevs b) = length (stk f p) + occ p (outs b))
      /\ (forall p k, k ∈ stk f' p -> (k ∈ stk f p /\ k ∉ K) \/ (p ∈ outs b /\ k ∈ ls))
      /\ (forall p, p ∈ outs b -> fps f' p = position)
      /\ (forall p, p ∉ outs b -> fps f' p = fps f p).
  Proof.
    intros Hb HG Hle Hsm. unfold lcc_extend. destruct (prev_ok_m b Hb) as (prev & -> & Ej). cbn [mbind res_bind]. rewrite Ej.
    destruct (in_steps_m (prevs b) f [] None HG Hle) as (f1 & K & mx & E1 & A1 & A2 & A3 & A4 & A5 & A6 & A7 & _ & A9).
    rewrite E1. cbn [app mbind res_bind]. set (position := match mx with Some p => p + 1 | None => 0 end).
    assert (HKn : forall k, k ∈ K -> k < n) by (intros k (p & _ & Hp)%A6; by eapply Hsm).
    rewrite (out_ports_eq b _ _ _ Hb).
    destruct (out_steps_m (length K) position (outs b) f1 n K 0) as (f2 & m0 & free & E2 & B1 & B2 & B3 & B4 & B5 & B6); [lia|done|done|done|done|done| | |].
    { intros k p [Hk _]%A3. by eapply Hsm. }
    { intros j k p _ Hk [_ Hn]%A3. apply Hn. by eapply elem_of_list_lookup_2. }
    rewrite E2. cbn [mbind res_bind].
    set (ls := K ++ seq n m0) in *.
    exists f2, K, (if decide (ls = []) then m0 + 1 else m0), position. cbn zeta.
    assert (Hm0 : ls = [] -> K = [] /\ m0 = 0). { intros [-> Hs]%app_eq_nil. split; [done|]. by destruct m0. }
    assert (Els : K ++ seq n (if decide (ls = []) then m0 + 1 else m0) = if decide (ls = []) then [n] else ls).
    { destruct (decide (ls = [])) as [El|El]; [|done]. destruct (Hm0 El) as [-> ->]. done. }
    assert (HndK : forall m, NoDup (K ++ seq n m)).
    { intros m. apply NoDup_app. split; [done|]. split; [|apply NoDup_ListNoDup, seq_NoDup]. intros k Hk%HKn. rewrite elem_of_seq. lia. }
    split. { rewrite Els. destruct (decide (ls = [])) as [El|El]; [|done]. destruct (Hm0 El) as [_ ->]. by rewrite Nat.add_0_r. }
    split; [rewrite Els; by destruct (decide (ls = []))|]. split; [apply HndK|]. split; [done|]. split; [done|]. split; [done|].
    split. { intros p Hp. destruct (A9 p Hp) as (y & -> & Hy). unfold position. lia. }
    split; [done|]. split; [intros p; rewrite B2, <- A4; lia|].
    split. { intros p k Hk. destruct (B3 p k Hk) as [Hk'%A3|[Hp Hk']]; [by left|]. right. split; [done|]. rewrite Els.
      destruct (decide (ls = [])) as [El|El]; [rewrite El in Hk'; by apply elem_of_nil in Hk'|done]. }
    split; [done|]. intros p Hp. rewrite <- A5. unfold fps. by rewrite B6.
  Qed.

  Section inv.
    Context (D : list nat) (f : gmap nat lpos) (n : nat) (pos : umap lpos) (lines : list (list nat)).
    Record LM : Prop := {
      lm_len : length lines = n;
      lm_nodes : forall a, a ∈ D -> Nd a;
      lm_gf : GF f;
      lm_out : forall p, (forall a, a ∈ D -> p ∉ outp a) -> stk f p = [];
      lm_pend : forall a p, a ∈ D -> p ∈ outp a -> length (stk f p) = pend D p;
      lm_own : forall a p k, a ∈ D -> p ∈ outp a -> k ∈ stk f p -> fps f p = ps pos a /\ last (line lines k) = Some a;
      lm_small : forall k p, k ∈ stk f p -> k < n;
      lm_mem : forall k x, x ∈ line lines k <-> x ∈ D /\ k ∈ ln pos x;
      lm_nd : forall x, x ∈ D -> NoDup (ln pos x) /\ ln pos x <> [];
      lm_closed : forall a b, b ∈ D -> lge a b -> a ∈ D;
      lm_chain : forall k i x y, line lines k !! i = Some x -> line lines k !! S i = Some y -> lge x y;
      lm_edge : forall a b, a ∈ D -> b ∈ D -> lge a b ->
        ps pos a < ps pos b /\ exists k i, line lines k !! i = Some a /\ line lines k !! S i = Some b;
    }.
  End inv.
  Lemma lm_init : LM [] ∅ 0 (um_with_default lp_default) [].
  Proof.
    assert (Hs : forall p, stk ∅ p = []) by (intros p; unfold stk; by rewrite lookup_empty).
    split; try done.
    all: try by intros ? ?%elem_of_nil.
    all: try by intros ? ? ?%elem_of_nil.
    all: try by intros ? ? ? ?%elem_of_nil.
    - split; [intros p; rewrite Hs; constructor|]. intros k p p'. rewrite Hs. by intros ?%elem_of_nil.
    - intros k x. unfold line. cbn. rewrite !elem_of_nil. tauto.
  Qed.
  Lemma prev_edge b p : Nd b -> p ∈ prevs b -> exists a, lge a b /\ p ∈ outp a.
  Proof.
    intros Hb (q & Hq & Hp)%prevs_elem. destruct (Hopp b Incoming q p Hb Hq Hp) as (a & Ha & Hpa). exists a. split; [|done].
    split; [done|]. split; [done|]. exists p, q. split; [done|]. split; [|done]. apply occ_in. rewrite (Hcnt a b p q) by done. by apply occ_in.
  Qed.
  Lemma edge_prev a b : lge a b -> exists p, p ∈ prevs b /\ p ∈ outp a.
  Proof.
    intros (Ha & Hb & p & q & Hp & Hq & Hqb). exists p. split; [|done]. apply prevs_elem. exists q. split; [done|]. apply occ_in.
    rewrite <- (Hcnt a b p q) by done. by apply occ_in.
  Qed.
  Lemma add_m D f n pos lines b : LM D f n pos lines -> b ∉ D -> Nd b -> (forall a, lge a b -> a ∈ D) ->
    exists f' n' pos' lines', lcc_add v ((f, n), pos, lines) b = Ok ((f', n'), pos', lines') /\ LM (D ++ [b]) f' n' pos' lines'.
  Proof.
    intros L Hb HNb Hpred. pose proof (lm_nodes _ _ _ _ _ L) as HND.
    assert (Hprev : forall p, p ∈ prevs b -> exists a, a ∈ D /\ lge a b /\ p ∈ outp a).
    { intros p Hp. destruct (prev_edge b p HNb Hp) as (a & Hab & Hpa). exists a. split; [by apply Hpred|done]. }
    destruct (extend_m f n b HNb (lm_gf _ _ _ _ _ L)) as (f' & K & m & position & Hext & Hne & Hls & HK & HKp & HpK & Hpos & GF' & Hlen & Hstk & Hf1 & Hf2).
    { intros p. destruct (decide (p ∈ prevs b)) as [Hp|Hp]; [|rewrite occ_0 by done; lia]. destruct (Hprev p Hp) as (a & Ha & _ & Hpa).
      rewrite (lm_pend _ _ _ _ _ L a) by done. rewrite <- (pend_snoc a b p D) by (try done; by apply HND). lia. }
    { apply (lm_small _ _ _ _ _ L). }
    set (ls := K ++ seq n m) in *. assert (Hn : length lines = n) by apply L.
    destruct (push_lines b K m lines) as (lines' & Hpush & Hlen' & Hline).
    { by rewrite Hn. }
    { rewrite Hn. done. }
    rewrite Hn in Hpush, Hlen', Hline. fold ls in Hpush, Hline.
    destruct (um_set_ok pos b (LP ls position)) as (pos' & Hset & _ & Hget).
    exists f', (n + m), pos', lines'. split.
    { unfold lcc_add. rewrite Hext. cbn [mbind res_bind lp_lines]. rewrite Hpush. cbn [mbind res_bind]. rewrite Hset. done. }
    assert (Hln : forall x, ln pos' x = if decide (x = b) then ls else ln pos x).
    { intros x. unfold ln. rewrite Hget. by destruct (decide (x = b)). }
    assert (Hps : forall x, ps pos' x = if decide (x = b) then position else ps pos x).
    { intros x. unfold ps. rewrite Hget. by destruct (decide (x = b)). }
    assert (HDb : forall x, x ∈ D -> x <> b) by (intros x Hx ->; done).
    assert (Hlsk : forall k, k ∈ ls <-> k ∈ K \/ n <= k < n + m) by (intros k; unfold ls; by rewrite elem_of_app, elem_of_seq).
    assert (Hline' : forall k, line lines' k = line lines k ++ (if decide (k ∈ ls) then [b] else [])) by exact Hline. clear Hline.
    assert (Hlast : forall k, k ∈ ls -> last (line lines' k) = Some b).
    { intros k Hk. rewrite Hline', decide_True by done. by rewrite last_app. }
    assert (Hnew : forall k, n <= k -> line lines k = []).
    { intros k Hk. unfold line. by rewrite lookup_ge_None_2 by lia. }
    assert (Hbout : forall a p, a ∈ D -> p ∈ outp a -> p ∉ outp b).
    { intros a p Ha Hp Hpb. destruct (Hown p a Outgoing b Outgoing) as [-> _]; try done. by apply HND. }
    assert (Hlast_a : forall a p k, a ∈ D -> p ∈ outp a -> k ∈ stk f p -> last (line lines k) = Some a) by (intros a p k Ha Hp Hk; by eapply lm_own).
    (* what stays at the ports of old nodes *)
    assert (Hold : forall a p k, a ∈ D -> p ∈ outp a -> k ∈ stk f' p -> k ∈ stk f p /\ k ∉ ls).
    { intros a p k Ha Hp Hk. destruct (Hstk p k Hk) as [[Hk1 Hk2]|[Hpo _]].
      - split; [done|]. intros [?|?]%Hlsk; [done|]. pose proof (lm_small _ _ _ _ _ L _ _ Hk1). lia.
      - exfalso. by apply (Hbout a p), outs_in. }
    split.
    - lia.
    - intros a [Ha| ->%elem_of_list_singleton]%elem_of_app; [by apply HND|done].
    - done.
    - intros p Hp. assert (Hpo : p ∉ outs b) by (intros Ho; apply (Hp b); [set_solver|by apply outs_in]).
      assert (Hs : stk f p = []) by (apply (lm_out _ _ _ _ _ L); intros a Ha; apply Hp; set_solver).
      specialize (Hlen p). rewrite (occ_0 p (outs b) Hpo), Hs in Hlen. cbn in Hlen. destruct (stk f' p); [done|cbn in Hlen; lia].
    - intros a p [Ha| ->%elem_of_list_singleton]%elem_of_app Hp.
      + specialize (Hlen p). rewrite (occ_0 p (outs b)) in Hlen by (intros Ho%outs_in; [by apply (Hbout a p)|done]).
        rewrite (lm_pend _ _ _ _ _ L a) in Hlen by done. rewrite <- (pend_snoc a b p D) in Hlen by (try done; by apply HND). lia.
      + specialize (Hlen p). rewrite outs_occ, decide_True in Hlen by done.
        assert (Hs : stk f p = []) by (apply (lm_out _ _ _ _ _ L); intros a Ha Hpa; by apply (Hbout a p)).
        rewrite Hs in Hlen. cbn in Hlen.
        assert (Hp0 : p ∉ prevs b).
        { intros (a & Ha & _ & Hpa)%Hprev. by apply (Hbout a p). }
        rewrite (occ_0 _ _ Hp0) in Hlen.
        assert (Hpe : pend (D ++ [b]) p = length (Lk p)); [|lia]. unfold pend.
        assert (Hall : forall q, q ∈ Lk p -> q ∉ ins (D ++ [b])).
        { intros q Hq (c & Hc & Hqc)%ins_elem. apply Hb.
          assert (HNc : Nd c) by (apply elem_of_app in Hc as [Hc| ->%elem_of_list_singleton]; [by apply HND|done]).
          assert (Hbc : lge b c) by (split; [done|]; split; [done|]; by exists p, q).
          apply elem_of_app in Hc as [Hc| ->%elem_of_list_singleton]; [by apply (lm_closed _ _ _ _ _ L b c)|by apply Hpred]. }
        revert Hall. generalize (Lk p). clear. intros l. induction l as [|q l IH]; intros Hall; [done|].
        rewrite filter_cons_True by (apply Hall; by left). cbn [length]. f_equal. apply IH. intros; apply Hall; by right.
    - intros a p k [Ha| ->%elem_of_list_singleton]%elem_of_app Hp Hk.
      + destruct (Hold a p k Ha Hp Hk) as [Hk1 Hk2]. destruct (lm_own _ _ _ _ _ L a p k Ha Hp Hk1) as [Ep El].
        rewrite Hps, decide_False by (by apply HDb). rewrite Hline', decide_False by done. rewrite app_nil_r.
        split; [|done]. rewrite Hf2; [done|]. intros Ho%outs_in; [by apply (Hbout a p)|done].
      + destruct (Hstk p k Hk) as [[Hk1 _]|[Hpo Hkl]].
        * exfalso. rewrite (lm_out _ _ _ _ _ L p) in Hk1; [by apply elem_of_nil in Hk1|]. intros a Ha Hpa. by apply (Hbout a p).
        * rewrite Hps, decide_True by done. split; [by apply Hf1|by apply Hlast].
    - intros k p Hk. destruct (Hstk p k Hk) as [[Hk1 _]|[_ Hkl]]; [pose proof (lm_small _ _ _ _ _ L _ _ Hk1); lia|].
      apply Hlsk in Hkl as [Hk'%HK|?]; lia.
    - intros k x. rewrite Hline', elem_of_app, (lm_mem _ _ _ _ _ L), Hln, elem_of_app, elem_of_list_singleton.
      destruct (decide (x = b)) as [->|Hx].
      + destruct (decide (k ∈ ls)); [rewrite elem_of_list_singleton; tauto|]. rewrite elem_of_nil. tauto.
      + destruct (decide (k ∈ ls)); [rewrite elem_of_list_singleton; tauto|]. rewrite elem_of_nil. tauto.
    - intros x [Hx| ->%elem_of_list_singleton]%elem_of_app; rewrite Hln.
      + rewrite decide_False by (by apply HDb). by apply (lm_nd _ _ _ _ _ L).
      + by rewrite decide_True.
    - intros a c [Hc| ->%elem_of_list_singleton]%elem_of_app Hac; apply elem_of_app; left; [by apply (lm_closed _ _ _ _ _ L a c)|by apply Hpred].
    - intros k i x y. rewrite Hline'. destruct (decide (k ∈ ls)) as [Hk|Hk]; [|rewrite app_nil_r; apply (lm_chain _ _ _ _ _ L)].
      intros E1 E2. destruct (decide (S i < length (line lines k))) as [Hi|Hi].
      { rewrite lookup_app_l in E1 by lia. rewrite lookup_app_l in E2 by lia. by eapply (lm_chain _ _ _ _ _ L). }
      assert (Hi' : S i = length (line lines k)).
      { pose proof (lookup_lt_Some _ _ _ E2) as H. rewrite app_length in H. cbn in H. lia. }
      rewrite Hi', list_lookup_middle in E2 by done. injection E2 as <-.
      rewrite lookup_app_l in E1 by lia.
      apply Hlsk in Hk as [Hk|Hk]; [|rewrite Hnew in Hi' by lia; done].
      destruct (HKp k Hk) as (p & Hp & Hkp). destruct (Hprev p Hp) as (a & Ha & Hab & Hpa).
      pose proof (Hlast_a a p k Ha Hpa Hkp) as Hla. rewrite last_lookup, <- Hi' in Hla. cbn in Hla. rewrite Hla in E1. by injection E1 as <-.
    - intros a c Ha Hc Hac. apply elem_of_app in Ha as [Ha|Hab%elem_of_list_singleton].
      + apply elem_of_app in Hc as [Hc|Hcb%elem_of_list_singleton].
        { rewrite !Hps, !decide_False by (by apply HDb). destruct (lm_edge _ _ _ _ _ L a c) as [? (k & i & E1 & E2)]; try done.
          split; [done|]. exists k, i. rewrite Hline'. split; by apply lookup_app_l_Some. }
        subst c. destruct (edge_prev a b Hac) as (p & HpP & Hpa). destruct (HpK p HpP) as (k & HkK & Hkp).
        destruct (lm_own _ _ _ _ _ L a p k Ha Hpa Hkp) as [Ep Hla]. specialize (Hpos p HpP).
        rewrite !Hps, (decide_False (P := a = b)) by (by apply HDb). rewrite decide_True by done. split; [lia|].
        exists k, (pred (length (line lines k))). assert (Hkl : k ∈ ls) by (apply Hlsk; by left).
        rewrite last_lookup in Hla. pose proof (lookup_lt_Some _ _ _ Hla) as Hlen''. rewrite Hline', decide_True by done.
        split; [by apply lookup_app_l_Some|]. apply list_lookup_middle. lia.
      + subst a. exfalso. apply Hb. apply elem_of_app in Hc as [Hc|Hcb%elem_of_list_singleton].
        * by apply (lm_closed _ _ _ _ _ L b c).
        * subst c. by apply Hpred.
  Qed.

  (** [lcc_new], once the nodes are in topological order. *)
  Lemma build_m l : NoDup l -> (forall n, n ∈ l <-> Nd n) -> (forall a b, lge a b -> before l a b) ->
    exists f pos lines, rfold (lcc_add v) l ((∅, 0), um_with_default lp_default, []) = Ok (f, pos, lines) /\ qgood Nd lge (LCC pos lines).
  Proof.
    intros Hndl Hall Hord.
    assert (Hfold : forall R D, l = D ++ R -> forall f n pos lines, LM D f n pos lines ->
      exists f' n' pos' lines', rfold (lcc_add v) R ((f, n), pos, lines) = Ok ((f', n'), pos', lines') /\ LM l f' n' pos' lines').
    { induction R as [|b R IH]; intros D El f n pos lines L.
      - rewrite app_nil_r in El. subst D. exists f, n, pos, lines. done.
      - destruct (add_m D f n pos lines b L) as (f1 & n1 & pos1 & lines1 & E & L1).
        + rewrite El in Hndl. apply NoDup_app in Hndl as (_ & H & _). intros Hb. apply (H b Hb). by left.
        + apply Hall. rewrite El. set_solver.
        + intros a Hab. destruct (Hord _ _ Hab) as (i & j & Hij & Hi & Hj).
          assert (l !! length D = Some b) as Hb by (rewrite El; by apply list_lookup_middle).
          assert (j = length D) as -> by exact (NoDup_lookup _ _ _ _ Hndl Hj Hb).
          rewrite El, lookup_app_l in Hi by lia. by eapply elem_of_list_lookup_2.
        + cbn [rfold]. rewrite E. cbn [mbind res_bind]. apply (IH (D ++ [b])); [by rewrite <- app_assoc|done]. }
    destruct (Hfold l [] eq_refl _ _ _ _ lm_init) as (f & n & pos & lines & E & L).
    exists (f, n), pos, lines. split; [done|].
    assert (Hin : forall a b, lge a b -> a ∈ l /\ b ∈ l) by (intros a b (Ha & Hb & _); by rewrite !Hall).
    split.
    - intros k x. rewrite <- Hall. apply (lm_mem _ _ _ _ _ L).
    - intros x Hx%Hall. by apply (lm_nd _ _ _ _ _ L).
    - apply (lm_chain _ _ _ _ _ L).
    - intros a b Hab. destruct (Hin _ _ Hab). by apply (lm_edge _ _ _ _ _ L).
    - intros a b Hab. destruct (Hin _ _ Hab). by apply (lm_edge _ _ _ _ _ L).
  Qed.
End build.
