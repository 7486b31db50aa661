(** Proofs about boundaries: the nodes inside a boundary. *)
From Verif Require Export BoundSpec.

Lemma btree_list_elem s n : n ∈ btree_list s <-> n ∈ s.
Proof. unfold btree_list. by rewrite merge_sort_Permutation, elem_of_elements. Qed.
Lemma btree_list_nd s : NoDup (btree_list s).
Proof. unfold btree_list. rewrite merge_sort_Permutation. apply NoDup_elements. Qed.
Lemma btree_list_sorted s : Sorted le (btree_list s).
Proof. apply Sorted_merge_sort. intros ??. lia. Qed.

Lemma set_pop_none s : set_pop s = None -> s = ∅.
Proof.
  unfold set_pop. destruct (btree_list s) as [|n l] eqn:Hl; [|done]. intros _. apply leibniz_equiv. intros x. rewrite <- btree_list_elem, Hl. set_solver.
Qed.
Lemma set_pop_some s n s' : set_pop s = Some (n, s') -> n ∈ s /\ s' = s ∖ {[n]}.
Proof.
  unfold set_pop. destruct (btree_list s) as [|m l] eqn:Hl; [done|]. intros [= <- <-]. split; [|done]. rewrite <- btree_list_elem, Hl. by left.
Qed.

(** No link joins two ports of one node. *)
Definition no_loops {E} (V : lview E) (R : E -> E -> Prop) : Prop :=
  forall x y, R x y -> lv_pnode V (lv_port V x) <> lv_pnode V (lv_port V y).

Section internal.
  Context {E} (V : lview E) (N : nat -> Prop) (R : E -> E -> Prop).
  Context (H : shows V N R).

  Lemma plink_ok p : port_in V N p -> exists o, lv_plink V p = HOk o /\
    match o with Some y => exists x, lv_port V x = p /\ R x y | None => forall x y, lv_port V x = p -> ~ R x y end.
  Proof.
    intros Hp. destruct (lvs_plinks _ _ _ H p Hp) as (l & El & _ & Hl). unfold lv_plink. rewrite El. cbn.
    destruct l as [|[x y] l]; cbn; eexists; split; [reflexivity| |reflexivity|].
    - intros x y Hx Hr. assert ((x, y) ∈ []) as Hn by (by apply Hl). by apply elem_of_nil in Hn.
    - exists x. apply Hl. by left.
  Qed.
  Lemma link_node x y : R x y -> exists m, lv_pnode V (lv_port V y) = Some m /\ N m.
  Proof. intros Hr. exact (lvs_end _ _ _ H _ _ (lvs_sym _ _ _ H _ _ Hr)). Qed.

  Context (ps : list nat) (Hps : forall p, p ∈ ps -> port_in V N p).

  (** All ports of the view, to bound the run. *)
  Context (P : list nat) (HP : forall p, p ∈ P <-> port_in V N p).
  Definition todo_cost (vis todo : gset nat) : nat := length (filter (fun p => p ∉ vis) P) + size todo.

  Lemma filter_le (v1 v2 : gset nat) : v1 ⊆ v2 -> length (filter (fun p => p ∉ v2) P) <= length (filter (fun p => p ∉ v1) P).
  Proof.
    intros Hs. clear HP. induction P as [|a P' IH]; [done|]. rewrite !filter_cons. destruct (decide (a ∉ v2)), (decide (a ∉ v1)); cbn; [lia|exfalso; set_solver|lia|lia].
  Qed.
  Lemma filter_lt (v1 v2 : gset nat) p : v1 ⊆ v2 -> p ∈ P -> p ∉ v1 -> p ∈ v2 ->
    length (filter (fun p => p ∉ v2) P) < length (filter (fun p => p ∉ v1) P).
  Proof.
    intros Hs Hp H1 H2. clear HP. induction P as [|a P' IH]; [by apply elem_of_nil in Hp|]. rewrite !filter_cons. apply elem_of_cons in Hp as [<-|Hp].
    - destruct (decide (p ∉ v2)) as [Hx|_]; [done|]. destruct (decide (p ∉ v1)) as [_|Hx]; [|done]. cbn.
      assert (Hle : length (filter (fun p => p ∉ v2) P') <= length (filter (fun p => p ∉ v1) P')).
      { clear -Hs. induction P' as [|a Q IH]; [done|]. rewrite !filter_cons. destruct (decide (a ∉ v2)), (decide (a ∉ v1)); cbn; [lia|exfalso; set_solver|lia|lia]. }
      lia.
    - specialize (IH Hp). destruct (decide (a ∉ v2)), (decide (a ∉ v1)); cbn; [lia|exfalso; set_solver|lia|lia].
  Qed.

  (** Boundary links: those with an end in [ps]. *)
  Definition reached (n : nat) : Prop := induced V N R ps n.

  Record in_inv (vis todo don : gset nat) : Prop := {
    ii_node n : n ∈ todo ∪ don -> N n;
    ii_reach n : one_link V R -> n ∈ todo ∪ don -> reached n;
    ii_ps p : p ∈ ps -> p ∈ vis;
    ii_pair x y : one_link V R -> R x y -> lv_port V x ∈ vis -> lv_port V y ∈ vis;
    ii_next x y m : one_link V R -> R x y -> lv_port V x ∈ vis -> lv_port V x ∉ ps -> lv_port V y ∉ ps ->
      lv_pnode V (lv_port V y) = Some m -> m ∈ todo ∪ don;
  }.

  Lemma port_in_node p n : lv_pnode V p = Some n -> N n -> port_in V N p.
  Proof. intros ??. by exists n. Qed.
  Lemma all_ports_elem n p : N n -> p ∈ lv_all_ports V n <-> lv_pnode V p = Some n.
  Proof.
    intros Hn. rewrite (lvs_all_ports _ _ _ H), elem_of_app. rewrite !(proj2 (lvs_ports _ _ _ H n _ Hn)). split; [tauto|]. intros Hp.
    destruct (lv_pdir V p) as [[]|] eqn:Hd; [by left|by right|]. exfalso. apply (lvs_dir _ _ _ H p); [by rewrite Hp|done].
  Qed.

  (** The first loop. *)
  Lemma start_ok : forall qs vis todo, (forall p, p ∈ qs -> port_in V N p) ->
    exists vis' todo', hfold (in_start_step V) qs (vis, todo) = HOk (vis', todo')
      /\ (forall n, n ∈ todo' <-> n ∈ todo \/ exists p, p ∈ qs /\ lv_pnode V p = Some n)
      /\ (forall p, p ∈ qs \/ p ∈ vis -> p ∈ vis')
      /\ (one_link V R -> forall q, q ∈ vis' <-> q ∈ vis \/ q ∈ qs \/ exists x y, R x y /\ lv_port V x ∈ qs /\ lv_port V y = q).
  Proof.
    induction qs as [|p qs IH]; intros vis todo Hq; cbn [hfold].
    { exists vis, todo. split; [done|]. split; [set_solver|]. split; [set_solver|]. intros _ q. set_solver. }
    destruct (Hq p) as (n & Hn & HNn); [by left|]. destruct (plink_ok p) as (o & Eo & Ho); [by apply Hq; left|].
    cbn [in_start_step]. rewrite Hn. cbn [lift unwrap mbind hres_bind]. rewrite Eo. cbn [mbind hres_bind].
    set (vis1 := {[p]} ∪ match o with Some other => {[lv_port V other]} ∪ vis | None => vis end).
    destruct (IH vis1 ({[n]} ∪ todo)) as (vis' & todo' & Er & Ht & Hm & Hx); [intros; apply Hq; by right|].
    exists vis', todo'. split; [exact Er|]. split; [|split].
    - intros m. rewrite Ht. rewrite elem_of_union, elem_of_singleton. split.
      + intros [[->|?]|(q & ? & ?)]; [right; exists p; by split; [left|]|by left|right; exists q; by split; [right|]].
      + intros [?|(q & [->|?]%elem_of_cons & Hqm)]; [by left; right|left; left; congruence|right; by exists q].
    - intros q [[->|?]%elem_of_cons|?]; apply Hm; [right; set_solver|by left|]. right. unfold vis1. destruct o; set_solver.
    - intros Hs q. rewrite (Hx Hs). unfold vis1. destruct o as [y|].
      + destruct Ho as (x & Hxp & Hr). split.
        * intros [[?%elem_of_singleton|[->%elem_of_singleton|?]%elem_of_union]%elem_of_union|[?|(x' & y' & ? & ? & ?)]].
          -- subst q. right; left; by left.
          -- right; right. exists x, y. split; [done|]. split; [rewrite Hxp; by left|done].
          -- by left.
          -- right; left; by right.
          -- right; right. exists x', y'. split; [done|]. split; [by right|done].
        * intros [?|[[->|?]%elem_of_cons|(x' & y' & Hr' & [Hp'|?]%elem_of_cons & <-)]]; [set_solver|set_solver|set_solver| |right; right; by exists x', y'].
          destruct (Hs x y x' y') as [_ ->]; [done|done|congruence|]. set_solver.
      + split.
        * intros [?|[?|(x' & y' & ? & ? & ?)]]; [set_solver|right; left; by right|]. right; right. exists x', y'. split; [done|]. split; [by right|done].
        * intros [?|[[->|?]%elem_of_cons|(x' & y' & Hr' & [Hp'|?]%elem_of_cons & <-)]]; [set_solver|set_solver|set_solver| |right; right; by exists x', y'].
          exfalso. by apply (Ho x' y').
  Qed.

  (** The loop over the ports of a node. *)
  Lemma ports_ok n : forall qs vis todo don, (forall p, p ∈ qs -> lv_pnode V p = Some n) -> n ∈ don ->
    in_inv vis todo don ->
    exists vis' todo', hfold (in_port_step V) qs (vis, todo) = HOk (vis', todo')
      /\ in_inv vis' todo' don /\ (forall p, p ∈ qs \/ p ∈ vis -> p ∈ vis')
      /\ todo_cost vis' todo' <= todo_cost vis todo /\ todo ⊆ todo'
      /\ (one_link V R -> no_loops V R -> (forall m p, m ∈ don -> m <> n -> lv_pnode V p = Some m -> p ∈ vis) -> todo ## don -> todo' ## don).
  Proof.
    induction qs as [|p qs IH]; intros vis todo don Hq Hd Hi; cbn [hfold].
    { exists vis, todo. split; [done|]. split; [done|]. split; [set_solver|]. split; [lia|]. split; [done|]. by intros _ _ _ ?. }
    pose proof (ii_node _ _ _ Hi n ltac:(set_solver)) as HNn.
    assert (Hpn : lv_pnode V p = Some n) by (apply Hq; by left). assert (Hpi : port_in V N p) by (by exists n).
    cbn [in_port_step]. destruct (decide (p ∈ vis)) as [Hv|Hv]; cbn [mbind hres_bind].
    { destruct (IH vis todo don) as (vis' & todo' & Er & Hi' & Hm & Hc & Hs & Hdj); [intros; apply Hq; by right|done|done|].
      exists vis', todo'. split; [exact Er|]. split; [done|]. split; [|done]. intros q [[->|?]%elem_of_cons|?]; apply Hm; [by right|by left|by right]. }
    destruct (plink_ok p Hpi) as (o & Eo & Ho). rewrite Eo. cbn [mbind hres_bind]. destruct o as [y|].
    - destruct Ho as (x & Hxp & Hr). destruct (link_node x y Hr) as (m & Hm & HNm).
      assert (Hfresh : one_link V R -> no_loops V R -> (forall m p, m ∈ don -> m <> n -> lv_pnode V p = Some m -> p ∈ vis) -> m ∉ don).
      { intros Hs Hnl Hall Hmd. assert (m <> n) by (intros ->; apply (Hnl x y Hr); rewrite Hxp; congruence).
        apply Hv. rewrite <- Hxp. apply (ii_pair _ _ _ Hi y x Hs); [by apply (lvs_sym _ _ _ H)|]. by apply (Hall m). }
      rewrite Hm. cbn [lift unwrap mbind hres_bind].
      destruct (IH ({[lv_port V y]} ∪ ({[p]} ∪ vis)) ({[m]} ∪ todo) don) as (vis' & todo' & Er & Hi' & Hmm & Hc & Hs & Hdj); [intros; apply Hq; by right|done| |].
      { assert (Hin : one_link V R -> lv_port V x ∉ ps /\ lv_port V y ∉ ps).
        { intros Hs. split; intros Hc; apply Hv; rewrite <- Hxp; [by apply (ii_ps _ _ _ Hi)|].
          apply (ii_pair _ _ _ Hi y x Hs); [by apply (lvs_sym _ _ _ H)|by apply (ii_ps _ _ _ Hi)]. }
        split.
        - intros k [[->%elem_of_singleton|?]%elem_of_union|?]%elem_of_union; [done| |]; apply (ii_node _ _ _ Hi); set_solver.
        - intros k Hs [[->%elem_of_singleton|?]%elem_of_union|?]%elem_of_union; [|apply (ii_reach _ _ _ Hi); [done|set_solver]..].
          destruct (Hin Hs) as [Hx Hy].
          destruct (ii_reach _ _ _ Hi n Hs ltac:(set_solver)) as [[-> _]|(p0 & m0 & H1 & H2 & H3)]; [by left|right].
          exists p0, m0. split; [done|]. split; [done|]. eapply rtc_r; [exact H3|]. exists x, y. rewrite Hxp in *. by split_and!.
        - intros q Hqs. pose proof (ii_ps _ _ _ Hi q Hqs). set_solver.
        - intros a b Hs Hr' Ha. assert (Hcase : lv_port V a = lv_port V y \/ lv_port V a = lv_port V x \/ lv_port V a ∈ vis) by (rewrite Hxp; set_solver).
          destruct Hcase as [Hc|[Hc|Hc]].
          + destruct (Hs a b y x) as [_ ->]; [done|by apply (lvs_sym _ _ _ H)|done|]. rewrite Hxp. set_solver.
          + destruct (Hs a b x y) as [_ ->]; [done..|]. set_solver.
          + pose proof (ii_pair _ _ _ Hi a b Hs Hr' Hc). set_solver.
        - intros a b k Hs Hr' Ha Na Nb Hk. assert (Hcase : lv_port V a = lv_port V y \/ lv_port V a = lv_port V x \/ lv_port V a ∈ vis) by (rewrite Hxp; set_solver).
          destruct Hcase as [Hc|[Hc|Hc]].
          + destruct (Hs a b y x) as [_ ->]; [done|by apply (lvs_sym _ _ _ H)|done|]. rewrite Hxp, Hpn in Hk. injection Hk as <-. set_solver.
          + destruct (Hs a b x y) as [_ ->]; [done..|]. rewrite Hm in Hk. injection Hk as <-. set_solver.
          + pose proof (ii_next _ _ _ Hi a b k Hs Hr' Hc Na Nb Hk). set_solver. }
      exists vis', todo'. split; [exact Er|]. split; [done|]. split; [|split; [|split]].
      + intros q [[->|?]%elem_of_cons|?]; apply Hmm; [right; set_solver|by left|right; set_solver].
      + etrans; [exact Hc|]. unfold todo_cost.
        pose proof (filter_lt vis ({[lv_port V y]} ∪ ({[p]} ∪ vis)) p ltac:(set_solver) ltac:(by apply HP) Hv ltac:(set_solver)) as Hlt.
        assert (size ({[m]} ∪ todo) <= 1 + size todo) as Hsz.
        { rewrite size_union_alt, size_singleton. pose proof (subseteq_size (todo ∖ {[m]}) todo ltac:(set_solver)). lia. }
        lia.
      + set_solver.
      + intros Hs1 Hnl Hall Hd0. apply Hdj; [done|done| |].
        * intros m' p' Hm' Hne Hp'. apply elem_of_union_r, elem_of_union_r. by apply (Hall m').
        * pose proof (Hfresh Hs1 Hnl Hall). set_solver.
    - destruct (IH ({[p]} ∪ vis) todo don) as (vis' & todo' & Er & Hi' & Hmm & Hc & Hs & Hdj); [intros; apply Hq; by right|done| |].
      { split; [apply Hi|apply Hi|..].
        - intros q Hqs. pose proof (ii_ps _ _ _ Hi q Hqs). set_solver.
        - intros a b Hs Hr' [Ha%elem_of_singleton|Ha]%elem_of_union; [by destruct (Ho a b Ha)|]. pose proof (ii_pair _ _ _ Hi a b Hs Hr' Ha). set_solver.
        - intros a b k Hs Hr' [Ha%elem_of_singleton|Ha]%elem_of_union; [by destruct (Ho a b Ha)|]. by apply (ii_next _ _ _ Hi a b k Hs Hr' Ha). }
      exists vis', todo'. split; [exact Er|]. split; [done|]. split; [|split; [|split; [done|]]].
      + intros q [[->|?]%elem_of_cons|?]; apply Hmm; [right; set_solver|by left|right; set_solver].
      + etrans; [exact Hc|]. unfold todo_cost. pose proof (filter_le vis ({[p]} ∪ vis) ltac:(set_solver)). lia.
      + intros Hs1 Hnl Hall Hd0. apply Hdj; [done|done| |done]. intros m' p' Hm' Hne Hp'. apply elem_of_union_r. by apply (Hall m').
  Qed.

  (** The main loop. *)
  Lemma loop_ok k : forall vis todo don, todo_cost vis todo <= k -> in_inv vis todo don ->
    (forall n p, n ∈ don -> lv_pnode V p = Some n -> p ∈ vis) ->
    exists l vis', (forall fuel, k < fuel -> in_loop V fuel vis todo = HOk l)
      /\ (forall n, n ∈ todo -> n ∈ l)
      /\ in_inv vis' ∅ (list_to_set l ∪ don)
      /\ (forall n p, n ∈ list_to_set l ∪ don -> lv_pnode V p = Some n -> p ∈ vis')
      /\ (one_link V R -> no_loops V R -> todo ## don -> NoDup l /\ forall n, n ∈ l -> n ∉ don).
  Proof.
    induction k as [|k IH]; intros vis todo don Hk Hi Hpd.
    - destruct (set_pop todo) as [[n todo0]|] eqn:Hpop.
      { apply set_pop_some in Hpop as [Hn _]. unfold todo_cost in Hk. assert (size todo = 0) as H0%size_empty_inv by lia. set_solver. }
      pose proof (set_pop_none _ Hpop) as ->. exists [], vis. split; [|split; [set_solver|split; [|split]]].
      + intros [|fuel] Hf; [lia|]. cbn [in_loop]. by rewrite Hpop.
      + by replace (list_to_set [] ∪ don) with don by set_solver.
      + intros n p Hn. apply Hpd. set_solver.
      + intros _ _ _. split; [constructor|]. by intros n ?%elem_of_nil.
    - destruct (set_pop todo) as [[n todo0]|] eqn:Hpop.
      2:{ pose proof (set_pop_none _ Hpop) as ->. exists [], vis. split; [|split; [set_solver|split; [|split]]].
        + intros [|fuel] Hf; [lia|]. cbn [in_loop]. by rewrite Hpop.
        + by replace (list_to_set [] ∪ don) with don by set_solver.
        + intros m p Hm. apply Hpd. set_solver.
        + intros _ _ _. split; [constructor|]. by intros m ?%elem_of_nil. }
      pose proof (set_pop_some _ _ _ Hpop) as [Hn ->].
      pose proof (ii_node _ _ _ Hi n ltac:(set_solver)) as HNn.
      assert (Hun : forall m, m ∈ todo ∖ {[n]} ∪ ({[n]} ∪ don) <-> m ∈ todo ∪ don).
      { intros m. destruct (decide (m = n)) as [->|]; set_solver. }
      destruct (ports_ok n (lv_all_ports V n) vis (todo ∖ {[n]}) ({[n]} ∪ don)) as (vis' & todo' & Er & Hi' & Hm & Hc & Hs & Hdj).
      { intros p. by apply all_ports_elem. }
      { set_solver. }
      { split.
        - intros m Hm%Hun. by apply (ii_node _ _ _ Hi).
        - intros m Hs Hm%Hun. by apply (ii_reach _ _ _ Hi).
        - apply Hi.
        - apply Hi.
        - intros x y m Hs Hr Hx Hnx Hny Hm. apply Hun. by apply (ii_next _ _ _ Hi x y m). }
      destruct (IH vis' todo' ({[n]} ∪ don)) as (l & vis2 & El & Hl & Hi2 & Hp2 & Hnd2).
      { assert (S (todo_cost vis (todo ∖ {[n]})) = todo_cost vis todo); [|lia]. unfold todo_cost.
        assert (size todo = S (size (todo ∖ {[n]}))); [|lia].
        rewrite (union_difference_L {[n]} todo) at 1 by set_solver. rewrite size_union by set_solver. by rewrite size_singleton. }
      { exact Hi'. }
      { intros m p [->%elem_of_singleton|Hm']%elem_of_union Hp; apply Hm; [left; by apply all_ports_elem|right; by eapply Hpd]. }
      assert (Hset : list_to_set (n :: l) ∪ don = list_to_set l ∪ ({[n]} ∪ don)) by (rewrite list_to_set_cons; set_solver).
      exists (n :: l), vis2. split; [|split; [|split; [|split]]].
      + intros [|fuel] Hf; [lia|]. cbn [in_loop]. rewrite Hpop, Er. cbn [mbind hres_bind]. rewrite El by lia. done.
      + intros m Hm'. destruct (decide (m = n)) as [->|]; [by left|]. right. apply Hl, Hs. set_solver.
      + by rewrite Hset.
      + by rewrite Hset.
      + intros Hs1 Hnl Hdd. destruct (Hnd2 Hs1 Hnl) as [Hl1 Hl2].
        { apply Hdj; [done|done| |set_solver]. intros m p Hm' Hne. apply Hpd. set_solver. }
        split.
        * constructor; [|done]. intros Hin%Hl2. set_solver.
        * intros m [->|Hin]%elem_of_cons; [set_solver|]. apply Hl2 in Hin. set_solver.
  Qed.
End internal.

Lemma internal_nodes_ok {E} (V : lview E) N R (B : boundary) : shows V N R -> (forall p, p ∈ bd_ports B -> port_in V N p) ->
  exists l K, (forall fuel, K < fuel -> internal_nodes V fuel B = HOk l) /\ (forall n, n ∈ l -> N n) /\
    (one_link V R -> forall n, n ∈ l <-> induced V N R (bd_ports B) n) /\ (one_link V R -> no_loops V R -> NoDup l).
Proof.
  intros H Hps. destruct (lvs_port_list _ _ _ H) as (P & _ & _ & HP & _). destruct (lvs_nodes _ _ _ H) as (L & EL & _ & HL & _).
  destruct (start_ok V N R H (bd_ports B) Hps P HP (bd_ports B) ∅ ∅ Hps) as (vis & todo & Es & Ht & Hm & Hx).
  set (todo2 := if decide (todo = ∅) then list_to_set L else todo).
  assert (Et : (if decide (todo = ∅) then l ← lv_nodes V; HOk (list_to_set l) else HOk todo) = HOk todo2).
  { unfold todo2. destruct (decide (todo = ∅)); [by rewrite EL|done]. }
  assert (Hemp : todo = ∅ <-> bd_ports B = []).
  { split.
    - intros ->. destruct (bd_ports B) as [|p ps]; [done|]. destruct (Hps p) as (n & Hn & _); [by left|].
      assert (n ∈ (∅ : gset nat)); [|set_solver]. apply Ht. right. exists p. split; [by left|done].
    - intros Hb. rewrite Hb in Ht. apply leibniz_equiv. intros n. rewrite Ht. set_solver. }
  assert (Ht2 : forall n, n ∈ todo2 -> induced V N R (bd_ports B) n).
  { intros n. unfold todo2. destruct (decide (todo = ∅)) as [Hd|Hd].
    - intros Hn%elem_of_list_to_set%HL. left. split; [by apply Hemp|done].
    - intros [?|(p & Hp & Hn)]%Ht; [set_solver|]. right. exists p, n. split; [done|]. split; [done|apply rtc_refl]. }
  assert (Ht2' : forall n, n ∈ todo2 -> N n).
  { intros n. unfold todo2. destruct (decide (todo = ∅)) as [Hd|Hd].
    - by intros Hn%elem_of_list_to_set%HL.
    - intros [?|(p & Hp & Hn)]%Ht; [set_solver|]. destruct (Hps p Hp) as (n' & Hn' & ?). congruence. }
  destruct (loop_ok V N R H (bd_ports B) Hps P HP (todo_cost P vis todo2) vis todo2 ∅) as (l & vis' & El & Hl & Hi & Hp & Hndl); [done| |set_solver|].
  { split.
    - intros n Hn. apply Ht2'. set_solver.
    - intros n _ Hn. apply Ht2. set_solver.
    - intros p Hp. apply Hm. by left.
    - intros x y Hs Hr [?|[Hq|(a & b & Hr' & Ha & Hb)]]%(Hx Hs); [set_solver| |]; apply (Hx Hs); right.
      + right. exists x, y. done.
      + left. destruct (Hs b a x y) as [_ ->]; [by apply (lvs_sym _ _ _ H)|done|done|done].
    - intros x y m Hs Hr [?|[Hq|(a & b & Hr' & Ha & Hb)]]%(Hx Hs) Hnx Hny Hy; [set_solver|done|].
      destruct (Hs b a x y) as [_ ->]; [by apply (lvs_sym _ _ _ H)|done|done|done]. }
  rewrite (right_id_L ∅ (∪)) in Hi, Hp.
  exists l, (todo_cost P vis todo2). split; [|split; [|split; [|intros Hs Hnl; apply Hndl; [done|done|set_solver]]]].
  - intros fuel Hf. unfold internal_nodes. rewrite Es. cbn [mbind hres_bind]. rewrite Et. cbn [mbind hres_bind]. by apply El.
  - intros n Hn. apply (ii_node _ _ _ _ _ _ _ Hi). set_solver.
  - intros Hs n. split; [intros Hn; apply (ii_reach _ _ _ _ _ _ _ Hi); [done|set_solver]|].
    intros [[Hb Hn]|(p & m & Hpb & Hpm & Hreach)].
    + apply Hl. unfold todo2. rewrite decide_True by (by apply Hemp). by apply elem_of_list_to_set, HL.
    + assert (Hm0 : m ∈ l).
      { apply Hl. unfold todo2. destruct (decide (todo = ∅)) as [Hd|Hd]; [apply Hemp in Hd; rewrite Hd in Hpb; set_solver|]. apply Ht. right. by exists p. }
      clear Hpb Hpm p. induction Hreach as [|a b c (x & y & Hr & Hxa & Hyb & Hnx & Hny) _ IH]; [done|].
      apply IH. assert (b ∈ ∅ ∪ (list_to_set l : gset nat)); [|set_solver].
      apply (ii_next _ _ _ _ _ _ _ Hi x y b Hs Hr); [|done..]. apply (Hp a); [set_solver|done].
Qed.
