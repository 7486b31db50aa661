(** Correctness of the exploration of the mermaid renderer. *)
From stdpp Require Import gmap.
From Verif Require Export MermSpec LcaVThms DotThms.

Section edges.
  Context {E : Type}.
  Notation entry := (nat * E * nat * E)%type.
  Notation edges_t := (gmap (option nat) (list entry)).
  Definition at_ (es : edges_t) (k : option nat) : list entry := default [] (es !! k).
  Definition allq (es : edges_t) : list entry := concat (snd <$> map_to_list es).
  Lemma concat_perm {A} (l k : list (list A)) : l ≡ₚ k -> concat l ≡ₚ concat k.
  Proof. induction 1; cbn; [done|by f_equiv| |by etrans]. rewrite !app_assoc. f_equiv. apply Permutation_app_comm. Qed.
  Lemma allq_delete es k : allq es ≡ₚ at_ es k ++ allq (delete k es).
  Proof.
    unfold at_, allq. destruct (es !! k) as [l|] eqn:Ek; cbn [from_option id].
    - rewrite <- (map_to_list_delete es k l Ek). done.
    - by rewrite delete_notin.
  Qed.
  Lemma allq_push es k (e : entry) : allq (<[k := at_ es k ++ [e]]> es) ≡ₚ allq es ++ [e].
  Proof.
    rewrite (allq_delete (<[k := at_ es k ++ [e]]> es) k), (allq_delete es k). unfold at_ at 1. rewrite lookup_insert. cbn [from_option id].
    rewrite delete_insert_delete. rewrite <- !app_assoc. f_equiv. apply Permutation_app_comm.
  Qed.
  Lemma at_push es k k' (e : entry) : at_ (<[k := at_ es k ++ [e]]> es) k' = if decide (k' = k) then at_ es k ++ [e] else at_ es k'.
  Proof. unfold at_ at 1. destruct (decide (k' = k)) as [-> |Hk]; [by rewrite lookup_insert|by rewrite lookup_insert_ne by congruence]. Qed.
  Lemma at_delete es k k' : at_ (delete k es) k' = if decide (k' = k) then [] else at_ es k'.
  Proof. unfold at_. destruct (decide (k' = k)) as [-> |Hk]; [by rewrite lookup_delete|by rewrite lookup_delete_ne by congruence]. Qed.
  Definition entry_of (i : mm_item E) : option entry := match i with MMLink a x b y => Some (a, x, b, y) | _ => None end.
  Definition the_entries (items : list (list nat * mm_item E)) : list entry := omap (fun i => entry_of i.2) items.
  Definition link_items (open : list nat) (l : list entry) : list (list nat * mm_item E) := (fun '(a, x, b, y) => (open, MMLink a x b y)) <$> l.
  Lemma link_items_entries open l : the_entries (link_items open l) = l.
  Proof. induction l as [|[[[a x] b] y] l IH]; [done|]. cbn. f_equal. exact IH. Qed.
  Lemma link_items_nodes open l : the_nodes (link_items open l) = [].
  Proof. induction l as [|[[[a x] b] y] l IH]; [done|]. exact IH. Qed.
  Lemma link_items_elem open l os i : (os, i) ∈ link_items open l -> os = open /\ mm_node i = None /\ exists e, e ∈ l /\ entry_of i = Some e.
  Proof.
    intros Hi. apply elem_of_list_fmap in Hi as ([[[a x] b] y] & Hi & He). cbn in Hi. injection Hi as -> ->. split; [done|]. split; [done|]. eexists. split; [exact He|done].
  Qed.
  Lemma link_items_placed open l rest : placed open (mm_links (S (length open)) l ++ rest) = (fun r => link_items open l ++ r) <$> placed open rest.
  Proof.
    induction l as [|[[[a x] b] y] l IH]; [cbn; by destruct (placed open rest)|]. cbn [mm_links fmap list_fmap app placed].
    rewrite decide_True by done. unfold mm_links in IH. cbn. rewrite IH. by destruct (placed open rest).
  Qed.
End edges.

Section run.
  Context {E : Type} (V : lview E) (N : nat -> Prop) (R : E -> E -> Prop) (H : shows V N R).
  Context (h : hier) (ch : nat -> list nat) (HI : HInv h ch).
  Context (Hcl : forall c p, h_parent h c = Some p -> N p -> N c).
  Context (F : nat) (HF : length (um_data h) + 2 <= F) (lc : lca_t) (lcaf : nat -> nat -> option nat).
  Context (Hlc : forall a b, lca_lca F lc a b = HOk (lcaf a b)).
  Notation entry := (nat * E * nat * E)%type.
  Notation edges_t := (gmap (option nat) (list entry)).

  Lemma back_ok n : mm_children_rev F (Some h) n = HOk (rev (ch n)).
  Proof.
    pose proof HI as ((Hl & Hp & Hs & _) & _). destruct (Hl n) as (Hnd & Hfi & Hla & Hc). pose proof (ch_len _ _ n HI) as Hlen.
    assert (Hgo : forall l fuel post nx pv, length l < fuel -> ch n = l ++ post -> (l <> [] -> pv = last l) ->
      mm_back fuel h (nx, pv, length l) = HOk (rev l)).
    { intros l. induction l as [|c l IH] using rev_ind; intros fu post nx pv Hfu Ec Hpv; (destruct fu as [|fu]; [cbn in Hfu; lia|]).
      - done.
      - rewrite app_length in *. cbn [length] in *. cbn -[h_prev]. rewrite decide_False by lia. rewrite Hpv by (by destruct l). rewrite last_snoc. cbn -[h_prev].
        replace (length l + 1 - 1) with (length l) by lia. rewrite (IH fu (c :: post)).
        + cbn. by rewrite rev_unit.
        + lia.
        + by rewrite Ec, <- app_assoc.
        + intros Hne. assert (Hi : ch n !! length l = Some c) by (rewrite Ec, <- app_assoc; by apply list_lookup_middle).
          destruct (Hs _ _ _ Hi) as [_ Hpr]. unfold h_prev. rewrite Hpr. rewrite last_lookup. destruct (length l) as [|j] eqn:El; [by destruct l|].
          cbn [pred]. rewrite Ec, <- app_assoc, lookup_app_l by lia. done. }
    unfold mm_children_rev, h_children. rewrite Hc. apply (Hgo (ch n) F []); [lia|by rewrite app_nil_r|]. intros _. exact Hla.
  Qed.
  Lemma has_children_iff n : h_has_children h n = true <-> ch n <> [].
  Proof.
    clear - HI.
    pose proof HI as ((Hl & _) & _). destruct (Hl n) as (_ & _ & _ & Hc). unfold h_has_children, h_child_count. rewrite bool_decide_eq_true, Hc.
    destruct (ch n); cbn; split; try done; lia.
  Qed.
  Lemma ch_iff p c : c ∈ ch p <-> h_parent h c = Some p.
  Proof. pose proof HI as ((_ & Hp & _) & _). apply Hp. Qed.
  Lemma ch_nodup p : NoDup (ch p).
  Proof. pose proof HI as ((Hl & _) & _). apply Hl. Qed.
  Lemma anc_ch n x : anc h n x <-> x = n \/ exists c, c ∈ ch n /\ anc h c x.
  Proof.
    split.
    - intros Hx. apply rtc_inv_r in Hx as [-> |(y & Hxy & Hy)]; [by left|right]. exists y. split; [by apply ch_iff|done].
    - intros [-> |(c & Hc & Hx)]; [apply rtc_refl|]. eapply rtc_r; [exact Hx|]. by apply ch_iff.
  Qed.
  Lemma anc_N n x : N n -> anc h n x -> N x.
  Proof. intros Hn Hx. induction Hx as [|x y z Hxy _ IH]; [done|]. eapply Hcl; [exact Hxy|]. by apply IH. Qed.

  Definition lk (n : nat) : list (E * E) := match lv_links V n Outgoing with HOk l => l | _ => [] end.
  Definition ent (x : E * E) : entry := (default 0 (lv_pnode V (lv_port V x.1)), x.1, default 0 (lv_pnode V (lv_port V x.2)), x.2).
  Lemma lk_ok n : N n -> lv_links V n Outgoing = HOk (lk n) /\ NoDup (lk n) /\
    forall x y, (x, y) ∈ lk n <-> R x y /\ lv_pnode V (lv_port V x) = Some n /\ lv_pdir V (lv_port V x) = Some Outgoing.
  Proof.
    intros Hn. destruct (lvs_links _ _ _ H n Outgoing Hn) as (ls & l & r0 & _ & -> & El & _).
    unfold lk. rewrite El. destruct (lvs_links_elem V N R H n Outgoing _ Hn El) as [L1 L2]. split; [done|]. split; [done|].
    intros x y. rewrite L2, (proj2 (lvs_ports _ _ _ H n Outgoing Hn)). tauto.
  Qed.
  Definition key (e : entry) : option nat := lcaf e.1.1.1 e.1.2.
  Lemma queue_ok l : (forall x y, (x, y) ∈ l -> R x y) -> forall es, exists es', mm_queue V F (Some lc) l es = HOk es' /\
    allq es' ≡ₚ allq es ++ (ent <$> l) /\ (forall k e, e ∈ at_ es' k <-> e ∈ at_ es k \/ key e = k /\ e ∈ ent <$> l).
  Proof.
    induction l as [|[x y] l IH]; intros Hl es.
    - exists es. split; [done|]. cbn. rewrite app_nil_r. split; [done|]. intros k e. rewrite elem_of_nil. tauto.
    - pose proof (Hl x y (elem_of_list_here _ _)) as HR.
      destruct (lvs_end _ _ _ H x y HR) as (a & Ha & _), (lvs_end2 V N R H x y HR) as (b & Hb & _).
      cbn [mm_queue]. rewrite Ha, Hb, Hlc, hbind_Ok. change (default [] (es !! lcaf a b)) with (at_ es (lcaf a b)).
      destruct (IH (fun x' y' Hx => Hl x' y' (elem_of_list_further _ _ _ Hx)) (<[lcaf a b := at_ es (lcaf a b) ++ [(a, x, b, y)]]> es)) as (es' & Ee & P & K).
      exists es'. split; [done|].
      assert (Eent : ent (x, y) = (a, x, b, y)) by (unfold ent; cbn; by rewrite Ha, Hb).
      split; [rewrite P, allq_push; cbn [fmap list_fmap]; rewrite Eent; by rewrite <- app_assoc|].
      intros k e. rewrite K, at_push. cbn [fmap list_fmap]. rewrite Eent, elem_of_cons. destruct (decide (k = lcaf a b)) as [-> |Hk].
      + rewrite elem_of_app, elem_of_list_singleton. split; [|tauto]. intros [[?| ->]|?]; [tauto| |tauto]. right. split; [done|by left].
      + split; [tauto|]. intros [?|[Hke [-> |?]]]; [tauto| |tauto]. exfalso. apply Hk. done.
  Qed.

  (** What exploring the nodes [cs] inside the blocks [open] does. *)
  Notation exact_lca := (forall a b c, N a -> N b -> lcaf a b = Some c -> anc h c a) (only parsing).
  Record bun (open cs : list nat) (es : edges_t) (items : list (list nat * mm_item E)) (o : list (nat * mm_item E))
      (ls : list (list nat)) (es' : edges_t) (cnt : nat) : Prop := Bun {
    b_run fuel st out : mm_loop V F (Some h) (Some lc) (cnt + fuel) ((SExplore <$> cs) ++ st) es (S (length open)) out
      = mm_loop V F (Some h) (Some lc) fuel st es' (S (length open)) (out ++ o);
    b_placed rest : placed open (o ++ rest) = (fun r => items ++ r) <$> placed open rest;
    b_pre : Forall2 (tree_order ch) cs ls;
    b_nodes : the_nodes items = concat ls;
    b_nodup : NoDup (concat ls);
    b_anc x : x ∈ concat ls <-> exists n, n ∈ cs /\ anc h n x;
    b_node os i n : (os, i) ∈ items -> mm_node i = Some n -> blocks h N n os /\ i = if h_has_children h n then MMStart n else MMLeaf n;
    b_link os i e : (os, i) ∈ items -> entry_of i = Some e -> exists c os', os = c :: os' /\ blocks h N c os' /\ N c /\ h_has_children h c = true /\ key e = Some c;
    b_perm : allq es' ++ the_entries items ≡ₚ allq es ++ (ent <$> concat (lk <$> concat ls));
    b_frame k e : e ∈ at_ es' k -> e ∈ at_ es k \/ key e = k /\ e ∈ ent <$> concat (lk <$> concat ls);
    b_done : exact_lca -> forall c, c ∈ concat ls -> h_has_children h c = true -> at_ es' (Some c) = [];
    b_cnt : cnt <= 2 * length (concat ls);
  }.
  Definition keyed (es : edges_t) : Prop := forall k e, e ∈ at_ es k -> key e = k.

  Lemma elem_lk e ls : (forall n, n ∈ ls -> N n) -> e ∈ ent <$> concat (lk <$> ls) -> exists a x b y, e = (a, x, b, y) /\ a ∈ ls /\ R x y /\
    lv_pnode V (lv_port V x) = Some a /\ lv_pnode V (lv_port V y) = Some b /\ N b /\ lv_pdir V (lv_port V x) = Some Outgoing.
  Proof.
    intros Hls He. apply elem_of_list_fmap in He as ([x y] & -> & Hx). apply elem_of_list_In, in_concat in Hx as (l & Hl & Hx).
    apply elem_of_list_In in Hl, Hx. apply elem_of_list_fmap in Hl as (a & -> & Ha). pose proof (Hls a Ha) as Na.
    apply (lk_ok a Na) in Hx as (HR & Hpa & Hd). destruct (lvs_end2 V N R H x y HR) as (b & Hb & Nb).
    exists a, x, b, y. unfold ent. cbn. rewrite Hpa, Hb. done.
  Qed.

  Lemma bun_nil open es : bun open [] es [] [] [] es 0.
  Proof.
    split; cbn; try done.
    - intros fuel st out. by rewrite app_nil_r.
    - intros rest. by destruct (placed open rest).
    - constructor.
    - intros x. rewrite elem_of_nil. split; [done|]. intros (n & Hn & _). by apply elem_of_nil in Hn.
    - intros os i n Hi. by apply elem_of_nil in Hi.
    - intros os i e Hi. by apply elem_of_nil in Hi.
    - tauto.
    - intros _ c Hc. by apply elem_of_nil in Hc.
  Qed.

  Lemma bun_app open n cs es i1 o1 l1 es1 c1 i2 o2 l2 es2 c2 : N n -> (forall m, m ∈ cs -> N m) ->
    (forall m x, m ∈ cs -> anc h n x -> anc h m x -> False) ->
    bun open [n] es i1 o1 l1 es1 c1 -> bun open cs es1 i2 o2 l2 es2 c2 ->
    bun open (n :: cs) es (i1 ++ i2) (o1 ++ o2) (l1 ++ l2) es2 (c1 + c2).
  Proof.
    intros Nn Ncs Hdis B1 B2.
    assert (Hd : forall x, x ∈ concat l1 -> x ∈ concat l2 -> False).
    { intros x (n' & Hn' & Hx)%(b_anc _ _ _ _ _ _ _ _ B1) (m & Hm & Hx')%(b_anc _ _ _ _ _ _ _ _ B2).
      apply elem_of_list_singleton in Hn' as ->. by eapply Hdis. }
    split.
    - intros fuel st out. pose proof (b_run _ _ _ _ _ _ _ _ B1 (c2 + fuel) ((SExplore <$> cs) ++ st) out) as E1. cbn in E1.
      cbn. rewrite <- Nat.add_assoc, E1, (b_run _ _ _ _ _ _ _ _ B2). by rewrite app_assoc.
    - intros rest. rewrite <- app_assoc, (b_placed _ _ _ _ _ _ _ _ B1), (b_placed _ _ _ _ _ _ _ _ B2). destruct (placed open rest); cbn; [by rewrite app_assoc|done].
    - pose proof (b_pre _ _ _ _ _ _ _ _ B1) as P1. inversion P1 as [|? l ? l' P0 P0' Ex]; subst. inversion P0'; subst. cbn. constructor; [done|]. apply (b_pre _ _ _ _ _ _ _ _ B2).
    - unfold the_nodes. rewrite omap_app, concat_app. f_equal; [apply (b_nodes _ _ _ _ _ _ _ _ B1)|apply (b_nodes _ _ _ _ _ _ _ _ B2)].
    - rewrite concat_app. apply NoDup_app. split; [apply (b_nodup _ _ _ _ _ _ _ _ B1)|]. split; [|apply (b_nodup _ _ _ _ _ _ _ _ B2)]. intros x H1 H2. by eapply Hd.
    - intros x. rewrite concat_app, elem_of_app, (b_anc _ _ _ _ _ _ _ _ B1), (b_anc _ _ _ _ _ _ _ _ B2). split.
      + intros [(m & Hm & Hx)|(m & Hm & Hx)]; exists m; (split; [|done]); [apply elem_of_list_singleton in Hm as ->; by left|by right].
      + intros (m & [-> |Hm]%elem_of_cons & Hx); [left; exists n; split; [by left|done]|right; eauto].
    - intros os i m [Hi|Hi]%elem_of_app; [by apply (b_node _ _ _ _ _ _ _ _ B1)|by apply (b_node _ _ _ _ _ _ _ _ B2)].
    - intros os i m [Hi|Hi]%elem_of_app; [by apply (b_link _ _ _ _ _ _ _ _ B1)|by apply (b_link _ _ _ _ _ _ _ _ B2)].
    - unfold the_entries. rewrite omap_app, concat_app, fmap_app, concat_app, fmap_app.
      rewrite (Permutation_app_comm (omap _ i1)), app_assoc. rewrite (b_perm _ _ _ _ _ _ _ _ B2). rewrite <- app_assoc.
      rewrite (Permutation_app_comm (ent <$> _)), app_assoc. rewrite (b_perm _ _ _ _ _ _ _ _ B1). by rewrite <- app_assoc.
    - intros k e He. rewrite concat_app, fmap_app, concat_app, fmap_app, elem_of_app. apply (b_frame _ _ _ _ _ _ _ _ B2) in He as [He|?]; [|tauto].
      apply (b_frame _ _ _ _ _ _ _ _ B1) in He. tauto.
    - intros Hex c Hc Hch. rewrite concat_app in Hc. apply elem_of_app in Hc as [Hc|Hc]; [|by apply (b_done _ _ _ _ _ _ _ _ B2)].
      pose proof (b_done _ _ _ _ _ _ _ _ B1 Hex c Hc Hch) as E1.
      destruct (at_ es2 (Some c)) as [|e r] eqn:E2; [done|]. exfalso.
      destruct (b_frame _ _ _ _ _ _ _ _ B2 (Some c) e) as [He|[He Hin]]; [rewrite E2; by left|rewrite E1 in He; by apply elem_of_nil in He|].
      assert (Hl2 : forall m, m ∈ concat l2 -> N m) by (intros m (m' & Hm' & Ha)%(b_anc _ _ _ _ _ _ _ _ B2); eapply anc_N; [by apply Ncs|done]).
      apply (elem_lk _ _ Hl2) in Hin as (a & x & b & y & -> & Ha & HR & Hpa & Hpb & Nb & _). unfold key in He. cbn in He.
      apply Hex in He; [|by apply Hl2|done]. apply (b_anc _ _ _ _ _ _ _ _ B2) in Ha as (m & Hm & Ha).
      apply (b_anc _ _ _ _ _ _ _ _ B1) in Hc as (n' & Hn' & Hc). apply elem_of_list_singleton in Hn' as ->.
      apply (Hdis m a Hm); [|done]. exact (rtc_transitive _ _ _ He Hc).
    - rewrite concat_app, app_length. pose proof (b_cnt _ _ _ _ _ _ _ _ B1). pose proof (b_cnt _ _ _ _ _ _ _ _ B2). lia.
  Qed.
  Lemma bun_list open cs : NoDup cs -> (forall m, m ∈ cs -> N m) -> (forall n m x, n ∈ cs -> m ∈ cs -> n <> m -> anc h n x -> anc h m x -> False) ->
    (forall n es, n ∈ cs -> keyed es -> exists items o ls es' cnt, bun open [n] es items o ls es' cnt) ->
    forall es, keyed es -> exists items o ls es' cnt, bun open cs es items o ls es' cnt.
  Proof.
    induction cs as [|n cs IH]; intros Hnd HN Hdis Hone es Hk; [exists [], [], [], es, 0; apply bun_nil|].
    apply NoDup_cons in Hnd as [Hn Hnd]. destruct (Hone n es) as (i1 & o1 & l1 & es1 & c1 & B1); [by left|done|].
    assert (Hk1 : keyed es1) by (intros k e He; apply (b_frame _ _ _ _ _ _ _ _ B1) in He as [He|[? _]]; [by apply Hk|done]).
    destruct (IH Hnd (fun m Hm => HN m (elem_of_list_further _ _ _ Hm))) with (es := es1) as (i2 & o2 & l2 & es2 & c2 & B2).
    - intros a b x Ha Hb. apply Hdis; by right.
    - intros m es0 Hm. apply Hone. by right.
    - done.
    - eexists _, _, _, _, _. eapply bun_app; [apply HN; by left|intros m Hm; apply HN; by right| |exact B1|exact B2].
      intros m x Hm. apply Hdis; [by left|by right|]. intros ->. done.
  Qed.
  Lemma bun_tree k : forall n open es, N n -> blocks h N n open -> (forall c, ~ nsteps (child_of (h_get h)) k c n) -> keyed es ->
    exists items o ls es' cnt, bun open [n] es items o ls es' cnt.
  Proof.
    induction k as [|k IH]; intros n open es Nn Hb Hht Hk; [exfalso; apply (Hht n); constructor|].
    destruct (lk_ok n Nn) as (El & _ & Lin). destruct (queue_ok (lk n)) with (es := es) as (es1 & E1 & P1 & K1); [intros x y Hx; apply Lin in Hx; tauto|].
    assert (Hk1 : keyed es1) by (intros kk e He; apply K1 in He as [He|[? _]]; [by apply Hk|done]).
    destruct (h_has_children h n) eqn:Ec.
    - (* a block *)
      destruct (bun_list (n :: open) (ch n)) with (es := es1) as (it & o & ls & es2 & cnt & B).
      + apply ch_nodup.
      + intros m Hm%ch_iff. by eapply Hcl.
      + intros a b x Ha%ch_iff Hb'%ch_iff Hne. apply (same_parent_disj h ch HI); [congruence|done].
      + intros c es0 Hc%ch_iff Hk0. apply IH; [by eapply Hcl|by eapply blocks_in| |done].
        intros d Hd. apply (Hht d). eapply nsteps_r; [exact Hd|exact Hc].
      + done.
      + set (fl := at_ es2 (Some n)).
        assert (Nls : forall m, m ∈ concat ls -> N m).
        { intros m (c & Hc%ch_iff & Hm)%(b_anc _ _ _ _ _ _ _ _ B). eapply anc_N; [by eapply Hcl|done]. }
        assert (Hk2 : keyed es2) by (intros kk e He; apply (b_frame _ _ _ _ _ _ _ _ B) in He as [He|[? _]]; [by apply Hk1|done]).
        assert (HnS : n ∉ concat ls).
        { intros (c & Hc%ch_iff & Hx)%(b_anc _ _ _ _ _ _ _ _ B). pose proof HI as (_ & Hac & _). apply (Hac n). eapply tc_rtc_l; [exact Hx|]. by apply tc_once. }
        exists ((open, MMStart n) :: it ++ link_items (n :: open) fl), ((S (length open), MMStart n) :: o ++ mm_links (S (S (length open))) fl ++ [(S (length open), MMEnd)]),
          [n :: concat ls], (delete (Some n) es2), (S (cnt + 1)). split.
        * intros fuel st out. cbn [fmap list_fmap app]. cbn [Nat.add mm_loop]. rewrite El, hbind_Ok, E1, hbind_Ok. unfold mm_is_leaf. rewrite Ec. cbn [negb].
          rewrite back_ok, hbind_Ok. assert (Er : rev (SExplore <$> rev (ch n)) = SExplore <$> ch n) by (rewrite <- (map_rev SExplore), rev_involutive; done). rewrite Er.
          pose proof (b_run _ _ _ _ _ _ _ _ B (1 + fuel) (SExit n :: st) (out ++ [(S (length open), MMStart n)])) as E2. cbn [length] in E2.
          replace (S (length open + 1)) with (S (S (length open))) by lia. replace (cnt + 1 + fuel) with (cnt + (1 + fuel)) by lia. rewrite E2.
          cbn [Nat.add mm_loop]. unfold h_sub. rewrite decide_True by lia. rewrite hbind_Ok. replace (S (S (length open)) - 1) with (S (length open)) by lia.
          f_equal. fold (at_ es2 (Some n)). fold fl. by rewrite <- !app_assoc.
        * intros rest. cbn [app placed]. rewrite decide_True by done. rewrite <- app_assoc, (b_placed _ _ _ _ _ _ _ _ B), <- app_assoc.
          rewrite (link_items_placed (n :: open)). cbn [app placed]. rewrite decide_True by done. destruct (placed open rest); cbn; [by rewrite app_assoc|done].
        * repeat constructor. apply (b_pre _ _ _ _ _ _ _ _ B).
        * change (the_nodes ((open, MMStart n) :: it ++ link_items (n :: open) fl)) with (n :: the_nodes (it ++ link_items (n :: open) fl)). unfold the_nodes. rewrite omap_app.
          fold (the_nodes it). fold (the_nodes (link_items (n :: open) fl)). rewrite link_items_nodes, (b_nodes _ _ _ _ _ _ _ _ B). cbn. done.
        * cbn. rewrite app_nil_r. constructor; [done|apply (b_nodup _ _ _ _ _ _ _ _ B)].
        * intros x. cbn. rewrite app_nil_r, elem_of_cons, (b_anc _ _ _ _ _ _ _ _ B). rewrite <- anc_ch. split; [intros Hx; exists n; split; [by left|done]|].
          intros (m & Hm & Hx). apply elem_of_list_singleton in Hm as ->. done.
        * intros os i m [[= -> ->]|[Hi|Hi]%elem_of_app]%elem_of_cons Hm; [|by apply (b_node _ _ _ _ _ _ _ _ B)|].
          -- cbn in Hm. injection Hm as <-. by rewrite Ec.
          -- apply link_items_elem in Hi as (_ & Hi & _). congruence.
        * intros os i e [[= -> ->]|[Hi|Hi]%elem_of_app]%elem_of_cons He; [done|by apply (b_link _ _ _ _ _ _ _ _ B os i)|].
          apply link_items_elem in Hi as (-> & _ & e' & He' & Hi). rewrite Hi in He. injection He as <-. exists n, open.
          split; [done|]. split; [done|]. split; [done|]. split; [done|]. by apply Hk2.
        * change (the_entries ((open, MMStart n) :: it ++ link_items (n :: open) fl)) with (the_entries (it ++ link_items (n :: open) fl)). unfold the_entries. rewrite omap_app.
          fold (the_entries it). fold (the_entries (link_items (n :: open) fl)). rewrite link_items_entries.
          rewrite (Permutation_app_comm (the_entries it)), app_assoc, (Permutation_app_comm (allq _)). unfold fl. rewrite <- allq_delete.
          rewrite (b_perm _ _ _ _ _ _ _ _ B), P1. cbn. rewrite app_nil_r, fmap_app, app_assoc. done.
        * intros kk e. rewrite at_delete. destruct (decide (kk = Some n)) as [-> |Hkk]; [intros He; by apply elem_of_nil in He|].
          intros He. cbn. rewrite app_nil_r, fmap_app, elem_of_app. apply (b_frame _ _ _ _ _ _ _ _ B) in He as [He|?]; [|tauto]. apply K1 in He. tauto.
        * intros Hex c Hc Hch. rewrite at_delete. destruct (decide (Some c = Some n)) as [|Hcn]; [done|]. cbn in Hc. rewrite app_nil_r in Hc.
          apply elem_of_cons in Hc as [-> |Hc]; [done|]. by apply (b_done _ _ _ _ _ _ _ _ B).
        * cbn. rewrite app_nil_r. pose proof (b_cnt _ _ _ _ _ _ _ _ B). lia.
    - (* a leaf *)
      assert (Ech : ch n = []) by (destruct (ch n) eqn:Ech; [done|]; assert (h_has_children h n = true) by (apply has_children_iff; by rewrite Ech); congruence).
      exists [(open, MMLeaf n)], [(S (length open), MMLeaf n)], [[n]], es1, 1. split.
      + intros fuel st out. cbn [fmap list_fmap app]. cbn [Nat.add mm_loop]. rewrite El, hbind_Ok, E1, hbind_Ok. unfold mm_is_leaf. rewrite Ec. done.
      + intros rest. cbn [app placed]. rewrite decide_True by done. by destruct (placed open rest).
      + repeat constructor. apply (pre_node ch n []). rewrite Ech. constructor.
      + done.
      + cbn. apply NoDup_singleton.
      + intros x. cbn. rewrite elem_of_list_singleton. split.
        * intros ->. exists n. split; [by left|apply rtc_refl].
        * intros (m & Hm & Hx). apply elem_of_list_singleton in Hm as ->. apply anc_ch in Hx as [?|(c & Hc & _)]; [done|]. rewrite Ech in Hc. by apply elem_of_nil in Hc.
      + intros os i m Hi Hm. apply elem_of_list_singleton in Hi. injection Hi as -> ->. cbn in Hm. injection Hm as <-. by rewrite Ec.
      + intros os i e Hi He. apply elem_of_list_singleton in Hi. injection Hi as -> ->. done.
      + cbn. rewrite !app_nil_r. done.
      + intros kk e He. cbn. rewrite app_nil_r. apply K1 in He. tauto.
      + intros _ c Hc. cbn in Hc. apply elem_of_list_singleton in Hc as ->. congruence.
      + cbn. lia.
  Qed.
End run.
