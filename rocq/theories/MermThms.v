(** Proofs of properties C115, C116 and C117. *)
From Coq Require Import Ascii String.
From stdpp Require Import gmap pretty.
From Verif Require Export ViewProps MermProofs.
Open Scope list_scope.

(** Without a hierarchy. *)
Section flat.
  Context {E : Type} (V : lview E) (N : nat -> Prop) (R : E -> E -> Prop) (H : shows V N R).
  Notation entry := (nat * E * nat * E)%type.
  Lemma queue_flat F l : (forall x y, (x, y) ∈ l -> R x y) -> forall es, exists es', mm_queue V F None l es = HOk es' /\ allq es' ≡ₚ allq es ++ (ent V <$> l).
  Proof.
    induction l as [|[x y] l IH]; intros Hl es; [exists es; split; [done|]; cbn; by rewrite app_nil_r|].
    pose proof (Hl x y (elem_of_list_here _ _)) as HR.
    destruct (lvs_end _ _ _ H x y HR) as (a & Ha & _), (lvs_end2 V N R H x y HR) as (b & Hb & _).
    cbn [mm_queue]. rewrite Ha, Hb, hbind_Ok. change (default [] (es !! None)) with (at_ es None).
    destruct (IH (fun x' y' Hx => Hl x' y' (elem_of_list_further _ _ _ Hx)) (<[None := at_ es None ++ [(a, x, b, y)]]> es)) as (es' & Ee & P).
    exists es'. split; [done|]. assert (Eent : ent V (x, y) = (a, x, b, y)) by (unfold ent; cbn; by rewrite Ha, Hb).
    rewrite P, allq_push. cbn [fmap list_fmap]. rewrite Eent. by rewrite <- app_assoc.
  Qed.
  Lemma loop_flat F l : (forall n, n ∈ l -> N n) -> forall es out, exists es', allq es' ≡ₚ allq es ++ (ent V <$> concat (lk V <$> l)) /\
    forall fuel, mm_loop V F None None (length l + S fuel) (SExplore <$> l) es 1 out = HOk (out ++ ((fun n => (1, MMLeaf n)) <$> l), es', 1).
  Proof.
    induction l as [|n l IH]; intros Hl es out; [exists es; split; [cbn; by rewrite app_nil_r|]; intros fuel; cbn; by rewrite app_nil_r|].
    destruct (lk_ok V N R H n) as (El & _ & Lin); [apply Hl; by left|].
    destruct (queue_flat F (lk V n)) with (es := es) as (es1 & E1 & P1); [intros x y Hx; apply Lin in Hx; tauto|].
    destruct (IH (fun m Hm => Hl m (elem_of_list_further _ _ _ Hm)) es1 (out ++ [(1, MMLeaf n)])) as (es2 & P2 & E2).
    exists es2. split; [rewrite P2, P1; cbn; by rewrite fmap_app, app_assoc|]. intros fuel. cbn [length fmap list_fmap Nat.add mm_loop].
    rewrite El, hbind_Ok, E1, hbind_Ok. cbn [mm_is_leaf]. rewrite E2. by rewrite <- app_assoc.
  Qed.
  Lemma lks_ok l : NoDup l -> (forall n, n ∈ l <-> N n) -> link_list V R (concat (lk V <$> l)).
  Proof.
    intros Hnd Hl.
    assert (Hlk : forall l, NoDup l -> (forall n, n ∈ l -> N n) -> NoDup (concat (lk V <$> l)) /\
      forall x y, (x, y) ∈ concat (lk V <$> l) <-> R x y /\ lv_pdir V (lv_port V x) = Some Outgoing /\ exists n, n ∈ l /\ lv_pnode V (lv_port V x) = Some n).
    { clear - H. induction l as [|n l IH]; intros Hnd Hl.
      - split; [constructor|]. intros x y. cbn. rewrite elem_of_nil. split; [done|]. intros (_ & _ & n & Hn & _). by apply elem_of_nil in Hn.
      - apply NoDup_cons in Hnd as [Hn Hnd]. destruct IH as [I1 I2]; [done|intros m Hm; apply Hl; by right|].
        destruct (lk_ok V N R H n) as (_ & L1 & L2); [apply Hl; by left|]. cbn. split.
        + apply NoDup_app. split; [done|]. split; [|done]. intros [x y] (_ & Hx & _)%L2 (_ & _ & m & Hm & Hx')%I2. rewrite Hx in Hx'. injection Hx' as <-. done.
        + intros x y. rewrite elem_of_app, L2, I2. split.
          * intros [(? & ? & ?)|(? & ? & m & ? & ?)]; (split; [done|]); (split; [done|]); [exists n; split; [by left|done]|exists m; split; [by right|done]].
          * intros (? & ? & m & [-> |Hm]%elem_of_cons & ?); [by left|right]. eauto. }
    destruct (Hlk l Hnd (fun n => proj1 (Hl n))) as [L1 L2]. split; [done|]. intros x y. rewrite L2. split; [tauto|]. intros [HR Hd]. split; [done|]. split; [done|].
    destruct (lvs_end _ _ _ H x y HR) as (a & Ha & Na). exists a. split; [by apply Hl|done].
  Qed.
  Lemma leaves_items l rest r : placed [] rest = Some r -> placed [] (((fun n => (1, MMLeaf (E:=E) n)) <$> l) ++ rest) = Some (((fun n => ([], MMLeaf n)) <$> l) ++ r).
  Proof. intros Hr. induction l as [|n l IH]; [done|]. cbn [fmap list_fmap app placed length]. rewrite decide_True by done. cbn in IH |- *. by rewrite IH. Qed.
  Lemma leaves_nodes l : the_nodes ((fun n : nat => ([] : list nat, MMLeaf (E:=E) n)) <$> l) = l.
  Proof. induction l as [|n l IH]; [done|]. cbn. f_equal. exact IH. Qed.
  Lemma leaves_entries l : the_entries ((fun n : nat => ([] : list nat, MMLeaf (E:=E) n)) <$> l) = [].
  Proof. induction l as [|n l IH]; [done|]. exact IH. Qed.
End flat.
Section finish.
  Context {E : Type} (V : lview E) (N : nat -> Prop) (R : E -> E -> Prop) (H : shows V N R).
  Context (h : hier) (Hreach : hreach h) (ch : nat -> list nat) (HI : HInv h ch).
  Context (Hcl : forall c p, h_parent h c = Some p -> N p -> N c).
  Notation entry := (nat * E * nat * E)%type.
  Lemma root_iff n : mm_is_root V (Some h) n = true <-> forall p, h_parent h n = Some p -> ~ N p.
  Proof.
    unfold mm_is_root, h_is_root. rewrite orb_true_iff, bool_decide_eq_true. destruct (h_parent h n) as [p|]; [|split; [done|by left]].
    rewrite negb_true_iff. pose proof (lvs_node _ _ _ H p) as Hp. split.
    - intros [?|E1] p' [= <-]; [done|]. rewrite <- Hp. congruence.
    - intros Hn. right. destruct (lv_has_node V p); [|done]. exfalso. by apply (Hn p), Hp.
  Qed.
  Lemma top_ex n : N n -> exists r, N r /\ anc h r n /\ forall p, h_parent h r = Some p -> ~ N p.
  Proof.
    assert (Hgo : forall f y, (forall a, ~ nsteps (child_of (h_get h)) f y a) -> N y -> exists r, N r /\ anc h r y /\ forall p, h_parent h r = Some p -> ~ N p).
    { induction f as [|f IH]; intros y Hy Ny; [exfalso; apply (Hy y); constructor|].
      destruct (h_parent h y) as [p|] eqn:Ep; [|exists y; split; [done|]; split; [apply rtc_refl|congruence]].
      destruct (lv_has_node V p) eqn:Ev.
      - apply (lvs_node _ _ _ H) in Ev. destruct (IH p) as (r & Nr & Hr & Ht); [|done|].
        + intros a Ha. apply (Hy a). eapply nsteps_l; [exact Ep|done].
        + exists r. split; [done|]. split; [|done]. eapply rtc_l; [exact Ep|exact Hr].
      - exists y. split; [done|]. split; [apply rtc_refl|]. intros p' Hp' Np'. rewrite Ep in Hp'. injection Hp' as <-. apply (lvs_node _ _ _ H) in Np'. congruence. }
    apply (Hgo (S (length (um_data h)))). intros a. apply (height_bound h ch HI).
  Qed.
  Lemma top_disj r r' x : N r -> N r' -> (forall p, h_parent h r = Some p -> ~ N p) -> (forall p, h_parent h r' = Some p -> ~ N p) -> r <> r' ->
    anc h r x -> anc h r' x -> False.
  Proof.
    intros Nr Nr' T T' Hne A A'. destruct (anc_linear h r r' x A A') as [B|B].
    - destruct (anc_strict h r r' B Hne) as (p & Hp & Hrp). apply (T' p Hp). exact (anc_N N h Hcl r p Nr Hrp).
    - destruct (anc_strict h r' r B (not_eq_sym Hne)) as (p & Hp & Hrp). apply (T p Hp). exact (anc_N N h Hcl r' p Nr' Hrp).
  Qed.
  Lemma fold_links l (items : list (list nat * mm_item E)) : the_entries items ≡ₚ (ent V <$> l) -> the_links items ≡ₚ l.
  Proof.
    assert (E1 : forall items : list (list nat * mm_item E), the_links items = (fun e : entry => (e.1.1.2, e.2)) <$> the_entries items).
    { intros k. induction k as [|[os i] k IH]; [done|]. unfold the_links, the_entries in *. cbn [omap list_omap]. destruct i; cbn; rewrite ?IH; done. }
    intros P. rewrite E1, P. clear. induction l as [|[x y] l IH]; [done|]. cbn. by f_equiv.
  Qed.
  Lemma finish_ok shuffle (Hsh : forall l, shuffle l ≡ₚ l) : exists nodes M, lv_nodes V = HOk nodes /\ forall fuel, M <= fuel -> exists out items lc rs ls,
    lca_new fuel nodes h = HOk lc /\
    mm_finish V shuffle fuel (Some h) = HOk out /\ placed [] out = Some items /\
    NoDup (the_nodes items) /\ (forall n, n ∈ the_nodes items <-> N n) /\
    sublist rs nodes /\ (forall r, r ∈ rs <-> N r /\ forall p, h_parent h r = Some p -> ~ N p) /\ Forall2 (tree_order ch) (rev rs) ls /\ the_nodes items = concat ls /\
    (forall os i n, (os, i) ∈ items -> mm_node i = Some n -> blocks h N n os /\ i = match ch n with [] => MMLeaf n | _ => MMStart n end) /\
    link_list V R (the_links items) /\
    (forall os a x b y, (os, MMLink a x b y) ∈ items -> R x y /\ lv_pnode V (lv_port V x) = Some a /\ lv_pnode V (lv_port V y) = Some b) /\
    ((forall a b c, N a -> N b -> lca_lca fuel lc a b = HOk (Some c) -> N c /\ anc h c a) -> forall os a x b y, (os, MMLink a x b y) ∈ items ->
       (exists c os', lca_lca fuel lc a b = HOk (Some c) /\ ch c <> [] /\ os = c :: os' /\ blocks h N c os') \/
       os = [] /\ forall c, lca_lca fuel lc a b = HOk (Some c) -> ch c = []).
  Proof.
    destruct (lvs_nodes _ _ _ H) as (nodes & En & Nnd & Nin & _).
    destruct (C114_lca_view_partial_pf h nodes Hreach Nnd) as (K & lc & HK).
    exists nodes, (K + (length (um_data h) + 2) + (2 * length nodes + 1)). split; [done|]. intros fuel Hf.
    destruct (HK fuel ltac:(lia)) as (Elc & Htot & _).
    set (lcaf a b := match lca_lca fuel lc a b with HOk o => o | _ => None end).
    assert (Hlc : forall a b, lca_lca fuel lc a b = HOk (lcaf a b)) by (intros a b; unfold lcaf; destruct (Htot a b) as [_ [o ->]]; done).
    set (rs := filter (fun n => mm_is_root V (Some h) n = true) nodes).
    assert (Hrs : forall r, r ∈ rs <-> N r /\ forall p, h_parent h r = Some p -> ~ N p).
    { intros r. unfold rs. rewrite elem_of_list_filter, root_iff, Nin. tauto. }
    destruct (bun_list V N R H h ch Hcl fuel ltac:(lia) lc lcaf Hlc [] (rev rs)) with (es := (∅ : gmap (option nat) (list entry))) as (items & o & ls & es' & cnt & B).
    - rewrite <- (Permutation_rev rs). by apply NoDup_filter.
    - intros m Hm%rev_elem%Hrs. tauto.
    - intros a b x [Na Ta]%rev_elem%Hrs [Nb Tb]%rev_elem%Hrs Hne. by apply top_disj.
    - intros n es [Nn Tn]%rev_elem%Hrs Hk. apply (bun_tree V N R H h ch HI Hcl fuel ltac:(lia) lc lcaf Hlc (S (length (um_data h)))); [done|by apply blocks_top| |done].
      intros c. apply (height_bound h ch HI).
    - intros k e. unfold at_. rewrite lookup_empty. intros He. by apply elem_of_nil in He.
    - pose proof (b_cnt _ _ _ _ _ _ _ _ _ _ _ _ _ _ _ B) as Hcnt.
      assert (HN : forall x, x ∈ concat ls <-> N x).
      { intros x. rewrite (b_anc _ _ _ _ _ _ _ _ _ _ _ _ _ _ _ B). split.
        - intros (r & Hr%rev_elem%Hrs & Hx). by eapply (anc_N N h Hcl); [apply Hr|].
        - intros Nx. destruct (top_ex x Nx) as (r & Nr & Hr & Ht). exists r. split; [|done]. apply rev_elem. by apply Hrs. }
      assert (Hlen : length (concat ls) <= length nodes).
      { apply submseteq_length, NoDup_submseteq; [apply (b_nodup _ _ _ _ _ _ _ _ _ _ _ _ _ _ _ B)|]. intros x Hx%HN. by apply Nin. }
      set (rest := concat (snd <$> shuffle (map_to_list es'))).
      assert (Hrest : rest ≡ₚ allq es') by (unfold rest, allq; by rewrite (Hsh (map_to_list es'))).
      exists (o ++ mm_links 1 rest), (items ++ link_items [] rest), lc, rs, ls. split; [done|].
      assert (Enodes : the_nodes (items ++ link_items [] rest) = concat ls).
      { unfold the_nodes. rewrite omap_app. fold (the_nodes items). fold (the_nodes (link_items [] rest)). by rewrite link_items_nodes, app_nil_r, (b_nodes _ _ _ _ _ _ _ _ _ _ _ _ _ _ _ B). }
      assert (Eents : the_entries (items ++ link_items [] rest) ≡ₚ (ent V <$> concat (lk V <$> concat ls))).
      { unfold the_entries. rewrite omap_app. fold (the_entries items). fold (the_entries (link_items [] rest)). rewrite link_items_entries, Hrest, Permutation_app_comm.
        rewrite (b_perm _ _ _ _ _ _ _ _ _ _ _ _ _ _ _ B). unfold allq. by rewrite map_to_list_empty. }
      assert (Hels : forall n, n ∈ concat ls -> N n) by (intros n; apply HN).
      assert (Hin : forall os a x b y, (os, MMLink a x b y) ∈ items ++ link_items [] rest -> (a, x, b, y) ∈ ent V <$> concat (lk V <$> concat ls)).
      { intros os a x b y Hi. rewrite <- Eents. unfold the_entries. apply elem_of_list_omap. eexists. split; [exact Hi|done]. }
      split_and!.
      + unfold mm_finish. rewrite En, hbind_Ok, Elc, !hbind_Ok. fold rs.
        assert (Er : rev (SExplore <$> rs) = SExplore <$> rev rs) by (symmetry; apply map_rev). rewrite Er.
        pose proof (b_run _ _ _ _ _ _ _ _ _ _ _ _ _ _ _ B (fuel - cnt) [] []) as Erun. rewrite app_nil_r in Erun. cbn [length app] in Erun.
        replace (cnt + (fuel - cnt)) with fuel in Erun by lia. rewrite Erun. destruct (fuel - cnt) as [|f] eqn:Ef; [lia|]. cbn [mm_loop]. rewrite hbind_Ok. done.
      + rewrite (b_placed _ _ _ _ _ _ _ _ _ _ _ _ _ _ _ B). pose proof (link_items_placed [] rest []) as Ep. rewrite app_nil_r in Ep. cbn [length] in Ep. rewrite Ep. cbn. by rewrite app_nil_r.
      + rewrite Enodes. apply (b_nodup _ _ _ _ _ _ _ _ _ _ _ _ _ _ _ B).
      + intros n. rewrite Enodes. apply HN.
      + unfold rs. clear. induction nodes as [|n l IH]; [constructor|]. rewrite filter_cons. destruct (decide _); by constructor.
      + done.
      + apply (b_pre _ _ _ _ _ _ _ _ _ _ _ _ _ _ _ B).
      + done.
      + intros os i n [Hi|Hi]%elem_of_app Hn.
        * destruct (b_node _ _ _ _ _ _ _ _ _ _ _ _ _ _ _ B os i n Hi Hn) as [Hb ->]. split; [done|].
          pose proof (has_children_iff h ch HI n) as Hc. destruct (h_has_children h n), (ch n); try done; exfalso; [by apply Hc|assert (false = true) by (by apply Hc); done].
        * apply link_items_elem in Hi as (_ & Hi & _). congruence.
      + assert (P : the_links (items ++ link_items [] rest) ≡ₚ concat (lk V <$> concat ls)) by (by apply fold_links).
        destruct (lks_ok V N R H (concat ls)) as [L1 L2]; [apply (b_nodup _ _ _ _ _ _ _ _ _ _ _ _ _ _ _ B)|done|].
        split; [by rewrite P|]. intros x y. by rewrite P, L2.
      + intros os a x b y Hi%Hin. apply (elem_lk V N R H _ _ Hels) in Hi as (a' & x' & b' & y' & [= -> -> -> ->] & _ & HR & Ha & Hb & _). done.
      + intros Hex os a x b y Hi. pose proof (Hin _ _ _ _ _ Hi) as He. apply (elem_lk V N R H _ _ Hels) in He as (a' & x' & b' & y' & [= -> -> -> ->] & _ & HR & Ha & Hb & _).
        rewrite Hlc. apply elem_of_app in Hi as [Hi|Hi].
        * left. destruct (b_link _ _ _ _ _ _ _ _ _ _ _ _ _ _ _ B os _ _ Hi eq_refl) as (c & os' & -> & Hbl & Nc & Hch & Hkey). exists c, os'.
          unfold key in Hkey. cbn in Hkey. rewrite Hkey. split; [done|]. split; [by apply (has_children_iff h ch HI)|done].
        * right. apply link_items_elem in Hi as (-> & _ & e & He & [= <-]). split; [done|]. intros c [= Ec].
          rewrite Hrest in He. unfold allq in He. apply elem_of_list_In, in_concat in He as (l & Hl & He). apply elem_of_list_In in Hl, He.
          apply elem_of_list_fmap in Hl as ([k l'] & -> & Hl). apply elem_of_map_to_list in Hl. cbn in He.
          assert (Hat : (a', x', b', y') ∈ at_ es' k) by (unfold at_; by rewrite Hl).
          destruct (b_frame _ _ _ _ _ _ _ _ _ _ _ _ _ _ _ B k _ Hat) as [He'|[Hkey _]]; [unfold at_ in He'; rewrite lookup_empty in He'; by apply elem_of_nil in He'|].
          unfold key in Hkey. cbn in Hkey. rewrite Ec in Hkey. subst k.
          destruct (ch c) as [|d l0] eqn:Ech; [done|]. exfalso.
          assert (Hch : h_has_children h c = true) by (apply (has_children_iff h ch HI); by rewrite Ech).
          assert (Hex' : forall a b c, N a -> N b -> lcaf a b = Some c -> anc h c a) by (intros a0 b0 c0 Na Nb Hc0; apply (Hex a0 b0 c0); [done|done|]; by rewrite Hlc, Hc0).
          assert (Na' : N a') by (destruct (lvs_end _ _ _ H x' y' HR) as (q & Hq & Nq); rewrite Ha in Hq; by injection Hq as ->).
          assert (Nb' : N b') by (destruct (lvs_end2 V N R H x' y' HR) as (q & Hq & Nq); rewrite Hb in Hq; by injection Hq as ->).
          assert (Hc : c ∈ concat ls) by (apply HN, (Hex a' b' c Na' Nb'); by rewrite Hlc, Ec).
          rewrite (b_done _ _ _ _ _ _ _ _ _ _ _ _ _ _ _ B Hex' c Hc Hch) in Hat. by apply elem_of_nil in Hat.
  Qed.
End finish.


Lemma str_app_assoc (a b c : string) : ((a +:+ b) +:+ c = a +:+ b +:+ c)%string.
Proof. induction a as [|x a IH]; [done|]. change (String x ((a +:+ b) +:+ c) = String x (a +:+ b +:+ c)). by rewrite IH. Qed.
Section text.
  Lemma free_repeat k : free_of newline (str_repeat "    " k).
  Proof. induction k as [|k IH]; [done|]. cbn [str_repeat]. apply free_app; [|done]. cbn. repeat split; discriminate. Qed.
  Lemma free_pretty (n : nat) : free_of newline (pretty n).
  Proof.
    assert (Hgo : forall x s, free_of newline s -> free_of newline (pretty_N_go x s)).
    { intros x. induction (N.lt_wf_0 x) as [x _ IH]. intros s Hs. destruct (decide (0 < x)%N) as [Hx|Hx].
      - rewrite pretty_N_go_step by done. apply IH; [apply N.div_lt; lia|]. split; [|done].
        unfold pretty_N_char. destruct (x `mod` 10)%N as [|p]; [discriminate|]. repeat (destruct p as [p|p|]; try discriminate).
      - assert (x = 0%N) as -> by lia. by rewrite pretty_N_go_0. }
    unfold pretty, pretty_nat, pretty, pretty_N. destruct (decide _); [cbn; split; [discriminate|done]|]. apply Hgo. done.
  Qed.
  Lemma free_label i l : free_of newline i -> free_of newline (encode_label i l).
  Proof.
    intros Hi. destruct l as [|c l]; [done|]. unfold encode_label. apply free_app; [cbn; split; [discriminate|done]|]. apply free_app; [|cbn; split; [discriminate|done]].
    apply replace_free; [cbn; repeat split; discriminate|by left].
  Qed.
  Lemma free_join l : Forall (free_of newline) l -> free_of newline (str_join "," l).
  Proof.
    induction l as [|s l IH]; [done|]. intros [Hs Hl]%Forall_cons. destruct l as [|t l]; [done|].
    change (free_of newline (s +:+ "," +:+ str_join "," (t :: l))). apply free_app; [done|]. apply free_app; [cbn; split; [discriminate|done]|]. by apply IH.
  Qed.
  Lemma free_attrs a : attrs_free a -> free_of newline (encode_attrs a).
  Proof.
    intros Ha. apply free_join. assert (H1 : forall p o, free_of newline p -> (forall t, o = Some t -> free_of newline t) -> Forall (free_of newline) (option_list (String.append p <$> o))).
    { intros p [t|] Hp Ht; [|constructor]. cbn. repeat constructor. apply free_app; [done|by apply Ht]. }
    rewrite !Forall_app. split_and!; apply H1; try (cbn; repeat split; discriminate); apply Ha; rewrite !elem_of_cons; tauto.
  Qed.
  Lemma free_strip e s : strip_label e = Custom s -> (forall t, mm_custom e = Some t -> free_of newline t) -> free_of newline s.
  Proof. induction e as [| | |l e IH|t]; intros He Hc; try discriminate He; [by apply IH|]. injection He as ->. by apply Hc. Qed.
  Lemma free_edge e s : as_mermaid_str e = Ok s -> (forall t, mm_custom e = Some t -> free_of newline t) -> free_of newline s.
  Proof.
    intros He Hc. assert (Hl : forall l a b, free_of newline a -> free_of newline b -> free_of newline (a +:+ encode_label "" l +:+ b)).
    { intros l a b Ha Hb. apply free_app; [done|]. apply free_app; [by apply free_label|done]. }
    destruct e as [| | |l e|t]; cbn in He.
    1-3: injection He as <-; cbn; repeat split; discriminate.
    - destruct (strip_label e) as [| | |l' e'|t] eqn:Es; try discriminate He; injection He as <-; try (apply Hl; cbn; repeat split; discriminate).
      eapply free_strip; [exact Es|]. exact Hc.
    - injection He as <-. by apply Hc.
  Qed.
  Lemma split_app s t : free_of newline s -> split_lines (s +:+ String newline t) = s :: split_lines t.
  Proof.
    induction s as [|c s IH]; [done|]. intros [Hc Hs]. change (split_lines (String c (s +:+ String newline t)) = String c s :: split_lines t). cbn [split_lines]. destruct (Ascii.eqb_spec c newline) as [->|_]; [done|]. by rewrite (IH Hs).
  Qed.
End text.

Lemma C115_flat_pf :
forall E (V : lview E) N R shuffle, shows V N R -> (forall l, shuffle l ≡ₚ l) ->
  exists nodes M, lv_nodes V = HOk nodes /\ forall fuel, M <= fuel -> exists out items,
    mm_finish V shuffle fuel None = HOk out /\ placed [] out = Some items /\ the_nodes items = rev nodes /\
    (forall os i n, (os, i) ∈ items -> os = [] /\ (mm_node i = Some n -> i = MMLeaf n)) /\
    link_list V R (the_links items) /\
    (forall os a x b y, (os, MMLink a x b y) ∈ items -> R x y /\ lv_pnode V (lv_port V x) = Some a /\ lv_pnode V (lv_port V y) = Some b).
Proof.
  intros E V N R shuffle H Hsh. destruct (lvs_nodes _ _ _ H) as (nodes & En & Nnd & Nin & _). exists nodes, (length nodes + 1). split; [done|]. intros fuel Hf.
  destruct (loop_flat V N R H fuel (rev nodes)) with (es := (∅ : gmap (option nat) (list (nat * E * nat * E)))) (out := ([] : list (nat * mm_item E))) as (es' & P & Er).
  { intros n Hn. by apply Nin, rev_elem. }
  set (rest := concat (snd <$> shuffle (map_to_list es'))).
  assert (Hrest : rest ≡ₚ (ent V <$> concat (lk V <$> rev nodes))).
  { unfold rest. rewrite (Hsh (map_to_list es')). fold (allq es'). rewrite P. unfold allq. by rewrite map_to_list_empty. }
  exists (((fun n => (1, MMLeaf n)) <$> rev nodes) ++ mm_links 1 rest), (((fun n => ([], MMLeaf n)) <$> rev nodes) ++ link_items [] rest).
  assert (Ee : the_entries (((fun n => ([], MMLeaf n)) <$> rev nodes) ++ link_items [] rest) = rest).
  { unfold the_entries. rewrite omap_app. fold (the_entries ((fun n : nat => ([] : list nat, MMLeaf (E:=E) n)) <$> rev nodes)). fold (the_entries (link_items [] rest)). by rewrite leaves_entries, link_items_entries. }
  split_and!.
  - unfold mm_finish. rewrite En, !hbind_Ok.
    assert (Ef : filter (fun n => mm_is_root V None n = true) nodes = nodes) by (clear; induction nodes as [|n l IH]; [done|]; rewrite filter_cons_True by done; by rewrite IH). rewrite Ef.
    assert (Es : rev (SExplore <$> nodes) = SExplore <$> rev nodes) by (symmetry; apply map_rev). rewrite Es.
    specialize (Er (fuel - length nodes - 1)). rewrite rev_length in Er. replace (length nodes + S (fuel - length nodes - 1)) with fuel in Er by lia. rewrite Er, hbind_Ok. done.
  - apply leaves_items. pose proof (link_items_placed [] rest []) as Ep. rewrite app_nil_r in Ep. cbn [length] in Ep. rewrite Ep. cbn. by rewrite app_nil_r.
  - unfold the_nodes. rewrite omap_app. fold (the_nodes ((fun n : nat => ([] : list nat, MMLeaf (E:=E) n)) <$> rev nodes)). fold (the_nodes (link_items [] rest)).
    by rewrite leaves_nodes, link_items_nodes, app_nil_r.
  - intros os i n [Hi|Hi]%elem_of_app.
    + apply elem_of_list_fmap in Hi as (m & [= -> ->] & _). split; [done|]. cbn. congruence.
    + apply link_items_elem in Hi as (-> & Hn & _). split; [done|]. congruence.
  - assert (P' : the_links (((fun n => ([], MMLeaf n)) <$> rev nodes) ++ link_items [] rest) ≡ₚ concat (lk V <$> rev nodes)) by (apply (fold_links V); by rewrite Ee).
    destruct (lks_ok V N R H (rev nodes)) as [L1 L2]; [by rewrite <- (Permutation_rev nodes)|intros n; by rewrite rev_elem|].
    split; [by rewrite P'|]. intros x y. by rewrite P', L2.
  - intros os a x b y Hi. assert (He : (a, x, b, y) ∈ ent V <$> concat (lk V <$> rev nodes)).
    { rewrite <- Hrest, <- Ee. unfold the_entries. apply elem_of_list_omap. eexists. split; [exact Hi|done]. }
    apply (elem_lk V N R H) in He as (a' & x' & b' & y' & [= -> -> -> ->] & _ & HR & Ha & Hb & _); [done|]. intros n Hn. by apply Nin, rev_elem.
Qed.

Lemma C115_mermaid_refuted_pf :
exists h out items, hreach h /\ reach 16 vx_g /\
  mm_finish (filtered (lv_of_pg vx_g) (fun n => (n =? 0) || (n =? 2)) (fun _ => true)) id 30 (Some h) = HOk out /\
  lv_nodes (filtered (lv_of_pg vx_g) (fun n => (n =? 0) || (n =? 2)) (fun _ => true)) = HOk [0; 2] /\
  placed [] out = Some items /\ the_nodes items = [2; 0; 1; 2].
Proof.
  destruct (h_run h_new [HPush 1 0; HPush 2 1]) as [h| |] eqn:Eh; [|vm_compute in Eh; discriminate Eh|vm_compute in Eh; discriminate Eh].
  vm_compute in Eh. injection Eh as Eh. exists h. eexists. eexists. split.
  { rewrite <- Eh. eapply hr_step with (o := HPush 2 1); [eapply hr_step with (o := HPush 1 0); [apply hr_new| |]| |];
    try (vm_compute; reflexivity); intros (Hc & _); discriminate Hc. }
  split; [exact vx_reach|]. rewrite <- Eh. split; [vm_compute; reflexivity|]. split; [vm_compute; reflexivity|]. split; vm_compute; reflexivity.
Qed.

Lemma C115_mermaid_partial_pf :
forall E (V : lview E) N R h ch shuffle, shows V N R -> hreach h -> forest h ch -> (forall l, shuffle l ≡ₚ l) ->
  (forall c p, h_parent h c = Some p -> N p -> N c) ->
  exists nodes M, lv_nodes V = HOk nodes /\ forall fuel, M <= fuel -> exists out items rs ls,
    mm_finish V shuffle fuel (Some h) = HOk out /\ placed [] out = Some items /\
    NoDup (the_nodes items) /\ (forall n, n ∈ the_nodes items <-> N n) /\
    sublist rs nodes /\ (forall r, r ∈ rs <-> N r /\ forall p, h_parent h r = Some p -> ~ N p) /\
    Forall2 (tree_order ch) (rev rs) ls /\ the_nodes items = concat ls /\
    (forall os i n, (os, i) ∈ items -> mm_node i = Some n ->
       blocks h N n os /\ i = match ch n with [] => MMLeaf n | _ => MMStart n end) /\
    link_list V R (the_links items) /\
    (forall os a x b y, (os, MMLink a x b y) ∈ items -> R x y /\ lv_pnode V (lv_port V x) = Some a /\ lv_pnode V (lv_port V y) = Some b).
Proof.
  intros E V N R h ch shuffle H Hr Hf Hsh Hcl. destruct (hreach_inv _ Hr) as (ch' & HI'). assert (HI : HInv h ch) by (split; [done|apply HI']).
  destruct (finish_ok V N R H h Hr ch HI Hcl shuffle Hsh) as (nodes & M & En & HM). exists nodes, M. split; [done|]. intros fuel Hfuel.
  destruct (HM fuel Hfuel) as (out & items & lc & rs & ls & _ & H1 & H2 & H3 & H4 & H5 & H6 & H7 & H8 & H9 & H10 & H11 & _).
  exists out, items, rs, ls. split_and!; done.
Qed.

Lemma C116_placement_refuted_pf :
(exists h out items, hreach h /\ reach 16 vx_g /\ h_parent h 2 = Some 0 /\
   mm_finish (lv_of_pg vx_g) id 60 (Some h) = HOk out /\ placed [] out = Some items /\
   ([0], MMLeaf 2) ∈ items /\ ([], MMLink 2 8 2 6) ∈ items) /\
(exists h out items, hreach h /\ reach 16 vx_g /\ h_parent h 1 = Some 0 /\ h_parent h 3 = Some 0 /\
   mm_finish (filtered (lv_of_pg vx_g) (fun n => (n =? 0) || (n =? 1) || (n =? 3)) (fun _ => true)) id 30 (Some h) = HOk out /\ placed [] out = Some items /\
   ([0], MMLeaf 1) ∈ items /\ ([0], MMLeaf 3) ∈ items /\ ([], MMLink 1 4 3 9) ∈ items).
Proof.
  assert (Hin : forall (l : list (list nat * mm_item nat)) k x, l !! k = Some x -> x ∈ l) by (intros l k x; apply elem_of_list_lookup_2).
  split.
  - destruct (h_run h_new [HPush 2 0]) as [h| |] eqn:Eh; [|vm_compute in Eh; discriminate Eh|vm_compute in Eh; discriminate Eh].
    vm_compute in Eh. injection Eh as Eh. exists h. eexists. eexists. split.
    { rewrite <- Eh. eapply hr_step with (o := HPush 2 0); [apply hr_new| |]; try (vm_compute; reflexivity); intros (Hc & _); discriminate Hc. }
    split; [exact vx_reach|]. rewrite <- Eh. split; [reflexivity|]. split; [vm_compute; reflexivity|]. split; [vm_compute; reflexivity|].
    split; eapply elem_of_list_In; cbn; tauto.
  - destruct (h_run h_new [HPush 0 5; HPush 1 0; HPush 3 0]) as [h| |] eqn:Eh; [|vm_compute in Eh; discriminate Eh|vm_compute in Eh; discriminate Eh].
    vm_compute in Eh. injection Eh as Eh. exists h. eexists. eexists. split.
    { rewrite <- Eh. eapply hr_step with (o := HPush 3 0); [eapply hr_step with (o := HPush 1 0); [eapply hr_step with (o := HPush 0 5); [apply hr_new| |]| |]| |];
      try (vm_compute; reflexivity); intros (Hc & _); discriminate Hc. }
    split; [exact vx_reach|]. rewrite <- Eh. split; [reflexivity|]. split; [reflexivity|]. split; [vm_compute; reflexivity|]. split; [vm_compute; reflexivity|].
    split; [|split]; eapply elem_of_list_In; cbn; tauto.
Qed.

Lemma C116_placement_partial_pf :
forall E (V : lview E) N R h ch shuffle, shows V N R -> hreach h -> forest h ch -> (forall l, shuffle l ≡ₚ l) ->
  (forall c p, h_parent h c = Some p -> N c <-> N p) ->
  exists M, forall fuel, M <= fuel -> exists out items, mm_finish V shuffle fuel (Some h) = HOk out /\ placed [] out = Some items /\
    forall os a x b y, (os, MMLink a x b y) ∈ items ->
      (exists c os', is_lca h a b c /\ ch c <> [] /\ os = c :: os' /\ blocks h N c os')
      \/ os = [] /\ ((~ exists d, anc h d a /\ anc h d b) \/ a = b /\ ch a = []).
Proof.
  intros E V N R h ch shuffle H Hr Hf Hsh Hcl2. destruct (hreach_inv _ Hr) as (ch' & HI'). assert (HI : HInv h ch) by (split; [done|apply HI']).
  assert (Hcl : forall c p, h_parent h c = Some p -> N p -> N c) by (intros c p Hp; by apply Hcl2).
  assert (Hup : forall a c, anc h a c -> N c -> N a) by (intros a c Ha; induction Ha as [|x y z Hxy _ IH]; [done|]; intros Nx; apply IH; by apply (Hcl2 x y)).
  destruct (finish_ok V N R H h Hr ch HI Hcl shuffle Hsh) as (nodes & M & En & HM).
  destruct (lvs_nodes _ _ _ H) as (nodes' & En' & Nnd & Nin & _). rewrite En in En'. injection En' as <-.
  destruct (C114_lca_view_partial_pf h nodes Hr Nnd) as (K & l & HK).
  exists (M + K). intros fuel Hfuel.
  destruct (HM fuel ltac:(lia)) as (out & items & lc & rs & ls & Elc & H1 & H2 & _ & _ & _ & _ & _ & _ & _ & _ & H11 & H12).
  destruct (HK fuel ltac:(lia)) as (El & _ & Hrt & _). rewrite El in Elc. injection Elc as <-.
  assert (Hroot : forall a, N a -> exists r, r ∈ nodes /\ h_parent h r = None /\ anc h r a).
  { intros a Na. destruct (root_ex h ch HI a) as (r & Hra & Hrr). exists r. split; [|done]. apply Nin. by eapply Hup. }
  exists out, items. split; [done|]. split; [done|]. intros os a x b y Hi.
  destruct (H11 _ _ _ _ _ Hi) as (HR & Ha & Hb).
  assert (Na : N a) by (destruct (lvs_end _ _ _ H x y HR) as (q & Hq & Nq); rewrite Ha in Hq; by injection Hq as ->).
  assert (Nb : N b) by (destruct (lvs_end2 V N R H x y HR) as (q & Hq & Nq); rewrite Hb in Hq; by injection Hq as ->).
  assert (Hlca : forall a b, N a -> N b -> (exists c, lca_lca fuel l a b = HOk (Some c) /\ is_lca h a b c) \/ lca_lca fuel l a b = HOk None /\ ~ exists d, anc h d a /\ anc h d b).
  { intros a0 b0 Na0 Nb0. destruct (Hrt a0 b0 (Hroot _ Na0) (Hroot _ Nb0)) as (_ & _ & H0). exact H0. }
  destruct (H12) with (os := os) (a := a) (x := x) (b := b) (y := y) as [(c & os' & Ec & Hch & -> & Hbl)|[-> Hno]]; [|done| |].
  - intros a0 b0 c Na0 Nb0 Ec. destruct (Hlca a0 b0 Na0 Nb0) as [(c' & Ec' & (A1 & A2 & A3))|[Ec' _]]; [|congruence]. rewrite Ec in Ec'. injection Ec' as <-. split; [by eapply Hup|done].
  - left. exists c, os'. split; [|done]. destruct (Hlca a b Na Nb) as [(c' & Ec' & Hl)|[Ec' _]]; [|congruence]. rewrite Ec in Ec'. by injection Ec' as <-.
  - right. split; [done|]. destruct (Hlca a b Na Nb) as [(c & Ec & (A1 & A2 & A3))|[_ Hn]]; [right|by left].
    pose proof (Hno c Ec) as Hch. assert (Hdown : forall z, anc h c z -> z = c).
    { intros z Hz. apply (anc_ch h ch HI) in Hz as [?|(d & Hd & _)]; [done|]. rewrite Hch in Hd. by apply elem_of_nil in Hd. }
    rewrite (Hdown a A1), (Hdown b A2). done.
Qed.

Lemma C117_text_pf :
forall E (ns : nat -> node_style string pres_style) (es : E -> E -> edge_style) (out : list (nat * mm_item E)),
  (forall n, attrs_free (ns_attrs (ns n))) -> (forall x y t, mm_custom (es x y) = Some t -> free_of newline t) ->
  exists lines, mm_all_lines ns es out = Ok lines /\
    split_lines (mm_text lines) = "graph LR"%string :: ((fun l => str_repeat "    " l.1 +:+ l.2) <$> lines) /\
    (forall i, i ∈ out -> exists s, (i.1, s) ∈ lines /\
       match i.2 with
       | MMLeaf n => exists t, s = pretty n +:+ t
       | MMStart n => exists t, s = "subgraph " +:+ pretty n +:+ t
       | MMEnd => s = "end"%string
       | MMLink a x b y => exists t, s = pretty a +:+ t +:+ pretty b /\ as_mermaid_str (es x y) = Ok t
       end).
Proof.
  intros E ns es out Ha He.
  assert (H1 : forall i : nat * mm_item E, exists l s, mm_lines ns es i = Ok ((i.1, s) :: l) /\ Forall (fun l => free_of newline l.2) ((i.1, s) :: l) /\
       match i.2 with
       | MMLeaf n => exists t, s = pretty n +:+ t
       | MMStart n => exists t, s = "subgraph " +:+ pretty n +:+ t
       | MMEnd => s = "end"%string
       | MMLink a x b y => exists t, s = pretty a +:+ t +:+ pretty b /\ as_mermaid_str (es x y) = Ok t
       end).
  { assert (Hst : forall k n a, attrs_free a -> Forall (fun l : nat * string => free_of newline l.2) (mm_style k n a)).
    { intros k n a Hfr. unfold mm_style. destruct (pres_empty a); [constructor|]. constructor; [|constructor]. cbn [snd].
      apply free_app; [cbn; repeat split; discriminate|]. apply free_app; [apply free_pretty|]. apply free_app; [cbn; repeat split; discriminate|by apply free_attrs]. }
    assert (Hbox : forall n l, free_of newline (pretty (n : nat) +:+ "[" +:+ encode_label (pretty n) l +:+ "]")).
    { intros n l. apply free_app; [apply free_pretty|]. apply free_app; [cbn; repeat split; discriminate|]. apply free_app; [apply free_label, free_pretty|cbn; repeat split; discriminate]. }
    intros [k [n|n| |a x b y]]; cbn [mm_lines fst snd].
    - specialize (Ha n). destruct (ns n) as [|l|l at0].
      + eexists _, _. split; [reflexivity|]. split; [|eauto]. constructor; [|constructor]. cbn [snd]. apply free_app; [apply free_pretty|cbn; repeat split; discriminate].
      + eexists _, _. split; [reflexivity|]. split; [|eauto]. constructor; [apply Hbox|constructor].
      + eexists _, _. split; [reflexivity|]. split; [|eauto]. constructor; [apply Hbox|by apply Hst].
    - eexists _, _. split; [reflexivity|]. split; [|eauto]. constructor; [|constructor; [cbn; repeat split; discriminate|by apply Hst]]. cbn [snd].
      apply free_app; [cbn; repeat split; discriminate|]. apply free_app; [apply free_pretty|]. apply free_app; [cbn; repeat split; discriminate|].
      apply free_app; [|cbn; repeat split; discriminate]. destruct (ns n); [cbn; repeat split; discriminate|apply free_label, free_pretty|apply free_label, free_pretty].
    - eexists _, _. split; [reflexivity|]. split; [|done]. repeat constructor; discriminate.
    - destruct (proj1 (proj2 (proj2 (proj2 C113_labels_pf))) (es x y)) as [s Es]. rewrite Es. cbn [mbind res_bind]. eexists _, _. split; [reflexivity|]. split; [|eauto]. constructor; [|constructor]. cbn [snd].
      apply free_app; [apply free_pretty|]. apply free_app; [|apply free_pretty]. eapply free_edge; [exact Es|apply He]. }
  assert (H2 : exists lines, mm_all_lines ns es out = Ok lines /\ Forall (fun l => free_of newline l.2) lines /\
    forall i, i ∈ out -> exists s, (i.1, s) ∈ lines /\
       match i.2 with
       | MMLeaf n => exists t, s = pretty n +:+ t
       | MMStart n => exists t, s = "subgraph " +:+ pretty n +:+ t
       | MMEnd => s = "end"%string
       | MMLink a x b y => exists t, s = pretty a +:+ t +:+ pretty b /\ as_mermaid_str (es x y) = Ok t
       end).
  { induction out as [|i out IH].
    - exists []. split; [done|]. split; [constructor|]. intros i Hi. by apply elem_of_nil in Hi.
    - destruct IH as (lines & El & Fl & Hl). destruct (H1 i) as (l & s & Ei & Fi & Hi). exists (((i.1, s) :: l) ++ lines).
      cbn [mm_all_lines]. rewrite Ei. cbn [mbind res_bind]. rewrite El. cbn [mbind res_bind]. split; [done|]. split; [by apply Forall_app|].
      intros j [-> |Hj]%elem_of_cons; [exists s; split; [by left|done]|]. destruct (Hl j Hj) as (t & Ht & Hj'). exists t. split; [|done]. apply elem_of_app. by right. }
  destruct H2 as (lines & El & Fl & Hl). exists lines. split; [done|]. split; [|done].
  assert (Hnl : forall t : string, (String newline "" +:+ t = String newline t)%string) by reflexivity.
  unfold mm_text. rewrite Hnl, split_app by (cbn; repeat split; discriminate). f_equal. clear El Hl.
  induction Fl as [|[k s] lines Hs Fl IH]; [done|]. cbn [fmap list_fmap foldr fst snd].
  assert (Ep : (mm_push (k, s) +:+ foldr String.append "" (mm_push <$> lines) = (str_repeat "    " k +:+ s) +:+ String newline (foldr String.append "" (mm_push <$> lines)))%string).
  { unfold mm_push at 1. cbn [fst snd]. by rewrite !str_app_assoc, Hnl. }
  etrans; [apply (f_equal split_lines), Ep|]. rewrite split_app by (apply free_app; [apply free_repeat|done]). f_equal. exact IH.
Qed.

Lemma split_on_free c s : free_of c s -> split_on c s = [s].
Proof.
  induction s as [|x s IH]; [done|]. intros [Hx Hs]. cbn [split_on]. destruct (Ascii.eqb_spec x c); [done|]. by rewrite (IH Hs).
Qed.
Lemma split_on_app c s t : free_of c s -> split_on c (s +:+ String c t) = s :: split_on c t.
Proof.
  induction s as [|x s IH].
  - intros _. change (split_on c (String c t) = ""%string :: split_on c t). cbn [split_on]. by rewrite Ascii.eqb_refl.
  - intros [Hx Hs]. change (split_on c (String x (s +:+ String c t)) = String x s :: split_on c t). cbn [split_on].
    destruct (Ascii.eqb_spec x c); [done|]. by rewrite (IH Hs).
Qed.
Lemma split_join c l : l <> [] -> Forall (free_of c) l -> split_on c (str_join (String c "") l) = l.
Proof.
  intros Hn. induction 1 as [|s l Hs Hl IH]; [done|]. destruct l as [|t l]; [by apply split_on_free|].
  change (split_on c (s +:+ String c (str_join (String c "") (t :: l))) = s :: t :: l). rewrite split_on_app by done. f_equal. by apply IH.
Qed.

Lemma C117_styles_pf :
forall E (ns : nat -> node_style string pres_style) (es : E -> E -> edge_style) ind n,
  (forall s, s ∈ css (ns_attrs (ns n)) -> free_of ","%char s) ->
  exists first first' rest,
    mm_lines ns es (ind, MMLeaf n) = Ok ((ind, first) :: (prod_map (fun _ => ind) id <$> rest)) /\
    mm_lines ns es (ind, MMStart n) = Ok ((ind, first') :: (ind + 1, "direction LR"%string) :: rest) /\
    (forall l, (ns n = NBox l \/ exists a, ns n = NBoxed l a) ->
       first = (pretty n +:+ "[" +:+ encode_label (pretty n) l +:+ "]")%string /\
       first' = ("subgraph " +:+ pretty n +:+ " [" +:+ encode_label (pretty n) l +:+ "]")%string) /\
    (css (ns_attrs (ns n)) = [] -> rest = []) /\
    (css (ns_attrs (ns n)) <> [] -> exists t, rest = [(ind + 1, "style " +:+ pretty n +:+ " " +:+ t)]%string /\
       split_on ","%char t = css (ns_attrs (ns n))).
Proof.
intros E ns es ind n Hf.
assert (Hj : encode_attrs (ns_attrs (ns n)) = str_join "," (css (ns_attrs (ns n)))).
{ unfold encode_attrs, css. destruct (ns_attrs (ns n)) as [[] [] [] []]; reflexivity. }
assert (He : pres_empty (ns_attrs (ns n)) = true <-> css (ns_attrs (ns n)) = []).
{ unfold css. destruct (ns_attrs (ns n)) as [[] [] [] []]; cbn; split; done. }
assert (Hd : forall k, mm_style k n pres_default = []) by done.
eexists _, _, (mm_style (ind + 1) n (ns_attrs (ns n))).
split; [|split; [reflexivity|]].
{ cbn [mm_lines]. instantiate (1 := match ns n with NHidden => pretty n +:+ ":::hidden" | NBox l | NBoxed l _ => pretty n +:+ "[" +:+ encode_label (pretty n) l +:+ "]" end%string).
  destruct (ns n) as [|l|l a]; cbn [ns_attrs]; [by rewrite Hd|by rewrite Hd|]. unfold mm_style. by destruct (pres_empty a). }
split; [|split].
- intros l [H|[a H]]; rewrite H; done.
- intros H. apply He in H. unfold mm_style. by rewrite H.
- intros H. unfold mm_style. destruct (pres_empty (ns_attrs (ns n))) eqn:Ep; [exfalso; apply H, He; done|].
  eexists. split; [reflexivity|]. rewrite Hj. change ","%string with (String ","%char ""). apply split_join; [done|].
  apply Forall_forall. exact Hf.
Qed.
