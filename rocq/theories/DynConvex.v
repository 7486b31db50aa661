(** Histories and convexity queries of the dynamic checker. *)
From Verif Require Export DynOrder.

Lemma link_updates fuel t g p q a b g' x i j t' : port_node g p = Some a -> port_node g q = Some b -> link_ports g p q = Ok (g', inr x) ->
  dt_pos t !! a = Some i -> dt_pos t !! b = Some j -> j <= i -> dc_link_ports fuel (DC t g) p q = HOk (DC t' g', inr x) ->
  dt_update_order (neighbours g') fuel t a b = HOk t'.
Proof.
  intros Ha Hb El Hi Hj Hji E. unfold dc_link_ports in E. cbn [dc_graph dc_topo] in E. rewrite Ha, Hb in E.
  destruct (dt_would_create_cycle (neighbours g) _ _ _ _) as [[]| |]; cbn [mbind hres_bind] in E; try done.
  rewrite El in E. cbn [lift mbind hres_bind] in E. unfold dt_connect in E. rewrite Hi, Hj in E.
  destruct (dt_would_create_cycle (neighbours g') _ _ _ _) as [[]| |]; cbn [mbind hres_bind] in E; try done.
  rewrite decide_True in E by done. destruct (dt_update_order _ _ _ _ _) as [t1| |]; cbn [mbind hres_bind] in E; try done.
  by injection E as <-.
Qed.

Lemma dreach_good w c : dreach w c -> reach w (dc_graph c) /\ dgood (dc_graph c) (dc_topo c).
Proof.
  induction 1 as [fuel g c Hr Hac E|c i j c' n _ [Hr Hg] Hij E|c n c' _ [Hr Hg] E|c p c' r _ [Hr Hg] E|c p q c' r a b _ [Hr Hg] Ha Hb Hbef [N E]
    |c n i j c' log _ [Hr Hg] E|c c' log _ [Hr Hg] Hh E|c c' log _ [Hr Hg] Hid E].
  - destruct (dgood_new' w fuel g c Hr Hac E) as [-> ?]. done.
  - unfold dc_add_node in E. destruct (add_node _ _ _ _) as [[g' n']|] eqn:Ea; [|done]. cbn [mbind res_bind] in E. injection E as <- <-.
    split; [|by eapply dgood_add]. cbn [dc_graph].
    apply (reach_step w (dc_graph c) (OAdd i j) g' (RNode n') Hr); [done|cbn; by rewrite Ea].
  - unfold dc_remove_node in E. destruct (remove_node _ n) as [g'|] eqn:Ea; [|done]. cbn [mbind res_bind] in E.
    destruct (contains_node (dc_graph c) n) eqn:Ec.
    + destruct (dgood_remove w _ n g' _ Hr Hg Ec Ea) as (t' & Et & Hg'). rewrite Et in E. cbn [mbind res_bind] in E. injection E as <-.
      split; [|done]. apply (reach_step w (dc_graph c) (ORemove n) g' RUnit Hr); [done|cbn; by rewrite Ea].
    + exfalso. unfold dt_remove_node in E. destruct (dt_pos (dc_topo c) !! n) eqn:En; [|done].
      assert (is_Some (dt_pos (dc_topo c) !! n)) as Hx by eauto. apply (dgood_pos _ _ _ Hg) in Hx. congruence.
  - unfold dc_unlink_port in E. destruct (unlink_port _ p) as [[g' r']|] eqn:Ea; [|done]. cbn [mbind res_bind] in E.
    assert (c' = DC (dc_topo c) g') as ->.
    { destruct r' as [q|]; [|by injection E as <- <-]. destruct (unwrap (port_node g' p)); [|done]. cbn [mbind res_bind] in E.
      destruct (neighbours g' a Outgoing); [|done]. cbn [mbind res_bind] in E. destruct (existsb _ _); [done|]. by injection E as <- <-. }
    cbn [dc_graph dc_topo]. split.
    + apply (reach_step w (dc_graph c) (OUnlink p) g' (RUnlink r') Hr); [done|cbn; by rewrite Ea].
    + eapply dgood_sub; [exact Hg| |].
      * destruct (C09_unlink_port_pf w _ p Hr) as (g1 & r1 & E1 & H1 & H2 & H3). rewrite E1 in Ea. injection Ea as -> ->.
        destruct r' as [q|]; [|by rewrite H2]. destruct (H3 q eq_refl) as (_ & _ & _ & _ & Hn & _). intros n. by destruct (Hn n).
      * intros x y Hxy%(pedge_unlink w _ Hr _ _ _ _ _ Ea). destruct Hg as [(_ & _ & Ho) _]. by apply Ho.
  - destruct c as [t g]. cbn [dc_graph dc_topo] in *.
    destruct (C07_link_ports_pf w g p q Hr) as (g' & rl & El & Hiff & H2 & H3).
    destruct rl as [e|x].
    + destruct (H3 e eq_refl) as [-> _]. specialize (E (S N) ltac:(lia)). unfold dc_link_ports in E. cbn [dc_graph dc_topo] in E.
      rewrite Ha, Hb in E. destruct (dt_would_create_cycle _ _ _ _ _) as [[]| |]; cbn [mbind hres_bind] in E; [done| |done|done].
      rewrite El in E. cbn [lift mbind hres_bind] in E. injection E as <- <-. done.
    + destruct Hiff as [Hiff _]. destruct Hiff as ((d & Hd1 & Hd2) & _); [by exists x|]. destruct d; cbn in Hd2.
      * exfalso. destruct (reversed_panics w g Hr t Hg q p b a) with (g' := g') (x := x) as [N' HN'].
        -- apply (in_ports_iff w g Hr). done.
        -- apply (in_ports_iff w g Hr). done.
        -- done.
        -- specialize (E (S (N `max` N')) ltac:(lia)). rewrite HN' in E by lia. done.
      * assert (Hpa : p ∈ ports g a Outgoing) by (by apply (in_ports_iff w g Hr)).
        assert (Hqb : q ∈ ports g b Incoming) by (by apply (in_ports_iff w g Hr)).
        assert (Hn1 : ~ rtc (pedge g Outgoing) a b).
        { intros Hab. destruct (link_reaching w g Hr t Hg p q a b Hpa Hqb Hab) as [N' HN'].
          specialize (E (S (N `max` N')) ltac:(lia)). rewrite HN' in E by lia. done. }
        destruct (link_cases w g Hr t Hg p q a b Hpa Hqb Hn1) as [N' HN'].
        destruct (HN' (S (N `max` N'))) as (g1 & r1 & El1 & H1); [lia|]. rewrite El in El1. injection El1 as <- <-.
        pose proof E as E0. specialize (E (S (N `max` N')) ltac:(lia)). destruct H1 as [Hpan Hok].
        assert (Hn2 : ~ rtc (pedge g Outgoing) b a) by (intros Hba; rewrite Hpan in E by done; done).
        destruct (linked_edges w g Hr p q a b Hpa Hqb g' x El) as (Hr' & He & Hn).
        destruct Hbef as [Hbef|(l1 & mid & l2 & Hl & M1 & M2 & M3)].
        -- destruct (Hok Hn2) as (t' & E' & Ht'). rewrite E in E'. injection E' as -> ->. rewrite (Ht' Hbef). cbn [dc_graph dc_topo].
           split; [done|].
           eapply dgood_sub; [exact Hg|done|]. intros y z [Hyz|[-> ->]]%He; [|done]. destruct Hg as [(_ & _ & Ho) _]. by apply Ho.
        -- set (N3 := length l1 + S (length mid) + length l1).
           destruct (Hok Hn2) as (t' & E' & _). rewrite E in E'. injection E' as -> ->. cbn [dc_graph dc_topo]. split; [done|].
           destruct (HN' (S (N `max` N' `max` N3))) as (g1 & r1 & El1 & H1); [lia|]. rewrite El in El1. injection El1 as <- <-.
           destruct H1 as [_ Hok1]. destruct (Hok1 Hn2) as (t1 & E1 & _).
           specialize (E0 (S (N `max` N' `max` N3)) ltac:(lia)). rewrite E0 in E1. injection E1 as <-.
           eapply (reorder_good w g Hr t Hg p q a b Hpa Hqb l1 mid l2 Hl g' x El Hn2 (S (N `max` N' `max` N3)) t'); [lia| |done|done|done].
           eapply link_updates; [exact Ha|exact Hb|exact El|apply (pos_a g t Hg a b l1 mid l2 Hl)|apply (pos_b g t Hg a b l1 mid l2 Hl)|lia|exact E0].
  - unfold dc_set_num_ports in E. destruct (set_num_ports _ _ _ _) as [[g' l]|] eqn:Es; [|done]. cbn [mbind res_bind] in E. injection E as <- <-.
    destruct (set_ports_keep w _ Hr _ _ _ _ _ Es) as (Hr' & Hn & He). split; [done|]. cbn [dc_graph dc_topo].
    eapply dgood_sub; [exact Hg|done|]. intros a b Hab%He. destruct Hg as [(_ & _ & Ho) _]. by apply Ho.
  - unfold dc_compact_ports in E. destruct (compact_ports _) as [[g' l]|] eqn:Es; [|done]. cbn [mbind res_bind] in E. injection E as <- <-.
    destruct (compact_ports_keep w _ Hr _ _ Hh Es) as (Hr' & Hn & He). split; [done|]. cbn [dc_graph dc_topo].
    eapply dgood_sub; [exact Hg|done|]. intros a b Hab%He. destruct Hg as [(_ & _ & Ho) _]. by apply Ho.
  - unfold dc_compact_nodes in E. destruct (compact_nodes _) as [[g' l]|] eqn:Es; [|done]. cbn [mbind res_bind] in E. injection E as <- <-.
    destruct (compact_nodes_keep w _ Hr _ _ Hid Es) as (Hr' & Hn & He). split; [done|]. cbn [dc_graph dc_topo].
    eapply dgood_sub; [exact Hg|done|]. intros a b Hab%He. destruct Hg as [(_ & _ & Ho) _]. by apply Ho.
Qed.

(** ** Convexity *)
Lemma hany_ok {A} (f : A -> hres bool) (P : A -> Prop) l : (forall x, x ∈ l -> exists b, f x = HOk b /\ (b = true <-> P x)) ->
  exists r, hany f l = HOk r /\ (r = true <-> exists x, x ∈ l /\ P x).
Proof.
  induction l as [|x l IH]; intros H; cbn [hany].
  - exists false. split; [done|]. split; [done|]. by intros (x & ?%elem_of_nil & _).
  - destruct (H x) as (b & -> & Hb); [by left|]. cbn [mbind hres_bind]. destruct b.
    + exists true. split; [done|]. split; [|done]. intros _. exists x. split; [by left|by apply Hb].
    + destruct IH as (r & -> & Hr); [intros y Hy; apply H; by right|]. exists r. split; [done|]. rewrite Hr.
      split; intros (y & Hy & HP); exists y; split; try done; [by right|]. apply elem_of_cons in Hy as [->|?]; [|done].
      apply Hb in HP. done.
Qed.
Lemma foldl_min_ok l x : exists m, foldl min x l = m /\ (m = x \/ m ∈ l) /\ m <= x /\ forall y, y ∈ l -> m <= y.
Proof.
  revert x. induction l as [|z l IH]; intros x; cbn [foldl].
  - exists x. split; [done|]. split; [by left|]. split; [done|]. by intros y ?%elem_of_nil.
  - destruct (IH (x `min` z)) as (m & -> & H1 & H2 & H3). exists m. split; [done|]. split; [|split; [lia|]].
    + destruct H1 as [->|?]; [|right; by right]. destruct (Nat.min_spec x z) as [[_ ->]|[_ ->]]; [by left|right; by left].
    + intros y [->|?]%elem_of_cons; [lia|auto].
Qed.
Lemma foldl_max_ok l x : exists m, foldl max x l = m /\ (m = x \/ m ∈ l) /\ x <= m /\ forall y, y ∈ l -> y <= m.
Proof.
  revert x. induction l as [|z l IH]; intros x; cbn [foldl].
  - exists x. split; [done|]. split; [by left|]. split; [done|]. by intros y ?%elem_of_nil.
  - destruct (IH (x `max` z)) as (m & -> & H1 & H2 & H3). exists m. split; [done|]. split; [|split; [lia|]].
    + destruct H1 as [->|?]; [|right; by right]. destruct (Nat.max_spec x z) as [[_ ->]|[_ ->]]; [right; by left|by left].
    + intros y [->|?]%elem_of_cons; [lia|auto].
Qed.

Lemma convex_query_ok w g t S : reach w g -> dgood g t -> NoDup S -> (forall n, n ∈ S -> contains_node g n = true) ->
  exists N, forall fuel, N < fuel -> exists r, dc_is_convex fuel (DC t g) S [] [] = HOk r /\
    (r = false <-> exists s x h, s ∈ S /\ h ∈ S /\ x ∉ S /\ pedge g Outgoing s x /\ before (dt_order t) x h).
Proof.
  intros Hr Hg Hnd HS. unfold dc_is_convex, dt_is_convex. cbn [dc_graph dc_topo].
  assert (Hpos : forall n, n ∈ S -> is_Some (dt_pos t !! n)) by (intros n Hn; apply (dgood_pos _ _ _ Hg); auto).
  assert (Hex : existsb (fun n => bool_decide (dt_pos t !! n = None)) S = false).
  { apply not_true_iff_false. rewrite existsb_exists. intros (n & Hn & Hb%bool_decide_eq_true). apply elem_of_list_In, Hpos in Hn as [? ?]. congruence. }
  rewrite Hex.
  assert (Hbef : forall x h i j, dt_pos t !! x = Some i -> dt_pos t !! h = Some j -> before (dt_order t) x h <-> i < j).
  { intros x h i j Hi Hj. split; [intros Hb; by eapply dgood_lt|]. intros Hij. destruct Hg as [_ Hs]. exists i, j. split; [done|]. by split; apply Hs. }
  destruct (decide (length S < 2)) as [Hlen|Hlen].
  { exists 0. intros fuel _. exists true. split; [done|]. split; [done|]. intros (s & x & h & Hs & Hh & Hx & Hsx & Hxh).
    exfalso. assert (s = h) as ->.
    { destruct S as [|y [|z S]]; cbn in Hlen; [by apply elem_of_nil in Hs| |lia]. apply elem_of_list_singleton in Hs, Hh. congruence. }
    destruct Hg as [(Hndo & _ & Ho) _]. apply (before_irrefl (dt_order t) h Hndo). eapply before_trans; [done|by apply Ho|done]. }
  set (ps := omap (fun n => dt_pos t !! n) S).
  assert (Hps : forall k, k ∈ ps <-> exists n, n ∈ S /\ dt_pos t !! n = Some k).
  { intros k. unfold ps. by rewrite elem_of_list_omap. }
  destruct (foldl_min_ok ps (default 0 (head ps))) as (lo & -> & Hlo1 & _ & Hlo2).
  destruct (foldl_max_ok ps 0) as (hi & -> & Hhi1 & _ & Hhi2).
  assert (Hne : exists k, k ∈ ps).
  { destruct S as [|y S]; [cbn in Hlen; lia|]. destruct (Hpos y) as [k Hk]; [by left|]. exists k. apply Hps. exists y. split; [by left|done]. }
  assert (Hlo : lo ∈ ps).
  { destruct Hlo1 as [->|?]; [|done]. destruct ps as [|k ps']; [by destruct Hne as [k ?%elem_of_nil]|]. by left. }
  assert (Hhi : hi ∈ ps).
  { destruct Hhi1 as [->|?]; [|done]. destruct Hne as [k Hk]. specialize (Hhi2 k Hk). assert (k = 0) as -> by lia. done. }
  clear Hlo1 Hhi1 Hne. apply Hps in Hhi as (nh & Hnh & Hph).
  assert (Hrange : forall n i, n ∈ S -> dt_pos t !! n = Some i -> lo <= i <= hi).
  { intros n i Hn Hi. assert (i ∈ ps) by (apply Hps; by exists n). auto. }
  assert (Hbound : exists N, forall fuel, N < fuel -> forall start stop, start ∈ S -> stop ∈ S -> exists r,
     dt_has_path_outside (neighbours g) fuel t start stop lo hi S = HOk r /\
    (r = true <-> exists z, rtc (fun x y => (x ∈ S \/ x = start) /\ x <> stop /\ pedge g Outgoing x y /\
         exists i, dt_pos t !! y = Some i /\ lo <= i <= hi) start z /\ z ∉ S /\ z <> start)).
  { assert (H : forall L1 L2 : list nat, exists N, forall fuel, N < fuel -> forall start stop, start ∈ L1 -> stop ∈ L2 -> exists r,
       dt_has_path_outside (neighbours g) fuel t start stop lo hi S = HOk r /\
      (r = true <-> exists z, rtc (fun x y => (x ∈ S \/ x = start) /\ x <> stop /\ pedge g Outgoing x y /\
           exists i, dt_pos t !! y = Some i /\ lo <= i <= hi) start z /\ z ∉ S /\ z <> start)); [|apply H].
    induction L1 as [|s L1 IH1]; [exists 0; intros ? _ ? ? ?%elem_of_nil; done|].
    induction L2 as [|e L2 IH2]; [exists 0; intros ? _ ? ? _ ?%elem_of_nil; done|].
    destruct (IH1 (e :: L2)) as [N1 H1]. destruct IH2 as [N2 H2]. destruct (outside_ok w g Hr t s e lo hi S) as [N3 H3].
    exists (N1 `max` N2 `max` N3). intros fuel Hf start stop Hs He. apply elem_of_cons in Hs as [->|Hs]; [|apply H1; [lia|done|done]].
    apply elem_of_cons in He as [->|He]; [apply H3; lia|apply H2; [lia|by left|done]]. }
  destruct Hbound as [N HN]. exists N. intros fuel Hf.
  rewrite decide_True by done.
  destruct (hany_ok (fun start => hany (fun stop =>
              if decide (start = stop) then HOk false
              else
                start_pos ← lift (unwrap (dt_pos t !! start));
                stop_pos ← lift (unwrap (dt_pos t !! stop));
                if decide (start_pos < stop_pos) then dt_has_path_outside (neighbours g) fuel t start stop lo hi S
                else HOk false) S)
    (fun start => exists stop, stop ∈ S /\ before (dt_order t) start stop /\
       exists z, rtc (fun x y => (x ∈ S \/ x = start) /\ x <> stop /\ pedge g Outgoing x y /\
         exists i, dt_pos t !! y = Some i /\ lo <= i <= hi) start z /\ z ∉ S /\ z <> start) S) as (b & -> & Hb).
  { intros start Hs. apply hany_ok. intros stop He. destruct (Hpos _ Hs) as [i Hi]. destruct (Hpos _ He) as [j Hj].
    destruct (decide (start = stop)) as [<-|Hne].
    { exists false. split; [done|]. split; [done|]. intros [Hbb _]. apply (Hbef _ _ _ _ Hi Hi) in Hbb. lia. }
    rewrite Hi, Hj. cbn [unwrap lift mbind hres_bind]. destruct (decide (i < j)) as [Hij|Hij].
    - destruct (HN fuel Hf start stop Hs He) as (r & -> & Hrr). exists r. split; [done|]. rewrite Hrr.
      split; [intros Hz; split; [by apply (Hbef _ _ i j)|done]|by intros [_ ?]].
    - exists false. split; [done|]. split; [done|]. intros [Hbb%(Hbef _ _ _ _ Hi Hj) _]. lia. }
  cbn [mbind hres_bind]. exists (negb b). split; [done|]. rewrite negb_false_iff, Hb. split.
  - intros (start & Hs & stop & He & Hse & z & Hz & Hz1 & _).
    (* the first node outside *)
    assert (H : exists s x i, s ∈ S /\ x ∉ S /\ pedge g Outgoing s x /\ dt_pos t !! x = Some i /\ i <= hi).
    { clear Hse Hb. assert (Hz' : rtc (fun x y => pedge g Outgoing x y /\ exists i, dt_pos t !! y = Some i /\ lo <= i <= hi) start z).
      { eapply rtc_subrel; [|exact Hz]. by intros ? ? (_ & _ & ?). }
      clear Hz. induction Hz' as [y|y y' z (Hyy & i & Hi & Hii) _ IH]; [done|].
      destruct (decide (y' ∈ S)) as [Hy'|Hy']; [by apply IH|]. exists y, y', i. split; [done|]. split; [done|]. split; [done|]. split; [done|lia]. }
    destruct H as (s & x & i & H1 & H2 & H3 & H4 & H5). exists s, x, nh. split; [done|]. split; [done|]. split; [done|]. split; [done|].
    apply (Hbef _ _ i hi); [done|done|]. destruct (decide (i = hi)) as [->|]; [|lia]. exfalso. apply H2.
    destruct Hg as [_ Hsy]. apply Hsy in H4. apply Hsy in Hph. congruence.
  - intros (s & x & h & Hs & Hh & Hx & Hsx & Hxh). exists s. split; [done|].
    destruct (dgood_edge _ _ _ _ Hg Hsx) as (i & j & Hi & Hj & Hij). destruct (Hpos _ Hh) as [k Hk].
    pose proof (proj1 (Hbef _ _ _ _ Hj Hk) Hxh). pose proof (Hrange _ _ Hs Hi). pose proof (Hrange _ _ Hh Hk).
    exists h. split; [done|]. split; [apply (Hbef _ _ i k); [done|done|lia]|]. exists x. split; [|split; [done|by intros ->]].
    apply rtc_once. split; [by left|]. split; [intros ->; rewrite Hi in Hk; injection Hk as ->; lia|]. split; [done|]. exists j. split; [done|lia].
Qed.
