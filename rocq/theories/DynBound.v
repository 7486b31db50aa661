(** Convexity queries of the dynamic checker with a boundary. *)
From Verif Require Export DynConvex.

(** The search of [can_reach_inputs], over abstract successors [ex]. *)
Section fbfs.
  Context (out hit : nat -> bool) (ex : nat -> list nat) (U : list nat) (start : nat).
  Context (HU : forall n m, n ∈ U -> m ∈ ex n -> m ∈ U).
  Fixpoint fbfs (fuel : nat) (queue : list (nat * bool)) (visited : gset nat) : hres bool :=
    match fuel with
    | 0 => HLoop
    | S fuel =>
        match queue with
        | [] => HOk false
        | (node, f) :: queue =>
            if decide (node ∈ visited) then fbfs fuel queue visited
            else if (f || out node) && hit node then HOk true
            else fbfs fuel (queue ++ map (fun n => (n, f || out node)) (ex node)) ({[node]} ∪ visited)
        end
    end.
  Definition exs (a b : nat) : Prop := b ∈ ex a.
  Definition exi (a b : nat) : Prop := out a = false /\ b ∈ ex a.
  Lemma fbfs_run fuel queue visited :
    (forall n f, (n, f) ∈ queue -> n ∈ U /\ rtc exs start n /\ (f = true -> exists x, out x = true /\ rtc exs start x /\ rtc exs x n) /\
       (f = false -> rtc exi start n)) ->
    (forall n, n ∈ visited -> (hit n = true -> rtc exi start n /\ out n = false) /\ forall m, m ∈ ex n -> m ∈ visited \/ exists f, (m, f) ∈ queue) ->
    (start ∈ visited \/ exists f, (start, f) ∈ queue) ->
    length queue + bfs_cost ex U visited < fuel ->
    exists r, fbfs fuel queue visited = HOk r /\
      (r = true -> exists x a, out x = true /\ rtc exs start x /\ rtc exs x a /\ hit a = true) /\
      (r = false -> forall a, rtc exs start a -> hit a = true -> rtc exi start a /\ out a = false).
  Proof.
    revert queue visited. induction fuel as [|fuel IH]; intros queue visited HQ HV HS Hf; [lia|]. cbn [fbfs].
    destruct queue as [|[node f] queue].
    { exists false. split; [done|]. split; [done|]. intros _ a Ha Hh. assert (Hin : a ∈ visited).
      { assert (Hs : start ∈ visited) by (destruct HS as [?|[f ?%elem_of_nil]]; done). assert (HC : forall s, rtc exs s a -> s ∈ visited -> a ∈ visited).
        { clear -HV. induction 1 as [|a b c Hab _ IHa]; [done|]. intros Hs. apply IHa. destruct (proj2 (HV a Hs) b Hab) as [?|[f H%elem_of_nil]]; done. }
        by apply (HC start). }
      by apply (HV a Hin). }
    destruct (HQ node f (elem_of_list_here _ _)) as (Hn & Hsn & Hft & Hff).
    destruct (decide (node ∈ visited)) as [Hv|Hv].
    { apply IH; [intros n f' Hin; apply HQ; by right| | |cbn in Hf; lia].
      - intros n Hin. destruct (HV n Hin) as [H1 H2]. split; [done|]. intros m Hm. destruct (H2 m Hm) as [?|[f' [[= -> ->]|?]%elem_of_cons]]; eauto.
      - destruct HS as [?|[f' [[= -> ->]|?]%elem_of_cons]]; eauto. }
    destruct ((f || out node) && hit node) eqn:Eh.
    { exists true. split; [done|]. split; [|done]. intros _. apply andb_true_iff in Eh as [Eo Eh]. apply orb_true_iff in Eo as [->|Eo].
      - destruct (Hft eq_refl) as (x & ? & ? & ?). by exists x, node.
      - exists node, node. done. }
    apply IH.
    - intros n f' [Hin|Hin]%elem_of_app; [apply HQ; by right|]. apply elem_of_list_fmap in Hin as (n' & [= -> ->] & Hin).
      split; [by eapply HU|]. split; [by eapply rtc_r|]. split.
      + intros Eo. apply orb_true_iff in Eo as [->|Eo].
        * destruct (Hft eq_refl) as (x & ? & ? & ?). exists x. split; [done|]. split; [done|]. by eapply rtc_r.
        * exists node. split; [done|]. split; [done|]. by apply rtc_once.
      + intros [-> Eo]%orb_false_iff. eapply rtc_r; [by apply Hff|]. done.
    - intros n [->%elem_of_singleton|Hin]%elem_of_union.
      + split.
        * intros Hh. rewrite Hh, andb_true_r in Eh. apply orb_false_iff in Eh as [-> Eo]. split; [by apply Hff|done].
        * intros m Hm. right. exists (f || out node). apply elem_of_app. right. apply elem_of_list_fmap. by exists m.
      + destruct (HV n Hin) as [H1 H2]. split; [done|]. intros m Hm. destruct (H2 m Hm) as [?|[f' [[= -> ->]|?]%elem_of_cons]].
        * left. set_solver.
        * left. set_solver.
        * right. exists f'. apply elem_of_app. by left.
    - destruct HS as [?|[f' [[= -> ->]|?]%elem_of_cons]]; [left; set_solver|left; set_solver|]. right. exists f'. apply elem_of_app. by left.
    - pose proof (bfs_cost_step out ex U node visited Hn Hv). rewrite app_length, map_length. cbn in Hf. lia.
  Qed.
End fbfs.

Section bound.
  Context (w : N) (g : pg) (Hr : reach w g) (t : dts) (Hg : dgood g t).
  Let nbi (n : nat) : list nat := match neighbours g n Incoming with Ok l => l | Panic => [] end.
  Lemma nbi_ok n : neighbours g n Incoming = Ok (nbi n) /\ forall m, m ∈ nbi n <-> pedge g Outgoing m n.
  Proof.
    unfold nbi. destruct (nb_ok w g Hr n Incoming) as (N & -> & HN). split; [done|]. intros m. rewrite HN. destruct (reach_inv _ _ Hr) as (fnl & F & I).
    split; intros H; by apply (pedge_rev g fnl F I) in H.
  Qed.
  Lemma nbi_node n m : m ∈ nbi n -> m ∈ nodes_iter g.
  Proof.
    intros Hm%(proj2 (nbi_ok n)). destruct (reach_inv _ _ Hr) as (fnl & F & I). by destruct (pedge_nodes g fnl F I _ _ _ Hm).
  Qed.
  Lemma inputs_ok start lo hi nodes ins : (exists i, dt_pos t !! start = Some i /\ lo <= i <= hi) -> exists N, forall fuel, N < fuel -> exists r,
    dt_can_reach_inputs (gv_of g) (neighbours g) fuel t start lo hi nodes ins = HOk r /\
    let E x y := pedge g Outgoing y x /\ exists i, dt_pos t !! y = Some i /\ lo <= i <= hi in
    let hit a := exists p, p ∈ ins /\ port_node g p = Some a in
    (r = true -> exists x a, x ∉ nodes /\ x <> start /\ rtc E start x /\ rtc E x a /\ hit a) /\
    (r = false -> forall a, rtc E start a -> hit a ->
       rtc (fun x y => (x ∈ nodes \/ x = start) /\ pedge g Outgoing y x) start a /\ (a ∈ nodes \/ a = start)).
  Proof.
    intros Hst. set (inside n := posx_le (Some lo) (dt_posx t n) && posx_le (dt_posx t n) (Some hi)).
    set (out n := bool_decide (n ∉ nodes /\ n <> start)). set (hit n := existsb (fun p => bool_decide (gv_node (gv_of g) p = Some n)) ins).
    set (ex n := filter (fun m => inside m = true) (nbi n)).
    assert (Hin : forall y, inside y = true <-> exists i, dt_pos t !! y = Some i /\ lo <= i <= hi).
    { intros y. unfold inside, dt_posx. destruct (dt_pos t !! y) as [i|]; [|cbn; naive_solver]. rewrite andb_true_iff, !posx_le_Some.
      split; [intros ?; by exists i|]. by intros (? & [= <-] & ?). }
    assert (Hhit : forall n, hit n = true <-> exists p, p ∈ ins /\ port_node g p = Some n).
    { intros n. unfold hit. rewrite existsb_exists. setoid_rewrite bool_decide_eq_true. setoid_rewrite <- elem_of_list_In. done. }
    set (U := start :: nodes_iter g).
    assert (HU : forall n m, n ∈ U -> m ∈ ex n -> m ∈ U).
    { intros n m _ [_ Hm]%elem_of_list_filter. right. by eapply nbi_node. }
    exists (1 + bfs_cost ex U ∅). intros fuel Hf.
    destruct (fbfs_run out hit ex U start HU fuel [(start, false)] ∅) as (r & Er & H1 & H2).
    { intros n f [= -> ->]%elem_of_list_singleton. split; [by left|]. split; [done|]. split; done. }
    { set_solver. }
    { right. exists false. by left. }
    { cbn [length]. lia. }
    assert (E : forall fuel q V, (forall n f, (n, f) ∈ q -> inside n = true) ->
      dt_inputs_loop (gv_of g) (neighbours g) fuel t start lo hi nodes ins q V = fbfs out hit ex fuel q V).
    { clear Hf r Er H1 H2 fuel. induction fuel as [|fuel IH]; intros q V Hq; [done|]. cbn [dt_inputs_loop fbfs]. destruct q as [|[n f] q]; [done|].
      destruct (decide (n ∈ V)); [apply IH; intros m f' Hm; eapply Hq; by right|]. fold inside. fold (inside n).
      assert (Hn : inside n = true) by (eapply Hq; by left). rewrite Hn. cbn [negb]. fold (out n). fold (hit n).
      destruct ((f || out n) && hit n); [done|]. destruct (nbi_ok n) as [-> _]. cbn [lift mbind hres_bind]. fold (ex n). apply IH.
      intros m f' [Hm|Hm]%elem_of_app; [eapply Hq; by right|]. apply elem_of_list_fmap in Hm as (m' & [= -> ->] & [Hm _]%elem_of_list_filter). done. }
    exists r. split.
    { unfold dt_can_reach_inputs. rewrite E; [done|]. intros n f [= -> ->]%elem_of_list_singleton. by apply Hin. }
    assert (Hout : forall x, out x = true <-> x ∉ nodes /\ x <> start) by (intros x; apply bool_decide_eq_true).
    assert (Hout' : forall x, out x = false <-> x ∈ nodes \/ x = start).
    { intros x. unfold out. rewrite bool_decide_eq_false. destruct (decide (x ∈ nodes)), (decide (x = start)); tauto. }
    assert (Hex : forall x y, exs ex x y <-> pedge g Outgoing y x /\ exists i, dt_pos t !! y = Some i /\ lo <= i <= hi).
    { intros x y. unfold exs, ex. rewrite elem_of_list_filter, Hin, (proj2 (nbi_ok x)). tauto. }
    cbn. split.
    - intros Hrt. destruct (H1 Hrt) as (x & a & Hx%Hout & Hsx & Hxa & Ha%Hhit). exists x, a. split; [apply Hx|]. split; [apply Hx|].
      split; [|split; [|done]]; (eapply rtc_subrel; [|eassumption]); intros ? ?; by rewrite Hex.
    - intros Hrf a Ha Hh. destruct (H2 Hrf a) as [H3 H4]; [|by apply Hhit|].
      { eapply rtc_subrel; [|exact Ha]. intros ? ?. by rewrite Hex. }
      split; [|by apply Hout']. eapply rtc_subrel; [|exact H3]. intros x y [Hx Hy]. split; [by apply Hout'|]. by apply Hex in Hy as [? _].
  Qed.

  Lemma boundary_query_ok S ins outs : NoDup S -> (forall n, n ∈ S -> contains_node g n = true) -> ~ (ins = [] /\ outs = []) ->
    exists N, forall fuel, N < fuel -> exists r, dc_is_convex fuel (DC t g) S ins outs = HOk r /\
      (r = false -> exists o i a b x, o ∈ outs /\ i ∈ ins /\ port_node g i = Some a /\ port_node g o = Some b /\
         b ∈ S /\ x ∉ S /\ rtc (pedge g Outgoing) a x /\ tc (pedge g Outgoing) x b) /\
      (r = true -> forall o i a b x, o ∈ outs -> i ∈ ins -> port_node g i = Some a -> port_node g o = Some b -> a ∈ S -> b ∈ S -> x ∉ S ->
         tc (pedge g Outgoing) a x -> tc (pedge g Outgoing) x b -> rtc (fun u v => u ∈ S /\ v ∈ S /\ pedge g Outgoing u v) a b).
  Proof.
    intros Hnd HS Hne. unfold dc_is_convex, dt_is_convex. cbn [dc_graph dc_topo].
    assert (Hpos : forall n, n ∈ S -> is_Some (dt_pos t !! n)) by (intros n Hn; apply (dgood_pos _ _ _ Hg); auto).
    assert (Hex : existsb (fun n => bool_decide (dt_pos t !! n = None)) S = false).
    { apply not_true_iff_false. rewrite existsb_exists. intros (n & Hn & Hb%bool_decide_eq_true). apply elem_of_list_In, Hpos in Hn as [? ?]. congruence. }
    rewrite Hex. assert (Hlt : forall a b, tc (pedge g Outgoing) a b -> exists i j, dt_pos t !! a = Some i /\ dt_pos t !! b = Some j /\ i < j).
    { intros a b Hab. induction Hab as [a b Hab|a c b Hac _ (i & j & Hi & Hj & Hij)]; [by apply (dgood_edge _ _ _ _ Hg)|].
      destruct (dgood_edge _ _ _ _ Hg Hac) as (i' & j' & Hi' & Hj' & ?). rewrite Hi in Hj'. injection Hj' as <-. exists i', j. split; [done|]. split; [done|lia]. }
    destruct (decide (length S < 2)) as [Hlen|Hlen].
    { exists 0. intros fuel _. exists true. split; [done|]. split; [done|]. intros _ o i a b x _ _ _ _ Ha Hb _ Hax Hxb. exfalso. assert (a = b) as ->.
      { destruct S as [|y [|z S]]; cbn in Hlen; [by apply elem_of_nil in Ha| |lia]. apply elem_of_list_singleton in Ha, Hb. congruence. }
      destruct (Hlt b b) as (i1 & j1 & H1 & H2 & H3); [by eapply tc_transitive|]. rewrite H1 in H2. injection H2 as <-. lia. }
    set (ps := omap (fun n => dt_pos t !! n) S).
    assert (Hps : forall k, k ∈ ps <-> exists n, n ∈ S /\ dt_pos t !! n = Some k).
    { intros k. unfold ps. by rewrite elem_of_list_omap. }
    destruct (foldl_min_ok ps (default 0 (head ps))) as (lo & -> & _ & _ & Hlo2).
    destruct (foldl_max_ok ps 0) as (hi & -> & _ & _ & Hhi2).
    assert (Hrange : forall n, n ∈ S -> exists i, dt_pos t !! n = Some i /\ lo <= i <= hi).
    { intros n Hn. destruct (Hpos n Hn) as [i Hi]. assert (i ∈ ps) by (apply Hps; by exists n). exists i. split; [done|]. split; auto. }
    assert (Hb : forall L : list nat, exists N, forall fuel, N < fuel -> forall b, b ∈ L -> b ∈ S -> exists r,
      dt_can_reach_inputs (gv_of g) (neighbours g) fuel t b lo hi S ins = HOk r /\
      let E x y := pedge g Outgoing y x /\ exists i, dt_pos t !! y = Some i /\ lo <= i <= hi in
      let hit a := exists p, p ∈ ins /\ port_node g p = Some a in
      (r = true -> exists x a, x ∉ S /\ x <> b /\ rtc E b x /\ rtc E x a /\ hit a) /\
      (r = false -> forall a, rtc E b a -> hit a -> rtc (fun x y => (x ∈ S \/ x = b) /\ pedge g Outgoing y x) b a /\ (a ∈ S \/ a = b))).
    { induction L as [|b L [N1 IH]]; [exists 0; intros ? _ ? ?%elem_of_nil; done|].
      destruct (decide (b ∈ S)) as [Hb|Hb].
      - destruct (inputs_ok b lo hi S ins (Hrange b Hb)) as [N2 H2]. exists (N1 `max` N2). intros fuel Hf b' [->|Hb']%elem_of_cons Hbs; [apply H2; lia|apply IH; [lia|done|done]].
      - exists N1. intros fuel Hf b' [->|Hb']%elem_of_cons Hbs; [done|by apply IH]. }
    destruct (Hb S) as [N HN]. clear Hb. exists N. intros fuel Hf. destruct (decide (ins = [] /\ outs = [])) as [?|_]; [done|].
    set (f o := match gv_node (gv_of g) o with
              | Some b => if decide (b ∈ S) then dt_can_reach_inputs (gv_of g) (neighbours g) fuel t b lo hi S ins else HOk false
              | None => HOk false end).
    destruct (hany_ok f (fun o => f o = HOk true) outs) as (r & Er & Hrr).
    { intros o _. unfold f. destruct (gv_node (gv_of g) o) as [b|]; [|by exists false]. destruct (decide (b ∈ S)) as [Hb|]; [|by exists false].
      destruct (HN fuel Hf b Hb Hb) as (r & -> & _). exists r. split; [done|]. split; [by intros ->|by intros [= ->]]. }
    fold f. change (hany (fun output => f output) outs) with (hany f outs). rewrite Er. cbn [mbind hres_bind]. exists (negb r). split; [done|]. split.
    - intros ->%negb_false_iff. destruct (proj1 Hrr eq_refl) as (o & Ho & Efo). unfold f in Efo. destruct (gv_node (gv_of g) o) as [b|] eqn:Eb; [|done].
      destruct (decide (b ∈ S)) as [Hb|]; [|done]. destruct (HN fuel Hf b Hb Hb) as (r & Er' & H1 & _). rewrite Er' in Efo. injection Efo as ->.
      destruct (H1 eq_refl) as (x & a & Hx & Hxb & Hbx & Hxa & i & Hi & Ea). exists o, i, a, b, x. split_and!; try done.
      + clear -Hxa. induction Hxa as [|x y z [Hxy _] _ IH]; [done|]. by eapply rtc_r.
      + clear -Hbx Hxb. assert (H : rtc (pedge g Outgoing) x b).
        { clear Hxb. induction Hbx as [|x y z [Hxy _] _ IH]; [done|]. by eapply rtc_r. }
        apply rtc_tc in H as [?|?]; done.
    - intros ->%negb_true_iff o i a b x Ho Hi Ea Eb Ha Hb Hx Hax Hxb.
      assert (Efo : f o <> HOk true). { intros E. assert (false = true) by (apply Hrr; by exists o). done. }
      unfold f in Efo. change (gv_node (gv_of g) o) with (port_node g o) in Efo. rewrite Eb, decide_True in Efo by done.
      destruct (HN fuel Hf b Hb Hb) as (r & Er' & _ & H2). rewrite Er' in Efo. destruct r; [done|].
      destruct (Hrange a Ha) as (ia & Hia & Hra). destruct (Hrange b Hb) as (ib & Hib & Hrb).
      destruct (H2 eq_refl a) as [H3 _]; [|by exists i|].
      + assert (Hab : tc (pedge g Outgoing) a b) by (by eapply tc_transitive). clear -Hab Hia Hra Hib Hrb Hlt Hg.
        apply tc_rtc in Hab. revert Hia Hra. revert ia. induction Hab as [|a c b Hac Hcb IH]; intros ia Hia Hra; [done|].
        destruct (dgood_edge _ _ _ _ Hg Hac) as (i' & j' & Hi' & Hj' & ?). rewrite Hia in Hi'. injection Hi' as <-.
        assert (j' <= ib).
        { apply rtc_tc in Hcb as [->|Hcb]; [rewrite Hj' in Hib; injection Hib as <-; done|]. destruct (Hlt c b Hcb) as (i2 & j2 & H1 & H2 & H3).
          rewrite Hj' in H1. rewrite Hib in H2. injection H1 as <-. injection H2 as <-. lia. }
        eapply rtc_r; [apply (IH Hib j'); [done|lia]|]. split; [done|]. exists ia. done.
      + assert (HH : forall u, rtc (fun x y => (x ∈ S \/ x = b) /\ pedge g Outgoing y x) b u -> u ∈ S -> rtc (fun u v => u ∈ S /\ v ∈ S /\ pedge g Outgoing u v) u b).
        { intros u Hu. apply rtc_ind_r with (P := fun u => u ∈ S -> rtc (fun u v => u ∈ S /\ v ∈ S /\ pedge g Outgoing u v) u b) in Hu; [done|done|].
          intros y z _ [Hy Hyz] IH Hz. assert (Hys : y ∈ S) by (by destruct Hy as [?| ->]). eapply rtc_l; [|by apply IH]. done. }
        by apply HH.
  Qed.
End bound.
