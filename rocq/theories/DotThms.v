(** Proofs of properties C111, C112 and C113. *)
From Coq Require Import Ascii String Sorted.
From Verif Require Export DotSpec PetThms LcaProofs PGInsert.

Lemma dot_edges_app {L A S} (l k : list (dot_item L A S)) : dot_edges (l ++ k) = dot_edges l ++ dot_edges k.
Proof. apply filter_app. Qed.
Lemma dot_nodes_app {L A S} (l k : list (dot_item L A S)) : dot_nodes (l ++ k) = dot_nodes l ++ dot_nodes k.
Proof. apply omap_app. Qed.
Lemma sum_const {X} (l : list X) k : sum_list (const k <$> l) = length l * k.
Proof. induction l as [|x l IH]; [done|]. cbn in *. lia. Qed.

Section cells.
  Context {E L : Type} (V : lview E) (ps : nat -> port_style L).
  Lemma cells_ok l : forall k f, (forall i, f i = dot_cell ps (k + i)) ->
    let cs := omap id (imap f l) in
    (forall i, i ∈ c_id <$> cs <-> exists j p, i = k + j /\ l !! j = Some p /\ drawn_port ps p = true) /\
    StronglySorted lt (c_id <$> cs) /\
    forall c, c ∈ cs -> exists j p b, c_id c = k + j /\ l !! j = Some p /\
      ps p = (if c_border c then PBoxed (c_label c) b else PPlain (c_label c) b) /\ c_shown c = (if b then Some (c_id c) else None).
  Proof.
    induction l as [|p l IH]; intros k f Hf; cbn zeta.
    - cbn. split; [|split; [constructor|intros c Hc; by apply elem_of_nil in Hc]]. intros i. split; [intros Hi; by apply elem_of_nil in Hi|]. by intros (j & p & _ & Hp & _).
    - rewrite imap_cons. destruct (IH (S k) (f ∘ S)) as (I1 & I2 & I3); [intros i; unfold compose; rewrite Hf; f_equal; lia|].
      set (cs := omap id (imap (f ∘ S) l)) in *.
      assert (Eo : omap id (f 0 p :: imap (f ∘ S) l) = match f 0 p with Some y => y :: cs | None => cs end) by reflexivity. rewrite Eo. clear Eo.
      assert (Hc0 : f 0 p = dot_cell ps k p) by (rewrite Hf; f_equal; lia). rewrite Hc0.
      assert (Hnext : forall i, i ∈ c_id <$> cs -> S k <= i) by (intros i (j & q & -> & _)%I1; lia).
      assert (J3 : forall c, c ∈ cs -> exists j q b, c_id c = k + j /\ (p :: l) !! j = Some q /\
        ps q = (if c_border c then PBoxed (c_label c) b else PPlain (c_label c) b) /\ c_shown c = (if b then Some (c_id c) else None)).
      { intros c (j & q & b & H1 & H2 & H3)%I3. exists (S j), q, b. split; [lia|done]. }
      unfold dot_cell. destruct (ps p) as [|lb b|lb b] eqn:Ep.
      + split; [|done]. intros i. rewrite I1. split.
        * intros (j & q & -> & Hq & Hd). exists (S j), q. split; [lia|done].
        * intros ([|j] & q & -> & Hq & Hd); [cbn in Hq; injection Hq as <-; unfold drawn_port in Hd; rewrite Ep in Hd; done|]. exists j, q. split; [lia|done].
      + split; [|split].
        * intros i. cbn [fmap list_fmap c_id]. rewrite elem_of_cons, I1. split.
          -- intros [-> |(j & q & -> & Hq & Hd)]; [exists 0, p|exists (S j), q]; (split; [lia|]); [|done]. split; [done|]. unfold drawn_port. by rewrite Ep.
          -- intros ([|j] & q & -> & Hq & Hd); [left; lia|right]. exists j, q. split; [lia|done].
        * cbn [fmap list_fmap c_id]. constructor; [done|]. apply Forall_forall. intros i Hi%Hnext. lia.
        * intros c [-> |Hc]%elem_of_cons; [|by apply J3]. exists 0, p, b. cbn. split; [lia|]. by rewrite Ep.
      + split; [|split].
        * intros i. cbn [fmap list_fmap c_id]. rewrite elem_of_cons, I1. split.
          -- intros [-> |(j & q & -> & Hq & Hd)]; [exists 0, p|exists (S j), q]; (split; [lia|]); [|done]. split; [done|]. unfold drawn_port. by rewrite Ep.
          -- intros ([|j] & q & -> & Hq & Hd); [left; lia|right]. exists j, q. split; [lia|done].
        * cbn [fmap list_fmap c_id]. constructor; [done|]. apply Forall_forall. intros i Hi%Hnext. lia.
        * intros c [-> |Hc]%elem_of_cons; [|by apply J3]. exists 0, p, b. cbn. split; [lia|]. by rewrite Ep.
  Qed.
  Lemma row_ok n d k width : (dot_cells V ps n d <> [] -> length (dot_cells V ps n d) * k = width) ->
    row_of V ps n d width (dot_row (dot_cells V ps n d) k).
  Proof.
    intros Hw. destruct (cells_ok (lv_ports V n d) 0 (dot_cell ps)) as (I1 & I2 & I3); [done|]. fold (dot_cells V ps n d) in *.
    set (cs := dot_cells V ps n d) in *. unfold row_of, dot_row.
    assert (Ef : fst <$> ((fun c => (c, k)) <$> cs) = cs) by (clear; induction cs as [|c cs IH]; [done|]; cbn; f_equal; exact IH).
    rewrite Ef. split_and!.
    - intros i. rewrite I1. split; [intros (j & p & -> & H); eauto|intros (p & H); exists i, p; done].
    - done.
    - intros c k' Hc. apply elem_of_list_fmap in Hc as (c' & [= -> ->] & Hc). destruct (I3 c' Hc) as (j & p & b & Hj & H). exists p, b. rewrite Hj. cbn. by rewrite <- Hj at 2.
    - intros Hne. assert (Es : snd <$> ((fun c => (c, k)) <$> cs) = const k <$> cs) by (clear; induction cs as [|c cs IH]; [done|]; cbn; f_equal; exact IH).
      rewrite Es, sum_const. apply Hw. intros Hcs. rewrite Hcs in Hne. done.
  Qed.
End cells.

Section dots.
  Context {E L A S : Type} (V : lview E) (N : nat -> Prop) (R : E -> E -> Prop) (H : shows V N R).
  Context (off : nat -> hres nat) (Hoff : offsets_ok V N off).
  Context (ns : nat -> node_style L A) (ps : nat -> port_style L) (es : E -> E -> S).
  Lemma dot_edge_ok n x y : N n -> lv_port V x ∈ lv_ports V n Outgoing -> R x y -> exists i, dot_edge (L:=L) (A:=A) V off es n (x, y) = HOk i /\ is_edge i = true /\ draws V es (x, y) i.
  Proof.
    intros Hn Hx HR. destruct (lvs_end2 V N R H x y HR) as (b & Hb & Nb).
    pose proof (proj1 (proj2 (lvs_ports _ _ _ H n Outgoing Hn) _) Hx) as [_ Hd].
    assert (Hy : lv_port V y ∈ lv_ports V b Incoming) by (apply (lvs_ports _ _ _ H b Incoming Nb); split; [done|exact (lvs_opp _ _ _ H _ _ _ HR Hd)]).
    apply elem_of_list_lookup in Hx as [i Hi]. apply elem_of_list_lookup in Hy as [j Hj].
    exists (DEdge n i b j (es x y)). unfold dot_edge. cbn [fst snd]. rewrite (Hoff _ _ _ _ Hn Hi), hbind_Ok, Hb, (Hoff _ _ _ _ Nb Hj), hbind_Ok.
    split; [done|]. split; [done|]. exists n, i, b, j. done.
  Qed.
  Lemma dot_edges_ok n l : N n -> (forall x y, (x, y) ∈ l -> lv_port V x ∈ lv_ports V n Outgoing /\ R x y) ->
    exists r : list (dot_item L A S), hmap (dot_edge V off es n) l = HOk r /\ dot_edges r = r /\ dot_nodes r = [] /\ Forall2 (draws V es) l r.
  Proof.
    intros Hn. induction l as [|[x y] l IH]; intros Hl; [exists []; split_and!; done || constructor|].
    destruct (Hl x y (elem_of_list_here _ _)) as [Hx HR]. destruct (dot_edge_ok n x y Hn Hx HR) as (i & Ei & Hi & Di).
    destruct IH as (r & Er & H1 & H2 & F); [intros x' y' Hx'; apply Hl; by apply elem_of_list_further|].
    exists (i :: r). cbn [hmap]. rewrite Ei, hbind_Ok, Er, hbind_Ok. split; [done|]. unfold dot_edges in *. rewrite filter_cons, Hi, decide_True by done. rewrite H1.
    split; [done|]. split; [|by constructor]. destruct i; try discriminate Hi. exact H2.
  Qed.
  Definition drawn_ok (i : dot_item L A S) : Prop :=
    forall n l a w ins outs, i = DNode n l a w ins outs ->
      ns n = (match a with Some a => NBoxed l a | None => NBox l end) /\ row_of V ps n Incoming w ins /\ row_of V ps n Outgoing w outs.
  Lemma dot_node_ok n : N n -> exists r K, dot_node V off ns ps es n = HOk r /\ dot_nodes r = (if drawn_node ns n then [n] else []) /\
    Forall drawn_ok r /\ Forall2 (draws V es) K (dot_edges r) /\ NoDup K /\
    forall x y, (x, y) ∈ K <-> drawn_node ns n = true /\ R x y /\ lv_pnode V (lv_port V x) = Some n /\ lv_pdir V (lv_port V x) = Some Outgoing.
  Proof.
    intros Hn. destruct (lvs_links _ _ _ H n Outgoing Hn) as (ls & l & r0 & F & -> & El & _).
    destruct (lvs_links_elem V N R H n Outgoing _ Hn El) as [L1 L2].
    destruct (dot_edges_ok n (concat ls) Hn) as (r & Er & Re & Rn & Fr); [intros x y; apply L2|].
    pose proof (hmap_Forall2 (lv_plinks V) _ _ F) as Els.
    assert (Hsh : forall l a, ns n = (match a with Some a => NBoxed l a | None => NBox l end) ->
      exists r K, dot_node V off ns ps es n = HOk r /\ dot_nodes r = [n] /\ Forall drawn_ok r /\ Forall2 (draws V es) K (dot_edges r) /\ NoDup K /\
      forall x y, (x, y) ∈ K <-> drawn_node ns n = true /\ R x y /\ lv_pnode V (lv_port V x) = Some n /\ lv_pdir V (lv_port V x) = Some Outgoing).
    { intros lb a Hns. set (it := DNode (S:=S) n lb a (Nat.max (length (dot_cells V ps n Incoming)) 1 * Nat.max (length (dot_cells V ps n Outgoing)) 1)
        (dot_row (dot_cells V ps n Incoming) (Nat.max (length (dot_cells V ps n Outgoing)) 1)) (dot_row (dot_cells V ps n Outgoing) (Nat.max (length (dot_cells V ps n Incoming)) 1))).
      exists (it :: r), (concat ls). split; [|split; [|split; [|split; [|split]]]].
      - unfold dot_node. destruct a as [a|]; rewrite Hns, Els, hbind_Ok, Er, hbind_Ok; reflexivity.
      - change (dot_nodes (it :: r)) with (n :: dot_nodes r). by rewrite Rn.
      - constructor.
        + intros n' l' a' w' i' o' [= <- <- <- <- <- <-]. split; [done|]. split; apply row_ok; intros Hne.
          * destruct (dot_cells V ps n Incoming); [done|]. cbn [length]. lia.
          * destruct (dot_cells V ps n Outgoing); [done|]. cbn [length]. lia.
        + apply Forall_forall. intros i Hi n' l' a' w' i' o' ->. rewrite <- Re in Hi. apply elem_of_list_filter in Hi as [Hi _]. done.
      - change (dot_edges (it :: r)) with (dot_edges r). by rewrite Re.
      - done.
      - intros x y. rewrite L2, (proj2 (lvs_ports _ _ _ H n Outgoing Hn)). unfold drawn_node. destruct a; rewrite Hns; tauto. }
    unfold drawn_node in *. destruct (ns n) as [|lb|lb a] eqn:En.
    - exists [], []. unfold dot_node. rewrite En. split_and!; try done; try (by constructor). intros x y. rewrite elem_of_nil. split; [done|]. by intros (? & _).
    - by apply (Hsh lb None).
    - by apply (Hsh lb (Some a)).
  Qed.
  Lemma dot_list_ok l : NoDup l -> (forall n, n ∈ l -> N n) -> exists r K, hmap (dot_node V off ns ps es) l = HOk r /\
    dot_nodes (concat r) = filter (fun n => drawn_node ns n = true) l /\ Forall drawn_ok (concat r) /\ Forall2 (draws V es) K (dot_edges (concat r)) /\ NoDup K /\
    forall x y, (x, y) ∈ K <-> R x y /\ lv_pdir V (lv_port V x) = Some Outgoing /\ exists a, a ∈ l /\ lv_pnode V (lv_port V x) = Some a /\ drawn_node ns a = true.
  Proof.
    induction l as [|n l IH]; intros Hnd Hl.
    - exists [], []. split_and!; try done; try (by constructor). intros x y. rewrite elem_of_nil. split; [done|]. intros (_ & _ & a & Ha & _). by apply elem_of_nil in Ha.
    - apply NoDup_cons in Hnd as [Hn Hnd]. destruct IH as (r & K & Er & H1 & H2 & H3 & H4 & H5); [done|intros a Ha; apply Hl; by apply elem_of_list_further|].
      destruct (dot_node_ok n (Hl n (elem_of_list_here _ _))) as (r1 & K1 & E1 & G1 & G2 & G3 & G4 & G5).
      exists (r1 :: r), (K1 ++ K). cbn [hmap concat]. rewrite E1, hbind_Ok, Er, hbind_Ok. split; [done|].
      rewrite dot_nodes_app, dot_edges_app, G1, H1, filter_cons. split; [by destruct (drawn_node ns n)|]. split; [by apply Forall_app|]. split; [by apply Forall2_app|].
      split.
      + apply NoDup_app. split; [done|]. split; [|done]. intros [x y] (_ & _ & Hx & _)%G5 (_ & _ & a & Ha & Hx' & _)%H5.
        rewrite Hx in Hx'. injection Hx' as <-. done.
      + intros x y. rewrite elem_of_app, G5, H5. split.
        * intros [(Hd & HR & Hx & Ho)|(HR & Ho & a & Ha & Hx)]; (split; [done|]); (split; [done|]); [exists n|exists a]; rewrite elem_of_cons; split; tauto.
        * intros (HR & Ho & a & Ha & Hx & Hd). apply elem_of_cons in Ha as [-> |Ha]; [left; done|right]. eauto 6.
  Qed.
End dots.

Lemma free_app c s t : free_of c s -> free_of c t -> free_of c (s ++ t).
Proof. induction s as [|x s IH]; [done|]. intros [H1 H2] H3. split; [done|]. by apply IH. Qed.
Lemma replace_free c d by_ s : free_of d by_ -> (c = d \/ free_of d s) -> free_of d (str_replace c by_ s).
Proof.
  intros Hb. induction s as [|x s IH]; intros Hs; [done|]. cbn [str_replace]. destruct (Ascii.eqb_spec x c) as [-> |Hx].
  - apply free_app; [done|]. apply IH. destruct Hs as [?|[_ ?]]; auto.
  - split; [destruct Hs as [<-|[? _]]; done|]. apply IH. destruct Hs as [?|[_ ?]]; auto.
Qed.
Lemma replace_none c by_ s : free_of c s -> str_replace c by_ s = s.
Proof.
  induction s as [|x s IH]; [done|]. intros [H1 H2]. cbn [str_replace]. destruct (Ascii.eqb_spec x c) as [-> |Hx]; [done|]. by rewrite IH.
Qed.

Lemma C111_dot_refuted_pf :
exists g (ns : nat -> node_style nat nat) out, reach 16 g /\ ns 1 = NHidden /\
  dot_finish (lv_of_pg g) (pg_off 16 g) ns (fun p => PBoxed p true) (fun _ _ => tt) 0 None = HOk out /\
  DEdge 0 0 1 0 tt ∈ out /\ dot_nodes out = [0].
Proof.
  exists two_g, (fun n => match n with 1 => NHidden | _ => NBoxed n n end). eexists. split; [exists two_ops; apply run_hist; vm_compute; reflexivity|].
  split; [reflexivity|]. split; [vm_compute; reflexivity|]. split; [|reflexivity]. apply elem_of_list_further, elem_of_list_here.
Qed.

Lemma C111_dot_partial_pf :
forall E L A S (V : lview E) N R off (ns : nat -> node_style L A) (ps : nat -> port_style L) (es : E -> E -> S) fuel,
  shows V N R -> offsets_ok V N off ->
  exists nodes out K, lv_nodes V = HOk nodes /\ dot_finish V off ns ps es fuel None = HOk out /\
    dot_nodes out = filter (fun n => drawn_node ns n = true) nodes /\
    (forall n l a w ins outs, DNode n l a w ins outs ∈ out ->
       ns n = (match a with Some a => NBoxed l a | None => NBox l end) /\ row_of V ps n Incoming w ins /\ row_of V ps n Outgoing w outs) /\
    Forall2 (draws V es) K (dot_edges out) /\ NoDup K /\
    (forall x y, (x, y) ∈ K <-> R x y /\ lv_pdir V (lv_port V x) = Some Outgoing /\
       exists a, lv_pnode V (lv_port V x) = Some a /\ drawn_node ns a = true) /\
    ((forall n, N n -> drawn_node ns n = true) -> link_list V R K).
Proof.
  intros E L A S V N R off ns ps es fuel H Hoff. destruct (lvs_nodes _ _ _ H) as (nodes & En & Nnd & Nin & _).
  destruct (dot_list_ok V N R H off Hoff ns ps es nodes Nnd (fun n => proj1 (Nin n))) as (r & K & Er & H1 & H2 & H3 & H4 & H5).
  exists nodes, (concat r), K. unfold dot_finish. rewrite En, hbind_Ok, Er, hbind_Ok.
  assert (HK : forall x y, (x, y) ∈ K <-> R x y /\ lv_pdir V (lv_port V x) = Some Outgoing /\ exists a, lv_pnode V (lv_port V x) = Some a /\ drawn_node ns a = true).
  { intros x y. rewrite H5. split; intros (HR & Hd & a & Ha); (split; [done|]); (split; [done|]); exists a; [tauto|]. split; [|done].
    destruct (lvs_end _ _ _ H x y HR) as (b & Hb & Nb). destruct Ha as [Ha _]. rewrite Hb in Ha. injection Ha as <-. by apply Nin. }
  split_and!; try done.
  - intros n l a w ins outs Hi. rewrite Forall_forall in H2. by eapply (H2 _ Hi).
  - intros Hall. split; [done|]. intros x y. rewrite HK. split; [tauto|]. intros [HR Hd]. split; [done|]. split; [done|].
    destruct (lvs_end _ _ _ H x y HR) as (b & Hb & Nb). exists b. split; [done|]. by apply Hall.
Qed.

Section dhier.
  Context {E L A S : Type} (V : lview E) (N : nat -> Prop) (R : E -> E -> Prop) (H : shows V N R).
  Context (h : hier) (ch : nat -> list nat) (HI : HInv h ch).
  Lemma hier_edges_map p (l : list nat) : omap (@hier_edge L A S) (DHierEdge p <$> l) = (fun c => (p, c)) <$> l.
  Proof. induction l as [|c l IH]; [done|]. cbn. f_equal. exact IH. Qed.
  Lemma hier_nodes_map p (l : list nat) : omap (@hier_node L A S) (DHierEdge p <$> l) = [].
  Proof. induction l as [|c l IH]; [done|]. exact IH. Qed.
  Lemma snd_pairs p (l : list nat) : snd <$> filter (fun x : nat * nat => x.1 = p) ((fun c => (p, c)) <$> l) = l.
  Proof. induction l as [|c l IH]; [done|]. cbn [fmap list_fmap]. rewrite filter_cons, decide_True by done. cbn. f_equal. exact IH. Qed.
  Lemma no_pairs p q (l : list nat) : p <> q -> filter (fun x : nat * nat => x.1 = p) ((fun c => (q, c)) <$> l) = [].
  Proof. intros Hpq. induction l as [|c l IH]; [done|]. cbn [fmap list_fmap]. rewrite filter_cons, decide_False by (cbn; congruence). exact IH. Qed.
  Lemma hier_list_ok fuel l : length (um_data h) + 2 <= fuel -> NoDup l -> exists r, hmap (dot_hier (L:=L) (A:=A) (S:=S) V fuel h) l = HOk r /\
    r = map (fun n => DHier n :: (DHierEdge n <$> filter (fun c => lv_has_node V c = true) (ch n))) l /\
    (forall i, i ∈ concat r -> is_Some (hier_node i) \/ is_Some (hier_edge i)) /\ omap hier_node (concat r) = l /\
    NoDup (omap hier_edge (concat r)) /\
    (forall p c, (p, c) ∈ omap hier_edge (concat r) <-> p ∈ l /\ N c /\ h_parent h c = Some p) /\
    (forall p, sublist (snd <$> filter (fun x => x.1 = p) (omap hier_edge (concat r))) (ch p)).
  Proof.
    intros Hf. pose proof HI as (Hforest & _). destruct Hforest as (F1 & F2 & _).
    induction l as [|n l IH]; intros Hnd.
    - exists []. split_and!; try done; try (by constructor).
      + intros i Hi. by apply elem_of_nil in Hi.
      + intros p c. split; [by intros Hi%elem_of_nil|]. intros (Hi%elem_of_nil & _). done.
      + intros p. apply sublist_nil_l.
    - apply NoDup_cons in Hnd as [Hn Hnd]. destruct (IH Hnd) as (r & Er & Rr & I1 & I2 & I3 & I4 & I5).
      set (part := DHier n :: (DHierEdge n <$> filter (fun c => lv_has_node V c = true) (ch n)) : list (dot_item L A S)).
      assert (Ep : dot_hier (L:=L) (A:=A) (S:=S) V fuel h n = HOk part) by (unfold dot_hier; rewrite (children_list_ok h ch HI n fuel Hf), hbind_Ok; done).
      assert (Pe : omap hier_edge part = (fun c => (n, c)) <$> filter (fun c => lv_has_node V c = true) (ch n)) by apply hier_edges_map.
      assert (Hin : forall p c, (p, c) ∈ omap hier_edge part <-> p = n /\ N c /\ h_parent h c = Some p).
      { intros p c. rewrite Pe, elem_of_list_fmap. split.
        - intros (c' & [= -> ->] & Hc). apply elem_of_list_filter in Hc as [Hc1 Hc2]. split; [done|]. split; [by apply (lvs_node _ _ _ H)|]. by apply F2.
        - intros (-> & Hc & Hp). exists c. split; [done|]. apply elem_of_list_filter. split; [by apply (lvs_node _ _ _ H)|]. by apply F2. }
      exists (part :: r). cbn [hmap]. rewrite Ep, hbind_Ok, Er, hbind_Ok. split; [done|]. split; [by rewrite Rr|]. cbn [concat].
      rewrite !omap_app. split; [|split; [|split; [|split]]].
      + intros i [Hi|Hi]%elem_of_app; [|by apply I1]. apply elem_of_cons in Hi as [-> |Hi]; [left; by eexists|].
        apply elem_of_list_fmap in Hi as (c & -> & _). right. by eexists.
      + rewrite I2. change (omap hier_node part) with (n :: omap (@hier_node L A S) (DHierEdge n <$> filter (fun c => lv_has_node V c = true) (ch n))).
        by rewrite hier_nodes_map.
      + apply NoDup_app. split; [rewrite Pe; apply NoDup_fmap_2; [by intros ? ? [= ->]|]; apply NoDup_filter; apply F1|]. split; [|done].
        intros [p c] [-> _]%Hin [? _]%I4. done.
      + intros p c. rewrite elem_of_app, Hin, I4, elem_of_cons. tauto.
      + intros p. rewrite filter_app, fmap_app. destruct (decide (p = n)) as [-> |Hp].
        * rewrite Pe, snd_pairs. assert (Hnil : filter (fun x : nat * nat => x.1 = n) (omap hier_edge (concat r)) = []).
          { apply filter_none. intros [q c] [Hq _]%I4. cbn. intros ->. done. }
          rewrite Hnil, app_nil_r. apply sublist_filter'.
        * rewrite Pe, no_pairs by done. apply I5.
  Qed.
End dhier.

Lemma C112_dot_hierarchy_pf :
forall E L A S (V : lview E) N R off (ns : nat -> node_style L A) (ps : nat -> port_style L) (es : E -> E -> S) h,
  shows V N R -> offsets_ok V N off -> hreach h ->
  exists nodes out hout M, lv_nodes V = HOk nodes /\ forall fuel, M <= fuel ->
    dot_finish V off ns ps es fuel None = HOk out /\ dot_finish V off ns ps es fuel (Some h) = HOk (out ++ hout) /\
    (forall i, i ∈ hout -> is_Some (hier_node i) \/ is_Some (hier_edge i)) /\
    omap hier_node hout = nodes /\ NoDup (omap hier_edge hout) /\
    (forall p c, (p, c) ∈ omap hier_edge hout <-> N p /\ N c /\ h_parent h c = Some p) /\
    (forall p, exists ch, h_children_list fuel h (h_children h p) = HOk ch /\ (forall c, c ∈ ch <-> h_parent h c = Some p) /\
       sublist (snd <$> filter (fun x => x.1 = p) (omap hier_edge hout)) ch).
Proof.
  intros E L A S V N R off ns ps es h H Hoff Hr. destruct (hreach_inv _ Hr) as [ch HI]. destruct (lvs_nodes _ _ _ H) as (nodes & En & Nnd & Nin & _).
  destruct (dot_list_ok V N R H off Hoff ns ps es nodes Nnd (fun n => proj1 (Nin n))) as (r & K & Er & _).
  destruct (hier_list_ok (L:=L) (A:=A) (S:=S) V N R H h ch HI (length (um_data h) + 2) nodes (le_n _) Nnd) as (hr & _ & Hrr & _).
  exists nodes, (concat r), (concat hr), (length (um_data h) + 2). split; [done|]. intros fuel Hf.
  destruct (hier_list_ok (L:=L) (A:=A) (S:=S) V N R H h ch HI fuel nodes Hf Nnd) as (hr' & Eh & Hrr' & I1 & I2 & I3 & I4 & I5).
  assert (hr' = hr) as -> by congruence. unfold dot_finish. split; [by rewrite En, hbind_Ok, Er, hbind_Ok|].
  split; [by rewrite En, hbind_Ok, Er, hbind_Ok, Eh, hbind_Ok|]. split_and!; try done.
  - intros p c. rewrite I4, Nin. done.
  - intros p. exists (ch p). split; [by apply (children_list_ok h ch HI)|]. split; [|apply I5]. apply HI.
Qed.

Lemma strip_none e l e' : strip_label e <> Labelled l e'.
Proof. induction e; cbn; congruence. Qed.
Lemma strip_idem e : strip_label (strip_label e) = strip_label e.
Proof. induction e; cbn; done. Qed.

Lemma C113_labels_pf :
(forall id label, (label = ""%string -> encode_label id label = id) /\
   (label <> ""%string -> exists s, encode_label id label = (String quote s ++ String quote "")%string /\ free_of quote s /\ free_of newline s /\
      (free_of quote label -> free_of newline label -> s = label)))
/\ (forall e, (forall l e', strip_label e <> Labelled l e') /\ forall l, strip_label (with_label e l) = strip_label e)
/\ (forall e l, as_dot_str (with_label e l) = as_dot_str e)
/\ (forall e, exists s, as_mermaid_str e = Ok s)
/\ (forall e l s, as_mermaid_str (Labelled l e) = Ok s ->
      (exists t, strip_label e = Custom t /\ s = t) \/ (forall t, strip_label e <> Custom t) /\ occurs_in (encode_label "" l) s)
/\ forall e l, as_mermaid_str (with_label e l) = as_mermaid_str (Labelled l (strip_label e)).
Proof.
  split; [|split; [|split; [|split; [|split]]]].
  - intros id label. split; [by intros ->|]. intros Hne. exists (str_replace newline "<br>" (str_replace quote "#quot;" label)). split_and!.
    + by destruct label.
    + apply replace_free; [vm_compute; repeat split; discriminate|right]. apply replace_free; [vm_compute; repeat split; discriminate|by left].
    + apply replace_free; [vm_compute; repeat split; discriminate|by left].
    + intros Hq Hn. by rewrite (replace_none quote), replace_none.
  - intros e. split; [apply strip_none|]. intros l. destruct e; done.
  - intros e l. destruct e; done.
  - intros e. destruct e as [| | |l e|s]; cbn [as_mermaid_str]; try (eexists; reflexivity).
    pose proof (strip_none e) as Hs. destruct (strip_label e); try (eexists; reflexivity). by edestruct Hs.
  - intros e l s Es. cbn [as_mermaid_str] in Es. pose proof (strip_none e) as Hs. destruct (strip_label e) as [| | |l' e'|t] eqn:Ee.
    1-3: injection Es as <-; right; split; [congruence|].
    + exists "--"%string, "-->"%string. done.
    + exists "-."%string, ".->"%string. done.
    + exists "-."%string, ".->"%string. done.
    + by edestruct Hs.
    + injection Es as <-. left. eauto.
  - intros e l. destruct e; cbn [with_label as_mermaid_str strip_label]; try done. by rewrite strip_idem.
Qed.
