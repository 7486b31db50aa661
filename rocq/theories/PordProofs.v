(** Proofs about [port_ordering]. *)
From Verif Require Export PordSpec PordTopo BoundProofs ViewThms MTopoProofs.

Definition cnt (a : nat) (l : list nat) : nat := length (filter (fun b => b = a) l).
Lemma cnt_cons a b l : cnt a (b :: l) = (if decide (b = a) then 1 else 0) + cnt a l.
Proof. unfold cnt. rewrite filter_cons. by destruct (decide _). Qed.
Lemma cnt_pos a l : a ∈ l <-> 0 < cnt a l.
Proof.
  induction l as [|b l IH]; [cbn; split; [by intros ?%elem_of_nil|lia]|]. rewrite cnt_cons, elem_of_cons, IH. destruct (decide (b = a)) as [->|]; [split; [lia|by left]|].
  split; [intros [?|?]; [congruence|lia]|intros; right; lia].
Qed.
Lemma cnt_not_in a (Y l : list nat) : a ∉ Y ->
  length (filter (fun u => u ∉ Y) l) = length (filter (fun u => u ∉ Y ++ [a]) l) + cnt a l.
Proof.
  intros Ha. induction l as [|b l IH]; [done|]. rewrite !filter_cons, cnt_cons. destruct (decide (b = a)) as [->|Hne].
  - rewrite decide_True by done. rewrite decide_False by set_solver. cbn. lia.
  - destruct (decide (b ∉ Y)) as [Hb|Hb].
    + rewrite decide_True by set_solver. cbn. lia.
    + rewrite decide_False by set_solver. lia.
Qed.

(** ** Orderings *)
Lemma holds_new a b : holds_order (pord_new a b) a b (fun _ _ => False).
Proof.
  unfold pord_new. split; [apply replicate_length|]. split; [apply replicate_length|]. cbn.
  split; (intros i s [-> _]%lookup_replicate_1 z; split; [by intros ?%not_elem_of_empty|by intros (? & _ & [])]).
Qed.
Lemma holds_ext o a b Q Q' : (forall i j, i < a -> j < b -> Q i j <-> Q' i j) -> (forall i j, Q i j -> i < a /\ j < b) -> (forall i j, Q' i j -> i < a /\ j < b) ->
  holds_order o a b Q -> holds_order o a b Q'.
Proof.
  intros HQ H1 H2 (L1 & L2 & P1 & P2). assert (HQ' : forall i j, Q i j <-> Q' i j).
  { intros i j. split; intros Hq; [destruct (H1 i j Hq)|destruct (H2 i j Hq)]; by apply HQ. }
  split; [done|]. split; [done|]. split.
  - intros i s Hs z. rewrite (P1 i s Hs z). by setoid_rewrite HQ'.
  - intros j s Hs z. rewrite (P2 j s Hs z). by setoid_rewrite HQ'.
Qed.
Lemma holds_add o a b Q i j : i < a -> j < b -> holds_order o a b Q ->
  exists o', po_add_order o (BP i Incoming) (BP j Outgoing) = HOk o' /\ holds_order o' a b (fun i' j' => Q i' j' \/ i' = i /\ j' = j).
Proof.
  intros Hi Hj (L1 & L2 & P1 & P2). unfold po_add_order, vget. cbn [bp_index].
  destruct (lookup_lt_is_Some_2 (po_reachable o) i ltac:(lia)) as [s Hs]. destruct (lookup_lt_is_Some_2 (po_reaching o) j ltac:(lia)) as [t Ht].
  rewrite Hs, Ht. cbn. eexists. split; [done|]. split; [cbn; by rewrite insert_length|]. split; [cbn; by rewrite insert_length|]. cbn. split.
  - intros i' s' Hs' z. destruct (decide (i' = i)) as [->|Hne].
    + rewrite list_lookup_insert in Hs' by lia. injection Hs' as <-. rewrite elem_of_union, elem_of_singleton, (P1 i s Hs z). split.
      * intros [->|(j' & -> & ?)]; [exists j; split; [done|by right]|exists j'; split; [done|by left]].
      * intros (j' & -> & [?|[_ ->]]); [right; eauto|by left].
    + rewrite list_lookup_insert_ne in Hs' by done. rewrite (P1 i' s' Hs' z). split; intros (j' & -> & Hq); exists j'; (split; [done|]); [by left|].
      destruct Hq as [?|[? _]]; [done|congruence].
  - intros j' s' Hs' z. destruct (decide (j' = j)) as [->|Hne].
    + rewrite list_lookup_insert in Hs' by lia. injection Hs' as <-. rewrite elem_of_union, elem_of_singleton, (P2 j t Ht z). split.
      * intros [->|(i' & -> & ?)]; [exists i; split; [done|by right]|exists i'; split; [done|by left]].
      * intros (i' & -> & [?|[-> _]]); [right; eauto|by left].
    + rewrite list_lookup_insert_ne in Hs' by done. rewrite (P2 j' s' Hs' z). split; intros (i' & -> & Hq); exists i'; (split; [done|]); [by left|].
      destruct Hq as [?|[_ ?]]; [done|congruence].
Qed.

Lemma holds_iff o a b Q Q' : (forall i j, Q i j <-> Q' i j) -> holds_order o a b Q -> holds_order o a b Q'.
Proof.
  intros HQ' (L1 & L2 & P1 & P2). split; [done|]. split; [done|]. split.
  - intros i s Hs z. rewrite (P1 i s Hs z). by setoid_rewrite HQ'.
  - intros j s Hs z. rewrite (P2 j s Hs z). by setoid_rewrite HQ'.
Qed.

Lemma find_ok B p d : NoDup (bd_list B d) -> p ∈ bd_list B d -> exists i, bd_find_port B p d = HOk (BP i d) /\ bd_list B d !! i = Some p /\
  forall i', bd_list B d !! i' = Some p -> i' = i.
Proof.
  intros Hnd Hp. assert (Hf : forall l, p ∈ l -> exists i, lposition l p = Some i /\ l !! i = Some p).
  { clear. induction l as [|q l IH]; [by intros ?%elem_of_nil|]. intros Hp. cbn [lposition]. destruct (decide (q = p)) as [->|Hne]; [by exists 0|].
    destruct IH as (i & -> & Hi); [apply elem_of_cons in Hp as [?|?]; [congruence|done]|]. by exists (S i). }
  destruct (Hf _ Hp) as (i & Ei & Hi). exists i. unfold bd_find_port. rewrite Ei. split; [done|]. split; [done|].
  intros i' Hi'. by eapply NoDup_lookup.
Qed.

Section orders.
  Context (B : boundary) (order : list nat -> list nat) (Hord : forall l, order l ≡ₚ l).
  Context (Hni : NoDup (bd_inputs B)) (Hno : NoDup (bd_outputs B)).
  Notation a := (length (bd_inputs B)).
  Notation b := (length (bd_outputs B)).

  Lemma order_step_ok q l : q ∈ bd_outputs B -> forall o Q, (forall p, p ∈ l -> p ∈ bd_inputs B) -> holds_order o a b Q ->
    exists o', hfold (po_order_step B q) l o = HOk o' /\
      holds_order o' a b (fun i j => Q i j \/ exists p, p ∈ l /\ bd_inputs B !! i = Some p /\ bd_outputs B !! j = Some q).
  Proof.
    intros Hq. induction l as [|p l IH]; intros o Q Hl Ho; cbn [hfold].
    - exists o. split; [done|]. eapply holds_iff; [|exact Ho]. intros i j. split; [by left|]. intros [?|(p & ?%elem_of_nil & _)]; done.
    - destruct (find_ok B p Incoming Hni) as (i & Ei & Hi & Hui); [apply Hl; by left|]. destruct (find_ok B q Outgoing Hno Hq) as (j & Ej & Hj & Huj).
      assert (po_order_step B q o p = po_add_order o (BP i Incoming) (BP j Outgoing)) as -> by (unfold po_order_step; rewrite Ei, Ej; done).
      destruct (holds_add o a b Q i j) as (o1 & -> & H1); [by eapply lookup_lt_Some|by eapply lookup_lt_Some|done|]. cbn [mbind hres_bind].
      destruct (IH o1 _ (fun x Hx => Hl x (elem_of_list_further _ _ _ Hx)) H1) as (o2 & -> & H2). exists o2. split; [done|].
      eapply holds_iff; [|exact H2]. intros i' j'. cbn beta. split.
      + intros [[?|[-> ->]]|(p' & ? & ? & ?)]; [by left|right; exists p; split; [by left|done]|right; exists p'; split; [by right|done]].
      + intros [?|(p' & [->|?]%elem_of_cons & Hx & Hy)]; [by do 2 left|left; right; split; [by apply Hui|by apply Huj]|right; by exists p'].
  Qed.
  Lemma out_step_ok s qs : (forall p, p ∈ s -> p ∈ bd_inputs B) -> (forall q, q ∈ qs -> q ∈ bd_outputs B) -> forall o Q, holds_order o a b Q ->
    exists o', hfold (po_out_step B order s) qs o = HOk o' /\
      holds_order o' a b (fun i j => Q i j \/ exists p q, p ∈ s /\ q ∈ qs /\ bd_inputs B !! i = Some p /\ bd_outputs B !! j = Some q).
  Proof.
    intros Hs. induction qs as [|q qs IH]; intros Hqs o Q Ho; cbn [hfold].
    - exists o. split; [done|]. eapply holds_iff; [|exact Ho]. intros i j. split; [by left|]. intros [?|(p & q & _ & ?%elem_of_nil & _)]; done.
    - change (po_out_step B order s o q) with (hfold (po_order_step B q) (order (elements s)) o). destruct (order_step_ok q (order (elements s)) (Hqs q ltac:(by left)) o Q) as (o1 & -> & H1); [|done|].
      { intros p. rewrite Hord, elem_of_elements. apply Hs. }
      cbn [mbind hres_bind]. destruct (IH (fun x Hx => Hqs x (elem_of_list_further _ _ _ Hx)) o1 _ H1) as (o2 & -> & H2). exists o2. split; [done|].
      eapply holds_iff; [|exact H2]. intros i j. cbn beta. setoid_rewrite Hord. setoid_rewrite elem_of_elements. split.
      + intros [[?|(p & ? & ? & ?)]|(p & q' & ? & ? & ? & ?)]; [by left|right; exists p, q; split_and!; by try left|right; exists p, q'; split_and!; by try right].
      + intros [?|(p & q' & ? & [->|?]%elem_of_cons & ? & ?)]; [by do 2 left|left; right; by exists p|right; by exists p, q'].
  Qed.
End orders.

(** ** The view *)
Section view.
  Context {E : Type} (V : lview E) (N : nat -> Prop) (R : E -> E -> Prop) (H : shows V N R).

  Definition gvis : gview :=
    GV (gv_nodes (gv_of_lv V)) (fun n d => if lv_has_node V n then lv_ports V n d else []) (gv_links (gv_of_lv V))
       (fun p => match lv_pnode V p with Some n => if lv_has_node V n then Some n else None | None => None end).

  Lemma has_N n : lv_has_node V n = true <-> N n. Proof. apply H. Qed.
  Lemma vis_ports' p n d : p ∈ gv_ports gvis n d <-> N n /\ lv_pnode V p = Some n /\ lv_pdir V p = Some d.
  Proof.
    cbn. destruct (lv_has_node V n) eqn:En.
    - apply has_N in En. rewrite (proj2 (lvs_ports _ _ _ H n d En)). tauto.
    - split; [by intros ?%elem_of_nil|]. intros (Hn%has_N & _). congruence.
  Qed.
  Lemma vis_glk' p q : port_in V N p -> glk gvis p q <-> exists x y, R x y /\ lv_port V x = p /\ lv_port V y = q.
  Proof.
    intros Hp. unfold glk. cbn. destruct (lvs_plinks _ _ _ H p Hp) as (l & El & _ & Hl). rewrite El. split.
    - intros (l' & [= <-] & Hq). apply elem_of_list_In, in_map_iff in Hq as ([x y] & <- & Hx%elem_of_list_In). apply Hl in Hx as [Hx Hr]. by exists x, y.
    - intros (x & y & Hr & Hx & Hy). eexists. split; [done|]. apply elem_of_list_In, in_map_iff. exists (x, y). split; [done|]. by apply elem_of_list_In, Hl.
  Qed.
  Lemma gvis_wf : wfv gvis.
  Proof.
    split.
    - intros n d. cbn. destruct (lv_has_node V n) eqn:En; [apply has_N in En; by apply H|constructor].
    - intros p n d n' d' (_ & H1 & H2)%vis_ports' (_ & H3 & H4)%vis_ports'. split; congruence.
    - intros p n. setoid_rewrite vis_ports'. cbn. split.
      + destruct (lv_pnode V p) as [m|] eqn:Ep; [|done]. destruct (lv_has_node V m) eqn:Em; [|done]. intros [= <-].
        destruct (lv_pdir V p) as [d|] eqn:Ed; [|exfalso; eapply (lvs_dir _ _ _ H p); [congruence|done]]. exists d. split; [by apply has_N|done].
      + intros (d & Hn%has_N & -> & _). by rewrite Hn.
    - intros p n d (Hn & Hp & _)%vis_ports'. cbn. destruct (lvs_plinks _ _ _ H p) as (l & El & _); [by exists n|]. rewrite El. eauto.
    - intros p q n d (Hn & Hp & Hd)%vis_ports' Hl. apply vis_glk' in Hl as (x & y & Hr & <- & <-); [|by exists n].
      pose proof (lvs_sym _ _ _ H _ _ Hr) as Hr'. pose proof (lvs_end _ _ _ H _ _ Hr') as Hy. pose proof Hy as (m & Hm & HNm). split.
      + apply vis_glk'; [done|]. by exists y, x.
      + exists m. apply vis_ports'. split; [done|]. split; [done|]. by apply (lvs_opp _ _ _ H _ _ _ Hr).
    - intros p n d (Hn & _)%vis_ports'. cbn. destruct (lvs_nodes _ _ _ H) as (L & -> & _ & HL & _). by apply HL.
  Qed.
  Lemma gvis_glink a p q b : glink gvis Outgoing a p q b <->
    exists x y, R x y /\ lv_port V x = p /\ lv_port V y = q /\ lv_pnode V p = Some a /\ lv_pdir V p = Some Outgoing /\ lv_pnode V q = Some b.
  Proof.
    unfold glink. rewrite !vis_ports'. split.
    - intros ((Ha & Hp & Hd) & Hl & (Hb & Hq & _)). apply vis_glk' in Hl as (x & y & Hr & Hx & Hy); [|by exists a]. by exists x, y.
    - intros (x & y & Hr & Hx & Hy & Hp & Hd & Hq). destruct (lvs_end _ _ _ H _ _ Hr) as (a' & Ha & HNa). rewrite Hx, Hp in Ha. injection Ha as <-.
      destruct (lvs_end _ _ _ H _ _ (lvs_sym _ _ _ H _ _ Hr)) as (b' & Hb & HNb). rewrite Hy, Hq in Hb. injection Hb as <-.
      split; [done|]. split; [apply vis_glk'; [by exists a|by exists x, y]|]. split; [done|]. split; [done|]. rewrite <- Hy. apply (lvs_opp _ _ _ H _ _ _ Hr). by rewrite Hx.
  Qed.
  Lemma edge_N u v : vedge V R u v -> N u /\ N v.
  Proof.
    intros (x & y & Hr & Hx & _ & Hy). destruct (lvs_end _ _ _ H _ _ Hr) as (a' & Ha & HNa). rewrite Hx in Ha. injection Ha as <-.
    destruct (lvs_end _ _ _ H _ _ (lvs_sym _ _ _ H _ _ Hr)) as (b' & Hb & HNb). rewrite Hy in Hb. by injection Hb as <-.
  Qed.

  (** neighbours *)
  Definition link_dir (d : dir) (n m : nat) : Prop := match d with Outgoing => vedge V R n m | Incoming => vedge V R m n end.
  Lemma neigh_ok n d : N n -> exists l r, lv_neigh V n d = HOk r /\ NoDup l /\ (forall x y, (x, y) ∈ l <-> lv_port V x ∈ lv_ports V n d /\ R x y) /\
    Forall2 (fun x m => lv_pnode V (lv_port V x.2) = Some m) l r /\ forall m, m ∈ r <-> link_dir d n m.
  Proof.
    intros Hn. destruct (lvs_links _ _ _ H n d Hn) as (ls & l & r & Hls & -> & _ & Hr & HF). exists (concat ls), r. split; [done|].
    destruct (lvs_concat V N R H n (lv_ports V n d) ls Hn) as [Hnd Hl]; [by apply H|intros p Hp; by eapply (lvs_pin V N R H n d)|done|].
    split; [done|]. split; [done|]. split; [done|]. intros m. split.
    - intros [i Hi]%elem_of_list_lookup. destruct (Forall2_lookup_r _ _ _ _ _ HF Hi) as ([x y] & Hx & Hm). cbn in Hm.
      apply elem_of_list_lookup_2, Hl in Hx as [Hx HR]. apply (proj2 (lvs_ports _ _ _ H n d Hn)) in Hx as [Hp Hd].
      destruct d; [exists y, x|exists x, y]; cbn; split_and!; try done; [by apply H|]. by apply (lvs_opp _ _ _ H _ _ _ HR) in Hd.
    - assert (Hgo : forall x y, R x y -> lv_pnode V (lv_port V x) = Some n -> lv_pdir V (lv_port V x) = Some d -> lv_pnode V (lv_port V y) = Some m -> m ∈ r).
      { intros x y HR Hx Hd Hm. assert (Hxy : (x, y) ∈ concat ls) by (apply Hl; split; [by apply (proj2 (lvs_ports _ _ _ H n d Hn))|done]).
        apply elem_of_list_lookup in Hxy as [i Hi]. destruct (Forall2_lookup_l _ _ _ _ _ HF Hi) as (m' & Hm' & Em). cbn in Em.
        rewrite Hm in Em. injection Em as <-. by eapply elem_of_list_lookup_2. }
      destruct d; cbn; intros (x & y & HR & Hx & Hd & Hy); [|by apply (Hgo x y)].
      apply (Hgo y x); try done; [by apply H|]. by apply (lvs_opp _ _ _ H _ _ _ HR) in Hd.
  Qed.
  Lemma cnt_links n (l : list (E * E)) r : Forall2 (fun x m => lv_pnode V (lv_port V x.2) = Some m) l r ->
    cnt n r = length (filter (fun x : E * E => lv_pnode V (lv_port V x.2) = Some n) l).
  Proof.
    induction 1 as [|x m l r Hx _ IH]; [done|]. rewrite cnt_cons, filter_cons, IH. destruct (decide (m = n)) as [->|Hne].
    - by rewrite decide_True.
    - rewrite decide_False; [done|congruence].
  Qed.
  Lemma neigh_count n m r r' : N n -> N m -> lv_neigh V n Outgoing = HOk r -> lv_neigh V m Incoming = HOk r' -> cnt m r = cnt n r'.
  Proof.
    intros Hn Hm Er Er'. destruct (neigh_ok n Outgoing Hn) as (l & r1 & E1 & Hnd & Hl & HF & _). rewrite Er in E1. injection E1 as <-.
    destruct (neigh_ok m Incoming Hm) as (l' & r2 & E2 & Hnd' & Hl' & HF' & _). rewrite Er' in E2. injection E2 as <-.
    rewrite (cnt_links m l r HF), (cnt_links n l' r' HF'). rewrite <- (map_length (fun x : E * E => (x.2, x.1)) (filter _ l)).
    apply Permutation_length, NoDup_Permutation.
    - apply (NoDup_fmap_2_strong (fun x : E * E => (x.2, x.1))); [by intros [x y] [x' y'] _ _ [= -> ->]|by apply NoDup_filter].
    - by apply NoDup_filter.
    - intros [y x]. rewrite elem_of_list_In, in_map_iff, elem_of_list_filter, Hl'. cbn [fst snd]. split.
      + intros ([x' y'] & [= -> ->] & [Hy Hx]%elem_of_list_In%elem_of_list_filter). cbn in Hy. apply Hl in Hx as [Hx HR].
        apply (proj2 (lvs_ports _ _ _ H n Outgoing Hn)) in Hx as [Hx Hd]. split; [done|]. split; [|by apply H].
        apply (proj2 (lvs_ports _ _ _ H m Incoming Hm)). split; [done|]. by apply (lvs_opp _ _ _ H _ _ _ HR) in Hd.
      + intros (Hx & Hy & HR). apply (proj2 (lvs_ports _ _ _ H m Incoming Hm)) in Hy as [Hy Hd]. exists (x, y). split; [done|].
        apply elem_of_list_In, elem_of_list_filter. cbn. split; [done|]. apply Hl. split; [|by apply H].
        apply (proj2 (lvs_ports _ _ _ H n Outgoing Hn)). split; [done|]. by apply (lvs_opp _ _ _ H _ _ _ HR) in Hd.
  Qed.
  Lemma no_in_iff n : no_in gvis Outgoing n <-> forall u, ~ vedge V R u n.
  Proof.
    unfold no_in. split.
    - intros Hno u (x & y & Hr & Hx & Hd & Hy). pose proof (lvs_end _ _ _ H _ _ (lvs_sym _ _ _ H _ _ Hr)) as Hyin.
      pose proof Hyin as (n' & Hn' & HNn). rewrite Hy in Hn'. injection Hn' as <-.
      apply (Hno (lv_port V y) (lv_port V x)).
      + apply vis_ports'. split; [done|]. split; [done|]. by apply (lvs_opp _ _ _ H _ _ _ Hr) in Hd.
      + apply vis_glk'; [done|]. exists y, x. split; [by apply H|done].
    - intros Hno q z (Hn & Hq & Hd)%vis_ports' Hl. apply vis_glk' in Hl as (x & y & Hr & Hx & Hy); [|by exists n].
      pose proof (lvs_sym _ _ _ H _ _ Hr) as Hr'. destruct (lvs_end _ _ _ H _ _ Hr') as (u & Hu & HNu). apply (Hno u). exists y, x. split; [done|].
      split; [done|]. split; [|by rewrite Hx]. rewrite <- Hx in Hd. by apply (lvs_opp _ _ _ H _ _ _ Hr) in Hd.
  Qed.
End view.
