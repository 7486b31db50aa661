(** Proofs about views: what a filter or a restriction of a view shows. *)
From Verif Require Export ViewSpec MultiThms.

Lemma hok_inj {A} (a b : A) : HOk a = HOk b -> a = b. Proof. by intros [= ->]. Qed.
Lemma hbind_Ok {A B} (a : A) (f : A -> hres B) : (HOk a ≫= f) = f a. Proof. done. Qed.
Lemma hmap_map {A B} (f : A -> hres B) (g : A -> B) l : (forall a, a ∈ l -> f a = HOk (g a)) -> hmap f l = HOk (map g l).
Proof.
  induction l as [|a l IH]; intros H; [done|]. cbn [hmap map]. rewrite H by (by left). rewrite hbind_Ok, IH; [done|].
  intros b Hb. apply H. by right.
Qed.
Lemma hmap_Forall2 {A B} (f : A -> hres B) l r : Forall2 (fun a b => f a = HOk b) l r -> hmap f l = HOk r.
Proof. induction 1 as [|a b l r E _ IH]; [done|]. cbn [hmap]. by rewrite E, hbind_Ok, IH. Qed.
Lemma hfilter_filter {A} (f : A -> hres bool) (b : A -> bool) l : (forall a, a ∈ l -> f a = HOk (b a)) ->
  hfilter f l = HOk (filter (fun a => b a = true) l).
Proof.
  induction l as [|a l IH]; intros H; [done|]. cbn [hfilter]. rewrite H by (by left). rewrite hbind_Ok, IH by (intros x Hx; apply H; by right).
  rewrite hbind_Ok, filter_cons. destruct (b a); [by rewrite decide_True|by rewrite decide_False].
Qed.
Lemma filter_concat {A} (P : A -> Prop) `{!forall x, Decision (P x)} (ls : list (list A)) :
  filter P (concat ls) = concat (map (filter P) ls).
Proof. induction ls as [|l ls IH]; [done|]. cbn. by rewrite filter_app, IH. Qed.
Lemma filter_all {A} (P : A -> Prop) `{!forall x, Decision (P x)} (l : list A) : (forall x, x ∈ l -> P x) -> filter P l = l.
Proof.
  induction l as [|a l IH]; intros HH; [done|]. rewrite filter_cons, decide_True by (apply HH; by left). rewrite IH; [done|]. intros; apply HH; by right.
Qed.
Lemma filter_none {A} (P : A -> Prop) `{!forall x, Decision (P x)} (l : list A) : (forall x, x ∈ l -> ~ P x) -> filter P l = [].
Proof.
  induction l as [|a l IH]; intros HH; [done|]. rewrite filter_cons, decide_False by (apply HH; by left). apply IH. intros; apply HH; by right.
Qed.
Lemma filter_sublist {A} (P : A -> Prop) `{!forall x, Decision (P x)} (l k : list A) : sublist l k -> sublist (filter P l) (filter P k).
Proof.
  induction 1 as [|x l k _ IH|x l k _ IH]; [done|..]; rewrite !filter_cons; destruct (decide (P x)); try done; by constructor.
Qed.
Lemma sublist_filter' {A} (P : A -> Prop) `{!forall x, Decision (P x)} (l : list A) : sublist (filter P l) l.
Proof. induction l as [|a l IH]; [constructor|]. rewrite filter_cons. destruct (decide _); by constructor. Qed.
Lemma Forall2_filter_l {A B} (Q : A -> B -> Prop) (P : A -> Prop) `{!forall x, Decision (P x)} l r :
  Forall2 Q l r -> exists r', Forall2 Q (filter P l) r' /\ sublist r' r.
Proof.
  induction 1 as [|a b l r HH _ (r' & F & S)]; [exists []; split; constructor|]. rewrite filter_cons. destruct (decide (P a)).
  - exists (b :: r'). split; by constructor.
  - exists r'. split; [done|by constructor].
Qed.
Lemma sublist_elem {A} (l k : list A) x : sublist l k -> x ∈ l -> x ∈ k.
Proof. induction 1 as [|y l k S IH|y l k S IH]; [done|..]; rewrite ?elem_of_cons; naive_solver. Qed.
Lemma sublist_NoDup {A} (l k : list A) : sublist l k -> NoDup k -> NoDup l.
Proof.
  induction 1 as [|x l k S IH|x l k S IH]; [done|..]; intros [Hx Hk]%NoDup_cons; [|by apply IH].
  apply NoDup_cons. split; [|by apply IH]. intros H. by apply Hx, (sublist_elem _ _ _ S).
Qed.

Section shows.
  Context {E : Type} (V : lview E) (N : nat -> Prop) (R : E -> E -> Prop) (H : shows V N R).

  Lemma lvs_pin n d p : N n -> p ∈ lv_ports V n d -> port_in V N p.
  Proof. intros Hn Hp%(proj2 (lvs_ports _ _ _ H n d Hn)). exists n. by destruct Hp. Qed.
  Lemma lvs_concat n ps ls : N n -> NoDup ps -> (forall p, p ∈ ps -> port_in V N p) -> Forall2 (fun p l => lv_plinks V p = HOk l) ps ls ->
    NoDup (concat ls) /\ forall x y, (x, y) ∈ concat ls <-> lv_port V x ∈ ps /\ R x y.
  Proof.
    intros Hn. revert ls. induction ps as [|p ps IH]; intros ls Hnd Hps F.
    - apply Forall2_nil_inv_l in F as ->. cbn. split; [constructor|]. intros x y. split; [intros ?%elem_of_nil; done|].
      intros [?%elem_of_nil _]. done.
    - apply Forall2_cons_inv_l in F as (l & ls' & Hl & F & ->). apply NoDup_cons in Hnd as [Hp Hnd].
      destruct (IH ls' Hnd (fun q Hq => Hps q (elem_of_list_further _ _ _ Hq)) F) as [I1 I2].
      destruct (lvs_plinks _ _ _ H p (Hps p (elem_of_list_here _ _))) as (l' & Hl' & L1 & L2). rewrite Hl in Hl'. apply hok_inj in Hl' as <-.
      cbn [concat]. split.
      + apply NoDup_app. split; [done|]. split; [|done]. intros [x y] [Hx _]%L2 [Hx' _]%I2. subst p. done.
      + intros x y. rewrite elem_of_app, L2, I2, elem_of_cons. tauto.
  Qed.
  Lemma lvs_links_eq n d : N n -> exists l r, lv_links V n d = HOk l /\ lv_neigh V n d = HOk r /\
    Forall2 (fun x m => lv_pnode V (lv_port V x.2) = Some m) l r /\ NoDup l /\
    forall x y, (x, y) ∈ l <-> lv_port V x ∈ lv_ports V n d /\ R x y.
  Proof.
    intros Hn. destruct (lvs_links _ _ _ H n d Hn) as (ls & l & r & F & -> & El & Er & FN). exists (concat ls), r.
    split_and!; try done.
    - by apply (lvs_concat n _ _ Hn (proj1 (lvs_ports _ _ _ H n d Hn)) (fun p => lvs_pin n d p Hn) F).
    - by apply (lvs_concat n _ _ Hn (proj1 (lvs_ports _ _ _ H n d Hn)) (fun p => lvs_pin n d p Hn) F).
  Qed.
  Lemma lvs_links_elem n d l : N n -> lv_links V n d = HOk l -> NoDup l /\ forall x y, (x, y) ∈ l <-> lv_port V x ∈ lv_ports V n d /\ R x y.
  Proof. intros Hn El. destruct (lvs_links_eq n d Hn) as (l' & r & El' & _ & _ & H1 & H2). rewrite El in El'. apply hok_inj in El' as <-. done. Qed.
  Lemma lvs_end2 x y : R x y -> port_in V N (lv_port V y).
  Proof. intros HR. eapply (lvs_end _ _ _ H), (lvs_sym _ _ _ H), HR. Qed.
  Lemma lvs_all_elem n l : N n -> lv_all_links V n = HOk l ->
    NoDup l /\ forall x y, (x, y) ∈ l <-> R x y /\ lv_pnode V (lv_port V x) = Some n /\
      ~ (lv_pdir V (lv_port V x) = Some Incoming /\ lv_pnode V (lv_port V y) = Some n).
  Proof.
    intros Hn El. destruct (lvs_all_links _ _ _ H n Hn) as (li & lo & l' & r & Ei & Eo & S & Hl & El' & _). rewrite El in El'.
    apply hok_inj in El' as <-. destruct (lvs_links_elem n _ _ Hn Ei) as [N1 M1], (lvs_links_elem n _ _ Hn Eo) as [N2 M2].
    pose proof (lvs_ports _ _ _ H n Incoming Hn) as [_ P1]. pose proof (lvs_ports _ _ _ H n Outgoing Hn) as [_ P2]. split.
    - eapply sublist_NoDup; [exact S|]. apply NoDup_app. split; [done|]. split; [|done]. intros [x y] [Hx _]%M1 [Hx' _]%M2.
      apply P1 in Hx. apply P2 in Hx'. destruct Hx, Hx'. congruence.
    - intros x y. rewrite Hl, elem_of_app, M1, M2, P1, P2. cbn [fst snd]. split; [naive_solver|]. intros (HR & Hx & Hno).
      split; [|done]. destruct (lv_pdir V (lv_port V x)) as [[]|] eqn:Ed; [left|right|]; try done.
      exfalso. eapply (lvs_dir _ _ _ H); [|exact Ed]. congruence.
  Qed.
End shows.

Lemma shows_ext {E} (V : lview E) N N' R R' : (forall n, N n <-> N' n) -> (forall x y, R x y <-> R' x y) -> shows V N R -> shows V N' R'.
Proof.
  intros HN HR H. assert (HP : forall p, port_in V N p <-> port_in V N' p) by (intros p; unfold port_in; by setoid_rewrite HN).
  split.
  - intros n. rewrite <- HN. apply H.
  - destruct (lvs_nodes _ _ _ H) as (L & ? & ? & HL & ?). exists L. split_and!; try done. intros n. by rewrite <- HN.
  - intros p. destruct (lvs_port _ _ _ H p) as (b & ? & Hb). exists b. split; [done|]. by rewrite <- HP.
  - destruct (lvs_port_list _ _ _ H) as (L & ? & ? & HL & ?). exists L. split_and!; try done. intros n. by rewrite <- HP.
  - intros n d Hn%HN. by apply (lvs_ports _ _ _ H).
  - apply H.
  - apply H.
  - intros x y Hx%HR. apply HR. by apply (lvs_sym _ _ _ H).
  - intros x y z Hx%HR Hz%HR. by apply (lvs_fun _ _ _ H x).
  - intros x y Hx%HR. rewrite <- HP. by apply (lvs_end _ _ _ H x y).
  - intros x y d Hx%HR. by apply (lvs_opp _ _ _ H x y).
  - intros p Hp%HP. destruct (lvs_plinks _ _ _ H p Hp) as (l & ? & ? & Hl). exists l. split_and!; try done. intros x y. by rewrite <- HR.
  - intros n d Hn%HN. by apply (lvs_links _ _ _ H).
  - intros n Hn%HN. by apply (lvs_all_links _ _ _ H).
  - intros a b Hn%HN. by apply (lvs_conn _ _ _ H).
Qed.

(** A view [V'] that keeps the links [keep] of [V]. *)
Section keep.
  Context {E : Type} (V V' : lview E) (N N' : nat -> Prop) (R : E -> E -> Prop) (keep : E * E -> bool) (H : shows V N R).
  Let K x := keep x = true.
  Context (Eport : forall x, lv_port V' x = lv_port V x) (Enode : forall p, lv_pnode V' p = lv_pnode V p)
    (Edir : forall p, lv_pdir V' p = lv_pdir V p)
    (Eports : forall n d, lv_ports V' n d = lv_ports V n d) (Eall : forall n, lv_all_ports V' n = lv_all_ports V n).
  Context (Hsub : forall n, N' n -> N n).
  Context (Ksym : forall x y, R x y -> keep (x, y) = true -> keep (y, x) = true).
  Context (Kend : forall x y, R x y -> keep (x, y) = true -> port_in V N' (lv_port V x)).
  Context (Hnode : forall n, lv_has_node V' n = true <-> N' n)
    (Hnodes : exists L, lv_nodes V' = HOk L /\ NoDup L /\ (forall n, n ∈ L <-> N' n) /\ lv_node_count V' = HOk (length L))
    (Hport : forall p, exists b, lv_has_port V' p = HOk b /\ (b = true <-> port_in V N' p))
    (Hports : exists L, lv_port_list V' = HOk L /\ NoDup L /\ (forall p, p ∈ L <-> port_in V N' p) /\ lv_port_count V' = HOk (length L)).
  Context (Kp : forall p l, port_in V N' p -> lv_plinks V p = HOk l -> lv_plinks V' p = HOk (filter (fun x => keep x = true) l))
    (Kl : forall n d l, N' n -> lv_links V n d = HOk l -> lv_links V' n d = HOk (filter (fun x => keep x = true) l))
    (Ka : forall n l, N' n -> lv_all_links V n = HOk l -> lv_all_links V' n = HOk (filter (fun x => keep x = true) l))
    (Kn : forall n d l r, N' n -> lv_links V n d = HOk l -> lv_neigh V n d = HOk r ->
       Forall2 (fun x m => lv_pnode V (lv_port V x.2) = Some m) l r ->
       exists r', lv_neigh V' n d = HOk r' /\ Forall2 (fun x m => lv_pnode V (lv_port V x.2) = Some m) (filter (fun x => keep x = true) l) r')
    (Kan : forall n l r, N' n -> lv_all_links V n = HOk l -> lv_all_neigh V n = HOk r ->
       Forall2 (fun x m => lv_pnode V (lv_port V x.2) = Some m) l r ->
       exists r', lv_all_neigh V' n = HOk r' /\ Forall2 (fun x m => lv_pnode V (lv_port V x.2) = Some m) (filter (fun x => keep x = true) l) r')
    (Kc : forall a b lo l, N' a -> lv_links V a Outgoing = HOk lo -> sublist l lo ->
       (forall x, x ∈ l <-> x ∈ lo /\ lv_pnode V (lv_port V x.2) = Some b) -> lv_conn V a b = HOk l ->
       lv_conn V' a b = HOk (filter (fun x => keep x = true) l)).

  Lemma keep_pin (Q : nat -> Prop) p : port_in V' Q p <-> port_in V Q p.
  Proof. unfold port_in. by setoid_rewrite Enode. Qed.
  Lemma keep_shows : shows V' N' (fun x y => R x y /\ keep (x, y) = true).
  Proof.
    assert (Sub : forall p, port_in V N' p -> port_in V N p) by (intros p (n & ? & ?); exists n; auto).
    split.
    - done.
    - done.
    - intros p. destruct (Hport p) as (b & ? & Hb). exists b. split; [done|]. by rewrite keep_pin.
    - destruct Hports as (L & ? & ? & HL & ?). exists L. split_and!; try done. intros p. by rewrite keep_pin.
    - intros n d Hn. rewrite Eports. split; [by apply (lvs_ports _ _ _ H n d), Hsub|]. intros p. rewrite Enode, Edir.
      by apply (lvs_ports _ _ _ H n d), Hsub.
    - intros n. rewrite Eall, !Eports. apply H.
    - intros p. rewrite Enode, Edir. apply H.
    - intros x y [HR HK]. split; [by apply (lvs_sym _ _ _ H)|by apply Ksym].
    - intros x y z [H1 _] [H2 _]. by apply (lvs_fun _ _ _ H x).
    - intros x y [HR HK]. rewrite keep_pin, Eport. by apply (Kend x y).
    - intros x y d [HR HK]. rewrite !Edir, !Eport. by apply (lvs_opp _ _ _ H x y).
    - intros p Hp%keep_pin. destruct (lvs_plinks _ _ _ H p (Sub _ Hp)) as (l & El & Hnd & Hl). exists (filter K l). split; [by apply Kp|].
      split; [by apply NoDup_filter|]. intros x y. rewrite elem_of_list_filter, Hl, Eport. unfold K. tauto.
    - intros n d Hn. destruct (lvs_links _ _ _ H n d (Hsub _ Hn)) as (ls & l & r & F & -> & El & Er & FN).
      destruct (Kn n d _ _ Hn El Er FN) as (r' & Er' & FN'). exists (map (filter K) ls), (filter K (concat ls)), r'. split_and!.
      + rewrite Eports. assert (Hpp : forall p, p ∈ lv_ports V n d -> port_in V N' p).
        { intros p [Hp _]%(proj2 (lvs_ports _ _ _ H n d (Hsub _ Hn))). by exists n. }
        clear -F Kp Hpp. induction F as [|p l ps ls El F IH]; cbn [map]; [constructor|]. constructor; [apply Kp; [apply Hpp; by left|done]|].
        apply IH. intros q Hq. apply Hpp. by right.
      + by rewrite filter_concat.
      + by apply Kl.
      + done.
      + eapply Forall2_impl; [exact FN'|]. intros x m. by rewrite Enode, Eport.
    - intros n Hn. destruct (lvs_all_links _ _ _ H n (Hsub _ Hn)) as (li & lo & l & r & Ei & Eo & S & Hl & El & Er & FN).
      destruct (Kan n _ _ Hn El Er FN) as (r' & Er' & FN'). exists (filter K li), (filter K lo), (filter K l), r'. split_and!.
      + by apply Kl.
      + by apply Kl.
      + rewrite <- filter_app. by apply filter_sublist.
      + intros x. rewrite <- filter_app, !elem_of_list_filter, Hl, Edir, Enode, !Eport. tauto.
      + by apply Ka.
      + done.
      + eapply Forall2_impl; [exact FN'|]. intros x m. by rewrite Enode, Eport.
    - intros a b Ha. destruct (lvs_conn _ _ _ H a b (Hsub _ Ha)) as (lo & l & Eo & El & S & Hl). exists (filter K lo), (filter K l). split_and!.
      + by apply Kl.
      + eapply Kc; done.
      + by apply filter_sublist.
      + intros x. rewrite !elem_of_list_filter, Hl, Enode, Eport. tauto.
  Qed.
End keep.
