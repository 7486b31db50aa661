(** The topological-order convexity checker on positions. *)
From Verif Require Export ConvexSpec DomPG TopoThms.

Lemma bt_insert_elem x y l : y ∈ bt_insert x l <-> y = x \/ y ∈ l.
Proof.
  induction l as [|z l IH]; cbn [bt_insert]; [rewrite elem_of_list_singleton, elem_of_nil; tauto|].
  destruct (decide (x < z)); [by rewrite elem_of_cons|]. destruct (decide (x = z)) as [->|].
  - rewrite elem_of_cons. tauto.
  - rewrite !elem_of_cons, IH. tauto.
Qed.
Lemma bt_insert_sorted x l : StronglySorted lt l -> StronglySorted lt (bt_insert x l).
Proof.
  induction 1 as [|z l Hs IH Hz]; cbn [bt_insert]; [repeat constructor|].
  destruct (decide (x < z)); [|destruct (decide (x = z)) as [->|]].
  - constructor; [by constructor|]. constructor; [done|]. eapply Forall_impl; [exact Hz|]. cbn. lia.
  - by constructor.
  - constructor; [done|]. apply Forall_forall. intros y [->|Hy]%bt_insert_elem; [lia|]. rewrite Forall_forall in Hz. by apply Hz.
Qed.
Lemma bt_fold_elem l s y : y ∈ foldl (fun s x => bt_insert x s) s l <-> y ∈ s \/ y ∈ l.
Proof.
  revert s. induction l as [|x l IH]; intros s; cbn; [set_solver|]. rewrite IH, bt_insert_elem, elem_of_cons. tauto.
Qed.
Lemma bt_of_elem l y : y ∈ bt_of l <-> y ∈ l.
Proof. unfold bt_of. rewrite bt_fold_elem. set_solver. Qed.
Lemma bt_of_sorted l : StronglySorted lt (bt_of l).
Proof.
  unfold bt_of. assert (H : forall s, StronglySorted lt s -> StronglySorted lt (foldl (fun s x => bt_insert x s) s l)).
  { induction l as [|x l IH]; intros s Hs; cbn; [done|]. by apply IH, bt_insert_sorted. }
  apply H. constructor.
Qed.
Lemma sorted_cons_inv x l : StronglySorted lt (x :: l) -> StronglySorted lt l /\ forall y, y ∈ l -> x < y.
Proof. inversion 1; subst. split; [done|]. by rewrite <- Forall_forall. Qed.
Lemma sorted_last l m : StronglySorted lt l -> last l = Some m -> m ∈ l /\ forall y, y ∈ l -> y <= m.
Proof.
  induction 1 as [|x l Hs IH Hx]; [done|]. destruct l as [|z l].
  - cbn. intros [= ->]. split; [by left|]. intros y ->%elem_of_list_singleton. lia.
  - intros Hm. change (last (x :: z :: l)) with (last (z :: l)) in Hm. destruct (IH Hm) as [H1 H2]. split; [by right|].
    intros y [->|Hy]%elem_of_cons; [|by apply H2]. rewrite Forall_forall in Hx. specialize (Hx m H1). lia.
Qed.

Section tloop.
  Context (nb : nat -> dir -> res (list nat)) (c : tcc) (succ : nat -> list nat) (N : nat).
  Context (Hsucc : forall lo hi i, i < N -> tcc_succs nb c lo hi i = Ok (filter (fun j => lo <= j <= hi) (succ i))).
  Context (Hup : forall i j, i < N -> j ∈ succ i -> i < j < N).
  Context (S : list nat) (HSs : StronglySorted lt S) (HSN : forall i, i ∈ S -> i < N).
  Context (lo hi : nat) (Hlo : lo ∈ S) (Hhi : hi ∈ S) (Hr : forall i, i ∈ S -> lo <= i <= hi).

  (** Outside [S], reached from [S] by a path outside [S]. *)
  Inductive fr : nat -> Prop :=
    | fr_in y x : y ∈ S -> x ∈ succ y -> x ∉ S -> fr x
    | fr_step y x : fr y -> x ∈ succ y -> x ∉ S -> fr x.
  Definition src y := y ∈ S \/ fr y.
  Lemma fr_not x : fr x -> x ∉ S. Proof. by destruct 1. Qed.
  Lemma fr_inv x : fr x -> exists y, src y /\ x ∈ succ y /\ x ∉ S.
  Proof. intros []; [exists y; split; [by left|done]|exists y; split; [by right|done]]. Qed.
  Lemma fr_mk y x : src y -> x ∈ succ y -> x ∉ S -> fr x.
  Proof. intros [?|?]; [by eapply fr_in|by eapply fr_step]. Qed.
  Lemma fr_N x : fr x -> x < N.
  Proof. induction 1 as [y x Hy Hx _|y x _ IH Hx _]; [apply (Hup y); [by apply HSN|done]|by apply (Hup y)]. Qed.
  Lemma src_N y : src y -> y < N. Proof. intros [?|?]; [by apply HSN|by apply fr_N]. Qed.
  Lemma src_lo y : src y -> lo <= y.
  Proof.
    intros [?|H]; [by apply Hr|]. induction H as [y x Hy Hx _|y x Hf IH Hx _].
    - specialize (Hr y Hy). destruct (Hup y x); [by apply HSN|done|]. lia.
    - destruct (Hup y x); [by apply fr_N|done|]. lia.
  Qed.
  Definition bad := exists y z, fr y /\ z ∈ succ y /\ z ∈ S.

  Record TI (b : nat) (iter other : list nat) : Prop := {
    ti_is : StronglySorted lt iter; ti_os : StronglySorted lt other;
    ti_iter : forall x, x ∈ iter <-> x ∈ S /\ b <= x;
    ti_other : forall x, x ∈ other <-> b <= x /\ x <= hi /\ x ∉ S /\ exists y, y < b /\ src y /\ x ∈ succ y;
    ti_ok : forall y z, y < b -> fr y -> z ∈ succ y -> z ∉ S;
  }.
  Lemma no_fr b iter other k : TI b iter other -> k <= hi -> (forall x, x ∈ iter -> k < x \/ (x = k)) -> (forall x, x ∈ other -> k <= x) ->
    forall y, src y -> b <= y -> y < k -> False.
  Proof.
    intros T Hk H1 H2 y. induction (lt_wf y) as [y _ IH]. intros Hs Hb Hy. destruct Hs as [Hs|Hf].
    - assert (y ∈ iter) as Hi by (by apply (ti_iter _ _ _ T)). destruct (H1 _ Hi); lia.
    - destruct (fr_inv _ Hf) as (z & Hz & Hzy & Hn). destruct (Hup z y (src_N _ Hz) Hzy) as [Hlt _].
      destruct (decide (b <= z)) as [Hbz|Hbz]; [by apply (IH z); [lia| | |lia]|].
      assert (y ∈ other) as Ho.
      { apply (ti_other _ _ _ T). split; [done|]. split; [lia|]. split; [done|]. exists z. split; [lia|done]. }
      specialize (H2 _ Ho). lia.
  Qed.
  Lemma ins_fold l s : StronglySorted lt s ->
    StronglySorted lt (foldl (fun s i => if decide (i ∈ S) then s else bt_insert i s) s l) /\
    forall x, x ∈ foldl (fun s i => if decide (i ∈ S) then s else bt_insert i s) s l <-> x ∈ s \/ x ∈ l /\ x ∉ S.
  Proof.
    revert s. induction l as [|i l IH]; intros s Hs; cbn [foldl]; [split; [done|]; set_solver|].
    destruct (decide (i ∈ S)) as [Hi|Hi].
    - destruct (IH s Hs) as [H1 H2]. split; [done|]. intros x. rewrite H2, elem_of_cons. split; [tauto|]. intros [?|[[->|?] ?]]; tauto.
    - destruct (IH _ (bt_insert_sorted i s Hs)) as [H1 H2]. split; [done|]. intros x. rewrite H2, bt_insert_elem, elem_of_cons.
      split; [|tauto]. intros [[->|?]|[? ?]]; tauto.
  Qed.
  Lemma others_ok l s : StronglySorted lt s ->
    match tcc_others S l s with
    | None => exists z, z ∈ l /\ z ∈ S
    | Some s' => (forall z, z ∈ l -> z ∉ S) /\ StronglySorted lt s' /\ forall x, x ∈ s' <-> x ∈ s \/ x ∈ l
    end.
  Proof.
    revert s. induction l as [|i l IH]; intros s Hs; cbn [tcc_others]; [split; [set_solver|]; split; [done|]; set_solver|].
    destruct (decide (i ∈ S)) as [Hi|Hi]; [exists i; split; [by left|done]|].
    specialize (IH _ (bt_insert_sorted i s Hs)). destruct (tcc_others _ _ _) as [s'|].
    - destruct IH as (H1 & H2 & H3). split; [|split; [done|]].
      + by intros z [->|Hz]%elem_of_cons; [|apply H1].
      + intros x. rewrite H3, bt_insert_elem, elem_of_cons. tauto.
    - destruct IH as (z & ? & ?). exists z. split; [by right|done].
  Qed.
  (** The state after the smallest candidate [k] is dealt with. *)
  Lemma ti_next b iter other k iter' other' : TI b iter other -> b <= k -> k <= hi -> src k ->
    (forall x, x ∈ iter -> k <= x) -> (forall x, x ∈ other -> k <= x) ->
    StronglySorted lt iter' -> (forall x, x ∈ iter' <-> x ∈ iter /\ x <> k) ->
    StronglySorted lt other' ->
    (forall x, x ∈ other' <-> x ∈ other /\ x <> k \/ (x ∈ succ k /\ x <= hi) /\ x ∉ S) ->
    (fr k -> forall z, z ∈ succ k -> z ∉ S) ->
    TI (k + 1) iter' other'.
  Proof.
    intros T Hb Hk Hsk H1 H2 Hi' Ei Ho' Eo Hok.
    assert (Hno : forall y, src y -> b <= y -> y < k -> False).
    { eapply no_fr; [done|done| |done]. intros x Hx%H1. lia. }
    split; [done|done| | |].
    - intros x. rewrite Ei. split.
      + intros [Hx Hn]. specialize (H1 _ Hx). apply (ti_iter _ _ _ T) in Hx. split; [tauto|lia].
      + intros [Hx Hn]. split; [|lia]. apply (ti_iter _ _ _ T). split; [done|lia].
    - intros x. rewrite Eo. split.
      + intros [[Hx Hn]|[[Hx Hxh] Hn]].
        * pose proof (H2 _ Hx). apply (ti_other _ _ _ T) in Hx as (?&?&?&y&?&?&?). split; [lia|]. split; [done|]. split; [done|].
          exists y. split; [lia|done].
        * destruct (Hup k x (src_N _ Hsk) Hx). split; [lia|]. split; [done|]. split; [done|]. exists k. split; [lia|done].
      + intros (Hx1 & Hx2 & Hx3 & y & Hy & Hsy & Hxy). destruct (decide (y = k)) as [->|Hyk]; [by right|]. left. split; [|lia].
        apply (ti_other _ _ _ T). split; [lia|]. split; [done|]. split; [done|]. exists y. split; [|done].
        destruct (decide (b <= y)); [|lia]. exfalso. apply (Hno y); [done|done|lia].
    - intros y z Hy Hf Hz. destruct (decide (y = k)) as [->|Hyk]; [by apply Hok|]. apply (ti_ok _ _ _ T y); [|done|done].
      destruct (decide (b <= y)); [|lia]. exfalso. apply (Hno y); [by right|done|lia].
  Qed.
  Lemma in_range k x : src k -> k <= hi -> x ∈ filter (fun j => lo <= j <= hi) (succ k) <-> x ∈ succ k /\ x <= hi.
  Proof.
    intros Hk Hh. rewrite elem_of_list_filter. split; [tauto|]. intros [Hx Hxh]. split; [|done]. split; [|done].
    destruct (Hup k x (src_N _ Hk) Hx). pose proof (src_lo _ Hk). lia.
  Qed.
  Lemma tcc_loop_ok fuel : forall b iter other, TI b iter other -> b <= hi + 1 -> hi + 1 < b + fuel ->
    exists r, tcc_loop nb c fuel S lo hi iter other = HOk r /\ (r = true <-> ~ bad).
  Proof.
    induction fuel as [|fuel IH]; intros b iter other T Hb Hf; [lia|]. cbn [tcc_loop].
    destruct iter as [|cur iter'].
    { exists true. split; [done|]. split; [|done]. intros _ (y & z & Hy & Hz & Hzs).
      assert (~ b <= hi) as Hbh. { intros H. assert (hi ∈ @nil nat) as H'%elem_of_nil by (by apply (ti_iter _ _ _ T)). done. }
      apply (ti_ok _ _ _ T y z); [|done|done|done]. specialize (Hr z Hzs). destruct (Hup y z (fr_N _ Hy) Hz). lia. }
    destruct (sorted_cons_inv _ _ (ti_is _ _ _ T)) as [Hs' Hlt].
    assert (Hcur : cur ∈ S /\ b <= cur) by (apply (ti_iter _ _ _ T); by left). destruct Hcur as [HcS Hbc].
    pose proof (Hr _ HcS) as Hch.
    assert (Hce : forall x, x ∈ iter' <-> x ∈ cur :: iter' /\ x <> cur).
    { intros x. rewrite elem_of_cons. split; [|intros [[?|?] ?]; [done|done]]. intros Hx. split; [by right|]. specialize (Hlt _ Hx). lia. }
    assert (Hstep : (forall x, x ∈ other -> cur < x) ->
      exists r, (l ← lift (tcc_succs nb c lo hi cur);
                    tcc_loop nb c fuel S lo hi iter' (foldl (fun s i => if decide (i ∈ S) then s else bt_insert i s) other l)) = HOk r /\ (r = true <-> ~ bad)).
    { intros Ho. rewrite Hsucc by (by apply HSN). cbn [lift mbind hres_bind].
      destruct (ins_fold (filter (fun j => lo <= j <= hi) (succ cur)) other (ti_os _ _ _ T)) as [F1 F2].
      apply (IH (cur + 1)); [|lia|lia]. eapply (ti_next b (cur :: iter') other cur); try done.
      - lia.
      - by left.
      - intros x [->|Hx]%elem_of_cons; [lia|]. specialize (Hlt _ Hx). lia.
      - intros x Hx. specialize (Ho _ Hx). lia.
      - intros x. rewrite F2, in_range by (done || by left || lia). split; [|tauto]. intros [Hx|?]; [left|tauto]. split; [done|].
        specialize (Ho _ Hx). lia.
      - intros Hf'. by destruct (fr_not _ Hf'). }
    destruct other as [|o other'].
    { apply Hstep. intros x Hx%elem_of_nil. destruct Hx. }
    destruct (sorted_cons_inv _ _ (ti_os _ _ _ T)) as [Hso Hlto].
    destruct (decide (cur < o)) as [Hco|Hco].
    { apply Hstep. intros x [->|Hx]%elem_of_cons; [done|]. specialize (Hlto _ Hx). lia. }
    assert (o ∈ o :: other') as Ho by by left.
    apply (ti_other _ _ _ T) in Ho as (Ho1 & Ho2 & Ho3 & y & Hy1 & Hy2 & Hy3).
    assert (Hfo : fr o) by (by eapply fr_mk).
    rewrite Hsucc by (by apply fr_N). cbn [lift mbind hres_bind].
    pose proof (others_ok (filter (fun j => lo <= j <= hi) (succ o)) other' Hso) as Hot.
    destruct (tcc_others _ _ _) as [other2|].
    - destruct Hot as (G1 & G2 & G3). apply (IH (o + 1)); [|lia|lia].
      assert (G1' : forall z, z ∈ succ o -> z ∉ S).
      { intros z Hz Hzs. apply (G1 z); [|done]. apply in_range; [by right|done|]. split; [done|]. by apply Hr. }
      eapply (ti_next b (cur :: iter') (o :: other') o); try done.
      + by right.
      + intros x [->|Hx]%elem_of_cons; [lia|]. specialize (Hlt _ Hx). lia.
      + intros x [->|Hx]%elem_of_cons; [lia|]. specialize (Hlto _ Hx). lia.
      + apply T.
      + intros x. split; [|tauto]. intros Hx. split; [done|]. intros ->. by apply (ti_iter _ _ _ T) in Hx as [? _].
      + intros x. rewrite G3, in_range by (done || by right). rewrite elem_of_cons. split.
        * intros [Hx|[Hx Hxh]]; [left|right; split; [done|]; by apply G1'].
          split; [by right|]. specialize (Hlto _ Hx). lia.
        * intros [[[?|?] ?]|[? _]]; tauto.
    - destruct Hot as (z & Hz & HzS). exists false. split; [done|]. split; [done|]. intros Hn. exfalso. apply Hn. exists o, z.
      apply in_range in Hz; [|by right|done]. tauto.
  Qed.
  Lemma ti_init : TI lo S [].
  Proof.
    split; [done|constructor| | |].
    - intros x. split; [|tauto]. intros Hx. split; [done|]. by apply Hr.
    - intros x. rewrite elem_of_nil. split; [done|]. intros (_ & _ & _ & y & Hy & Hs & _). pose proof (src_lo _ Hs). lia.
    - intros y z Hy Hf. pose proof (src_lo y (or_intror Hf)). lia.
  Qed.
  Lemma tcc_loop_run fuel : hi + 1 < fuel ->
    exists r, tcc_loop nb c fuel S lo hi S [] = HOk r /\ (r = true <-> ~ bad).
  Proof.
    intros Hf. apply (tcc_loop_ok fuel lo); [exact ti_init| |lia]. specialize (Hr _ Hhi). lia.
  Qed.
End tloop.

(** Any path that leaves the set and comes back has a first such part. *)
Section paths.
  Context (R : nat -> nat -> Prop) (S : list nat).
  Inductive out : nat -> Prop :=
    | out_in y x : y ∈ S -> R y x -> x ∉ S -> out x
    | out_step y x : out y -> R y x -> x ∉ S -> out x.
  Lemma out_not x : out x -> x ∉ S. Proof. by destruct 1. Qed.
  Lemma out_tc x : out x -> exists a, a ∈ S /\ tc R a x.
  Proof.
    induction 1 as [y x Hy Hx _|y x _ (a & Ha & Hay) Hx _]; [exists y; split; [done|by apply tc_once]|].
    exists a. split; [done|]. by eapply tc_r.
  Qed.
  Lemma tc_out a x : a ∈ S -> tc R a x -> x ∈ S \/ out x.
  Proof.
    intros Ha H.
    assert (G : forall a x, tc R a x -> a ∈ S \/ out a -> x ∈ S \/ out x).
    { clear. induction 1 as [a x Hx|a y x Hy _ IH]; intros Ha.
      - destruct (decide (x ∈ S)); [by left|right]. destruct Ha; [by eapply out_in|by eapply out_step].
      - apply IH. destruct (decide (y ∈ S)); [by left|right]. destruct Ha; [by eapply out_in|by eapply out_step]. }
    apply (G a); [done|by left].
  Qed.
  Lemma out_back x b : out x -> b ∈ S -> tc R x b -> exists y z, out y /\ z ∈ S /\ R y z.
  Proof.
    intros Hx Hb H. revert Hx Hb. induction H as [x b Hxb|x y b Hxy _ IH]; intros Hx Hb; [by exists x, b|].
    destruct (decide (y ∈ S)); [by exists x, y|]. apply IH; [by eapply out_step|done].
  Qed.
  Lemma convex_out : (forall a x b, a ∈ S -> b ∈ S -> tc R a x -> tc R x b -> x ∈ S) <-> ~ exists y z, out y /\ z ∈ S /\ R y z.
  Proof.
    split.
    - intros H (y & z & Hy & Hz & Hyz). destruct (out_tc _ Hy) as (a & Ha & Hay). apply (out_not _ Hy).
      apply (H a y z); [done|done|done|by apply tc_once].
    - intros H a x b Ha Hb Hax Hxb. destruct (tc_out _ _ Ha Hax) as [?|Ho]; [done|]. exfalso. apply H. by eapply out_back.
  Qed.
End paths.
