(** Reading the mermaid text back. *)
From Coq Require Import Ascii String.
From stdpp Require Import pretty.
From Verif Require Export MTextSpec DotTextProofs.
Open Scope list_scope.
Open Scope string_scope.

(** ** Labels *)
(** Both replacements at once. *)
Fixpoint esc (s : string) : string :=
  match s with
  | EmptyString => EmptyString
  | String x s => if Ascii.eqb x quote then "#quot;" +:+ esc s else if Ascii.eqb x newline then "<br>" +:+ esc s else String x (esc s)
  end.
Lemma esc_eq s : str_replace newline "<br>" (str_replace quote "#quot;" s) = esc s.
Proof.
  induction s as [|x s IH]; [done|]. cbn [str_replace esc]. destruct (Ascii.eqb_spec x quote) as [-> |Hq].
  - rewrite <- IH. reflexivity.
  - cbn [str_replace]. rewrite IH. done.
Qed.
Lemma esc_free s : free_of quote (esc s).
Proof.
  induction s as [|x s IH]; [done|]. cbn [esc]. destruct (Ascii.eqb_spec x quote) as [-> |Hq].
  - apply free_app; [vm_compute; repeat split; discriminate|done].
  - destruct (Ascii.eqb_spec x newline); [apply free_app; [vm_compute; repeat split; discriminate|done]|done].
Qed.
(** Text without the first characters of the escapes was there before. *)
Lemma esc_lit t : forall s w, free_of "#" t -> free_of "<" t -> esc s = t +:+ w -> exists s', s = t +:+ s' /\ esc s' = w.
Proof.
  induction t as [|c t IH]; intros s w H1 H2 Es; [by exists s|]. destruct H1 as [H1 H1'], H2 as [H2 H2'].
  destruct s as [|x s]; [discriminate Es|]. cbn [esc] in Es. destruct (Ascii.eqb_spec x quote); [injection Es as <- _; done|].
  destruct (Ascii.eqb_spec x newline); [injection Es as <- _; done|]. injection Es as -> Es.
  destruct (IH s w H1' H2' Es) as (s' & -> & ?). by exists s'.
Qed.
Lemma no_escapes_tail c s : no_escapes (String c s) -> no_escapes s.
Proof. intros [H1 H2]. split; [intros (a & b & ->); apply H1|intros (a & b & ->); apply H2]; by exists (String c a), b. Qed.
Lemma esc_inj s : forall t, no_escapes s -> no_escapes t -> esc s = esc t -> s = t.
Proof.
  assert (Hq : forall y t w, no_escapes (String y t) -> y <> quote -> y <> newline -> "#quot;" +:+ w <> String y (esc t)).
  { intros y t w [Hn _] _ _ E. injection E as <- E. destruct (esc_lit "quot;" t w) as (t' & -> & _); [vm_compute; repeat split; discriminate|vm_compute; repeat split; discriminate|by rewrite <- E|].
    apply Hn. by exists "", t'. }
  assert (Hb : forall y t w, no_escapes (String y t) -> y <> quote -> y <> newline -> "<br>" +:+ w <> String y (esc t)).
  { intros y t w [_ Hn] _ _ E. injection E as <- E. destruct (esc_lit "br>" t w) as (t' & -> & _); [vm_compute; repeat split; discriminate|vm_compute; repeat split; discriminate|by rewrite <- E|].
    apply Hn. by exists "", t'. }
  induction s as [|x s IH]; intros [|y t] Hs Ht E.
  - done.
  - cbn [esc] in E. destruct (Ascii.eqb y quote); [discriminate E|]. destruct (Ascii.eqb y newline); discriminate E.
  - cbn [esc] in E. destruct (Ascii.eqb x quote); [discriminate E|]. destruct (Ascii.eqb x newline); discriminate E.
  - pose proof (no_escapes_tail _ _ Hs) as Hs'. pose proof (no_escapes_tail _ _ Ht) as Ht'. cbn [esc] in E.
    destruct (Ascii.eqb_spec x quote) as [-> |Hx1], (Ascii.eqb_spec y quote) as [-> |Hy1].
    + apply append_inj in E. by rewrite (IH t).
    + destruct (Ascii.eqb_spec y newline); [discriminate E|]. exfalso. by eapply (Hq y t).
    + destruct (Ascii.eqb_spec x newline); [discriminate E|]. exfalso. symmetry in E. by eapply (Hq x s).
    + destruct (Ascii.eqb_spec x newline) as [-> |Hx2], (Ascii.eqb_spec y newline) as [-> |Hy2].
      * apply append_inj in E. by rewrite (IH t).
      * exfalso. by eapply (Hb y t).
      * exfalso. symmetry in E. by eapply (Hb x s).
      * injection E as -> E. by rewrite (IH t).
Qed.
Lemma label_cases id l : (l = "" /\ encode_label id l = id) \/ (l <> "" /\ encode_label id l = String quote (esc l +:+ String quote "")).
Proof. destruct l as [|c l]; [by left|]. right. split; [done|]. unfold encode_label. rewrite esc_eq. done. Qed.
Lemma label_inj id l l' c x x' : no_escapes l -> no_escapes l' -> (forall y z, id +:+ String c y <> String quote z) ->
  encode_label id l +:+ String c x = encode_label id l' +:+ String c x' -> l = l'.
Proof.
  intros Hl Hl' Hid E. destruct (label_cases id l) as [[-> E1]|[_ E1]], (label_cases id l') as [[-> E2]|[_ E2]]; rewrite ?E1, ?E2 in E.
  - done.
  - exfalso. by eapply Hid.
  - exfalso. symmetry in E. by eapply Hid.
  - injection E as E. rewrite !sapp in E. apply stop_free in E as [E _]; [|apply esc_free|apply esc_free]. by apply esc_inj.
Qed.

(** ** Links *)
Definition link_text (solid : bool) (l : option string) : string :=
  match l, solid with
  | None, true => "-->" | None, false => "-.->"
  | Some l, true => "--" +:+ encode_label "" l +:+ "-->"
  | Some l, false => "-." +:+ encode_label "" l +:+ ".->"
  end.
Lemma link_text_eq e : mm_custom e = None -> as_mermaid_str e = Ok (link_text (is_solid e) (edge_label e)).
Proof.
  assert (Hs : forall e, mm_custom (strip_label e) = mm_custom e) by (induction e0; done).
  intros He. destruct e as [| | |l e|s]; try done. cbn [as_mermaid_str edge_label]. unfold is_solid. cbn [strip_label].
  pose proof (strip_none e) as Hn. cbn in He. rewrite <- Hs in He. destruct (strip_label e); try done. exfalso. by eapply Hn.
Qed.
Lemma link_inj s s' l l' (b b' : nat) : (forall x, l = Some x -> no_escapes x) -> (forall x, l' = Some x -> no_escapes x) ->
  link_text s l +:+ pretty b = link_text s' l' +:+ pretty b' -> s = s' /\ l = l' /\ b = b'.
Proof.
  intros Hl Hl' E. 
  assert (Hin : forall x x' u (n n' : nat), no_escapes x -> no_escapes x' ->
    (esc x +:+ String quote "") +:+ (u +:+ pretty n) = (esc x' +:+ String quote "") +:+ (u +:+ pretty n') -> x = x' /\ n = n').
  { intros x x' u n n' Hx Hx' E'. rewrite !sapp in E'. apply (stop_free quote _ _ (u +:+ pretty n) (u +:+ pretty n')) in E' as [E1 E2]; [|apply esc_free|apply esc_free].
    apply append_inj in E2. apply (inj pretty) in E2. split; [by apply esc_inj|done]. }
  assert (Hlit : forall u (n n' : nat), u +:+ pretty n = u +:+ pretty n' -> n = n').
  { intros u n n' E'. apply append_inj in E'. by apply (inj pretty) in E'. }
  unfold link_text in E. destruct l as [l|], l' as [l'|].
  - destruct (label_cases "" l) as [[-> E1]|[Hne E1]], (label_cases "" l') as [[-> E2]|[Hne' E2]]; rewrite ?E1, ?E2 in E; destruct s, s'; try discriminate E.
    + split; [done|]. split; [done|]. exact (Hlit ("---->") _ _ E).
    + split; [done|]. split; [done|]. exact (Hlit ("-..->") _ _ E).
    + rewrite !sapp in E. apply append_inj in E. injection E as E. apply Hin in E as [-> ->]; [done|by apply Hl|by apply Hl'].
    + rewrite !sapp in E. apply append_inj in E. injection E as E. apply Hin in E as [-> ->]; [done|by apply Hl|by apply Hl'].
  - exfalso. destruct (label_cases "" l) as [[-> E1]|[Hne E1]]; rewrite E1 in E; destruct s, s'; discriminate E.
  - exfalso. destruct (label_cases "" l') as [[-> E1]|[Hne E1]]; rewrite E1 in E; destruct s, s'; discriminate E.
  - destruct s, s'; try discriminate E; apply Hlit in E; done.
Qed.

(** ** Lines *)
Definition nonblank (s : string) : Prop := exists c r, s = String c r /\ c <> " "%char.
Lemma num_head (n : nat) : exists c r, pretty n = String c r /\ is_digit c = true.
Proof.
  pose proof (digits_pretty n) as Hd. destruct (pretty n) as [|c r] eqn:Ep; [|exists c, r; split; [done|]; destruct Hd as [Hd _]; by destruct (is_digit c)].
  exfalso. clear Hd. destruct (decide (n = 0)%nat) as [-> |Hn]; [discriminate Ep|].
  assert (Hl : forall x s, s <> "" -> pretty_N_go x s <> "").
  { intros x. induction (N.lt_wf_0 x) as [x _ IH]. intros s Hs. destruct (decide (0 < x)%N) as [Hx|Hx].
    - rewrite pretty_N_go_step by done. apply IH; [apply N.div_lt; lia|done].
    - assert (x = 0%N) as -> by lia. by rewrite pretty_N_go_0. }
  unfold pretty, pretty_nat, pretty, pretty_N in Ep. destruct (decide _) as [|Hx]; [discriminate Ep|]. revert Ep. rewrite pretty_N_go_step by lia. by apply Hl.
Qed.
Lemma num_nonblank (n : nat) t : nonblank (pretty n +:+ t).
Proof. destruct (num_head n) as (c & r & -> & Hc). exists c, (r +:+ t). split; [done|]. intros ->. discriminate Hc. Qed.
Lemma indent_inj k : forall k' s s', nonblank s -> nonblank s' -> str_repeat "    " k +:+ s = str_repeat "    " k' +:+ s' -> k = k' /\ s = s'.
Proof.
  induction k as [|k IH]; intros [|k'] s s' Hs Hs' E.
  - done.
  - exfalso. destruct Hs as (c & r & -> & Hc). injection E as E _. done.
  - exfalso. destruct Hs' as (c & r & -> & Hc). injection E as E _. done.
  - cbn [str_repeat] in E. rewrite !sapp in E. apply append_inj in E. apply IH in E as [-> ->]; done.
Qed.
Lemma lines_inj (L : list (nat * string)) : forall L', Forall (fun l => nonblank l.2) L -> Forall (fun l => nonblank l.2) L' ->
  (fun l : nat * string => str_repeat "    " l.1 +:+ l.2) <$> L = (fun l : nat * string => str_repeat "    " l.1 +:+ l.2) <$> L' -> L = L'.
Proof.
  induction L as [|[k s] L IH]; intros [|[k' s'] L'] H H' E; try done. rewrite !fmap_cons in E. injection E as E E'.
  inversion_clear H as [|? ? H1 H2]. inversion_clear H' as [|? ? H3 H4]. apply indent_inj in E as [-> ->]; [|done|done]. by rewrite (IH L').
Qed.

(** ** Items *)
Lemma css_join a : encode_attrs a = str_join "," (css a).
Proof. unfold encode_attrs, css. destruct a as [[] [] [] []]; reflexivity. Qed.
Lemma css_empty a : pres_empty a = true <-> css a = [].
Proof. unfold css. destruct a as [[] [] [] []]; cbn; split; done. Qed.
Definition no_style (L : list (nat * string)) : Prop := match L with [] => True | l :: _ => forall t, l.2 <> "style " +:+ t end.
Lemma style_inj k n a a' K K' : (forall s, s ∈ css a -> free_of "," s) -> (forall s, s ∈ css a' -> free_of "," s) ->
  no_style K -> no_style K' -> (mm_style k n a ++ K)%list = (mm_style k n a' ++ K')%list -> css a = css a' /\ K = K'.
Proof.
  intros Ha Ha' HK HK' E. unfold mm_style in E. pose proof (css_empty a) as He. pose proof (css_empty a') as He'.
  destruct (pres_empty a) eqn:Ea, (pres_empty a') eqn:Ea'.
  - split; [|done]. by rewrite (proj1 He), (proj1 He').
  - exfalso. cbn in E. subst K. eapply HK. cbn [snd]. reflexivity.
  - exfalso. cbn in E. subst K'. eapply HK'. cbn [snd]. reflexivity.
  - injection E as E EK. split; [|done]. apply append_inj, append_inj in E. rewrite !css_join in E.
    assert (Hsp : forall l, l <> [] -> (forall s, s ∈ l -> free_of "," s) -> split_on "," (str_join "," l) = l).
    { intros l Hl Hf. change ","%string with (String ","%char ""). apply split_join; [done|]. by apply Forall_forall. }
    rewrite <- (Hsp (css a)), <- (Hsp (css a')), E; try done.
    + intros Hc. by apply He' in Hc.
    + intros Hc. by apply He in Hc.
Qed.

Section items.
  Context {E : Type} (ns : nat -> node_style string pres_style) (es : E -> E -> edge_style).
  Hypothesis HP : plain_styles ns es.
  Definition leaf_tail (n : nat) (l : option string) : string :=
    match l with None => ":::hidden" | Some l => "[" +:+ (encode_label (pretty n) l +:+ "]") end.
  Definition block_tail (n : nat) (l : option string) : string :=
    match l with None => " ]" | Some l => encode_label (pretty n) l +:+ "]" end.
  (** All lines of an item, from what it draws. *)
  Definition item_lines (i : nat * mm_item E) : list (nat * string) :=
    match i.2 with
    | MMLeaf n => (i.1, pretty n +:+ leaf_tail n (style_label (ns n))) :: mm_style i.1 n (ns_attrs (ns n))
    | MMStart n => (i.1, "subgraph " +:+ (pretty n +:+ (" [" +:+ block_tail n (style_label (ns n))))) :: ((i.1 + 1)%nat, "direction LR") :: mm_style (i.1 + 1) n (ns_attrs (ns n))
    | MMEnd => [(i.1, "end")]
    | MMLink a x b y => [(i.1, pretty a +:+ (link_text (is_solid (es x y)) (edge_label (es x y)) +:+ pretty b))]
    end.
  Lemma item_lines_eq i : mm_lines ns es i = Ok (item_lines i).
  Proof.
    destruct i as [k [n|n| |a x b y]]; cbn [mm_lines].
    - unfold item_lines. cbn [fst snd]. destruct (ns n) as [|l|l at0]; reflexivity.
    - unfold item_lines. cbn [fst snd]. destruct (ns n) as [|l|l at0]; reflexivity.
    - done.
    - rewrite link_text_eq by apply HP. done.
  Qed.
  Lemma all_lines_eq out : mm_all_lines ns es out = Ok (concat (item_lines <$> out)).
  Proof.
    induction out as [|i out IH]; [done|]. cbn [mm_all_lines]. rewrite item_lines_eq. cbn [mbind res_bind]. rewrite IH. done.
  Qed.
  Lemma item_nonblank i : Forall (fun l => nonblank l.2) (item_lines i).
  Proof.
    assert (Hst : forall k n a, Forall (fun l : nat * string => nonblank l.2) (mm_style k n a)).
    { intros k n a. unfold mm_style. destruct (pres_empty a); [constructor|]. constructor; [|constructor]. by eexists _, _. }
    destruct i as [k [n|n| |a x b y]]; unfold item_lines; cbn [fst snd].
    - constructor; [apply num_nonblank|apply Hst].
    - constructor; [by eexists _, _|]. constructor; [by eexists _, _|apply Hst].
    - constructor; [by eexists _, _|constructor].
    - constructor; [apply num_nonblank|constructor].
  Qed.
  Lemma items_nonblank out : Forall (fun l => nonblank l.2) (concat (item_lines <$> out)).
  Proof. induction out as [|i out IH]; [constructor|]. rewrite fmap_cons. cbn [concat]. apply Forall_app. split; [apply item_nonblank|done]. Qed.
  Lemma num_not_s (n : nat) t c u : is_digit c = false -> pretty n +:+ t <> String c u.
  Proof. intros Hc Hs. destruct (num_head n) as (d & r & Ep & Hd). rewrite Ep in Hs. injection Hs as -> _. by rewrite Hd in Hc. Qed.
  Lemma items_no_style out : no_style (concat (item_lines <$> out)).
  Proof.
    destruct out as [|[k [n|n| |a x b y]] out]; [done|..]; unfold item_lines; intros t; cbn [fst snd].
    - by apply num_not_s.
    - discriminate.
    - discriminate.
    - by apply num_not_s.
  Qed.
End items.

Lemma leaf_tail_inj n l l' : (forall x, l = Some x -> no_escapes x) -> (forall x, l' = Some x -> no_escapes x) ->
  leaf_tail n l = leaf_tail n l' -> l = l'.
Proof.
  intros Hl Hl' E. destruct l as [l|], l' as [l'|]; try done; unfold leaf_tail in E. apply append_inj in E. f_equal.
  eapply (label_inj (pretty n) l l' "]" "" ""); [by apply Hl|by apply Hl'|intros y z; by apply num_not_s|exact E].
Qed.
Lemma block_tail_inj n l l' : (forall x, l = Some x -> no_escapes x) -> (forall x, l' = Some x -> no_escapes x) ->
  block_tail n l = block_tail n l' -> l = l'.
Proof.
  assert (Hb : forall x, " ]" <> encode_label (pretty n) x +:+ "]").
  { intros x Hx. destruct (label_cases (pretty n) x) as [[_ Ex]|[_ Ex]]; rewrite Ex in Hx; [|discriminate Hx]. symmetry in Hx. by apply num_not_s in Hx. }
  intros Hl Hl' E. destruct l as [l|], l' as [l'|]; try done; unfold block_tail in E.
  - f_equal. eapply (label_inj (pretty n) l l' "]" "" ""); [by apply Hl|by apply Hl'|intros y z; by apply num_not_s|exact E].
  - exfalso. by eapply Hb.
  - exfalso. by eapply Hb.
Qed.
Lemma leaf_tail_head n l : exists c r, leaf_tail n l = String c r /\ is_digit c = false /\ c <> "-"%char.
Proof. destruct l; eexists _, _; split; [reflexivity|by split|reflexivity|by split]. Qed.
Lemma link_head s l : exists r, link_text s l = String "-" r.
Proof. destruct l, s; eexists; reflexivity. Qed.

Lemma line_eq (k k' : nat) (s s' : string) R R' : (k, s) :: R = (k', s') :: R' -> k = k' /\ s = s' /\ R = R'.
Proof. intros E. injection E as -> -> ->. done. Qed.
Lemma items_inj {E E'} (ns ns' : nat -> node_style string pres_style) (es : E -> E -> edge_style) (es' : E' -> E' -> edge_style) :
  plain_styles ns es -> plain_styles ns' es' -> forall out out',
  concat (item_lines ns es <$> out) = concat (item_lines ns' es' <$> out') -> mm_draw ns es <$> out = mm_draw ns' es' <$> out'.
Proof.
  intros HP HP'. pose proof HP as (Hn & Ha & He). pose proof HP' as (Hn' & Ha' & He'). induction out as [|[k i] out IH]; intros [|[k' i'] out'] EQ.
  - done.
  - exfalso. destruct i'; discriminate EQ.
  - exfalso. destruct i; discriminate EQ.
  - change (item_lines ns es (k, i) ++ concat (item_lines ns es <$> out) = item_lines ns' es' (k', i') ++ concat (item_lines ns' es' <$> out'))%list in EQ. rewrite !fmap_cons. pose proof (items_no_style ns es out) as HK. pose proof (items_no_style ns' es' out') as HK'.
    destruct i as [n|n| |a x b y], i' as [n'|n'| |a' x' b' y']; unfold item_lines at 1 3 in EQ; cbn [fst snd app] in EQ; apply line_eq in EQ as (-> & E1 & EQ).
    + assert (n = n' /\ leaf_tail n (style_label (ns n)) = leaf_tail n' (style_label (ns' n'))) as [<- El].
      { destruct (leaf_tail_head n (style_label (ns n))) as (c & r & Ec & Hc & _), (leaf_tail_head n' (style_label (ns' n'))) as (c' & r' & Ec' & Hc' & _).
        rewrite Ec, Ec' in E1 |- *. apply num_stop in E1 as (-> & -> & ->); done. }
      apply leaf_tail_inj in El; [|apply Hn|apply Hn']. apply style_inj in EQ as [Ec EQ]; [|apply Ha|apply Ha'|done|done].
      rewrite (IH _ EQ). unfold mm_draw. cbn [fst snd]. by rewrite El, Ec.
    + exfalso. revert E1. by apply num_not_s.
    + exfalso. revert E1. by apply num_not_s.
    + exfalso. destruct (leaf_tail_head n (style_label (ns n))) as (c & r & Ec & Hc & Hd). destruct (link_head (is_solid (es' x' y')) (edge_label (es' x' y'))) as [r' Er].
      rewrite Ec, Er in E1. apply (num_stop n a' c "-" r (r' +:+ pretty b')) in E1 as (_ & E1 & _); done.
    + exfalso. symmetry in E1. revert E1. by apply num_not_s.
    + apply append_inj, num_lit in E1 as [<- El]; [|done]. apply block_tail_inj in El; [|apply Hn|apply Hn'].
      apply line_eq in EQ as (_ & _ & EQ). apply style_inj in EQ as [Ec EQ]; [|apply Ha|apply Ha'|done|done].
      rewrite (IH _ EQ). unfold mm_draw. cbn [fst snd]. by rewrite El, Ec.
    + discriminate E1.
    + exfalso. symmetry in E1. revert E1. by apply num_not_s.
    + exfalso. symmetry in E1. revert E1. by apply num_not_s.
    + discriminate E1.
    + rewrite (IH out'); done.
    + exfalso. symmetry in E1. revert E1. by apply num_not_s.
    + exfalso. destruct (leaf_tail_head n' (style_label (ns' n'))) as (c & r & Ec & Hc & Hd). destruct (link_head (is_solid (es x y)) (edge_label (es x y))) as [r' Er].
      rewrite Ec, Er in E1. apply (num_stop a n' "-" c (r' +:+ pretty b) r) in E1 as (_ & E1 & _); done.
    + exfalso. revert E1. by apply num_not_s.
    + exfalso. revert E1. by apply num_not_s.
    + assert (a = a' /\ link_text (is_solid (es x y)) (edge_label (es x y)) +:+ pretty b = link_text (is_solid (es' x' y')) (edge_label (es' x' y')) +:+ pretty b') as [<- El].
      { destruct (link_head (is_solid (es x y)) (edge_label (es x y))) as [r Er], (link_head (is_solid (es' x' y')) (edge_label (es' x' y'))) as [r' Er'].
        rewrite Er, Er' in E1 |- *. apply (num_stop a a' "-" "-" (r +:+ pretty b) (r' +:+ pretty b')) in E1 as (-> & _ & E2); [|done|done]. split; [done|].
        change (String "-" (r +:+ pretty b) = String "-" (r' +:+ pretty b')). by rewrite E2. }
      apply link_inj in El as (E3 & E4 & ->); [|apply He|apply He']. rewrite (IH _ EQ). unfold mm_draw. cbn [fst snd]. by rewrite E3, E4.
Qed.
