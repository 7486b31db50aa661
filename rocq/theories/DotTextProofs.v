(** Reading the graphviz text back. *)
From Coq Require Import Ascii String.
From stdpp Require Import pretty.
From Verif Require Export DotTextSpec DotThms MermThms.
Open Scope list_scope.
Open Scope string_scope.

(** ** Strings *)
Fixpoint all_of (P : ascii -> Prop) (s : string) : Prop :=
  match s with EmptyString => True | String x s => P x /\ all_of P s end.
Lemma all_free c s : free_of c s <-> all_of (fun x => x <> c) s.
Proof. induction s as [|x s IH]; [done|]. cbn. by rewrite IH. Qed.
Lemma all_mono (P Q : ascii -> Prop) s : (forall x, P x -> Q x) -> all_of P s -> all_of Q s.
Proof. intros HP. induction s as [|x s IH]; [done|]. intros [H1 H2]. split; auto. Qed.
Lemma stop (P : ascii -> Prop) s t c d x y : all_of P s -> all_of P t -> ~ P c -> ~ P d ->
  s +:+ String c x = t +:+ String d y -> s = t /\ c = d /\ x = y.
Proof.
  intros Hs Ht Hc Hd. revert t Ht. induction s as [|a s IH]; intros [|b t] Ht E; cbn in E.
  - injection E as -> ->. done.
  - injection E as -> ->. destruct Ht as [Ht _]. done.
  - injection E as <- <-. destruct Hs as [Hs _]. done.
  - injection E as -> E. destruct Hs as [_ Hs], Ht as [_ Ht]. destruct (IH Hs t Ht E) as (-> & ? & ?). done.
Qed.
Lemma stop_free c s t x y : free_of c s -> free_of c t -> s +:+ String c x = t +:+ String c y -> s = t /\ x = y.
Proof. intros Hs%all_free Ht%all_free E. eapply stop in E as (? & _ & ?); [|exact Hs|exact Ht|tauto|tauto]. done. Qed.
Lemma append_inj s x y : s +:+ x = s +:+ y -> x = y.
Proof. induction s as [|a s IH]; [done|]. intros E. injection E as E. by apply IH. Qed.

Lemma sapp (a b c : string) : (a +:+ b) +:+ c = a +:+ (b +:+ c).
Proof. induction a as [|x a IH]; [done|]. change (String x ((a +:+ b) +:+ c) = String x (a +:+ (b +:+ c))). by rewrite IH. Qed.
Lemma all_app P s t : all_of P s -> all_of P t -> all_of P (s +:+ t).
Proof. induction s as [|x s IH]; [done|]. intros [H1 H2] H3. split; [done|]. by apply IH. Qed.

(** Digits. *)
Definition is_digit (c : ascii) : bool := ((48 <=? nat_of_ascii c) && (nat_of_ascii c <=? 57))%nat.
Lemma digits_pretty (n : nat) : all_of is_digit (pretty n).
Proof.
  assert (Hgo : forall x s, all_of is_digit s -> all_of is_digit (pretty_N_go x s)).
  { intros x. induction (N.lt_wf_0 x) as [x _ IH]. intros s Hs. destruct (decide (0 < x)%N) as [Hx|Hx].
    - rewrite pretty_N_go_step by done. apply IH; [apply N.div_lt; lia|]. split; [|done].
      unfold pretty_N_char. destruct (x `mod` 10)%N as [|p]; [exact I|]. repeat (destruct p as [p|p|]; try exact I).
    - assert (x = 0%N) as -> by lia. by rewrite pretty_N_go_0. }
  unfold pretty, pretty_nat, pretty, pretty_N. destruct (decide _); [cbn; split; exact I|]. apply Hgo. done.
Qed.
Lemma num_free c (n : nat) : is_digit c = false -> free_of c (pretty n).
Proof. intros Hc. apply all_free. eapply all_mono, digits_pretty. intros x Hx ->. by rewrite Hc in Hx. Qed.
Lemma num_stop (n m : nat) c d x y : is_digit c = false -> is_digit d = false ->
  pretty n +:+ String c x = pretty m +:+ String d y -> n = m /\ c = d /\ x = y.
Proof.
  intros Hc Hd E. eapply (stop is_digit) in E as (E & -> & ->); [|apply digits_pretty|apply digits_pretty|intros Hx; by rewrite Hc in Hx|intros Hx; by rewrite Hd in Hx].
  split; [|done]. by apply (inj pretty) in E.
Qed.
Lemma num_other (n : nat) c d x y : is_digit c = false -> is_digit d = false -> c <> d -> pretty n +:+ String c x <> String d y.
Proof.
  intros Hc Hd Hcd E. eapply (stop is_digit (pretty n) "") in E as (_ & E & _); [done|apply digits_pretty|done|intros Hx; by rewrite Hc in Hx|intros Hx; by rewrite Hd in Hx].
Qed.
Lemma num_lit (n m : nat) c s x y : is_digit c = false -> pretty n +:+ (String c s +:+ x) = pretty m +:+ (String c s +:+ y) -> n = m /\ x = y.
Proof. intros Hc E. apply num_stop in E as (-> & _ & E); [|done|done]. by apply append_inj in E. Qed.
Lemma val_lit c s u v x y : free_of c u -> free_of c v -> u +:+ (String c s +:+ x) = v +:+ (String c s +:+ y) -> u = v /\ x = y.
Proof. intros Hu Hv E. apply stop_free in E as (-> & E); [|done|done]. by apply append_inj in E. Qed.

(** ** Cells and rows *)
Lemma cell_text_free c x : is_digit c = false -> c <> ":"%char -> c <> " "%char -> free_of c (c_label x) -> free_of c (cell_text x).
Proof.
  intros Hc H1 H2 Hl. unfold cell_text. destruct (c_shown x) as [o|]; [|done]. destruct (c_label x) as [|a l] eqn:El; [by apply num_free|].
  apply free_app; [by apply num_free|]. apply free_app; [|done]. cbn. auto.
Qed.
Lemma cell_shown c : cell_text c = shown_text c.
Proof. unfold cell_text, shown_text. destruct (c_shown c) as [o|]; [|done]. by destruct (c_label c). Qed.
Lemma cell_inj d x y t u : plain_cell x -> plain_cell y -> dot_cell_text d x +:+ t = dot_cell_text d y +:+ u -> same_cell x y /\ t = u.
Proof.
  intros [_ Hx] [_ Hy] E. unfold dot_cell_text in E. rewrite !sapp in E. apply append_inj, append_inj in E.
  apply num_lit in E as [E1 E]; [|done]. apply num_lit in E as [E2 E]; [|done].
  assert (c_border x.1 = c_border y.1 /\ cell_text x.1 +:+ ("</td>" +:+ t) = cell_text y.1 +:+ ("</td>" +:+ u)) as [E3 E'].
  { unfold cell_style in E. destruct (c_border x.1), (c_border y.1); [by apply (append_inj ">") in E|discriminate E|discriminate E|].
    apply append_inj, append_inj in E. done. }
  apply val_lit in E' as [E4 E']; [|by apply cell_text_free|by apply cell_text_free]. rewrite !cell_shown in E4. split; [|done]. split; [done|]. split; [done|]. split; [done|]. done.
Qed.
Lemma cells_inj d row : forall row' t u, Forall plain_cell row -> Forall plain_cell row' ->
  foldr String.append "" (dot_cell_text d <$> row) +:+ ("</tr>" +:+ t) = foldr String.append "" (dot_cell_text d <$> row') +:+ ("</tr>" +:+ u) ->
  Forall2 same_cell row row' /\ t = u.
Proof.
  induction row as [|x row IH]; intros [|y row'] t u Hr Hr' E.
  - apply (append_inj "</tr>") in E. split; [constructor|done].
  - rewrite fmap_cons in E. cbn [foldr] in E. rewrite sapp in E. unfold dot_cell_text in E. rewrite !sapp in E. discriminate E.
  - rewrite fmap_cons in E. cbn [foldr] in E. rewrite sapp in E. unfold dot_cell_text in E. rewrite !sapp in E. discriminate E.
  - rewrite !fmap_cons in E. cbn [foldr] in E. rewrite !sapp in E. inversion_clear Hr as [|? ? H1 H2]. inversion_clear Hr' as [|? ? H3 H4].
    apply cell_inj in E as [Hs E]; [|done|done]. apply IH in E as [HF ->]; [|done|done]. split; [by constructor|done].
Qed.
(** A row, followed by something that does not begin like a row of ports. *)
Lemma row_inj d row row' t u : Forall plain_cell row -> Forall plain_cell row' ->
  (forall z, t <> "<tr><td p" +:+ z) -> (forall z, u <> "<tr><td p" +:+ z) ->
  dot_row_text d row +:+ t = dot_row_text d row' +:+ u -> Forall2 same_cell row row' /\ t = u.
Proof.
  intros Hr Hr' Ht Hu E. destruct row as [|x row], row' as [|y row'].
  - split; [constructor|done].
  - exfalso. eapply Ht. unfold dot_row_text in E. rewrite fmap_cons in E. cbn [foldr] in E. unfold dot_cell_text in E. rewrite !sapp in E. exact E.
  - exfalso. eapply Hu. unfold dot_row_text in E. rewrite fmap_cons in E. cbn [foldr] in E. unfold dot_cell_text in E. rewrite !sapp in E. symmetry. exact E.
  - unfold dot_row_text in E. rewrite !sapp in E. apply append_inj in E. by apply cells_inj in E.
Qed.

(** ** Attributes *)
Lemma attr_inj k v v' t u : (forall s, v = Some s -> plain_value s) -> (forall s, v' = Some s -> plain_value s) ->
  (forall z, t <> (k +:+ "=") +:+ z) -> (forall z, u <> (k +:+ "=") +:+ z) ->
  dot_attr k v +:+ t = dot_attr k v' +:+ u -> v = v' /\ t = u.
Proof.
  intros Hv Hv' Ht Hu E. unfold dot_attr in E. destruct v as [v|], v' as [v'|].
  - rewrite !sapp in E. apply append_inj, append_inj in E. apply val_lit in E as [-> ->]; [done|by apply Hv|by apply Hv'].
  - exfalso. eapply Hu. rewrite !sapp in E. rewrite sapp. symmetry. exact E.
  - exfalso. eapply Ht. rewrite !sapp in E. rewrite sapp. exact E.
  - done.
Qed.
Definition plain_attrs (a : pres_style) : Prop := forall v, Some v ∈ [ps_color a; ps_fill a; ps_stroke a; ps_width a] -> plain_value v.
Lemma attrs_inj a a' t u : plain_attrs a -> plain_attrs a' -> dot_attrs a +:+ ("label" +:+ t) = dot_attrs a' +:+ ("label" +:+ u) -> a = a' /\ t = u.
Proof.
  intros Ha Ha' E. destruct a as [a b c d], a' as [a' b' c' d']. unfold dot_attrs in E. cbn [ps_color ps_fill ps_stroke ps_width] in E. rewrite !sapp in E.
  assert (forall s, (a = Some s \/ b = Some s \/ c = Some s \/ d = Some s) -> plain_value s) as Hp.
  { intros s Hs. apply Ha. cbn. rewrite !elem_of_cons. destruct Hs as [-> |[-> |[-> | ->]]]; tauto. }
  assert (forall s, (a' = Some s \/ b' = Some s \/ c' = Some s \/ d' = Some s) -> plain_value s) as Hp'.
  { intros s Hs. apply Ha'. cbn. rewrite !elem_of_cons. destruct Hs as [-> |[-> |[-> | ->]]]; tauto. }
  clear Ha Ha'.
  apply attr_inj in E as [-> E]; [|auto|auto|intros z Hz; destruct b, c, d; discriminate Hz|intros z Hz; destruct b', c', d'; discriminate Hz].
  apply attr_inj in E as [-> E]; [|auto|auto|intros z Hz; destruct c, d; discriminate Hz|intros z Hz; destruct c', d'; discriminate Hz].
  apply attr_inj in E as [-> E]; [|auto|auto|intros z Hz; destruct d; discriminate Hz|intros z Hz; destruct d'; discriminate Hz].
  apply attr_inj in E as [-> E]; [|auto 6|auto 6|intros z Hz; discriminate Hz|intros z Hz; discriminate Hz].
  by apply append_inj in E.
Qed.
Lemma plain_default a : (forall b v, a = Some b -> Some v ∈ [ps_color b; ps_fill b; ps_stroke b; ps_width b] -> plain_value v) ->
  plain_attrs (default pres_default a).
Proof.
  intros H. destruct a as [a|]; cbn [default from_option id]; [intros v; by apply H|]. intros v Hv. cbn in Hv. rewrite !elem_of_cons, elem_of_nil in Hv.
  naive_solver.
Qed.

(** ** Lines *)
Lemma line_inj i j : plain_stmt i -> plain_stmt j -> dot_line i = dot_line j -> same_stmt i j.
Proof.
  intros Hi Hj E. destruct i as [n l a w ins outs|a oa b ob s|n|p c], j as [n' l' a' w' ins' outs'|a' oa' b' ob' s'|n'|p' c']; cbn [dot_line] in E.
  - destruct Hi as ([_ Hl] & Hin & Hout & Ha), Hj as ([_ Hl'] & Hin' & Hout' & Ha'). apply num_lit in E as [-> E]; [|done].
    apply (attrs_inj _ _ ("=<<table border=""1"">" +:+ _) ("=<<table border=""1"">" +:+ _)) in E as [Eattr E]; [|by apply plain_default|by apply plain_default].
    apply append_inj in E. unfold dot_label_text in E. rewrite !sapp in E. apply row_inj in E as [Ein E]; [|done|done|intros z Hz; discriminate Hz|intros z Hz; discriminate Hz].
    apply append_inj in E. apply num_lit in E as [-> E]; [|done]. apply val_lit in E as [-> E]; [|done|done].
    apply row_inj in E as [Eout _]; [|done|done|intros z Hz; discriminate Hz|intros z Hz; discriminate Hz]. done.
  - apply num_stop in E as (_ & E & _); [discriminate E|done|done].
  - exfalso. revert E. by apply num_other.
  - exfalso. revert E. by apply num_other.
  - apply num_stop in E as (_ & E & _); [discriminate E|done|done].
  - apply num_lit in E as [-> E]; [|done]. apply num_lit in E as [-> E]; [|done]. apply num_lit in E as [-> E]; [|done]. apply num_lit in E as [-> E]; [|done].
    destruct Hi as [_ Hi], Hj as [_ Hj]. apply stop_free in E as [E _]; done.
  - exfalso. revert E. by apply num_other.
  - exfalso. revert E. by apply num_other.
  - exfalso. symmetry in E. revert E. by apply num_other.
  - exfalso. symmetry in E. revert E. by apply num_other.
  - apply append_inj in E. apply num_lit in E as [-> _]; done.
  - apply append_inj in E. apply num_stop in E as (_ & _ & E); [discriminate E|done|done].
  - exfalso. symmetry in E. revert E. by apply num_other.
  - exfalso. symmetry in E. revert E. by apply num_other.
  - apply append_inj in E. apply num_stop in E as (_ & _ & E); [discriminate E|done|done].
  - apply append_inj in E. apply num_lit in E as [-> E]; [|done]. apply num_stop in E as (-> & _); done.
Qed.

Ltac lit_free := cbn; repeat split; discriminate.
Lemma cell_line d x : free_of newline d -> plain_cell x -> free_of newline (dot_cell_text d x).
Proof.
  intros Hd [Hx _]. unfold dot_cell_text. apply free_app; [lit_free|]. apply free_app; [apply free_app; [done|by apply num_free]|]. apply free_app; [lit_free|].
  apply free_app; [by apply num_free|]. apply free_app; [lit_free|]. apply free_app; [unfold cell_style; destruct (c_border x.1); lit_free|].
  apply free_app; [lit_free|]. apply free_app; [by apply cell_text_free|lit_free].
Qed.
Lemma row_line d row : free_of newline d -> Forall plain_cell row -> free_of newline (dot_row_text d row).
Proof.
  intros Hd Hr. assert (free_of newline (foldr String.append "" (dot_cell_text d <$> row))) as Hf.
  { induction Hr as [|x row Hx Hr IH]; [done|]. rewrite fmap_cons. cbn [foldr]. apply free_app; [by apply cell_line|done]. }
  destruct row as [|x row]; [done|]. unfold dot_row_text. apply free_app; [lit_free|]. apply free_app; [exact Hf|lit_free].
Qed.
Lemma attr_line k v : free_of newline k -> (forall s, v = Some s -> plain_value s) -> free_of newline (dot_attr k v).
Proof.
  intros Hk Hv. destruct v as [v|]; [|done]. unfold dot_attr. apply free_app; [done|]. apply free_app; [lit_free|]. apply free_app; [by apply Hv|lit_free].
Qed.
Lemma line_free i : plain_stmt i -> free_of newline (dot_line i).
Proof.
  destruct i as [n l a w ins outs|a oa b ob s|n|p c]; cbn [dot_line].
  - intros ([Hl _] & Hin & Hout & Ha%plain_default). apply free_app; [by apply num_free|]. apply free_app; [lit_free|].
    apply free_app.
    { unfold dot_attrs. assert (forall v, v ∈ [ps_color (default pres_default a); ps_fill (default pres_default a); ps_stroke (default pres_default a); ps_width (default pres_default a)] ->
        forall s, v = Some s -> plain_value s) as Hv by (intros v Hv s ->; by apply Ha).
      apply free_app; [apply attr_line; [lit_free|apply Hv; rewrite !elem_of_cons; tauto]|].
      apply free_app; [apply attr_line; [lit_free|apply Hv; rewrite !elem_of_cons; tauto]|].
      apply free_app; [apply attr_line; [lit_free|apply Hv; rewrite !elem_of_cons; tauto]|].
      apply attr_line; [lit_free|apply Hv; rewrite !elem_of_cons; tauto]. }
    apply free_app; [lit_free|]. apply free_app; [apply row_line; [lit_free|done]|].
    apply free_app; [unfold dot_label_text; apply free_app; [lit_free|]; apply free_app; [by apply num_free|]; apply free_app; [lit_free|]; apply free_app; [done|lit_free]|].
    apply free_app; [apply row_line; [lit_free|done]|lit_free].
  - intros [Hs _]. repeat (apply free_app; [first [by apply num_free|lit_free|done]|]). lit_free.
  - intros _. repeat (apply free_app; [first [by apply num_free|lit_free|done]|]). lit_free.
  - intros _. repeat (apply free_app; [first [by apply num_free|lit_free|done]|]). lit_free.
Qed.
Lemma line_not_end i x y : dot_line i +:+ x <> "}" +:+ y.
Proof.
  destruct i as [n l a w ins outs|a oa b ob s|n|p c]; cbn [dot_line]; rewrite !sapp; [by apply num_other|by apply num_other|discriminate|discriminate].
Qed.

Lemma text_inj out : forall out', Forall plain_stmt out -> Forall plain_stmt out' -> dot_text out = dot_text out' -> Forall2 same_stmt out out'.
Proof.
  intros out' Ho Ho' E. unfold dot_text in E. apply append_inj, append_inj in E. revert out' Ho' E.
  induction Ho as [|i out Hi Ho IH]; intros out' Ho' E; destruct Ho' as [|j out' Hj Ho'].
  - constructor.
  - exfalso. rewrite fmap_cons in E. cbn [foldr] in E. rewrite !sapp in E. symmetry in E. by apply line_not_end in E.
  - exfalso. rewrite fmap_cons in E. cbn [foldr] in E. rewrite !sapp in E. by apply line_not_end in E.
  - rewrite !fmap_cons in E. cbn [foldr] in E. rewrite !sapp in E. apply val_lit in E as [El E]; [|by apply line_free|by apply line_free].
    constructor; [by apply line_inj|]. by apply IH.
Qed.
Lemma text_lines out : Forall plain_stmt out -> split_lines (dot_text out) = "digraph {" :: (dot_line <$> out) ++ ["}"].
Proof.
  intros Ho. unfold dot_text. etrans; [apply (split_app "digraph {"); lit_free|]. f_equal. change (String.append "") with (fun x : string => x). cbv beta.
  induction Ho as [|i out Hi Ho IH]; [reflexivity|]. rewrite !fmap_cons. cbn [foldr]. rewrite !sapp.
  etrans; [apply (split_app (dot_line i)); by apply line_free|]. rewrite <- app_comm_cons. f_equal. exact IH.
Qed.

(** ** The output for plain styles *)
Lemma hmap_Forall {X Y} (f : X -> hres Y) (P : Y -> Prop) l : forall r, (forall x y, f x = HOk y -> P y) -> hmap f l = HOk r -> Forall P r.
Proof.
  induction l as [|x l IH]; intros r HP E; cbn [hmap] in E; [injection E as <-; constructor|].
  destruct (f x) as [y| |] eqn:Ef; try discriminate E. rewrite hbind_Ok in E. destruct (hmap f l) as [ys| |] eqn:El; try discriminate E.
  rewrite hbind_Ok in E. injection E as <-. constructor; [by eapply HP|by apply IH].
Qed.
Lemma hmap_concat {X Y} (f : X -> hres (list Y)) (P : Y -> Prop) l r : (forall x y, f x = HOk y -> Forall P y) -> hmap f l = HOk r -> Forall P (concat r).
Proof. intros HP E%(hmap_Forall f (Forall P)); [|done]. induction E; cbn; [constructor|]. by apply Forall_app. Qed.

Lemma hb_inv {X Y} (o : hres X) (f : X -> hres Y) y : (o ≫= f) = HOk y -> exists x, o = HOk x /\ f x = HOk y.
Proof. destruct o as [x| |]; [eauto|discriminate|discriminate]. Qed.

Section plain.
  Context {E : Type} (V : lview E) (off : nat -> hres nat).
  Context (ns : nat -> node_style string pres_style) (ps : nat -> port_style string) (es : E -> E -> edge_style).
  Context (Hns : forall n, plain_node (ns n)) (Hps : forall p, plain_port (ps p)) (Hes : forall x y, plain_edge (es x y)).

  Lemma cells_plain n d k : Forall plain_cell (dot_row (dot_cells V ps n d) k).
  Proof.
    apply Forall_forall. intros x Hx. apply elem_of_list_fmap_2 in Hx as (c & -> & Hc). unfold dot_cells in Hc.
    apply elem_of_list_omap in Hc as (o & Ho & Eo). unfold id in Eo. subst o. apply elem_of_lookup_imap in Ho as (i & p & E' & Hp).
    unfold dot_cell in E'. specialize (Hps p). unfold plain_cell. cbn [fst].
    destruct (ps p); try discriminate E'; injection E' as ->; exact Hps.
  Qed.
  Lemma node_plain n r : dot_node V off ns ps es n = HOk r -> Forall plain_stmt r.
  Proof.
    intros Er. unfold dot_node in Er. specialize (Hns n).
    assert (Hsh : forall l a, plain_label l ->
        (forall b v, a = Some b -> Some v ∈ [ps_color b; ps_fill b; ps_stroke b; ps_width b] -> plain_value v) ->
        forall w ins outs (o : hres (list (list (E * E)))), Forall plain_cell ins -> Forall plain_cell outs ->
        (o ≫= fun ls => hmap (dot_edge V off es n) (concat ls) ≫= fun edges => HOk (DNode n l a w ins outs :: edges)) = HOk r -> Forall plain_stmt r).
    { intros l a Hl Ha w ins outs o Hin Hout Eo. destruct o as [ls| |]; try discriminate Eo. cbn [mbind hres_bind] in Eo.
      destruct (hmap (dot_edge V off es n) (concat ls)) as [edges| |] eqn:Ee; try discriminate Eo. rewrite hbind_Ok in Eo. injection Eo as <-.
      constructor; [done|]. eapply hmap_Forall; [|exact Ee]. intros x y Ex. unfold dot_edge in Ex.
      apply hb_inv in Ex as (o & _ & Ex). destruct (lv_pnode V (lv_port V x.2)) as [b|]; [|discriminate Ex].
      apply hb_inv in Ex as (o' & _ & Ex). injection Ex as <-. apply Hes. }
    destruct (ns n) as [|l|l a].
    - injection Er as <-. constructor.
    - eapply Hsh; [exact Hns| |apply cells_plain|apply cells_plain|exact Er]. intros b v Hb. discriminate Hb.
    - destruct Hns as [Hl Ha]. eapply Hsh; [exact Hl| |apply cells_plain|apply cells_plain|exact Er]. intros b v Hb. injection Hb as <-. apply Ha.
  Qed.
  Lemma finish_plain fuel forest out : dot_finish V off ns ps es fuel forest = HOk out -> Forall plain_stmt out.
  Proof.
    intros Eo. unfold dot_finish in Eo. destruct (lv_nodes V) as [nodes| |]; try discriminate Eo. rewrite hbind_Ok in Eo.
    destruct (hmap (dot_node V off ns ps es) nodes) as [a| |] eqn:Ea; try discriminate Eo. rewrite hbind_Ok in Eo.
    assert (Forall plain_stmt (concat a)) as Ha by (eapply hmap_concat; [apply node_plain|exact Ea]).
    destruct forest as [h|]; [|by injection Eo as <-]. destruct (hmap (dot_hier V fuel h) nodes) as [b| |] eqn:Eb; try discriminate Eo. rewrite hbind_Ok in Eo.
    injection Eo as <-. apply Forall_app. split; [done|]. eapply hmap_concat; [|exact Eb]. intros n r Er. unfold dot_hier in Er.
    destruct (h_children_list _ _ _) as [cs| |]; try discriminate Er. rewrite hbind_Ok in Er. injection Er as <-.
    constructor; [done|]. apply Forall_fmap, Forall_forall. done.
  Qed.
End plain.
