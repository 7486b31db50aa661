(** Proofs of C124 and C125. *)
From Coq Require Import Ascii String.
From stdpp Require Import pretty.
From Verif Require Export DebugProofs.
From Verif Require Import IndexThms.
Open Scope list_scope.

Lemma C124_debug_graph_pf :
forall w w' g g', reach w g -> reach w' g' ->
  exists s, dbg_pg g = Ok s /\ (dbg_pg g' = Ok s <-> same_graph g g').
Proof.
intros w w' g g' R R'. exists (pg_text g). by eapply debug_text.
Qed.

Lemma app_nil s : ("" +:+ s +:+ "")%string = s.
Proof. change ((s +:+ "")%string = s). induction s as [|c s IH]; [done|]. change (String c (s +:+ "") = String c s). by rewrite IH. Qed.
Lemma join_in s l : s ∈ l -> contains_text s (join_with ", " l).
Proof.
  induction l as [|a l IH]; [by intros ?%elem_of_nil|]. intros H. destruct l as [|b l]; cbn [join_with].
  - apply elem_of_list_singleton in H as <-. exists ""%string, ""%string. by rewrite app_nil.
  - apply elem_of_cons in H as [<-|H]; [exists ""%string; eexists; reflexivity|]. apply in_l, in_l, IH, H.
Qed.
Lemma range_shown s k : range_text s k = ports_shown (seq s k).
Proof.
  destruct k as [|[|k]]; [done| |]; cbn [range_text ports_shown seq]; unfold ix_text; rewrite !sapp; [done|]. cbn [length]. rewrite seq_length. done.
Qed.
Lemma node_shown_eq g n : node_text (node_info g n) = node_shown n (ports g n Incoming) (ports g n Outgoing).
Proof.
  unfold node_text, node_info, dbg_entry, debug_struct, node_shown. cbn [fst snd join_with fmap list_fmap]. unfold dbg_entry, ix_text. cbn [fst snd].
  rewrite !sapp, !range_shown, !nrange_ports. reflexivity.
Qed.
Lemma port_shown_eq g p n d : pmeta g p = Some (n, d) -> port_text (port_info g p) = port_shown p n d (lk g p).
Proof.
  intros Hp. unfold port_text, port_info, dbg_entry, debug_struct, port_shown. rewrite Hp. cbn [default from_option id fst snd].
  destruct (lk g p) as [q|]; cbn [app join_with fmap list_fmap]; unfold dbg_entry, ix_text, dbg_dir; cbn [fst snd]; rewrite !sapp; by destruct d.
Qed.

Lemma C124_debug_entries_pf :
forall w g s, reach w g -> dbg_pg g = Ok s ->
  (forall n, contains_node g n = true -> contains_text (node_shown n (ports g n Incoming) (ports g n Outgoing)) s) /\
  (forall p n d l, port_node g p = Some n -> port_direction g p = Some d -> port_link g p = Ok l -> contains_text (port_shown p n d l) s).
Proof.
intros w g s R E. rewrite (dbg_pg_text w g R) in E. apply ok_inj in E as <-. unfold pg_text. split.
- intros n Hn. apply in_l, in_r. apply join_in. rewrite <- node_shown_eq. do 2 apply elem_of_list_fmap_1. by apply nodes_in.
- intros p n d l Hn Hd Hl. unfold port_node, port_direction in *. destruct (pmeta g p) as [[n' d']|] eqn:Ep; [|done]. injection Hn as ->. injection Hd as ->.
  apply in_l, in_l, in_l, in_r. apply join_in. rewrite (r_port_link w g R p _ Ep) in Hl. apply ok_inj in Hl as <-. rewrite <- (port_shown_eq g p n d Ep).
  do 2 apply elem_of_list_fmap_1. apply ports_in. apply contains_port_true. eauto.
Qed.

Lemma num_N (i j : N) c x y : is_digit c = false -> (pretty i +:+ String c x = pretty j +:+ String c y)%string -> i = j.
Proof.
  intros Hc E. rewrite <- (N2Nat.id i), <- (N2Nat.id j) in E. change (pretty (N.to_nat i) +:+ String c x = pretty (N.to_nat j) +:+ String c y)%string in E.
  apply num_stop in E as [E _]; [|done|done]. lia.
Qed.

Lemma C125_debug_index_pf :
forall w, (1 < w)%N ->
  (forall name i i' x x', (i <= ix_max_index w)%N -> (i' <= ix_max_index w)%N -> ix_new w i = Ok x -> ix_new w i' = Ok x' ->
     dbg_ix name w x = (name +:+ "(" +:+ pretty i +:+ ")")%string /\
     dbg_mi name w (mi_from_index x) = ("Some(" +:+ name +:+ "(" +:+ pretty i +:+ "))")%string /\
     dbg_mi name w (mi_default w) = "None"%string /\
     (dbg_ix name w x = dbg_ix name w x' <-> x = x') /\
     (dbg_mi name w (mi_from_index x) = dbg_mi name w (mi_from_index x') <-> x = x')) /\
  (forall d d' i i' x x', (i <= po_max_offset w)%N -> (i' <= po_max_offset w)%N -> po_new w d i = Ok x -> po_new w d' i' = Ok x' ->
     dbg_po w x = Ok ((match d with Incoming => "Incoming" | Outgoing => "Outgoing" end) +:+ "(" +:+ pretty i +:+ ")")%string /\
     (dbg_po w x = dbg_po w x' <-> x = x')) /\
  (forall s s', dbg_sp s = dbg_sp s' <-> s = s').
Proof.
intros w Hw. split; [|split].
- intros name i i' x x' Hi Hi' Ex Ex'.
  assert (Hix : forall i x, (i <= ix_max_index w)%N -> ix_new w i = Ok x -> ix_index w x = i /\ x = i /\ mi_to_option w x = Some x).
  { intros j y Hj Ey. destruct (proj1 (proj2 (C25_index_faithful_pf w Hw)) j Hj) as (y' & Ey' & Hy & _). assert (y' = y) as -> by congruence.
    destruct (C27_maybe_index_pf w Hw) as (_ & H2 & _). destruct (H2 j y Hj Ey) as (_ & H3 & _). split; [done|]. split; [|done].
    unfold ix_new, bf_new, from_usize in Ey. destruct (_ <=? _)%N; [|done]. by injection Ey. }
  destruct (Hix i x Hi Ex) as (H1 & Hx & H3), (Hix i' x' Hi' Ex') as (H1' & Hx' & H3').
  assert (Ht : dbg_ix name w x = (name +:+ "(" +:+ pretty i +:+ ")")%string) by (unfold dbg_ix; by rewrite H1).
  assert (Ht' : dbg_ix name w x' = (name +:+ "(" +:+ pretty i' +:+ ")")%string) by (unfold dbg_ix; by rewrite H1').
  unfold dbg_mi, mi_from_index. rewrite H3, H3', Ht, Ht'.
  split; [done|]. split; [by rewrite !sapp|]. split; [by rewrite (proj2 (proj2 (C27_maybe_index_pf w Hw)))|]. subst i i'. split.
  + split; [|by intros ->]. intros E. apply append_inj, append_inj in E. apply num_N in E; [|done]. congruence.
  + split; [|by intros ->]. intros E. rewrite !sapp in E. apply append_inj, append_inj, append_inj in E. apply num_N in E; [|done]. congruence.
- intros d d' i i' x x' Hi Hi' Ex Ex'. destruct (C28_port_offset_pf w Hw) as [H1 H2].
  assert (Ht : forall d i x, (i <= po_max_offset w)%N -> po_new w d i = Ok x -> dbg_po w x = Ok (dbg_dir d +:+ "(" +:+ pretty i +:+ ")")%string).
  { intros e j y Hj Ey. destruct (H1 e j Hj) as (y' & Ey' & Hd & Hx & _). assert (y' = y) as -> by congruence. unfold dbg_po. by rewrite Hd, Hx. }
  split; [by rewrite (Ht d i x)|]. rewrite (Ht d i x), (Ht d' i' x') by done. split; [|intros ->; destruct (H2 d i d' i' x' x') as [[H _] _]; [done..|]; by destruct (H eq_refl) as [-> ->]].
  intros E%ok_inj. apply (H2 d i d' i' x x'); [done..|]. destruct d, d'; try discriminate E.
  + change ("Incoming(" +:+ (pretty i +:+ ")") = "Incoming(" +:+ (pretty i' +:+ ")"))%string in E. apply append_inj in E. split; [done|]. by apply num_N in E.
  + change ("Outgoing(" +:+ (pretty i +:+ ")") = "Outgoing(" +:+ (pretty i' +:+ ")"))%string in E. apply append_inj in E. split; [done|]. by apply num_N in E.
- intros [p k] [q j]. split; [|by intros ->]. unfold dbg_sp. cbn [fst snd]. intros E. apply append_inj in E. apply num_stop in E as (-> & _ & E); [|done|done]. apply num_stop in E as (-> & _); done.
Qed.
