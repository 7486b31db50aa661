(** Proofs of C129. *)
From Coq Require Import Ascii String.
From stdpp Require Import pretty.
From Verif Require Export ErrSpec DebugThms.
From Verif Require Import IndexThms.

Lemma valid_lo n : valid_ix n -> lo31 n.
Proof. unfold valid_ix, lo31. lia. Qed.
Lemma node_txt n : valid_ix n -> dbg_node_ix n = ix_text "NodeIndex" n.
Proof. intros H. by apply dbg_ix_lo, valid_lo. Qed.
Lemma port_txt n : valid_ix n -> dbg_port_ix n = ix_text "PortIndex" n.
Proof. intros H. by apply dbg_ix_lo, valid_lo. Qed.
Lemma ix_end name n m : ix_text name n = ix_text name m -> n = m.
Proof.
  intros E. apply (ix_inj name n m "" ""). by rewrite E.
Qed.
Lemma num_pretty_N (i : nat) : pretty (N.of_nat i) = pretty i.
Proof. done. Qed.
Definition link_text (e : link_error) : string :=
  match e with
  | AlreadyLinked p => "port " +:+ ix_text "PortIndex" p +:+ " is already linked"
  | UnknownPort p => "unknown port '" +:+ ix_text "PortIndex" p +:+ "''"
  | UnknownOffset n d off => "unknown port offset " +:+ pretty off +:+ " in node " +:+ ix_text "NodeIndex" n +:+ " in direction " +:+ dbg_dir d
  | IncompatibleDirections a b d =>
      "Cannot link two ports with direction " +:+ dbg_dir d +:+ ". In ports " +:+ ix_text "PortIndex" a +:+ " and " +:+ ix_text "PortIndex" b
  end%string.
Lemma link_text_eq w e : (1 < w)%N -> valid_link_error w e -> link_error_text w e = Ok (link_text e).
Proof.
  intros Hw. destruct e as [p|p|n d off|a b d]; cbn [valid_link_error link_error_text link_text].
  - intros H. by rewrite port_txt.
  - intros H. by rewrite port_txt.
  - intros [Hn Ho]. destruct (proj1 (C28_port_offset_pf w Hw) d _ Ho) as (x & E1 & E2 & E3 & _).
    rewrite E1. cbn [mbind res_bind]. rewrite E3. cbn [mbind res_bind]. rewrite E2. cbn [mbind res_bind]. rewrite node_txt by done. done.
  - intros [Ha Hb]. rewrite !port_txt by done. done.
Qed.
Lemma link_text_inj e e' : link_text e = link_text e' -> e = e'.
Proof.
  destruct e as [p|p|n d off|a b d], e' as [p'|p'|n' d' off'|a' b' d']; cbn [link_text]; intros E; try discriminate E.
  - apply append_inj in E. by apply ix_inj in E as [-> _].
  - apply append_inj in E. by apply ix_inj in E as [-> _].
  - apply append_inj in E. apply num_stop in E as (-> & _ & E); [|done..].
    change (" in node " +:+ (ix_text "NodeIndex" n +:+ (" in direction " +:+ dbg_dir d)) = " in node " +:+ (ix_text "NodeIndex" n' +:+ (" in direction " +:+ dbg_dir d')))%string in E || idtac.
    apply (append_inj "in node ") in E. apply ix_inj in E as [-> E]. apply append_inj in E. destruct d, d'; try discriminate E; done.
  - apply append_inj in E. destruct d, d'; try discriminate E.
    all: apply append_inj, append_inj in E; apply ix_inj in E as [-> E]; apply append_inj, ix_end in E as ->; done.
Qed.

Lemma C129_link_errors_pf :
forall w e e', (1 < w)%N -> valid_link_error w e -> valid_link_error w e' ->
  exists t t', link_error_text w e = Ok t /\ link_error_text w e' = Ok t' /\ (t = t' <-> e = e').
Proof.
intros w e e' Hw He He'. exists (link_text e), (link_text e'). split; [by apply link_text_eq|]. split; [by apply link_text_eq|].
split; [apply link_text_inj|by intros ->].
Qed.

Lemma C129_other_errors_pf :
(forall e e', valid_attach_error e -> valid_attach_error e' -> (attach_error_text e = attach_error_text e' <-> e = e')) /\
(forall e e', valid_dt_error e -> valid_dt_error e' -> (dt_error_text e = dt_error_text e' <-> e = e')) /\
(forall i x i' x', valid_ix i -> valid_ix x -> valid_ix i' -> valid_ix x' ->
   (copy_error_text i x = copy_error_text i' x' <-> i = i' /\ x = x')) /\
(forall w i, (1 < w)%N -> exists r, try_from_text w i = Ok r /\
   (r = None <-> (i <= ix_max_index w)%N) /\
   (forall t j, r = Some t -> (t = ("the index " +:+ pretty j +:+ " is too large.")%string <-> j = i))).
Proof.
split; [|split; [|split]].
- intros e e' He He'. split; [|by intros ->].
  destruct e as [n|n|n p], e' as [n'|n'|n' p']; cbn [attach_error_text valid_attach_error] in *; intros E; try discriminate E.
  + rewrite !node_txt in E by done. apply append_inj in E. by apply ix_inj in E as [-> _].
  + rewrite !node_txt in E by done. apply append_inj in E. by apply ix_end in E as ->.
  + destruct He, He'. rewrite !node_txt in E by done. apply append_inj in E. apply ix_inj in E as [-> E]. apply append_inj in E. by apply ix_inj in E as [-> _].
- intros e e' He He'. split; [|by intros ->].
  destruct e as [n|n p], e' as [n'|n' p']; cbn [dt_error_text valid_dt_error] in *; intros E; try discriminate E.
  + rewrite !node_txt in E by done. by apply ix_inj in E as [-> _].
  + destruct He, He'. rewrite !node_txt in E by done. apply append_inj in E. apply ix_inj in E as [-> E]. apply append_inj in E. by apply ix_inj in E as [-> _].
- intros i x i' x' Hi Hx Hi' Hx'. split; [|by intros [-> ->]]. unfold copy_error_text. rewrite !port_txt by done.
  intros E. apply append_inj in E. apply ix_inj in E as [-> E]. by apply append_inj, ix_end in E as ->.
- intros w i Hw. destruct (C25_index_faithful_pf w Hw) as (_ & H1 & H2 & _). unfold try_from_text. destruct (decide (i <= ix_max_index w)%N) as [Hi|Hi].
  + destruct (H1 i Hi) as (x & _ & _ & _ & E). rewrite E. cbn [mbind res_bind]. exists None. split; [done|]. split; [done|]. intros t j [=].
  + rewrite H2 by lia. cbn [mbind res_bind]. eexists. split; [done|]. split; [split; [intros [=]|done]|].
    intros t j E. injection E as <-. unfold index_error_text. split; [|by intros ->]. intros E. apply append_inj in E. apply num_N in E; [done|done].
Qed.
