(** Proofs of C122. *)
From Coq Require Import Ascii String.
From stdpp Require Import pretty.
From Verif Require Export DotTextProofs.
From Verif Require Import ViewThms.
Open Scope list_scope.

Definition node_ops (k : nat) : list op := repeat (OAdd 0 0) k.
Definition node_g (k : nat) : pg := default pg_new (run 16 (node_ops k) pg_new).
Definition bad_label : string :=
  "a</td></tr></table>>]" +:+ String newline
  "1 [shape=plain label=<<table border=""1""><tr><td align=""text"" border=""0"" colspan=""1"">b".

Lemma C122_dot_text_refuted_pf :
exists g g' (label label' : nat -> string) out out', reach 16 g /\ reach 16 g' /\ node_count g = 1 /\ node_count g' = 2 /\
  dot_finish (lv_of_pg g) (pg_off 16 g) (fun n => NBoxed (label n) pres_default) (fun _ => PHidden) (fun _ _ => Solid) 0 None = HOk out /\
  dot_finish (lv_of_pg g') (pg_off 16 g') (fun n => NBoxed (label' n) pres_default) (fun _ => PHidden) (fun _ _ => Solid) 0 None = HOk out' /\
  dot_text out = dot_text out'.
Proof.
exists (node_g 1), (node_g 2), (fun _ => bad_label), (fun n => if n =? 0 then "a"%string else "b"%string).
eexists _, _. split; [exists (node_ops 1); apply run_hist; vm_compute; reflexivity|]. split; [exists (node_ops 2); apply run_hist; vm_compute; reflexivity|].
split; [vm_compute; reflexivity|]. split; [vm_compute; reflexivity|]. split; [vm_compute; reflexivity|]. split; [vm_compute; reflexivity|]. vm_compute. reflexivity.
Qed.

Lemma C122_dot_text_partial_pf :
forall E (V : lview E) off ns ps es fuel forest out,
  (forall n, plain_node (ns n)) -> (forall p, plain_port (ps p)) -> (forall x y, plain_edge (es x y)) ->
  dot_finish V off ns ps es fuel forest = HOk out ->
  (exists lines, split_lines (dot_text out) = "digraph {"%string :: lines ++ ["}"%string] /\ length lines = length out) /\
  (forall E' (V' : lview E') off' ns' ps' es' fuel' forest' out',
     (forall n, plain_node (ns' n)) -> (forall p, plain_port (ps' p)) -> (forall x y, plain_edge (es' x y)) ->
     dot_finish V' off' ns' ps' es' fuel' forest' = HOk out' -> dot_text out = dot_text out' -> Forall2 same_stmt out out').
Proof.
intros E V off ns ps es fuel forest out Hn Hp He Eo. apply finish_plain in Eo; [|done|done|done]. split.
- exists (dot_line <$> out). split; [by apply text_lines|apply fmap_length].
- intros E' V' off' ns' ps' es' fuel' forest' out' Hn' Hp' He' Eo' Et. apply finish_plain in Eo'; [|done|done|done]. by apply text_inj.
Qed.

Lemma line_in out i t : i ∈ out -> forall h, line_of (h +:+ (String newline "" +:+ (foldr String.append "" ((fun i => dot_line i +:+ String newline "") <$> out) +:+ t)))%string (dot_line i).
Proof.
  induction out as [|j out IH]; intros Hi h; [by apply elem_of_nil in Hi|]. rewrite fmap_cons. cbn [foldr].
  apply elem_of_cons in Hi as [->|Hi].
  - exists h. eexists. rewrite !sapp. reflexivity.
  - destruct (IH Hi (h +:+ (String newline "" +:+ dot_line j))%string) as (pre & post & E). exists pre, post. rewrite <- E.
    rewrite !sapp. reflexivity.
Qed.
Lemma in_l s a b : contains_text s b -> contains_text s (a +:+ b)%string.
Proof. intros (x & y & ->). exists (a +:+ x)%string, y. by rewrite !sapp. Qed.
Lemma in_r s a b : contains_text s a -> contains_text s (a +:+ b)%string.
Proof. intros (x & y & ->). exists x, (y +:+ b)%string. by rewrite !sapp. Qed.
Lemma in_here s a b c : a = (s +:+ c)%string -> contains_text s (a +:+ b)%string.
Proof. intros ->. exists ""%string, (c +:+ b)%string. by rewrite sapp. Qed.
Lemma row_in d row c w : (c, w) ∈ row -> contains_text ("<td port=""" +:+ d +:+ pretty (c_id c) +:+ """ ")%string (dot_row_text d row).
Proof.
  intros Hc. assert (H : contains_text ("<td port=""" +:+ d +:+ pretty (c_id c) +:+ """ ")%string (foldr String.append "" (dot_cell_text d <$> row))).
  { induction row as [|x row IH]; [by apply elem_of_nil in Hc|]. rewrite fmap_cons. cbn [foldr]. apply elem_of_cons in Hc as [<-|Hc]; [|by apply in_l, IH].
    eapply in_here. unfold dot_cell_text. cbn [fst snd]. rewrite !sapp. reflexivity. }
  destruct row as [|x row]; [by apply elem_of_nil in Hc|]. unfold dot_row_text. apply in_l, in_r, H.
Qed.

Lemma C122_dot_lines_pf :
forall (out : list dot_stmt) i, i ∈ out -> exists line, line_of (dot_text out) line /\ reads i line.
Proof.
intros out i Hi. exists (dot_line i). split; [by apply line_in|].
destruct i as [n l a w ins outs|a oa b ob s|n|p c]; cbn [reads dot_line].
- split; [|split; [|split]].
  + eexists. rewrite sapp. reflexivity.
  + do 5 apply in_l. apply in_r. unfold dot_label_text. do 2 apply in_l. exists """"%string, ""%string. rewrite !sapp. reflexivity.
  + intros c x Hc. do 4 apply in_l. apply in_r. apply (row_in "in" _ _ _ Hc).
  + intros c x Hc. do 6 apply in_l. apply in_r. apply (row_in "out" _ _ _ Hc).
- reflexivity.
- eexists. rewrite !sapp. reflexivity.
- eexists. rewrite !sapp. reflexivity.
Qed.
