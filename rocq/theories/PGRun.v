(** Running a history, for examples and refutations. *)
From Verif Require Export PGGrow.

Definition allowedb (g : pg) (o : op) : bool :=
  match o with
  | OAdd i j => (N.of_nat i <=? 65534)%N && (N.of_nat (i + j) <=? 65535)%N
  | OSwap a b =>
      let spare n := negb (contains_node g n) && bool_decide (n < length (pg_nodes g)) &&
                     bool_decide (pg_nfree g <> Some n) in
      (contains_node g a && (contains_node g b || spare b)) || (spare a && contains_node g b)
  | OCompactPorts => forallb (fun n => negb (contains_node g n && bool_decide (0 < node_port_capacity g n) &&
      bool_decide (num_ports g n Incoming = 0) && bool_decide (num_ports g n Outgoing = 0))) (seq 0 (length (pg_nodes g)))
  | _ => true
  end.

Lemma allowedb_sound g o : allowedb g o = true -> allowed g o.
Proof.
  destruct o; try done; cbn.
  - rewrite andb_true_iff. lia.
  - unfold spare_slot. rewrite orb_true_iff, !andb_true_iff, orb_true_iff, !andb_true_iff, !bool_decide_eq_true, !negb_true_iff.
    tauto.
  - rewrite forallb_forall. intros H n (Hc & Hcap & Hi & Ho). specialize (H n).
    rewrite Hc, (bool_decide_eq_true_2 _ Hcap), (bool_decide_eq_true_2 _ Hi), (bool_decide_eq_true_2 _ Ho) in H.
    cbn in H. apply contains_node_true in Hc as [m Hm%nmeta_lt]. discriminate H. apply in_seq. lia.
Qed.

Fixpoint run (w : N) (ops : list op) (g : pg) : option pg :=
  match ops with
  | [] => Some g
  | o :: ops' =>
      if allowedb g o then match step w g o with Ok (g', _) => run w ops' g' | Panic => None end
      else None
  end.

Lemma run_hist w ops g : run w ops pg_new = Some g -> hist w ops g.
Proof.
  cut (forall ops0 g0, hist w ops0 g0 -> run w ops g0 = Some g -> hist w (ops0 ++ ops) g).
  { intros H. apply (H []). constructor. }
  induction ops as [|o ops IH]; intros ops0 g0 Hh; cbn [run].
  - intros [= <-]. by rewrite app_nil_r.
  - destruct (allowedb g0 o) eqn:Ea; [|done]. destruct (step w g0 o) as [[g1 r]|] eqn:Es; [|done].
    intros Hr. replace (ops0 ++ o :: ops) with ((ops0 ++ [o]) ++ ops) by (by rewrite <- app_assoc).
    eapply IH; [|exact Hr]. econstructor; [done|by apply allowedb_sound|done].
Qed.
Lemma run_reach w ops g : run w ops pg_new = Some g -> reach w g.
Proof. intros H. exists ops. by apply run_hist. Qed.
