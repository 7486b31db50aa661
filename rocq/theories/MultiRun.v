(** Running a history of a multigraph, for examples and refutations. *)
From Verif Require Export MultiSpec PGRun.

Definition internalb (m : mpg) (p : nat) : bool := contains_port (m_graph m) p && negb (m_contains_port m p).
Definition is_none_res {A} (r : res (option A)) : bool := match r with Ok None => true | _ => false end.
Definition roomb (w : N) (m : mpg) (p : nat) : bool :=
  match m_port_subports m p with
  | Ok l => (N.of_nat (length l) <=? po_max_offset w)%N || existsb (fun s => is_none_res (m_subport_link w m s)) l
  | Panic => true
  end.
Definition no_reuseb (m : mpg) (n i j : nat) : bool :=
  match set_num_ports (m_graph m) n i j with
  | Ok (_, log) => forallb (fun x : nat * port_op =>
      match x.2 with
      | Removed _ => negb (is_multi m x.1) || forallb (fun y : nat * port_op => match y.2 with Moved q => negb (bool_decide (q = x.1)) | _ => true end) log
      | _ => true
      end) log
  | Panic => true
  end.
Definition mallowedb (w : N) (m : mpg) (o : mop) : bool :=
  match o with
  | MAdd i j => allowedb (m_graph m) (OAdd i j)
  | MRemove n => negb (is_copy m n)
  | MLink a b => negb (internalb m a) && negb (internalb m b) && roomb w m a && roomb w m b &&
      (negb (m_contains_port m a) || m_contains_port m b)
  | MUnlink p => negb (internalb m p)
  | MLinkSub a b => negb (internalb m a.1) && negb (internalb m b.1) &&
      (N.of_nat a.2 <=? po_max_offset w)%N && (N.of_nat b.2 <=? po_max_offset w)%N
  | MUnlinkSub s => negb (internalb m s.1) && (N.of_nat s.2 <=? po_max_offset w)%N
  | MSetPorts n i j => negb (is_copy m n) && no_reuseb m n i j
  | MSwap a b => allowedb (m_graph m) (OSwap a b)
  | MCompactPorts => allowedb (m_graph m) OCompactPorts
  | _ => true
  end.

Lemma internalb_sound m p : negb (internalb m p) = true -> ~ internal m p.
Proof. unfold internalb, internal. intros H [H1 H2]. by rewrite H1, H2 in H. Qed.
Lemma roomb_sound w m p : roomb w m p = true -> room w m p.
Proof.
  unfold roomb, room. intros H l E. rewrite E in H. apply orb_true_iff in H as [H|H]; [left; lia|right].
  apply existsb_exists in H as (s & Hs & H). exists s. split; [by apply elem_of_list_In|]. by destruct (m_subport_link w m s) as [[]|].
Qed.
Lemma no_reuseb_sound m n i j : no_reuseb m n i j = true -> no_reuse m n i j.
Proof.
  unfold no_reuseb, no_reuse. intros H g log p l x E H1 F H2. rewrite E in H. rewrite forallb_forall in H.
  apply elem_of_list_In in H1, H2. specialize (H _ H1). cbn in H. rewrite F in H. cbn in H. rewrite forallb_forall in H. specialize (H _ H2). cbn in H.
  by rewrite bool_decide_eq_true_2 in H.
Qed.
Lemma mallowedb_sound w m o : mallowedb w m o = true -> mallowed w m o.
Proof.
  destruct o; try done; cbn [mallowedb mallowed].
  - apply (allowedb_sound _ (OAdd _ _)).
  - by rewrite negb_true_iff.
  - rewrite !andb_true_iff, orb_true_iff. intros [[[[H1 H2] H3] H4] H5].
    split; [by apply internalb_sound|]. split; [by apply internalb_sound|]. split; [by apply roomb_sound|]. split; [by apply roomb_sound|]. intros H. destruct H5 as [H5|H5]; [by rewrite H in H5|done].
  - apply internalb_sound.
  - rewrite !andb_true_iff. intros [[[H1 H2] H3] H4]. split_and!; [by apply internalb_sound..|lia|lia].
  - rewrite !andb_true_iff. intros [H1 H2]. split_and!; [by apply internalb_sound|lia].
  - rewrite !andb_true_iff, negb_true_iff. intros [H1 H2]. split; [done|by apply no_reuseb_sound].
  - apply (allowedb_sound _ (OSwap _ _)).
  - apply (allowedb_sound _ OCompactPorts).
Qed.

Fixpoint mrun (w : N) (ops : list mop) (m : mpg) : option mpg :=
  match ops with
  | [] => Some m
  | o :: ops => if mallowedb w m o then match mstep w m o with Ok (m', _) => mrun w ops m' | Panic => None end else None
  end.
Lemma mrun_hist w ops m : mrun w ops m_new = Some m -> mhist w ops m.
Proof.
  cut (forall ops0 m0, mhist w ops0 m0 -> mrun w ops m0 = Some m -> mhist w (ops0 ++ ops) m).
  { intros H. apply (H []). change m_new with (m_from pg_new). constructor. exists []. constructor. }
  induction ops as [|o ops IH]; intros ops0 m0 Hh; cbn [mrun].
  - intros [= <-]. by rewrite app_nil_r.
  - destruct (mallowedb w m0 o) eqn:Ea; [|done]. destruct (mstep w m0 o) as [[m1 r]|] eqn:Es; [|done].
    intros Hr. replace (ops0 ++ o :: ops) with ((ops0 ++ [o]) ++ ops) by (by rewrite <- app_assoc).
    eapply IH; [|exact Hr]. econstructor; [done|by apply mallowedb_sound|done].
Qed.
