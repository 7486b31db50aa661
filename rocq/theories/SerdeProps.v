(** Properties C118-C120 of properties.jsonl: serialization. *)
From Coq Require Import String.
From Verif Require Export SerdeThms.
From Verif Require Import PGRun MultiRun ViewProps.

(** C118, indices: for every base type, what is written for a valid index, an
optional index or a port offset is read back as the same bits; writing a port
offset does not panic. *)
Theorem C118_index_round_trip :
forall w, (1 < w <= 64)%N ->
  round_trip (fun x => (x <= ix_max_index w)%N) (ser_ix w) (de_ix w) /\
  round_trip (fun x => x = bf_none w \/ (x <= ix_max_index w)%N) (ser_mi w) (de_mi w) /\
  forall named d i x, (i <= po_max_offset w)%N -> po_new w d i = Ok x ->
    exists u, ser_po named w x = Ok u /\ forall v, same_doc u v -> de_po w v = DOk x.
Proof. exact C118_index_round_trip_pf. Qed.
Print Assumptions C118_index_round_trip.

Example C118_index_round_trip_case :
  po_new 16 Outgoing 3 = Ok 32771%N /\
  ser_po true 16 32771 = Ok (JObj [("index", JNum 3); ("direction", JStr "Outgoing")])%string /\
  de_po 16 (JObj [("direction", JStr "Outgoing"); ("index", JNum 3)])%string = DOk 32771%N /\
  ser_mi 32 (bf_none 32) = JNull /\ de_mi 32 JNull = DOk (bf_none 32) /\
  de_ix 8 (ser_ix 8 126) = DOk 126%N.
Proof. vm_compute. done. Qed.

(** C118, graphs: what is written for a graph or a multigraph with any history, with
structs as objects or as arrays, is read back as the same state, whatever the
order of the members of the objects in the document. *)
Theorem C118_graph_round_trip :
forall named,
  (forall w, round_trip (reach w) (ser_pg named) de_pg) /\
  (forall w, (2 < w <= 63)%N -> round_trip (mreach w) (ser_mpg named) de_mpg) /\
  round_trip (fun s => (N.of_nat s.1 <= max_index)%N /\ (N.of_nat s.2 < 65536)%N) (ser_sp named) de_sp.
Proof. exact C118_graph_round_trip_pf. Qed.
Print Assumptions C118_graph_round_trip.

(** The serialization of a graph with a removed node, as the text format writes
    it; compare src/snapshots/portgraph__index__test_serde__serde_node_index.snap. *)
Definition ser_ops : list op := [OAdd 1 1; OAdd 1 0; OAdd 0 1; OLink 1 2; ORemove 2].
Definition ser_g : pg := from_option id pg_new (run 16 ser_ops pg_new).
Lemma ser_reach : reach 16 ser_g.
Proof. apply (run_reach 16 ser_ops). vm_compute. reflexivity. Qed.
Example C118_graph_round_trip_case :
  ser_pg true ser_g = JObj
    [("node_meta", JArr [JObj [("n", JObj [("first_port", JNum 0); ("incoming", JNum 2); ("outgoing", JNum 1); ("capacity", JNum 2)])];
                         JObj [("n", JObj [("first_port", JNum 2); ("incoming", JNum 2); ("outgoing", JNum 0); ("capacity", JNum 1)])];
                         JObj [("f", JObj [("prev", JNull); ("next", JNull)])]]);
     ("port_link", JArr [JNull; JNum 2; JNum 1; JNull]);
     ("port_meta", JArr [JNum 1; JNum 2147483649; JNum 2; JNull]);
     ("node_free", JNum 2); ("port_free", JArr [JNum 3]);
     ("node_count", JNum 2); ("port_count", JNum 3); ("link_count", JNum 1); ("_marker", JNull)]%string /\
  de_pg (ser_pg true ser_g) = DOk ser_g /\ de_pg (ser_pg false ser_g) = DOk ser_g.
Proof. vm_compute. done. Qed.
Example C118_multi_round_trip_case : mreach 16 vx_m /\ de_mpg (ser_mpg true vx_m) = DOk vx_m.
Proof. split; [exact vx_mreach|vm_compute; done]. Qed.

(** C118, dense maps, weights and hierarchies: if the stored values are read back as
they were, so is the map, with its length and its default; the weights; and
every hierarchy whose entries are node indices. *)
Theorem C118_map_round_trip :
forall named,
  (forall A (P : A -> Prop) s d, round_trip P s d ->
     round_trip (fun m => Forall P (um_data m) /\ P (um_default m)) (ser_um s named) (de_um d)) /\
  (forall A B (P : A -> Prop) (Q : B -> Prop) sa da sb db, round_trip P sa da -> round_trip Q sb db ->
     round_trip (fun x => (Forall P (um_data (w_nodes x)) /\ P (um_default (w_nodes x))) /\
                          (Forall Q (um_data (w_ports x)) /\ Q (um_default (w_ports x))))
       (ser_w sa sb named) (de_w da db)) /\
  round_trip h_fits (ser_h named) de_h.
Proof. exact C118_map_round_trip_pf. Qed.
Print Assumptions C118_map_round_trip.

Example C118_map_round_trip_case :
  let m := mkUM [JBool true; JNull] (JNum 3) in
  de_um (fun v => DOk v) (ser_um (fun v => v) true m) = DOk m /\
  exists h, h_step h_new (HPush 1 0) = HOk h /\ h_fits h /\ h <> h_new /\ de_h (ser_h true h) = DOk h /\ de_h (ser_h false h) = DOk h.
Proof.
  split; [done|]. eexists. split; [vm_compute; reflexivity|]. split_and!; [|done|vm_compute; reflexivity..].
  split; [apply Forall_cons; split; [|apply Forall_cons; split; [|apply Forall_nil; exact I]]|];
    split_and!; cbn; try (intros ? [=]; subst; vm_compute; discriminate); done.
Qed.

(** C119 is false of the code. Index types are made with [new], which panics, or
keeps a number that is not an index, instead of reporting an error of the
format: a document can make every decoder panic, and a number above the maximum
can be read as the index 0. *)
Theorem C119_read_refuted :
exists n v vm vh o k x,
  de_ix 32 (JNum n) = DPanic /\ de_pg v = DPanic /\ de_mpg vm = DPanic /\ de_h vh = DPanic /\
  de_po 16 o = DPanic /\ de_ix 32 (JNum k) = DOk x /\ ix_index 32 x = 0%N /\ (k > ix_max_index 32)%N.
Proof. exact C119_read_refuted_pf. Qed.
Print Assumptions C119_read_refuted.

(** C119, what holds: a document whose numbers are at most [2^w - 2] makes no
decoder of a type with base [w] panic (graphs and hierarchies use 32 bits), and
a number read as an index within the maximum is that index. Missing: larger
numbers, which panic or are changed. *)
Theorem C119_read_partial :
(forall w v, (1 < w)%N -> nums_le (2 ^ w - 2) v ->
   de_ix w v <> DPanic /\ de_mi w v <> DPanic /\ de_po w v <> DPanic) /\
(forall v, nums_le (2 ^ 32 - 2) v ->
   de_pg v <> DPanic /\ de_mpg v <> DPanic /\ de_h v <> DPanic /\ de_sp v <> DPanic) /\
(forall w n x, (1 < w)%N -> (n <= ix_max_index w)%N -> de_ix w (JNum n) = DOk x -> ix_index w x = n) /\
(forall w n x d i, (1 < w)%N -> de_po w n = DOk x -> fields po_names n = Some [Some (JNum i); Some (ser_dir d)] ->
   (i <= po_max_offset w)%N -> po_index w x = Ok i /\ po_direction w x = Ok d).
Proof. exact C119_read_partial_pf. Qed.
Print Assumptions C119_read_partial.

Example C119_read_partial_case :
  nums_le (2 ^ 32 - 2) (ser_pg true ser_g) /\ nums_le (2 ^ 16 - 2) (JObj [("index", JNum 70)]%string) /\
  de_po 16 (JObj [("index", JNum 7)]%string) = DErr /\
  de_pg (JArr [JNum 7; JStr ""]) = DErr.
Proof.
  split_and!; [|repeat constructor; vm_compute; discriminate|done..].
  vm_compute (ser_pg true ser_g).
  repeat first [ apply Forall_nil | apply Forall_cons; split | progress cbn [snd] | constructor ]; vm_compute; discriminate.
Qed.

(** C120 is false of the code: what is read is not checked. The document below is
accepted as a graph that no history gives, with a port whose link leads outside
the graph; unlinking the port panics. *)
Theorem C120_read_usable_refuted :
exists v g p, de_pg v = DOk g /\ contains_port g p = true /\ unlink_port g p = Panic /\ (forall w, ~ reach w g).
Proof. exact C120_read_usable_refuted_pf. Qed.
Print Assumptions C120_read_usable_refuted.

(** C120, what holds: a document written for a graph with some history, however its
members are ordered, is read as a graph with that history, so all the theorems
about histories apply to it; two graphs with the same document are the same.
Missing: documents that were not written for a graph. *)
Theorem C120_read_usable_partial :
forall named,
  (forall w ops g v, hist w ops g -> same_doc (ser_pg named g) v -> exists g', de_pg v = DOk g' /\ hist w ops g') /\
  (forall w g g' , reach w g -> reach w g' -> same_doc (ser_pg named g) (ser_pg named g') -> g = g') /\
  (forall w m m', (2 < w <= 63)%N -> mreach w m -> mreach w m' -> same_doc (ser_mpg named m) (ser_mpg named m') -> m = m').
Proof. exact C120_read_usable_partial_pf. Qed.
Print Assumptions C120_read_usable_partial.

Example C120_read_usable_partial_case :
  (exists ops, hist 16 ops ser_g) /\ same_doc (ser_pg true ser_g) (ser_pg true ser_g) /\
  de_pg (ser_pg true ser_g) = DOk ser_g.
Proof. split_and!; [exact ser_reach|apply sd_refl|vm_compute; done]. Qed.

(** C123. What is read from an object depends only on the members with the names of the
fields; a graph whose first free node is missing is read as one without free
nodes; and a field that is given twice or is missing otherwise is never read. *)
Theorem C123_members :
forall l : list (string * jval),
  (forall l', filter (fun x => x.1 ∈ pg_names) l = filter (fun x => x.1 ∈ pg_names) l' -> de_pg (JObj l) = de_pg (JObj l')) /\
  (forall l', filter (fun x => x.1 ∈ mpg_names) l = filter (fun x => x.1 ∈ mpg_names) l' -> de_mpg (JObj l) = de_mpg (JObj l')) /\
  ("node_free"%string ∉ l.*1 -> de_pg (JObj l) = de_pg (JObj (("node_free"%string, JNull) :: l))) /\
  (forall k i j x y, i <> j -> l !! i = Some (k, x) -> l !! j = Some (k, y) ->
     (k ∈ pg_names -> de_pg (JObj l) = DErr) /\ (k ∈ mpg_names -> de_mpg (JObj l) = DErr)) /\
  (forall k, k ∉ l.*1 ->
     (k ∈ pg_names -> k <> "node_free"%string -> forall g, de_pg (JObj l) <> DOk g) /\ (k ∈ mpg_names -> forall m, de_mpg (JObj l) <> DOk m)).
Proof. exact C123_members_pf. Qed.
Print Assumptions C123_members.

Example C123_case : exists l, ser_pg true ser_g = JObj l /\ de_pg (JObj (("colour"%string, JNum 5) :: l)) = DOk ser_g /\
  de_pg (JObj (filter (fun x => x.1 <> "node_count"%string) l)) = DErr /\ de_pg (JObj (l ++ [("node_count"%string, JNum 2)])) = DErr.
Proof. eexists. split; [reflexivity|]. vm_compute. done. Qed.
