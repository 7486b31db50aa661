(** The abstract port graph: nodes with two ordered lists of ports, and a
    symmetric partial matching of ports. Used to state C19. *)
From Coq Require Export Sorted.
From Verif Require Export PGSpec.

Record ag := mkAG {
  a_ports : nat -> option (list nat * list nat);   (* inputs, outputs *)
  a_link : nat -> option nat;
}.
Definition a_of (A : ag) (n p : nat) (d : dir) : Prop :=
  exists i o, a_ports A n = Some (i, o) /\ p ∈ match d with Incoming => i | Outgoing => o end.
Definition a_has (A : ag) (p : nat) : Prop := exists n d, a_of A n p d.

(** Each port belongs to one place of one node; links join an input and an
    output, symmetrically. *)
Record wfA (A : ag) : Prop := {
  wa_nodup : forall n i o, a_ports A n = Some (i, o) -> NoDup (i ++ o);
  wa_owner : forall n n' d d' p, a_of A n p d -> a_of A n' p d' -> n = n' /\ d = d';
  wa_sym : forall p q, a_link A p = Some q -> a_link A q = Some p;
  wa_dirs : forall p q, a_link A p = Some q -> exists n m d, a_of A n p d /\ a_of A m q (rev_dir d);
}.

(** The position [p] had is now held by [p']: a port of the resized node [n], or
    any port of another node. *)
Definition a_survives (A A' : ag) (n p p' : nat) : Prop :=
  (exists i o i' o', a_ports A n = Some (i, o) /\ a_ports A' n = Some (i', o') /\
     exists k, (i !! k = Some p /\ i' !! k = Some p') \/ (o !! k = Some p /\ o' !! k = Some p')) \/
  (p' = p /\ a_has A p /\ forall d, ~ a_of A n p d).

(** [astep A c r A']: calling [c] on [A] may answer [r] and leave [A']. *)
Definition astep (A : ag) (c : op) (r : out) (A' : ag) : Prop :=
  match c, r with
  | OAdd i j, RNode n =>
      a_ports A n = None /\
      (exists pi po, length pi = i /\ length po = j /\ NoDup (pi ++ po) /\ (forall p, p ∈ pi ++ po -> ~ a_has A p) /\
         forall x, a_ports A' x = if decide (x = n) then Some (pi, po) else a_ports A x) /\
      (forall p, a_link A' p = a_link A p)
  | ORemove n, RUnit =>
      (forall x, a_ports A' x = if decide (x = n) then None else a_ports A x) /\
      (forall p q, a_link A' p = Some q <->
         a_link A p = Some q /\ forall d, ~ a_of A n p d /\ ~ a_of A n q d)
  | OLink a b, RLink (inr x) =>
      x = (a, b) /\ (exists n m d, a_of A n a d /\ a_of A m b (rev_dir d)) /\
      a_link A a = None /\ a_link A b = None /\
      (forall x, a_ports A' x = a_ports A x) /\
      (forall p q, a_link A' p = Some q <-> (p = a /\ q = b) \/ (p = b /\ q = a) \/ a_link A p = Some q)
  | OLink a b, RLink (inl e) =>
      (forall x, a_ports A' x = a_ports A x) /\ (forall p, a_link A' p = a_link A p) /\
      match e with
      | UnknownPort _ => ~ a_has A a \/ ~ a_has A b
      | IncompatibleDirections p q d => p = a /\ q = b /\ (exists n, a_of A n a d) /\ (exists n, a_of A n b d)
      | AlreadyLinked p => (p = a \/ p = b) /\ a_link A p <> None
      | UnknownOffset _ _ _ => False
      end
  | OUnlink p, RUnlink r =>
      r = a_link A p /\
      (forall x, a_ports A' x = a_ports A x) /\
      (forall x y, a_link A' x = Some y <-> a_link A x = Some y /\ x <> p /\ y <> p)
  | OSetPorts n i j, RMoves log =>
      match a_ports A n with
      | None => log = [] /\ (forall x, a_ports A' x = a_ports A x) /\ (forall p, a_link A' p = a_link A p)
      | Some (pi, po) =>
          (exists pi' po', length pi' = i /\ length po' = j /\ NoDup (pi' ++ po') /\
             (forall p, p ∈ pi' ++ po' -> p ∈ pi ++ po \/ ~ a_has A p) /\
             (forall x, a_ports A' x = if decide (x = n) then Some (pi', po') else a_ports A x)) /\
          (forall p' q', a_link A' p' = Some q' <->
             exists p q, a_survives A A' n p p' /\ a_survives A A' n q q' /\ a_link A p = Some q) /\
          (forall p p', p <> p' -> a_survives A A' n p p' <-> (p, Moved p') ∈ log) /\
          (forall p, (exists l, (p, Removed l) ∈ log) <-> p ∈ drop i pi ++ drop j po)
      end
  | OSwap a b, RUnit =>
      (forall x, a_ports A' x = a_ports A (if decide (x = a) then b else if decide (x = b) then a else x)) /\
      (forall p, a_link A' p = a_link A p)
  | OCompactNodes, RRekey log =>
      StronglySorted lt log.*1 /\ (forall n, n ∈ log.*1 <-> a_ports A n <> None) /\ log.*2 = seq 0 (length log) /\
      (forall n x, a_ports A' n = Some x <-> exists o, (o, n) ∈ log /\ a_ports A o = Some x) /\
      (forall p, a_link A' p = a_link A p)
  | OCompactPorts, RRekey log =>
      StronglySorted lt log.*1 /\ (forall p, p ∈ log.*1 <-> a_has A p) /\ log.*2 = seq 0 (length log) /\
      (forall n, match a_ports A n, a_ports A' n with
                 | None, None => True
                 | Some (i, o), Some (i', o') =>
                     Forall2 (fun p p' => (p, p') ∈ log) i i' /\ Forall2 (fun p p' => (p, p') ∈ log) o o'
                 | _, _ => False
                 end) /\
      (forall p' q', a_link A' p' = Some q' <-> exists p q, (p, p') ∈ log /\ (q, q') ∈ log /\ a_link A p = Some q)
  | OClear, RUnit => (forall x, a_ports A' x = None) /\ (forall p, a_link A' p = None)
  | OReserve _ _, RUnit | OShrink, RUnit =>
      (forall x, a_ports A' x = a_ports A x) /\ (forall p, a_link A' p = a_link A p)
  | _, _ => False
  end.

(** Traces of calls and answers, of the code and of the abstract graph. *)
Inductive htrace (w : N) : list (op * out) -> pg -> Prop :=
| htrace_new : htrace w [] pg_new
| htrace_step tr g c g' r : htrace w tr g -> allowed g c -> step w g c = Ok (g', r) ->
    htrace w (tr ++ [(c, r)]) g'.
Inductive atrace : list (op * out) -> ag -> Prop :=
| atrace_new A : (forall n, a_ports A n = None) -> (forall p, a_link A p = None) -> atrace [] A
| atrace_step tr A c r A' : atrace tr A -> astep A c r A' -> atrace (tr ++ [(c, r)]) A'.

(** [g] shows exactly the abstract graph [A]. *)
Record shows (w : N) (g : pg) (A : ag) : Prop := {
  sh_node : forall n, contains_node g n = true <-> a_ports A n <> None;
  sh_ports : forall n i o, a_ports A n = Some (i, o) -> ports g n Incoming = i /\ ports g n Outgoing = o;
  sh_index : forall n d k, (N.of_nat k <= po_max_offset w)%N -> exists o, po_new w d (N.of_nat k) = Ok o /\
    port_index w g n o = Ok (match a_ports A n with
                             | None => None
                             | Some (i, o) => match d with Incoming => i | Outgoing => o end !! k
                             end);
  sh_port : forall p, contains_port g p = true <-> a_has A p;
  sh_owner : forall p n d, (port_node g p = Some n /\ port_direction g p = Some d) <-> a_of A n p d;
  sh_link : forall p, a_has A p -> port_link g p = Ok (a_link A p);
  sh_ncount : card (fun n => a_ports A n <> None) (node_count g);
  sh_pcount : card (a_has A) (port_count g);
  sh_lcount : card (fun p => (exists n, a_of A n p Outgoing) /\ a_link A p <> None) (link_count g);
}.
