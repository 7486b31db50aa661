(** Vocabulary for [Weights] kept beside a graph: a client that makes calls on
    the graph, passes them callbacks that update the weights, and writes
    weights; and which node or port of the graph before a call is which one
    after it. *)
From Verif Require Export WeightModel PGSpec MultiSpec.

(** How the callbacks update the maps: the documented [swap] (weights.rs:31-33),
    or [rekey]. *)
Inductive style := BySwap | ByRekey.

(** What a call tells about renumbering: the calls of its callback, or its
    arguments for [swap_nodes], which has no callback. *)
Inductive news :=
| NoNews
| PortMoves (log : list (nat * port_op))
| NodeRenum (log : list (nat * nat))
| PortRenum (log : list (nat * nat))
| NodeSwap (a b : nat).

Definition pg_news (o : op) (r : out) : news :=
  match o, r with
  | _, RMoves log => PortMoves log
  | OCompactNodes, RRekey log => NodeRenum log
  | _, RRekey log => PortRenum log
  | OSwap a b, _ => NodeSwap a b
  | _, _ => NoNews
  end.
Definition m_news (o : MultiSpec.mop) (r : MultiSpec.mout) : news :=
  match o, r with
  | _, QMoves log => PortMoves log
  | MCompactNodes, QRekey log => NodeRenum log
  | _, QRekey log => PortRenum log
  | MultiSpec.MSwap a b, _ => NodeSwap a b
  | _, _ => NoNews
  end.

Section client.
  Context {A B : Type} (adef : A) (bdef : B).

  (** The callbacks at work. *)
  Definition w_update (sty : style) (x : news) (ws : weights A B) : res (weights A B) :=
    match x with
    | NoNews => Ok ws
    | PortMoves log => w_on_ports (rfold (match sty with BySwap => move_by_swap | ByRekey => move_by_rekey bdef end) log) ws
    | NodeRenum log => w_on_nodes (rfold (match sty with BySwap => renum_by_swap | ByRekey => renum_by_rekey adef end) log) ws
    | PortRenum log => w_on_ports (rfold (match sty with BySwap => renum_by_swap | ByRekey => renum_by_rekey bdef end) log) ws
    | NodeSwap a b => w_on_nodes (fun m => um_swap m a b) ws
    end.

  (** One step of the client. [O] is the type of calls on the graph. *)
  Inductive wop (O : Type) := WCall (o : O) | WNode (n : nat) (v : A) | WPort (p : nat) (v : B).
  Arguments WCall {O}. Arguments WNode {O}. Arguments WPort {O}.

  Definition wstep (w : N) (sty : style) (s : pg * weights A B) (x : wop op) : res (pg * weights A B) :=
    match x with
    | WCall o => '(g, r) ← step w s.1 o; ws ← w_update sty (pg_news o r) s.2; Ok (g, ws)
    | WNode n v => ws ← w_set_node s.2 n v; Ok (s.1, ws)
    | WPort p v => ws ← w_set_port s.2 p v; Ok (s.1, ws)
    end.
  Definition wallowed (g : pg) (x : wop op) : Prop := match x with WCall o => allowed g o | _ => True end.
  (** The states of a client that starts with an empty graph and no weights. *)
  Inductive wreach (w : N) (sty : style) : pg * weights A B -> Prop :=
  | wreach_new : wreach w sty (pg_new, w_new adef bdef)
  | wreach_step s x s' : wreach w sty s -> wallowed s.1 x -> wstep w sty s x = Ok s' -> wreach w sty s'.

  (** The same client on a multigraph. *)
  Definition mwstep (w : N) (sty : style) (s : mpg * weights A B) (x : wop MultiSpec.mop) : res (mpg * weights A B) :=
    match x with
    | WCall o => '(m, r) ← mstep w s.1 o; ws ← w_update sty (m_news o r) s.2; Ok (m, ws)
    | WNode n v => ws ← w_set_node s.2 n v; Ok (s.1, ws)
    | WPort p v => ws ← w_set_port s.2 p v; Ok (s.1, ws)
    end.
  Definition mwallowed (w : N) (m : mpg) (x : wop MultiSpec.mop) : Prop := match x with WCall o => mallowed w m o | _ => True end.
  Inductive mwreach (w : N) (sty : style) : mpg * weights A B -> Prop :=
  | mwreach_new g : reach w g -> mwreach w sty (m_from g, w_new adef bdef)
  | mwreach_step s x s' : mwreach w sty s -> mwallowed w s.1 x -> mwstep w sty s x = Ok s' -> mwreach w sty s'.

  (** The weight written last, when the client writes to [n]. *)
  Definition wrote_node {O} (x : wop O) (n : nat) (v : A) : A :=
    match x with WNode k u => if decide (k = n) then u else v | _ => v end.
  Definition wrote_port {O} (x : wop O) (p : nat) (v : B) : B :=
    match x with WPort k u => if decide (k = p) then u else v | _ => v end.
End client.
Arguments WCall {A B O}. Arguments WNode {A B O}. Arguments WPort {A B O}.
Arguments wop : clear implicits.

(** Node [n] before the call is node [n'] after it. *)
Definition node_goes (o : op) (g g' : pg) (n n' : nat) : Prop :=
  contains_node g n = true /\ contains_node g' n' = true /\
  match o with
  | OSwap a b => n' = if decide (n = a) then b else if decide (n = b) then a else n
  | OCompactNodes => n' = length (filter (fun x => contains_node g x = true) (seq 0 n))
  | _ => n' = n
  end.
(** Port [p] before the call is port [p'] after it. *)
Definition port_goes (o : op) (g g' : pg) (p p' : nat) : Prop :=
  match o with
  | OSetPorts n _ _ => survives g g' n p p'
  | OCompactPorts => exists n d k, port_at g n d k p /\ port_at g' n d k p'
  | _ => contains_port g p = true /\ contains_port g' p = true /\ p' = p
  end.

(** A node or a port followed through any number of steps of the client:
    [v] was its weight at the start, [v'] is what its weight should be. *)
Section follow.
  Context {A B : Type} (adef : A) (bdef : B) (w : N) (sty : style).
  Definition wnode_goes (x : wop A B op) (g g' : pg) (n n' : nat) : Prop :=
    match x with WCall o => node_goes o g g' n n' | _ => n' = n end.
  Definition wport_goes (x : wop A B op) (g g' : pg) (p p' : nat) : Prop :=
    match x with WCall o => port_goes o g g' p p' | _ => p' = p end.
  Inductive node_path : pg * weights A B -> nat -> A -> pg * weights A B -> nat -> A -> Prop :=
  | np_refl s n v : node_path s n v s n v
  | np_step s n v s1 n1 v1 x s2 n2 : node_path s n v s1 n1 v1 -> wallowed s1.1 x ->
      wstep adef bdef w sty s1 x = Ok s2 -> wnode_goes x s1.1 s2.1 n1 n2 -> node_path s n v s2 n2 (wrote_node x n1 v1).
  Inductive port_path : pg * weights A B -> nat -> B -> pg * weights A B -> nat -> B -> Prop :=
  | pp_refl s p v : port_path s p v s p v
  | pp_step s p v s1 p1 v1 x s2 p2 : port_path s p v s1 p1 v1 -> wallowed s1.1 x ->
      wstep adef bdef w sty s1 x = Ok s2 -> wport_goes x s1.1 s2.1 p1 p2 -> port_path s p v s2 p2 (wrote_port x p1 v1).
End follow.

(** Indices that are not those of a node or a port read as the default. *)
Definition tidy {A B} (adef : A) (bdef : B) (g : pg) (ws : weights A B) : Prop :=
  (forall n, contains_node g n = false -> w_node ws n = adef) /\
  (forall p, contains_port g p = false -> w_port ws p = bdef).
(** The call makes no index invalid without telling a callback. *)
Definition told (o : op) : Prop := match o with ORemove _ | OClear => False | _ => True end.

(** In a multigraph: a node or port that the callback reports, or that the call
    does not renumber. *)
Definition mnode_goes (o : MultiSpec.mop) (r : MultiSpec.mout) (m m' : mpg) (n n' : nat) : Prop :=
  m_contains_node m n = true /\ m_contains_node m' n' = true /\
  match o, r with
  | MultiSpec.MSwap a b, _ => n' = if decide (n = a) then b else if decide (n = b) then a else n
  | MCompactNodes, QRekey log => (n, n') ∈ log
  | _, _ => n' = n
  end.
Definition mport_goes (o : MultiSpec.mop) (m m' : mpg) (p p' : nat) : Prop :=
  m_contains_port m p = true /\ m_contains_port m' p' = true /\
  match o with
  | MSetPorts n _ _ => survives (m_graph m) (m_graph m') n p p'
  | MCompactPorts => exists n d k, port_at (m_graph m) n d k p /\ port_at (m_graph m') n d k p'
  | _ => p' = p
  end.
