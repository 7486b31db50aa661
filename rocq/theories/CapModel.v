(** Model of capacities.

    A vector grows when more room is needed than it has; how much it gets then,
    and what it keeps when it is shrunk, is up to the allocator. [grow cap need]
    and [fit cap len] are its answers. *)
From Verif Require Export PGSpec MapSpec MultiModel.

Section alloc.
  Context (grow fit : nat -> nat -> nat).
  (** [Vec::reserve], [Vec::resize], [Vec::push], [Vec::with_capacity],
      [BitVec::reserve], [HashSet::reserve], as documented: nothing happens if the
      capacity suffices. *)
  Definition v_room (cap need : nat) : nat := if decide (need <= cap) then cap else grow cap need.

  (** ** PortGraph with the capacities of [node_meta] and [port_meta]. *)
  Record cgraph := CG { cg_g : pg; cg_ncap : nat; cg_pcap : nat }.
  (** portgraph.rs:93-105 [with_capacity]; [new] (78-90) is the case 0, 0 *)
  Definition cg_with_capacity (nodes ports : nat) : cgraph := CG pg_new (v_room 0 nodes) (v_room 0 ports).
  (** portgraph.rs:419-427 [node_capacity], [port_capacity] *)
  Definition cg_node_capacity (c : cgraph) : nat := cg_ncap c.
  Definition cg_port_capacity (c : cgraph) : nat := cg_pcap c.
  (** portgraph.rs:509-513 [reserve], 715-720 [shrink_to_fit]. The other calls make
      the vectors longer at most once (portgraph.rs:113-127, 173-181); [clear],
      [retain] and [truncate] keep the capacity. *)
  Definition cg_step (w : N) (c : cgraph) (o : op) : res (cgraph * out) :=
    '(g, r) ← step w (cg_g c) o;
    let ln := length (pg_nodes g) in
    let lp := length (pg_pmeta g) in
    Ok (match o with
        | OReserve a b => CG g (v_room (cg_ncap c) (ln + a)) (v_room (cg_pcap c) (lp + b))
        | OShrink => CG g (fit (cg_ncap c) ln) (fit (cg_pcap c) lp)
        | _ => CG g (v_room (cg_ncap c) ln) (v_room (cg_pcap c) lp)
        end, r).

  (** ** UnmanagedDenseMap with the capacity of [data]. *)
  Record cmap (V : Type) := CM { cm_m : umap V; cm_cap : nat }.
  Arguments CM {V}. Arguments cm_m {V}. Arguments cm_cap {V}.
  (** unmanaged.rs:122-128 [with_capacity_and_default] *)
  Definition cm_with_capacity {V} (c : nat) (d : V) : cmap V := CM (um_with_default d) (v_room 0 c).
  (** unmanaged.rs:133-138 [ensure_capacity] *)
  Definition cm_ensure {V} (m : cmap V) (c : nat) : cmap V :=
    let len := length (um_data (cm_m m)) in
    CM (um_ensure_capacity (cm_cap m) (cm_m m) c)
       (if decide (cm_cap m < c) then v_room (v_room (cm_cap m) (len + (c - cm_cap m))) c else cm_cap m).
  (** unmanaged.rs:144-147 [shrink_to] *)
  Definition cm_shrink {V} (m : cmap V) (c : nat) : cmap V :=
    let u := um_shrink_to (cm_m m) c in CM u (fit (cm_cap m) (length (um_data u))).
  (** The other calls make the vector longer at most once. *)
  Definition cm_step {V} (vdef : V) (m : cmap V) (o : mop V) : res (cmap V * mout V) :=
    '(u, r) ← um_step vdef (cm_m m) o; Ok (CM u (v_room (cm_cap m) (length (um_data u))), r).

  (** ** BitVec and HashSet: number of bits or elements, and capacity. *)
  (** secondary.rs:107-109, 260-262 *)
  Definition set_with_capacity (c : nat) : nat * nat := (0, v_room 0 c).
  (** secondary.rs:117-119, 270-272: [reserve(capacity.saturating_sub(self.capacity()))] *)
  Definition set_ensure (s : nat * nat) (c : nat) : nat * nat := (s.1, v_room s.2 (s.1 + (c - s.2))).
End alloc.
Arguments CM {V}. Arguments cm_m {V}. Arguments cm_cap {V}. Arguments cmap V : clear implicits.

(** multiportgraph.rs:162-170 [node_capacity], [port_capacity]; the arguments are the
    capacities of the inner graph *)
Definition m_node_capacity (cap : nat) (m : mpg) : res nat := usub cap (m_ccount m).
Definition m_port_capacity (cap : nat) (m : mpg) : res nat := c ← usub cap (m_scount m); usub c (m_ccount m).
(** region.rs:191-197, flat_region.rs:159-166, subgraph.rs:214-221: capacity and count of
    the graph, count of the view *)
Definition view_capacity (cap count own : nat) : res nat := c ← usub cap count; Ok (c + own).
