(** The [serde] implementations of the index types, graphs, hierarchies, dense
    maps and weights: hand-written ones (index.rs) and derived ones.

    Data formats: a document is a tree [jval], as in JSON and MessagePack (the
    formats used by the tests of the repository); structs are objects keyed by
    their field names or, in compact formats, arrays in the order of the fields.
    What [#[derive(Serialize, Deserialize)]] generates is modelled by
    [ser_struct] and [fields]; the rules are those of the serde documentation.

    Simplified: the text of the documents is not modelled; fields are read in
    the order of their declaration, so when a document has both an error and a
    panic the model may report the other one; the [BitVec]s of [MultiPortGraph],
    whose serialization is code of the bitvec crate, are arrays of booleans;
    formats that are not self-describing (which reject the untagged [PortEntry])
    are not modelled. [debug_assert!]s are included. *)
From Coq Require Import String.
From Verif Require Export IndexModel MultiModel HierModel WeightModel.
Local Open Scope string_scope.

(** A document. [JOther]: anything else (negative numbers, fractions, bytes). *)
Inductive jval :=
| JNull | JBool (b : bool) | JNum (n : N) | JStr (s : string)
| JArr (l : list jval) | JObj (l : list (string * jval)) | JOther.

(** What [Deserialize::deserialize] does: a value, an error of the format, or a
    panic. *)
Inductive dres (A : Type) := DOk (a : A) | DErr | DPanic.
Arguments DOk {A} _. Arguments DErr {A}. Arguments DPanic {A}.
Global Instance dres_bind : MBind dres := fun A B f x =>
  match x with DOk a => f a | DErr => DErr | DPanic => DPanic end.
Definition of_res {A} (x : res A) : dres A := match x with Ok a => DOk a | Panic => DPanic end.

(** ** What serde provides *)
(** Unsigned integers of [w] bits *)
Definition de_uint (w : N) (v : jval) : dres N :=
  match v with JNum n => if (n <? 2 ^ w)%N then DOk n else DErr | _ => DErr end.
Definition de_bool (v : jval) : dres bool := match v with JBool b => DOk b | _ => DErr end.
(** [PhantomData] *)
Definition de_unit (v : jval) : dres unit := match v with JNull => DOk () | _ => DErr end.
(** [Vec] *)
Fixpoint de_list {A} (d : jval -> dres A) (l : list jval) : dres (list A) :=
  match l with [] => DOk [] | v :: l => x ← d v; xs ← de_list d l; DOk (x :: xs) end.
Definition de_vec {A} (d : jval -> dres A) (v : jval) : dres (list A) :=
  match v with JArr l => de_list d l | _ => DErr end.
(** [[T; 2]] *)
Definition de_pair {A} (d : jval -> dres A) (v : jval) : dres (A * A) :=
  match v with JArr [a; b] => x ← d a; y ← d b; DOk (x, y) | _ => DErr end.
(** Derived [Serialize] of a struct; [named]: is the struct an object? *)
Definition ser_struct (named : bool) (names : list string) (vals : list jval) : jval :=
  if named then JObj (zip names vals) else JArr vals.
(** Derived [Deserialize] of a struct: the values of its fields. Unknown fields
    are skipped, a field given twice is an error. *)
Definition key_value (k : string) (l : list (string * jval)) : option jval :=
  snd <$> head (filter (fun x => x.1 = k) l).
Definition fields (names : list string) (v : jval) : option (list (option jval)) :=
  match v with
  | JArr l => if decide (length l = length names) then Some (Some <$> l) else None
  | JObj l => if decide (NoDup (filter (fun k => k ∈ names) l.*1)) then Some ((fun k => key_value k l) <$> names) else None
  | _ => None
  end.
(** A field that must be there, and one read as an [Option], which may be missing *)
Definition field {A} (d : jval -> dres A) (o : option jval) : dres A :=
  match o with Some v => d v | None => DErr end.
Definition ofield {A} (d : jval -> dres A) (o : option jval) : dres A :=
  match o with Some v => d v | None => d JNull end.

(** ** index.rs *)
(** index.rs:89-109: [self.index().serialize], [$name::new(usize::deserialize)] *)
Definition ser_ix (w x : N) : jval := JNum (ix_index w x).
Definition de_ix (w : N) (v : jval) : dres N := n ← de_uint 64 v; of_res (ix_new w n).
(** index.rs:254-279: [self.to_option().serialize], [$maybe_index::new(Option::deserialize)] *)
Definition ser_mi (w x : N) : jval :=
  match mi_to_option w x with None => JNull | Some x => ser_ix w x end.
Definition de_mi (w : N) (v : jval) : dres N :=
  match v with JNull => of_res (mi_new w None) | _ => x ← de_ix w v; of_res (mi_new w (Some x)) end.
(** lib.rs:98-105 [Direction] *)
Definition ser_dir (d : dir) : jval :=
  JStr (match d with Incoming => "Incoming" | Outgoing => "Outgoing" end).
Definition dir_named (s : string) : dres dir :=
  if decide (s = "Incoming") then DOk Incoming else if decide (s = "Outgoing") then DOk Outgoing else DErr.
Definition de_dir (v : jval) : dres dir :=
  match v with JStr s => dir_named s | JObj [(s, JNull)] => dir_named s | _ => DErr end.
(** index.rs:365-413 [PortOffset] *)
Definition po_names : list string := ["index"; "direction"].
Definition ser_po (named : bool) (w x : N) : res jval :=
  i ← po_index w x; d ← po_direction w x; Ok (ser_struct named po_names [JNum i; ser_dir d]).
Definition de_po (w : N) (v : jval) : dres N :=
  match fields po_names v with
  | Some [i; d] => i ← field (de_uint 64) i; d ← field de_dir d; of_res (po_new w d i)
  | _ => DErr
  end.

(** The indices of the graph model are decoded: an index of 32 bits is the number
    of its bits, an optional index [None] or that. *)
Definition ser_idx (i : nat) : jval := ser_ix 32 (N.of_nat i).
Definition de_idx (v : jval) : dres nat := x ← de_ix 32 v; DOk (N.to_nat x).
Definition ser_midx (o : option nat) : jval :=
  ser_mi 32 (match o with Some i => N.of_nat i | None => bf_none 32 end).
Definition de_midx (v : jval) : dres (option nat) := x ← de_mi 32 v; DOk (N.to_nat <$> mi_to_option 32 x).
Definition ser_nat (n : nat) : jval := JNum (N.of_nat n).
Definition de_nat (w : N) (v : jval) : dres nat := n ← de_uint w v; DOk (N.to_nat n).

(** ** portgraph.rs *)
(** portgraph.rs:806-819 [NodeMeta]; [incoming] is a [NonZeroU16] *)
Definition nm_names : list string := ["first_port"; "incoming"; "outgoing"; "capacity"].
Definition de_nonzero (w : N) (v : jval) : dres N :=
  n ← de_uint w v; if (n =? 0)%N then DErr else DOk n.
Definition ser_nm (named : bool) (m : node_meta) : jval :=
  ser_struct named nm_names [ser_idx (nm_first m); ser_nat (nm_inc m + 1); ser_nat (nm_out m); ser_nat (nm_cap m)].
Definition de_nm (v : jval) : dres node_meta :=
  match fields nm_names v with
  | Some [a; b; c; d] =>
      a ← field de_idx a; b ← field (de_nonzero 16) b; c ← field (de_nat 16) c; d ← field (de_nat 16) d;
      DOk (NM a (N.to_nat (b - 1)) c d)
  | _ => DErr
  end.
(** portgraph.rs:980-986 [FreeNodeEntry] *)
Definition fn_names : list string := ["prev"; "next"].
Definition ser_fn (named : bool) (a b : option nat) : jval := ser_struct named fn_names [ser_midx a; ser_midx b].
Definition de_fn (v : jval) : dres node_entry :=
  match fields fn_names v with
  | Some [a; b] => a ← ofield de_midx a; b ← ofield de_midx b; DOk (NFree a b)
  | _ => DErr
  end.
(** portgraph.rs:930-942 [NodeEntry], an externally tagged enum *)
Definition ser_ne (named : bool) (e : node_entry) : jval :=
  match e with NFree a b => JObj [("f", ser_fn named a b)] | NNode m => JObj [("n", ser_nm named m)] end.
Definition de_ne (v : jval) : dres node_entry :=
  match v with
  | JObj [(s, v)] =>
      if decide (s = "f") then de_fn v
      else if decide (s = "n") then m ← de_nm v; DOk (NNode m) else DErr
  | _ => DErr
  end.
(** portgraph.rs:1086-1087 [PortMeta] (a [NonZeroU32]), 1119-1126 [PortEntry],
    untagged: null is [Free]. Any nonzero number is accepted; its node, were it
    to be asked for, is the number of 31 bits minus one, with wrapping. *)
Definition ser_pe (e : port_entry) : jval :=
  match e with PFree => JNull | PPort n d => JNum (pmeta_new (N.of_nat n) d) end.
Definition de_pe (v : jval) : dres port_entry :=
  match v with
  | JNull => DOk PFree
  | _ => x ← de_nonzero 32 v;
         DOk (PPort (N.to_nat ((N.land x pmeta_mask + (2 ^ 32 - 1)) mod 2 ^ 32)) (pmeta_direction x))
  end.
(** portgraph.rs:44-70 [PortGraph] *)
Definition pg_names : list string :=
  ["node_meta"; "port_link"; "port_meta"; "node_free"; "port_free"; "node_count"; "port_count"; "link_count"; "_marker"].
Definition ser_pg (named : bool) (g : pg) : jval :=
  ser_struct named pg_names
    [JArr (ser_ne named <$> pg_nodes g); JArr (ser_midx <$> pg_link g); JArr (ser_pe <$> pg_pmeta g);
     ser_midx (pg_nfree g); JArr (ser_midx <$> pg_pfree g);
     ser_nat (pg_ncount g); ser_nat (pg_pcount g); ser_nat (pg_lcount g); JNull].
Definition de_pg (v : jval) : dres pg :=
  match fields pg_names v with
  | Some [a; b; c; d; e; f; g; h; i] =>
      a ← field (de_vec de_ne) a; b ← field (de_vec de_midx) b; c ← field (de_vec de_pe) c;
      d ← ofield de_midx d; e ← field (de_vec de_midx) e;
      f ← field (de_nat 64) f; g ← field (de_nat 64) g; h ← field (de_nat 64) h; _ ← field de_unit i;
      DOk (PG a b c d e f g h)
  | _ => DErr
  end.

(** ** multiportgraph.rs *)
(** multiportgraph.rs:33-44 [MultiPortGraph] *)
Definition mpg_names : list string := ["graph"; "multiport"; "copy_node"; "copy_node_count"; "subport_count"].
Definition ser_mpg (named : bool) (m : mpg) : jval :=
  ser_struct named mpg_names
    [ser_pg named (m_graph m); JArr (JBool <$> m_multi m); JArr (JBool <$> m_copy m);
     ser_nat (m_ccount m); ser_nat (m_scount m)].
Definition de_mpg (v : jval) : dres mpg :=
  match fields mpg_names v with
  | Some [a; b; c; d; e] =>
      a ← field de_pg a; b ← field (de_vec de_bool) b; c ← field (de_vec de_bool) c;
      d ← field (de_nat 64) d; e ← field (de_nat 64) e; DOk (MPG a b c d e)
  | _ => DErr
  end.
(** multiportgraph.rs:65-69 [SubportIndex] *)
Definition sp_names : list string := ["port"; "subport_offset"].
Definition ser_sp (named : bool) (s : subport) : jval := ser_struct named sp_names [ser_idx s.1; ser_nat s.2].
Definition de_sp (v : jval) : dres subport :=
  match fields sp_names v with
  | Some [a; b] => a ← field de_idx a; b ← field (de_nat 16) b; DOk (a, b)
  | _ => DErr
  end.

(** ** unmanaged.rs:64-69 [UnmanagedDenseMap], for any serializable values *)
Definition um_names : list string := ["data"; "phantom"; "default"].
Definition ser_um {A} (s : A -> jval) (named : bool) (m : umap A) : jval :=
  ser_struct named um_names [JArr (s <$> um_data m); JNull; s (um_default m)].
Definition de_um {A} (d : jval -> dres A) (v : jval) : dres (umap A) :=
  match fields um_names v with
  | Some [a; b; c] => a ← field (de_vec d) a; _ ← field de_unit b; c ← field d c; DOk (mkUM a c)
  | _ => DErr
  end.
(** weights.rs:52-58 [Weights] *)
Definition w_names : list string := ["nodes"; "ports"].
Definition ser_w {A B} (sa : A -> jval) (sb : B -> jval) (named : bool) (x : @weights A B) : jval :=
  ser_struct named w_names [ser_um sa named (w_nodes x); ser_um sb named (w_ports x)].
Definition de_w {A B} (da : jval -> dres A) (db : jval -> dres B) (v : jval) : dres (@weights A B) :=
  match fields w_names v with
  | Some [a; b] => a ← field (de_um da) a; b ← field (de_um db) b; DOk (mkW a b)
  | _ => DErr
  end.

(** ** hierarchy.rs *)
(** hierarchy.rs:552-564 [NodeData] *)
Definition nd_names : list string := ["children"; "children_count"; "parent"; "siblings"].
Definition ser_nd (named : bool) (d : nd) : jval :=
  ser_struct named nd_names
    [JArr [ser_midx (nd_first d); ser_midx (nd_last d)]; ser_nat (nd_count d); ser_midx (nd_parent d);
     JArr [ser_midx (nd_prev d); ser_midx (nd_next d)]].
Definition de_nd (v : jval) : dres nd :=
  match fields nd_names v with
  | Some [a; b; c; d] =>
      a ← field (de_pair de_midx) a; b ← field (de_nat 32) b; c ← ofield de_midx c; d ← field (de_pair de_midx) d;
      DOk (mkND a.1 a.2 b c d.1 d.2)
  | _ => DErr
  end.
(** hierarchy.rs:71-74 [Hierarchy] *)
Definition h_names : list string := ["data"].
Definition ser_h (named : bool) (h : hier) : jval := ser_struct named h_names [ser_um (ser_nd named) named h].
Definition de_h (v : jval) : dres hier :=
  match fields h_names v with Some [a] => field (de_um de_nd) a | _ => DErr end.
