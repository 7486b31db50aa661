(** Properties C115, C116 and C117: the mermaid output. *)
From Coq Require Import Ascii String.
From stdpp Require Import gmap pretty.
From Verif Require Export MermThms DotProps.
Open Scope list_scope.


(** C115 without a hierarchy: on every view that shows a graph, every node is drawn
once as a leaf outside of all blocks, and every link once. *)
Theorem C115_flat :
forall E (V : lview E) N R shuffle, shows V N R -> (forall l, shuffle l ≡ₚ l) ->
  exists nodes M, lv_nodes V = HOk nodes /\ forall fuel, M <= fuel -> exists out items,
    mm_finish V shuffle fuel None = HOk out /\ placed [] out = Some items /\ the_nodes items = rev nodes /\
    (forall os i n, (os, i) ∈ items -> os = [] /\ (mm_node i = Some n -> i = MMLeaf n)) /\
    link_list V R (the_links items) /\
    (forall os a x b y, (os, MMLink a x b y) ∈ items -> R x y /\ lv_pnode V (lv_port V x) = Some a /\ lv_pnode V (lv_port V y) = Some b).
Proof. exact C115_flat_pf. Qed.
Print Assumptions C115_flat.

Example C115_flat_case : shows (lv_of_pg vx_g) (fun n => contains_node vx_g n = true) (linked vx_g)
  /\ mm_finish (lv_of_pg two_g) id 10 None = HOk [(1, MMLeaf 1); (1, MMLeaf 0); (1, MMLink 0 0 1 1)].
Proof. split; [exact (pg_shows 16 vx_g vx_reach)|vm_compute; reflexivity]. Qed.

(** C115 does not hold: the children of a node are drawn whether they are visible or
not. With the hierarchy 0 > 1 > 2 and a filtered graph without node 1, node 1 is
drawn, and node 2 twice. *)
Theorem C115_mermaid_refuted :
exists h out items, hreach h /\ reach 16 vx_g /\
  mm_finish (filtered (lv_of_pg vx_g) (fun n => (n =? 0) || (n =? 2)) (fun _ => true)) id 30 (Some h) = HOk out /\
  lv_nodes (filtered (lv_of_pg vx_g) (fun n => (n =? 0) || (n =? 2)) (fun _ => true)) = HOk [0; 2] /\
  placed [] out = Some items /\ the_nodes items = [2; 0; 1; 2].
Proof. exact C115_mermaid_refuted_pf. Qed.
Print Assumptions C115_mermaid_refuted.

(** C115 with a hierarchy, for every view that contains the children of its nodes
(graphs, regions, and filtered graphs that hide whole subtrees), whatever the
iteration order of hash maps: the output has matching blocks and indentation;
every visible node is drawn exactly once, as a leaf if it has no children and
otherwise as a block, inside the blocks of exactly its visible ancestors; parents
come before children and children in their order; and every link is drawn exactly
once, with the nodes of its ends. Missing: views that hide a node but not
all nodes below it. *)
Theorem C115_mermaid_partial :
forall E (V : lview E) N R h ch shuffle, shows V N R -> hreach h -> forest h ch -> (forall l, shuffle l ≡ₚ l) ->
  (forall c p, h_parent h c = Some p -> N p -> N c) ->
  exists nodes M, lv_nodes V = HOk nodes /\ forall fuel, M <= fuel -> exists out items rs ls,
    mm_finish V shuffle fuel (Some h) = HOk out /\ placed [] out = Some items /\
    NoDup (the_nodes items) /\ (forall n, n ∈ the_nodes items <-> N n) /\
    sublist rs nodes /\ (forall r, r ∈ rs <-> N r /\ forall p, h_parent h r = Some p -> ~ N p) /\
    Forall2 (tree_order ch) (rev rs) ls /\ the_nodes items = concat ls /\
    (forall os i n, (os, i) ∈ items -> mm_node i = Some n ->
       blocks h N n os /\ i = match ch n with [] => MMLeaf n | _ => MMStart n end) /\
    link_list V R (the_links items) /\
    (forall os a x b y, (os, MMLink a x b y) ∈ items -> R x y /\ lv_pnode V (lv_port V x) = Some a /\ lv_pnode V (lv_port V y) = Some b).
Proof. exact C115_mermaid_partial_pf. Qed.
Print Assumptions C115_mermaid_partial.

(** The hierarchy 5 > 0 > 1, 3 and the part of [vx_g] below 0: node 0 is a block
    around 1 and 3, as in the region of 0. *)
Definition mh : hier := match h_run h_new [HPush 0 5; HPush 1 0; HPush 3 0] with HOk h => h | _ => h_new end.
Lemma mh_reach : hreach mh.
Proof.
  unfold mh. destruct (h_run h_new [HPush 0 5; HPush 1 0; HPush 3 0]) as [h| |] eqn:Eh; [|vm_compute in Eh; discriminate Eh|vm_compute in Eh; discriminate Eh].
  vm_compute in Eh. injection Eh as <-.
  eapply hr_step with (o := HPush 3 0); [eapply hr_step with (o := HPush 1 0); [eapply hr_step with (o := HPush 0 5); [apply hr_new| |]| |]| |];
    try (vm_compute; reflexivity); intros (Hc & _); discriminate Hc.
Qed.
Lemma mh_parent c p : h_parent mh c = Some p <-> (c = 0 /\ p = 5) \/ (c = 1 /\ p = 0) \/ (c = 3 /\ p = 0).
Proof.
  destruct c as [|[|[|[|[|[|c]]]]]]; (split; [|intros [[? ?]|[[? ?]|[? ?]]]; subst; try lia; vm_compute; reflexivity]); intros Hp; vm_compute in Hp; try discriminate Hp; injection Hp as <-; lia.
Qed.
Example C115_case : hreach mh /\ (exists ch, forest mh ch)
  /\ (exists R, shows (filtered (lv_of_pg vx_g) (fun n => (n =? 0) || (n =? 1) || (n =? 3)) (fun _ => true)) (fun n => contains_node vx_g n = true /\ (n =? 0) || (n =? 1) || (n =? 3) = true) R)
  /\ (forall c p, h_parent mh c = Some p -> contains_node vx_g p = true /\ (p =? 0) || (p =? 1) || (p =? 3) = true ->
       contains_node vx_g c = true /\ (c =? 0) || (c =? 1) || (c =? 3) = true)
  /\ mm_finish (filtered (lv_of_pg vx_g) (fun n => (n =? 0) || (n =? 1) || (n =? 3)) (fun _ => true)) id 30 (Some mh)
     = HOk [(1, MMStart 0); (2, MMLeaf 1); (2, MMLeaf 3); (2, MMLink 0 1 1 3); (1, MMEnd); (1, MMLink 1 4 3 9)].
Proof.
  split; [exact mh_reach|]. split; [destruct (hreach_inv _ mh_reach) as (ch & HI & _); by exists ch|].
  split; [eexists; exact (proj1 (C59_filtered _ _ _ _ _ _ (pg_shows 16 vx_g vx_reach)))|].
  split; [|vm_compute; reflexivity]. intros c p [[-> ->]|[[-> ->]|[-> ->]]]%mh_parent [_ Hp]; [discriminate Hp|..]; split; reflexivity.
Qed.

(** C116 does not hold. A link from a leaf to itself is written outside of all blocks
even if the leaf is inside a block (node 2 inside node 0). And on a view that does
not contain the root of the hierarchy the lowest common ancestors are wrong
(C114): the link between the two children 1 and 3 of node 0 is written outside of
the block of node 0. *)
Theorem C116_placement_refuted :
(exists h out items, hreach h /\ reach 16 vx_g /\ h_parent h 2 = Some 0 /\
   mm_finish (lv_of_pg vx_g) id 60 (Some h) = HOk out /\ placed [] out = Some items /\
   ([0], MMLeaf 2) ∈ items /\ ([], MMLink 2 8 2 6) ∈ items) /\
(exists h out items, hreach h /\ reach 16 vx_g /\ h_parent h 1 = Some 0 /\ h_parent h 3 = Some 0 /\
   mm_finish (filtered (lv_of_pg vx_g) (fun n => (n =? 0) || (n =? 1) || (n =? 3)) (fun _ => true)) id 30 (Some h) = HOk out /\ placed [] out = Some items /\
   ([0], MMLeaf 1) ∈ items /\ ([0], MMLeaf 3) ∈ items /\ ([], MMLink 1 4 3 9) ∈ items).
Proof. exact C116_placement_refuted_pf. Qed.
Print Assumptions C116_placement_refuted.

(** C116, for views that contain with a node also its children and its parent (in
particular for whole graphs): a link is written in the block of the lowest
common ancestor of its nodes, and outside of all blocks if they have no common
ancestor. Missing: links from a leaf to itself, which are written outside of all blocks, and views that cut trees. *)
Theorem C116_placement_partial :
forall E (V : lview E) N R h ch shuffle, shows V N R -> hreach h -> forest h ch -> (forall l, shuffle l ≡ₚ l) ->
  (forall c p, h_parent h c = Some p -> N c <-> N p) ->
  exists M, forall fuel, M <= fuel -> exists out items, mm_finish V shuffle fuel (Some h) = HOk out /\ placed [] out = Some items /\
    forall os a x b y, (os, MMLink a x b y) ∈ items ->
      (exists c os', is_lca h a b c /\ ch c <> [] /\ os = c :: os' /\ blocks h N c os')
      \/ os = [] /\ ((~ exists d, anc h d a /\ anc h d b) \/ a = b /\ ch a = []).
Proof. exact C116_placement_partial_pf. Qed.
Print Assumptions C116_placement_partial.

(** On the whole graph, the link between 1 and 3 is in the block of node 0, inside
    that of node 5. *)
Example C116_case : hreach mh /\ shows (lv_of_pg vx_g) (fun n => contains_node vx_g n = true) (linked vx_g)
  /\ (forall c p, h_parent mh c = Some p -> contains_node vx_g c = true <-> contains_node vx_g p = true)
  /\ mm_finish (lv_of_pg vx_g) id 60 (Some mh)
     = HOk [(1, MMLeaf 6); (1, MMStart 5); (2, MMStart 0); (3, MMLeaf 1); (3, MMLeaf 3); (3, MMLink 0 1 1 3); (3, MMLink 1 4 3 9); (2, MMEnd); (1, MMEnd);
            (1, MMLeaf 4); (1, MMLeaf 2); (1, MMLink 3 10 6 18); (1, MMLink 2 7 4 12); (1, MMLink 2 8 2 6)].
Proof.
  split; [exact mh_reach|]. split; [exact (pg_shows 16 vx_g vx_reach)|]. split; [|vm_compute; reflexivity].
  intros c p [[-> ->]|[[-> ->]|[-> ->]]]%mh_parent; split; reflexivity.
Qed.

(** C117. The text of the mermaid output has, for all items, labels and styles, a
first line [graph LR] and then exactly the lines of the items, with four spaces
for each step of indentation, if the presentation attributes and custom edge
styles have no line feeds; labels can have any characters. *)
Theorem C117_text :
forall E (ns : nat -> node_style string pres_style) (es : E -> E -> edge_style) (out : list (nat * mm_item E)),
  (forall n, attrs_free (ns_attrs (ns n))) -> (forall x y t, mm_custom (es x y) = Some t -> free_of newline t) ->
  exists lines, mm_all_lines ns es out = Ok lines /\
    split_lines (mm_text lines) = "graph LR"%string :: ((fun l => str_repeat "    " l.1 +:+ l.2) <$> lines) /\
    (forall i, i ∈ out -> exists s, (i.1, s) ∈ lines /\
       match i.2 with
       | MMLeaf n => exists t, s = pretty n +:+ t
       | MMStart n => exists t, s = "subgraph " +:+ pretty n +:+ t
       | MMEnd => s = "end"%string
       | MMLink a x b y => exists t, s = pretty a +:+ t +:+ pretty b /\ as_mermaid_str (es x y) = Ok t
       end).
Proof. exact C117_text_pf. Qed.
Print Assumptions C117_text.

Example C117_case :
  mm_all_lines (E:=nat) (fun n => if n =? 0 then NBoxed "" (PStyle None (Some "#f00") None (Some "1px")) else NBoxed (String newline "a") pres_default) (fun _ _ => with_label Dotted "l") [(1, MMStart 0); (2, MMLeaf 1); (2, MMLink 0 1 1 3); (1, MMEnd)]
  = Ok [(1, "subgraph 0 [0]"); (2, "direction LR"); (2, "style 0 fill:#f00,stroke-width:1px"); (2, "1[" +:+ String quote "<br>a" +:+ String quote "]");
        (2, "0-." +:+ String quote "l" +:+ String quote ".->1"); (1, "end")]%string
  /\ mm_text [(1, "a"); (2, "b")]%string = ("graph LR" +:+ String newline "    a" +:+ String newline "        b" +:+ String newline "")%string.
Proof. split; vm_compute; reflexivity. Qed.

(** C117, labels and styles: the lines of a node start with its label; a node with
attributes gets one style line, indented like its content, with exactly the
attributes that are set, separated by commas; other nodes get none. *)
Theorem C117_styles :
forall E (ns : nat -> node_style string pres_style) (es : E -> E -> edge_style) ind n,
  (forall s, s ∈ css (ns_attrs (ns n)) -> free_of ","%char s) ->
  exists first first' rest,
    mm_lines ns es (ind, MMLeaf n) = Ok ((ind, first) :: (prod_map (fun _ => ind) id <$> rest)) /\
    mm_lines ns es (ind, MMStart n) = Ok ((ind, first') :: (ind + 1, "direction LR"%string) :: rest) /\
    (forall l, (ns n = NBox l \/ exists a, ns n = NBoxed l a) ->
       first = (pretty n +:+ "[" +:+ encode_label (pretty n) l +:+ "]")%string /\
       first' = ("subgraph " +:+ pretty n +:+ " [" +:+ encode_label (pretty n) l +:+ "]")%string) /\
    (css (ns_attrs (ns n)) = [] -> rest = []) /\
    (css (ns_attrs (ns n)) <> [] -> exists t, rest = [(ind + 1, "style " +:+ pretty n +:+ " " +:+ t)]%string /\
       split_on ","%char t = css (ns_attrs (ns n))).
Proof. exact C117_styles_pf. Qed.
Print Assumptions C117_styles.

Example C117_styles_case :
  let a := PStyle (Some "#f00") None (Some "black") None in
  css a = ["color:#f00"; "stroke:black"]%string /\ (forall s, s ∈ css a -> free_of ","%char s) /\
  mm_lines (E:=nat) (fun _ => NBoxed "x" a) (fun _ _ => Solid) (1, MMStart 3)
  = Ok [(1, "subgraph 3 [" +:+ String quote "x" +:+ String quote "]"); (2, "direction LR"); (2, "style 3 color:#f00,stroke:black")]%string.
Proof.
  split_and!; [reflexivity| |vm_compute; reflexivity].
  intros s Hs. vm_compute in Hs. repeat (apply elem_of_cons in Hs as [->|Hs]; [vm_compute; repeat split; discriminate|]). by apply elem_of_nil in Hs.
Qed.
