# Formal model of CQCL/portgraph in Coq 8.16

The Rust source in `/repo` is read as text and modelled function by function in
`rocq/theories`. This file says what is modelled and how, what is simplified or
left out, what became of each property of `properties.jsonl`, and what has to be
trusted.

## Modelling conventions

* A `&mut self` function becomes a Gallina function returning the new state.
* `panic!`, `unwrap` on `None`, failed `assert!`, slice index out of range and
  arithmetic underflow are the explicit value `Panic` of the result monad
  `res A := Ok a | Panic` (file `Base.v`). Functions that may also fail to return
  use `hres A := HOk a | HPanic | HLoop`; they take a fuel argument, and theorems
  say that some bound suffices: `exists K, forall fuel, K < fuel -> f fuel = HOk _`.
  A refutation of termination says that every fuel gives `HLoop`.
* `Vec` is `list`; indices are `nat`; `MaybeNodeIndex`/`MaybePortIndex` are
  `option nat`. The bit-level encodings of indices, offsets and port metadata
  are modelled separately, over `N` with explicit widths (`IndexModel.v`), and
  proved to be faithful for indices up to `max_index`.
* The offset type is a parameter `w` (16 or 32 bits); `as u16` truncations are
  explicit. Index limits (2^31 - 1) are explicit where a constructor panics.
* Iterators are modelled either by the list they produce or, where the iterator's
  own state machine is the point (interleaved `next`/`next_back`, queues, stacks),
  by a state and a step function.
* `FnMut` callbacks become the list of calls made to them, in order. Filter
  closures are pure functions.
* Loops are structural recursion, folds, or recursion on fuel.
* `HashMap`/`HashSet` are std++ finite maps and sets; where the iteration order
  matters it is a parameter `order` with `forall l, order l ≡ₚ l`. `BTreeSet` is a
  finite set iterated in increasing order.
* `f64` interpolation in the line-based convexity search is an arbitrary guess
  between the two bounds.
* States: `reach w g` (a PortGraph reached by a history of allowed calls),
  `mreach` (MultiPortGraph), `hreach` (Hierarchy), `dreach` (dynamic checker), and
  `shows V N R` ("the view V shows the graph with nodes N and links R"), so that a
  theorem about views applies to graphs, filters, regions and subgraphs alike and
  to any stacking of them.

## Layout

For each area `X`: `XModel.v` (definitions with citations of file and lines),
`XSpec.v` (small independent specification), proof files, `XThms.v` (proof of each
theorem as `NAME_pf`), and `XProps.v`, which holds the property theorems and
nothing else: each is closed by `exact NAME_pf`, with `Print Assumptions` and an
example meeting the hypotheses.

| area | Rust | files |
|------|------|-------|
| indices, port metadata | index.rs, portgraph.rs PortMeta | Idx, Index* |
| port graph | portgraph.rs, portgraph/iter.rs, view.rs defaults | PG*, AG* (abstract graph) |
| secondary maps | unmanaged.rs, secondary.rs | Map* |
| hierarchy | hierarchy.rs | Hier* |
| lowest common ancestor | algorithms/lca.rs | Lca* |
| topological order | algorithms/toposort.rs | AlgModel, AlgSpec, AlgPG, Topo*, TAdd* |
| post-order | algorithms/post_order.rs | AlgModel, Post* |
| dominators | algorithms/dominators.rs | AlgModel, Dom* |
| convexity | algorithms/convex/*.rs | Convex*, Tcc*, Lcc*, Line* |
| dynamic convexity | algorithms/dynamic.rs | Dyn*, BfsProofs |
| multigraph | multiportgraph.rs, multiportgraph/iter.rs | Multi*, MTopo* |
| filters | view/filter.rs | View* |
| regions | view/{region,flat_region}.rs | Region*, View* |
| subgraphs, boundaries | view/subgraph.rs, boundary.rs | Bound* |
| order of boundary ports | boundary.rs PortOrdering | Pord* |
| iterators, step by step | portgraph/iter.rs, multiportgraph/iter.rs | Iter* |
| weights beside a graph | weights.rs | Weight* |
| copying a part of a multigraph | view/subgraph.rs copy_in_parent | MCopy* |
| inserting graphs and views | view.rs LinkMut::insert_graph | Insert* |
| flat graph, shorthand queries | multiportgraph.rs, view.rs | Flat* |
| toposort and convexity on views | algorithms/toposort.rs, convex/*.rs over view.rs | VAlg*, GLcc |
| line intervals on views and of boundaries | algorithms/convex/line_convex_checker.rs | VLine* |
| petgraph traits | view/petgraph.rs | Pet* |
| serialization | index.rs, portgraph.rs, multiportgraph.rs, hierarchy.rs, unmanaged.rs, weights.rs (serde) | Serde* |
| graph generators | proptest.rs | Gen* |
| mermaid output | render/mermaid.rs, render.rs | Merm* |
| graphviz output, labels and edge styles | render/dot.rs, render.rs, render/mermaid.rs (labels) | Dot* |
| text of the graphviz output | render/dot.rs | DotText* |
| what the mermaid text determines (no new model, see Merm*) | render/mermaid.rs | MText* |
| Debug output of graphs and indices | portgraph.rs, index.rs, multiportgraph.rs | Debug* |
| derived equality of graphs and multigraphs | portgraph.rs, multiportgraph.rs | Eq*, MEq* |
| capacities | portgraph.rs, multiportgraph.rs, unmanaged.rs, secondary.rs, view/ | Cap*, VCap*, Reuse* |
| keys of secondary maps | unmanaged.rs, secondary.rs, index.rs | Key* |
| link_nodes on multigraphs | view.rs, multiportgraph.rs | MNodes* |
| texts of errors | portgraph.rs, hierarchy.rs, index.rs, algorithms/dynamic.rs, view/subgraph.rs | Err* |
| equality of hierarchies and regions | hierarchy.rs, view/region.rs, unmanaged.rs | HEq* |
| lowest common ancestors on views | algorithms/lca.rs | LcaV* |

## Per property

Status and exact theorem names are those of `MANIFEST.json`; the theorems are in
the `*Props.v` files. "Partial" with "REFUTED" means that the statement of
`properties.jsonl` is false of the model of the code: a `_refuted` theorem gives
the witness, and the other theorems prove what is true.

* **C01** Links are symmetric and join opposite directions. Proved: `C01_links_symmetric`.
* **C02** Ports and nodes agree on who owns which port. Proved: `C02_ports_and_nodes`. offsets above the maximum the offset type can express are covered by C21.
* **C03** Counts match contents. Proved: `C03_counts`.
* **C04** add_node creates exactly what was asked and disturbs nothing. Proved: `C04_add_node`. requested counts within the 16-bit counters, see C20.
* **C05** remove_node removes the node, its ports and its links only. Proved: `C05_remove_node`.
* **C06** No operation hits an internal panic. Proved: `C06_no_panic`. for allowed calls (PGSpec.allowed) within the stated size limits.
* **C07** link_ports succeeds exactly when it should. Proved: `C07_link_ports`.
* **C08** UnknownPort names the unknown port. Partial: `C08_unknown_port_refuted`, `C08_unknown_port_partial`. REFUTED as stated: an unknown second port is reported as the first one.
* **C09** unlink_port removes exactly one link. Proved: `C09_unlink_port`, `C09_link_unlink`.
* **C10** set_num_ports keeps the surviving ports' links. Proved: `C10_set_num_ports`.
* **C100** Copying a part of a MultiPortGraph in place. Proved: `C100_multi_copy_in_parent`. at most min(max offset + 1, 32767) / 2 links per port before the call, nodes and ports (65536 per link) below 2^31.
* **C101** Renumbering under the dynamic checker. Partial: `C101_compact_refuted`, `C101_swap_refuted`, `C101_renumber_partial`. REFUTED as stated: compact_nodes and swap_nodes do not tell the order about the new indices: after compact_nodes link_ports reports UnknownPort for a port that exists, having made the link; after swap_nodes is_convex answers wrongly; clear leaves the old nodes in the order. The partial theorem: set_num_ports and compact_ports keep the order; compact_nodes exactly if no node moves, clear exactly if there was none.
* **C102** Line intervals on graph views. Proved: `C102_view_intervals`. for every view over a reachable graph.
* **C103** Convexity from line intervals. Proved: `C103_convex_by_intervals`. for every view over a reachable graph; the empty set panics (C51).
* **C104** Line intervals of a boundary. Partial: `C104_boundary_intervals_partial`, `C104_multigraph_refuted`. REFUTED as stated: on a MultiPortGraph internal_nodes can yield a node twice, and get_intervals_from_boundary then panics. The partial theorem: exact on every acyclic view with at most one link per port.
* **C105** petgraph: nodes, counts and neighbours. Proved: `C105_nodes_and_neighbours`. for every view that shows a graph; edge_count wherever link_count is exact (FilteredGraph's is not, C60).
* **C106** petgraph: edge_references. Partial: `C106_edge_references_refuted`, `C106_edge_references_partial`. REFUTED as stated: edge_references goes through all ports, so every link is yielded twice, the second time reversed, while len is the number of links. The partial theorem states exactly this, on every view.
* **C107** petgraph: edges and edges_directed. Partial: `C107_node_edges_refuted`, `C107_node_edges_partial`. REFUTED as stated: edges yields incoming links too, and incoming links have the node as source. The partial theorem: edges_directed with Outgoing is exact on every view, the others yield the links seen from the node; edges is exact for nodes without links from other nodes.
* **C108** petgraph: visit map. Partial: `C108_visit_map_refuted`, `C108_visit_map_partial`. REFUTED as stated: visit returns whether the node was visited before, the negation of what petgraph asks for. The partial theorem: marks, is_visited and unvisit are exact for every sequence of calls.
* **C109** petgraph: node_bound. Partial: `C109_node_bound_refuted`, `C109_node_bound_partial`. REFUTED as stated: node_bound is the number of nodes, which is not above all indices when there are gaps. The partial theorem: exact without gaps.
* **C11** set_num_ports reports every port move and removal. Proved: `C11_set_num_ports_callbacks`.
* **C110** petgraph: adjacency matrix. Proved: `C110_adjacency`. for every view that shows a graph; dense matrix for any node_capacity above all node indices.
* **C111** dot output: nodes, ports and edges. Partial: `C111_dot_refuted`, `C111_dot_partial`. REFUTED as stated: an edge from a shown node to a hidden node is written. The partial theorem: on every view and for all styles, one node statement per node that is not hidden with the right cells, and one edge statement per link that starts at such a node.
* **C112** dot output: hierarchy. Proved: `C112_dot_hierarchy`. for every view that shows a graph and every reachable hierarchy.
* **C113** labels and edge styles. Proved: `C113_labels`. for all strings and nestings of styles.
* **C114** lowest common ancestors on views. Partial: `C114_lca_view_refuted`, `C114_lca_view_partial`. REFUTED as stated: only trees whose root is visible are visited, so on a region siblings are ancestors of each other and the lowest common ancestor is the first node. The partial theorem: every query returns, and is exact for nodes in trees whose root is visible.
* **C115** mermaid output: nodes, blocks and links. Partial: `C115_mermaid_refuted`, `C115_mermaid_partial`, `C115_flat`. REFUTED as stated: children are drawn whether visible or not, so on a filtered graph hidden nodes are drawn and nodes below them twice. The partial theorem: exact on every view that contains the children of its nodes (graphs, regions); C115_flat: exact on every view without a hierarchy.
* **C116** mermaid output: place of the links. Partial: `C116_placement_refuted`, `C116_placement_partial`. REFUTED as stated: a link from a leaf to itself is written outside of all blocks, and on a region below the root of the hierarchy links between siblings too. The partial theorem: on views that contain whole trees every link is in the block of the lowest common ancestor of its nodes, and outside of all blocks if there is none or it is the leaf itself.
* **C117** mermaid output: lines. Proved: `C117_text`, `C117_styles`. for all items, labels and styles; the attributes and custom arrows have no line feeds.
* **C118** Serialization round trip. Proved: `C118_index_round_trip`, `C118_graph_round_trip`, `C118_map_round_trip`. documents are trees as in JSON and MessagePack, structs as objects or arrays; BitVecs (code of the bitvec crate) as arrays of booleans; hierarchies whose entries are valid node indices.
* **C119** Deserialization reports errors. Partial: `C119_read_refuted`, `C119_read_partial`. REFUTED as stated: deserialization goes through NodeIndex::new, MaybeNodeIndex::new and PortOffset::new, which panic above the base type's maximum, and a number above the largest index can be read as index 0. The partial theorem: no panic if all numbers are at most 2^w - 2, and numbers within the maximum are kept.
* **C12** compact_nodes renumbers nodes contiguously and preserves the graph. Proved: `C12_compact_nodes`.
* **C120** Deserialized graphs are usable. Partial: `C120_read_usable_refuted`, `C120_read_usable_partial`. REFUTED as stated: nothing is checked: a document can give a port linked to a port that does not exist, and unlink_port panics. The partial theorem: documents written for a graph with a history are read as a graph with that history, and determine it.
* **C121** Generated test graphs. Proved: `C121_portgraph`, `C121_multiportgraph`, `C121_node_index`. what the proptest library picks and the iteration order of the hash sets are arbitrary; sizes bounded so that indices and offsets fit. The node ranges are 1..max_n_nodes, so a graph with edges has at most max_n_nodes - 1 nodes; with max_n_nodes at most 1 the range is empty, which the library rejects.
* **C122** Graphviz text. Partial: `C122_dot_text_refuted`, `C122_dot_text_partial`, `C122_dot_lines`. REFUTED as stated: labels are not escaped, so a label can close the table of its node and add statements; with labels without line feeds and opening angle brackets, and other values without line feeds and double quotes, the text determines the drawing (the label of an edge style is not part of the dot text).
* **C123** Members of serialized graphs. Proved: `C123_members`. derived implementations as documented by serde; found as a gap by a seeded fault.
* **C124** Debug output of graphs. Proved: `C124_debug_graph`, `C124_debug_entries`. what debug_struct, debug_map and decimal numbers are written as is modelled from the documentation of the standard library; the one-line format only.
* **C125** Debug output of indices. Proved: `C125_debug_index`. for indices up to the documented maximum (C26); the index kinds are a parameter of the model.
* **C126** Equality of graphs. Partial: `C126_equal_refuted`, `C126_equal_partial`. REFUTED as stated: free lists and unused slots are compared, so a graph from which a node was removed differs from the same graph without that node. Equal graphs cannot be told apart; graphs that cannot be told apart are equal if both were compacted (nodes and ports) after the last removal.
* **C127** Equality of hierarchies and regions. Proved: `C127_hierarchy_equal`, `C127_hierarchy_children`, `C127_region_equal`. Equality of hierarchies: for every history, equal iff all six queries agree on every node; for histories without a self-push (C38), equal iff first child and next sibling agree everywhere, and equal hierarchies answer the same further calls alike and stay equal. Regions: equality ignores the cache; equal regions list the same nodes in the same order and answer membership alike. The equality of the underlying graph is a parameter (C126 for PortGraph).
* **C128** Equality of multigraphs. Partial: `C128_multi_equal_refuted`, `C128_multi_equal_partial`. REFUTED as stated: two multigraphs built by the same calls in another order (two ports get two links each, nothing removed, compacted) answer every query alike but differ in the numbering of their hidden copy nodes. Equal multigraphs cannot be told apart and stay equal; multigraphs made of tidy graphs (C126) that cannot be told apart are equal and stay so under the same calls.
* **C129** Error texts. Proved: `C129_link_errors`, `C129_other_errors`. what thiserror derives from the error attributes is modelled from its documentation; indices up to the documented maximum (C26).
* **C13** compact_ports renumbers ports contiguously and preserves the graph. Proved: `C13_compact_ports`. graphs without hollow nodes; the others are C14.
* **C130** The text of a mermaid chart determines the drawing. Partial: `C130_mermaid_text_refuted`, `C130_mermaid_text_partial`. REFUTED as stated: a quote and the text #quot; in a label are written alike, a line feed and <br> too, and an attribute with a comma is written like two. Proved for labels without these escapes, attributes without commas and line feeds and edge styles that are not custom; dotted and dashed links are one kind.
* **C131** Port capacity of a node. Partial: `C131_port_capacity_refuted`, `C131_port_capacity_partial`. REFUTED as stated: set_num_ports reallocates when the new total equals the capacity (the range 1..old_capacity excludes it), and when it is 0. Proved for totals from 1 to below the capacity; ports never exceed the capacity.
* **C132** Node and port capacity. Proved: `C132_graph_capacity`, `C132_view_capacity`, `C132_part_capacity`. the allocator is any function that gives at least what is needed; set_num_ports counts as adding the next power of two of its total (its new slab). In C132_view_capacity and C132_part_capacity the capacities of the graph below are any numbers not below its counts.
* **C133** Capacity of secondary maps. Partial: `C133_dense_capacity`, `C133_set_capacity_refuted`, `C133_set_capacity_partial`. REFUTED as stated: for BitVec and HashSet ensure_capacity reserves capacity - self.capacity() more elements than the length, not than the capacity, and so does nothing for a map with spare room. Proved for UnmanagedDenseMap, and for the other two when length and capacity agree.
* **C134** shrink_to and the capacity. Partial: `C134_shrink_refuted`, `C134_shrink_partial`. REFUTED as stated: shrink_to truncates and then shrinks to fit, so it takes away all spare room, even when the capacity is below k. Proved: the capacity does not rise, values below k stay, others are dropped; the capacity becomes k right after an ensure_capacity that grew the map.
* **C135** Indices of removed nodes are reused. Proved: `C135_reuse`, `C135_capacity`. histories of allowed calls (C06); the new node is within the limits of C20.
* **C136** Iterating maps keyed by indices. Partial: `C136_room_refuted`, `C136_above_max_refuted`, `C136_dense_iter_partial`, `C136_dense_panics`, `C136_bits_iter_partial`. REFUTED as stated: ensure_capacity can store more slots than there are keys, and NodeIndex::new accepts max_index + 1 (C26); both make iter panic in try_into().unwrap(). Proved for all calls with keys up to max_index that ask for room for at most max_index + 1; C136_dense_panics says exactly which dense maps panic.
* **C137** Linking multigraph ports by node and offset. Partial: `C137_link_nodes_refuted`, `C137_link_offsets_partial`, `C137_link_nodes_partial`. REFUTED as stated: port_index of a MultiPortGraph also answers for internal copy nodes, and link_ports accepts their ports: link_nodes with an index that is no node of the graph can succeed and redirect existing links. Proved for all other indices, unknown nodes included.
* **C138** Linking, unlinking and removing in the dynamic checker after renumbering. Partial: `C138_stale_refuted`, `C138_unlink_partial`, `C138_remove_partial`, `C138_link_result`. REFUTED as stated: compact_nodes renames nodes without telling the order; unlink_port then panics in disconnect_nodes(..).expect and remove_node in remove_node(..).expect, after the graph was already changed. link_ports can make a link and still return UnknownPort (C101_compact_refuted shows such a call); C138_link_result lists all outcomes of calls that return. The partial theorems say exactly which calls panic, for any well-formed graph and any order in step with its positions, and what the others do.
* **C14** compact_ports is safe on nodes that lost all their ports. Partial: `C14_hollow_refuted`, `C14_compact_ports_partial`. REFUTED as stated: after compact_ports on a graph with a hollow node, remove_node destroys another node's port. C14_compact_ports_partial: on every reachable graph, with or without hollow nodes, compact_ports itself does what it should (all observations as in C13); later operations are what is missing.
* **C15** swap_nodes exchanges two nodes. Proved: `C15_swap_nodes`.
* **C16** swap_nodes with a free slot keeps the graph usable. Partial: `C16_swap_free_refuted`, `C16_swap_free_partial`. REFUTED as stated: swapping with the head of the free list makes the next add_node panic.
* **C17** Node and port iteration is exact. Proved: `C17_nodes_and_ports`, `C17_node_ports`.
* **C18** Link and neighbour iteration is exact. Proved: `C18_links`, `C18_connections`. iterators are consumed with next: the public methods return impl Iterator, so next_back is not reachable.
* **C19** Every history refines the abstract port graph. Proved: `C19_refinement`. Abstract port graph and its step relation in AGSpec.v. Histories contain the calls listed in PGSpec.allowed: compact_ports not while a hollow node exists (C14), swap_nodes on nodes or on a node and a spare slot (C16), port totals that fit 16 bits (C20).
* **C20** Port-count limits: what is asked is what is made, or a panic. Partial: `C20_port_counts_refuted`, `C20_port_counts_partial`. REFUTED as stated: 32-bit offsets truncate the counts.
* **C21** set_num_ports respects the offset type. Partial: `C21_offset_type_refuted`, `C21_offset_type_partial`. REFUTED as stated: set_num_ports accepts counts the offset type cannot express.
* **C22** clear, reserve and shrink_to_fit. Proved: `C22_clear_reserve_shrink`. reserve and shrink_to_fit touch only Vec capacities, the subject of C132.
* **C23** insert_graph adds a disjoint isomorphic copy. Proved: `C23_insert_graph`. Source and target are PortGraphs; port counts of the source must be representable and the number of nodes/ports ever created must stay below 2^31 (else add_node panics, C06).
* **C24** link_nodes and link_offsets link the requested offsets. Proved: `C24_link_nodes`, `C24_link_offsets`. Offsets are those the offset type can represent (at most po_max_offset, see C26).
* **C25** Index newtypes are faithful. Proved: `C25_index_faithful`.
* **C26** Index construction panics above the maximum. Partial: `C26_new_above_max_refuted`, `C26_new_panics_partial`. REFUTED as stated: some out-of-range values above the maximum index are accepted.
* **C27** Optional indices never confuse None with a value. Proved: `C27_maybe_index`.
* **C28** Port offsets encode direction and position without interference. Proved: `C28_port_offset`.
* **C29** Bit-field setters touch only their part. Proved: `C29_bitfield_setters`, `C29_portmeta_faithful`.
* **C30** A dense secondary map is a total map with a default. Proved: `C30_dense_map`. The vector's spare capacity is an arbitrary parameter of each ensure_capacity call.
* **C31** rekey on a map with a custom default. Partial: `C31_rekey_custom_default_refuted`, `C31_rekey_never_written_refuted`, `C31_rekey_partial`. REFUTED as stated: rekey writes V::default() instead of the map's own default; C31_rekey_partial says exactly what rekey leaves.
* **C32** shrink_to forgets only keys at or above the bound. Proved: `C32_shrink_to`.
* **C33** Dense maps: equality means same defaults and same entries. Proved: `C33_equality`.
* **C34** iter on a dense map lists the non-default entries. Partial: `C34_iter_refuted`, `C34_iter_partial`. REFUTED as stated: iter also yields stored default values; C34_iter_partial says exactly what it yields.
* **C35** BitVec and HashSet secondary maps agree with a total boolean map. Proved: `C35_bool_maps`.
* **C36** Hierarchy keeps parents, children and siblings consistent. Partial: `C36_hierarchy_refuted`, `C36_hierarchy_partial`. REFUTED as stated: push_child(0,0) followed by swap_nodes(0,1) leaves node 1 with parent 0 while 0 has no children. Proved for every history that never pushes a childless root below itself (the only call whose cycle is missed, see C38); shrink_to included.
* **C37** Hierarchy insertions put the node at the right place or change nothing. Partial: `C37_insertions_refuted`, `C37_push_child_partial`, `C37_push_front_child_partial`, `C37_insert_before`, `C37_insert_after`. REFUTED as stated: push_child(n,n) of a childless root succeeds although a cycle arises. Everything else proved, with the exact errors.
* **C38** Hierarchy never becomes cyclic. Partial: `C38_acyclic_refuted`, `C38_loop_refuted`, `C38_acyclic_partial`. REFUTED as stated: push_child(0,0) on a childless root is accepted; a later push_child then never returns. Proved for the histories without such a call.
* **C39** detach, detach_children and remove. Proved: `C39_detach`, `C39_shrink_to`. On the histories without a self-push (C38).
* **C40** children iterates the exact child list. Proved: `C40_children`. On the histories without a self-push (C38).
* **C41** descendants visits the subtree exactly once, breadth first. Proved: `C41_descendants`. The histories without a self-push are the acyclic ones (C38).
* **C42** Hierarchy swap_nodes and rekey rename nodes. Proved: `C42_swap_nodes`, `C42_rekey`. On the histories without a self-push (C38).
* **C43** Hierarchy::rekey tolerates unchanged indices. Partial: `C43_rekey_same_refuted`, `C43_rekey_same_partial`. REFUTED as stated: rekey(n,n) panics for every node with a parent or children; it is a no-op exactly for the others.
* **C44** Lowest common ancestor queries are right. Proved: `C44_lca`. For every hierarchy reached without a self-push (C38), over any duplicate-free node list containing all attached nodes; answers hold for every sufficiently large fuel.
* **C45** Topological order is topological. Proved: `C45_toposort`. For distinct sources; acyclicity only needed for completeness.
* **C46** Topological order on multigraphs. Partial: `C46_toposort_multi_refuted`, `C46_toposort_multi_partial`. REFUTED as stated: an input port counts as visited after its first link, so a node can come before a predecessor. C46_toposort_multi_partial: everything else of C45 holds for multigraphs, and the order too when no such port has links to different nodes.
* **C47** Filtered topological order respects the filters. Partial: `C47_target_port_refuted`, `C47_filtered_pred_refuted`, `C47_toposort_filtered_partial`, `C47_symmetric_filters_partial`. REFUTED as stated: next consults the port filter only on the source side and becomes_ready only on the target side, and rejected predecessors still block a node. The _partial theorems give the exact behaviour for arbitrary filters, and the property in full for consistent filters.
* **C48** Post-order traversal is a depth-first post-order. Proved: `C48_postorder`. Accepted sources must lie below the node capacity (beyond it the bit vectors panic).
* **C49** Dominator tree is the immediate-dominator tree. Partial: `C49_dominators_refuted`, `C49_filtered_entry_panics`, `C49_dominators_partial`, `C49_dominators_unreachable_partial`. REFUTED as stated: a predecessor that is not reachable from the entry is looked up in the index map with its default 0, so its link counts as one from the first node of the post-order; and a rejected entry panics. C49_dominators_partial proves the property when all accepted predecessors of reachable nodes are reachable and the entry is accepted; C49_dominators_unreachable_partial gives the exact result for all graphs.
* **C50** Convexity check by topological order is exact. Proved: `C50_topo_convex`. Listed output ports must be ports of the graph (port_link panics otherwise).
* **C51** Convexity check by lines is exact and agrees. Proved: `C51_line_convex`, `C51_empty_set_panics`, `C51_repeated_nodes`. The floating-point interpolation is an arbitrary guess between low and high. The two further theorems show that the restriction to non-empty duplicate-free sets is needed.
* **C52** Dynamic convexity checker accepts every acyclic link. Partial: `C52_dynamic_link_refuted`, `C52_dynamic_link_partial`, `C52_reaching_link_panics`, `C52_input_first_panics`. REFUTED as stated: the first cycle check of link_ports has its arguments swapped, so every link to a node that is already reachable panics (0 -> 1 -> 2, then 0 -> 2); a link given with the input port first panics too. C52_dynamic_link_partial proves the property for links to nodes not yet reachable, as long as the order is topological (C71).
* **C53** Dynamic convexity answers are exact. Partial: `C53_dynamic_convex_refuted`, `C53_dynamic_convex_partial`, `C53_reordered_refuted`. REFUTED as stated: has_path_outside_subgraph stops at any node outside the set without requiring that the other end is reachable, so convex sets are reported as not convex; after a reordering link (C71) non-convex sets can be reported convex. C53_dynamic_convex_partial gives the exact meaning of the answers while the order is topological, soundness of the answer true, and exactness under a stated condition.
* **C54** Multigraph links connect opposite directions and are reported from both ends. Partial: `C54_multi_links_refuted`, `C54_multi_links_partial`. REFUTED as stated: set_num_ports on a multigraph does not update the copy node when the port it stands for moves, and links get lost or misattributed. C54_multi_links_partial proves the property for all histories that satisfy the stated guard (no shrinking that reuses a multiport's index, room for one more subport at every link).
* **C55** Multigraph counts. Partial: `C55_multi_counts_refuted`, `C55_multi_counts_partial`. REFUTED as stated: link_ports(0, 2) with port 2 not in the multigraph succeeds when the copy node made for port 0 takes the index 2; node and port counts are then wrong. Guarded theorem for all allowed histories.
* **C56** Multigraph link_ports always adds one link between compatible ports. Partial: `C56_multi_link_refuted`, `C56_multi_link_partial`. REFUTED as stated: with 32-bit offsets link_ports panics once 65535 subports of a port are in use, although the offset type has room. Guarded theorem (room for one more subport).
* **C57** Multigraph unlink_port returns the former partner. Partial: `C57_multi_unlink_refuted`, `C57_multi_unlink_partial`. REFUTED as stated: unlink_port of a port with two links removes both and returns a subport of the port itself. C57_multi_unlink_partial: it removes exactly the links of the port, and returns the partner when both have one subport.
* **C58** Multigraph set_num_ports keeps surviving multi-links. Partial: `C58_multi_set_num_ports_refuted`, `C58_multi_set_num_ports_partial`. REFUTED as stated: see C54; the callback moreover reports ports of internal copy nodes. Guarded theorem for histories that do not reuse the index of a removed multiport.
* **C59** Filtered views show exactly the filtered graph. Proved: `C59_filtered`, `C59_filtered_portgraph`, `C59_filtered_multigraph`, `C59_filtered_hidden`. Filter closures are pure functions. C59_filtered is for any view that shows a graph, so filters can be stacked.
* **C60** Filtered link_count. Partial: `C60_filtered_link_count_refuted`, `C60_filtered_link_count_partial`. REFUTED as stated: link_count counts a link between two different nodes twice. The partial theorem gives the exact count.
* **C61** Region membership is descendance, whatever was asked before. Proved: `C61_region_membership`. For hierarchies with a history that pushes no node under itself (C38). The node is looked up in the hierarchy only; whether it is a node of the graph is not checked by the code.
* **C62** Cloning a region keeps its answers under every schedule. Partial: `C62_region_clone_refuted`, `C62_region_clone_partial`, `C62_no_deadlock`. REFUTED as stated: a clone made while another thread holds the write lock starts with an empty cache that lacks the entry for the root, and then denies membership of descendants. C62_region_clone_partial: in every interleaving all answers of the original, and of every clone that managed to read the cache, are right.
* **C63** Flat region membership. Proved: `C63_flat_region`. For hierarchies with a history that pushes no node under itself (C38).
* **C64** Flat region emptiness. Partial: `C64_flat_region_empty_refuted`, `C64_flat_region_empty_partial`. REFUTED as stated: is_empty is always false, also for a region without its root and without children. It is right exactly if node_count is positive.
* **C65** Subgraph from a boundary. Partial: `C65_new_subgraph`, `C65_new_subgraph_multigraph_refuted`, `C65_internal_nodes_any`, `C65_copy_in_parent`. REFUTED as stated: in a MultiPortGraph only the first link of a port is followed, so reachable nodes can be missing (C65_new_subgraph_multigraph_refuted). For graphs and views with one link per port C65_new_subgraph gives the exact node set. C65_copy_in_parent covers subgraphs of a PortGraph with port counts and index space in range; copying in a MultiPortGraph is C100.
* **C66** Boundary port partial order. Partial: `C66_port_ordering_partial`, `C66_subgraph_partial`, `C66_is_stronger`, `C66_boundary_stronger_partial`, `C66_outside_refuted`, `C66_inside_link_refuted`. REFUTED as stated: port_ordering panics on a boundary of a graph that goes on outside it, and on the subgraph the boundary induces when a link joins two boundary ports. Proved for acyclic views with one link per port when boundary ports have no link in the view, in particular for induced subgraphs without a link from a boundary port back into the subgraph. is_stronger_than and missing_pairs of orderings are characterised in full.
* **C67** Secondary maps stay in sync through compaction. Proved: `C67_side_tables`.
* **C68** Hierarchy operations terminate and only rekey panics. Partial: `C68_total_partial`, `C38_loop_refuted`. REFUTED as stated: after a self-push, push_child may never return. Proved for the histories without a self-push.
* **C69** Topological sort size hints are sound. Proved: `C69_toposort_size_hint`.
* **C70** Post-order size hints are sound. Proved: `C70_postorder_size_hint`.
* **C71** The dynamic checker keeps a topological order. Partial: `C71_dynamic_order_refuted`, `C71_dynamic_order_partial`, `C71_reorder_needed`. REFUTED as stated: update_order writes the two cones in depth-first order and may break the order. C71_dynamic_order_partial: it is kept along histories whose links point forward in the order or whose reordering is harmless: the nodes between the two ends form a tree below the target and are no predecessors of the source. C71_reorder_needed: all but the tree shape is necessary.
* **C72** Failing multigraph links change nothing. Partial: `C72_multi_link_errors_refuted`, `C72_multi_link_errors_partial`. REFUTED as stated: link_ports with an unknown second port may succeed (see C55), and a call that fails because of the directions may leave the first port with another subport. C72_multi_link_errors_partial covers unknown first ports, unknown second ports when the first has a free subport, and shows that nodes, ports and links are kept on direction errors.
* **C73** Multigraph iterators agree with the links. Proved: `C73_multi_iterators`. For histories of allowed calls (see C54).
* **C74** Adding and removing multigraph nodes. Proved: `C74_multi_add_remove`. For histories of allowed calls (see C54).
* **C75** Renumbering a multigraph. Proved: `C75_multi_renumber`. For histories of allowed calls (see C54). The callbacks are also told about internal copy nodes and their ports; compact_ports requires no hollow node (C14).
* **C76** Linking and unlinking subports. Proved: `C76_multi_subport_ops`. For histories of allowed calls (see C54).
* **C77** Subports of filtered graphs. Partial: `C77_filtered_subports_refuted`, `C77_filtered_subports_partial`. REFUTED as stated: subport_link ignores the node filter, so it reports links to hidden nodes. The partial theorem says what it yields.
* **C78** Flat regions, regions and subgraphs show the induced graph. Proved: `C78_flat_region_view`, `C78_subgraph_view`, `C78_subports`, `C78_region_view`, `C78_region_subports`. For hierarchies with a history that pushes no node under itself (C38).
* **C79** Dynamic convexity with a boundary. Partial: `C79_dynamic_boundary_refuted`, `C79_dynamic_boundary_partial`. REFUTED as stated: can_reach_inputs walks backwards from the outputs to the inputs, so a path that leaves the set at an output and comes back at an input is missed. C79_dynamic_boundary_partial: termination and the exact meaning of both answers for arbitrary lists of ports; the answer 'not convex' is right if the inputs belong to the set.
* **C80** Boundary of a node set. Proved: `C80_with_nodes`. For every view with the laws of a graph (C78 and ViewSpec.shows).
* **C81** Convexity of a subgraph. Proved: `C81_subgraph_convex`, `C81_with_nodes_convex`. For acyclic PortGraphs and the TopoConvexChecker.
* **C82** Boundary ports and their indices. Proved: `C82_boundary_ports`.
* **C83** Line intervals of a set of nodes. Proved: `C83_line_intervals`. acyclic PortGraphs; the interpolation guess is arbitrary within its bounds.
* **C84** Extending line intervals. Proved: `C84_try_extend`. acyclic PortGraphs; the interpolation guess is arbitrary within its bounds.
* **C85** Lines at a port. Proved: `C85_lines_at_port`. acyclic PortGraphs; port offsets representable.
* **C86** Topological sort of a view. Proved: `C86_toposort_view`. every view that satisfies `shows`: multigraphs, filtered graphs, regions, flat regions, subgraphs (C59, C63, C65).
* **C87** Convexity checking on a view. Partial: `C87_view_convex_refuted`, `C87_boundary_refuted`, `C87_topo_convex_partial`, `C87_line_convex_partial`. REFUTED as stated: on an acyclic multigraph with an input port linked to two nodes the topological order can be wrong, then TopoConvexChecker answers wrongly and LineConvexChecker::new panics; is_convex looks at the first link of an output only. The partial theorems: both checkers are exact on every acyclic view in which the links of each input port come from one node (all views of a PortGraph, and multigraphs with fan-out), is_convex if moreover no listed output is linked to two ports.
* **C88** Link iterators from both ends. Partial: `C88_links_both_ends_refuted`, `C88_links_both_ends_partial`. REFUTED as stated: all_links from the back yields a self-link twice (next_back does not look at ignore_target_ports; the trait methods hide next_back behind impl Iterator, so only code inside the crate can see it). The partial theorem: everything else, and all_links from the back on nodes without a link to themselves.
* **C89** Multigraph iterators, step by step. Partial: `C89_multi_iterators_refuted`, `C89_multi_iterators_partial`. REFUTED as stated: port_links on a port without links has size_hint (1, Some(1)) and yields nothing. The partial theorem: everything else.
* **C90** Sources added to a running topological sort. Partial: `C90_portless_refuted`, `C90_duplicates_refuted`, `C90_add_sources_partial`. REFUTED as stated: add_sources never adds a node without ports, though toposort yields such a source; and a source given twice to toposort is yielded twice, after which size_hint underflows. The partial theorem: for distinct initial sources and any program of next and add_sources calls, everything else.
* **C91** Remaining ports reveal cycles. Proved: `C91_ports_remaining`. for every PortGraph, direction and program of next and add_sources calls.
* **C92** The plain graph inside a multigraph. Proved: `C92_flat_graph`. for every history of a MultiPortGraph.
* **C93** Shorthand queries on views. Proved: `C93_view_shorthands`. for every view that shows a graph (PortGraph, MultiPortGraph, and by C59, C62, C63 and C78 the views on them).
* **C94** Weights follow their nodes and ports. Proved: `C94_weights_follow`. for every history, with swap and with rekey.
* **C95** Unset weights are the default. Partial: `C95_unset_weights_refuted`, `C95_unset_weights_partial`. REFUTED as stated: with the documented swap callback a new port can come up with the weight of a dropped one. The partial theorem: with rekey it does not, for all calls but remove_node and clear, which have no callback.
* **C96** Shrinking the weights. Partial: `C96_shrink_weights_refuted`, `C96_shrink_weights_partial`. REFUTED as stated: indices are not compact after remove_node, so shrink_to(node_count) drops weights of live nodes. The partial theorem: it is right after compact_nodes and compact_ports.
* **C97** Weights beside a multigraph. Proved: `C97_multi_weights`. for every history of a MultiPortGraph (calls as in mallowed).
* **C98** Inserting a view into a PortGraph. Proved: `C98_insert_view`. for every view over a reachable graph (PortGraph, MultiPortGraph, filtered graph, subgraph, region), within the index and offset bounds.
* **C99** Inserting a view into a MultiPortGraph. Proved: `C99_multi_insert`. at most min(max offset + 1, 32767) links per port, nodes and ports (65536 per link) below 2^31.

## Simplifications, area by area

* PortGraph. The capacity of vectors is left out of the graph model: `reserve`, `shrink_to_fit`,
  `node_capacity` and `port_capacity` only concern the allocator. `CapModel.v` adds it
  (C132), with an arbitrary allocator. `debug_assert!` is not modelled. Histories contain the calls of `PGSpec.allowed`; what the
  guards leave out is the subject of C14, C16, C20 and C21.
* Secondary maps. Keys are `nat`, and iterators yield positions; `KeyModel.v` adds
  `key.try_into().unwrap()` for keys of any width (C136). `usize` limits are not modelled. The spare capacity that a `Vec` happens to have is an arbitrary
  parameter of each `ensure_capacity`.
* Weights. The client of C94-C97 (`WeightSpec.v`) makes one call at a time and applies
  the callback's calls to the maps after the graph has changed; the graph does not
  depend on the maps.
* Hierarchy. Pointer-level model (parent, children count, first and last child,
  siblings) with the `UnmanagedDenseMap` semantics of absent entries.
* Algorithms. Counts, line indices and positions (`u32`) are `nat`. A graph is seen
  through the functions of `LinkView` (`gview`); `node_capacity` is any number that
  is at least the length of the node table. A `debug_assert!` of
  `LineConvexChecker` that decides behaviour in tests is modelled as a panic and
  proved not to fire. Itertools' `kmerge_by` and `dedup` are modelled by their
  documented results (`LineModel.v`).
* Dynamic checker. Only `link_ports`, `unlink_port`, `add_node`, `remove_node` and
  the queries keep the order up to date; the other mutators of the inner graph are
  delegated without touching the order and are not part of `dreach`.
* MultiPortGraph. Built on the PortGraph model, with the set of copy nodes and the
  map from copy node to main port. `insert_graph` is in `InsertModel.v`; its calls of
  `reserve` are left out and the returned `HashMap` is the list of its entries.
* Views. A record of the API functions (`lview`); stacked views are functions on
  such records. Capacities of views are only in C132.
* Region. The descendants cache is a finite map behind a lock. In the concurrent
  model (C62) a read section and a write section are one atomic step each,
  `try_read` fails exactly while a writer holds or waits for the lock; poisoning is
  not modelled. Memory is sequentially consistent under the lock.
* petgraph. The contracts are those documented for petgraph 0.8's `visit` traits,
  restated in `PetSpec.v` and the theorem comments; petgraph itself is not modelled
  (its `VisitMap` for `HashSet`, used by the views, is petgraph's own code).
* Rendering. The output of `render/dot.rs` is a list of structured statements; its
  text is in `DotTextModel.v`. The style closures are pure functions and
  `port_offset` is a parameter with the contract of C02. Labels and edge styles are
  strings of bytes. The mermaid output is modelled up to its text; the iteration
  order of its `HashMap` is an arbitrary permutation.
* Serialization. A document is a tree; what serde's derive macros generate is
  modelled from serde's documentation (objects or arrays for structs, unknown
  members skipped, doubled members refused, missing optional members `None`,
  external and untagged enums). Members are read in the order of declaration.
  `BitVec`s are arrays of booleans.
* Generators. The ports that `proptest.rs` picks and the iteration order of its
  hash sets are arguments; its `BTreeMap`s are finite maps or lists of entries.
* Boundaries. `BoundaryPort` is an index and a direction; the boundary's port set
  is the list of its ports. When the inner graph function panics or does not
  return, topological sorting over a view takes it for a panic (`gv_of_lv`).

## Not modelled

the text of serialized documents and formats that are not self-describing, `pyo3`, the strategies of the
proptest library (what they pick is arbitrary), `view/refs.rs` (delegation to the
referenced graph), derived `Debug`
output and that of `MultiPortGraph` (its bit vectors), the alternate format `{:#?}`,
benchmarks,
the allocator itself and performance claims.

## Trusted base

* Coq 8.16.1 kernel (including `vm_compute`), std++ 1.8 definitions.
* The transcription from Rust to Gallina (comments cite file and lines).
* `Print Assumptions` reports "Closed under the global context" for every theorem
  of the manifest: no axioms, neither ours nor the standard library's.
* Loading std++ also loads the module `Coq.ssr.ssrunder` of the standard library,
  whose module type `Under_rel` declares `Under_rel`, `Under_rel_from_rel`,
  `Under_relE`, `Over_rel`, `over_rel`, `over_rel_done` and `under_rel_done`; a
  whole-library `coqchk` lists these. No theorem here depends on them.

## Seeded faults

`seeded/LOG.jsonl` logs edits of the model (each a plausible wrong program), the
claim broken, and the theorems that then fail. Survivors are marked with the
reason: either the edit does not change behaviour on reachable states, or a
theorem was tightened, which is named.

`killed_by` is the first lemma whose proof breaks. `theorems_failed` is what can
no longer be built: it includes theorems that only import the broken file, so it
overstates what the edit falsifies; `claim` names the property the edit was aimed
at. A broken proof script is not by itself a refutation of the statement.
