{"claims": [
{"property": "C01", "status": "proved", "theorems": ["C01_links_symmetric"], "note": ""},
{"property": "C02", "status": "proved", "theorems": ["C02_ports_and_nodes"], "note": "offsets above the maximum the offset type can express are covered by C21"},
{"property": "C03", "status": "proved", "theorems": ["C03_counts"], "note": ""},
{"property": "C04", "status": "proved", "theorems": ["C04_add_node"], "note": "requested counts within the 16-bit counters, see C20"},
{"property": "C05", "status": "proved", "theorems": ["C05_remove_node"], "note": ""},
{"property": "C06", "status": "proved", "theorems": ["C06_no_panic"], "note": "for allowed calls (PGSpec.allowed) within the stated size limits"},
{"property": "C07", "status": "proved", "theorems": ["C07_link_ports"], "note": ""},
{"property": "C08", "status": "partial", "theorems": ["C08_unknown_port_refuted", "C08_unknown_port_partial"], "note": "REFUTED as stated: an unknown second port is reported as the first one"},
{"property": "C09", "status": "proved", "theorems": ["C09_unlink_port", "C09_link_unlink"], "note": ""},
{"property": "C10", "status": "proved", "theorems": ["C10_set_num_ports"], "note": ""},
{"property": "C100", "status": "proved", "theorems": ["C100_multi_copy_in_parent"], "note": "at most min(max offset + 1, 32767) / 2 links per port before the call, nodes and ports (65536 per link) below 2^31"},
{"property": "C101", "status": "partial", "theorems": ["C101_compact_refuted", "C101_swap_refuted", "C101_renumber_partial"], "note": "REFUTED as stated: compact_nodes and swap_nodes do not tell the order about the new indices: after compact_nodes link_ports reports UnknownPort for a port that exists, having made the link; after swap_nodes is_convex answers wrongly; clear leaves the old nodes in the order. The partial theorem: set_num_ports and compact_ports keep the order; compact_nodes exactly if no node moves, clear exactly if there was none"},
{"property": "C102", "status": "proved", "theorems": ["C102_view_intervals"], "note": "for every view over a reachable graph"},
{"property": "C103", "status": "proved", "theorems": ["C103_convex_by_intervals"], "note": "for every view over a reachable graph; the empty set panics (C51)"},
{"property": "C104", "status": "partial", "theorems": ["C104_boundary_intervals_partial", "C104_multigraph_refuted"], "note": "REFUTED as stated: on a MultiPortGraph internal_nodes can yield a node twice, and get_intervals_from_boundary then panics. The partial theorem: exact on every acyclic view with at most one link per port"},
{"property": "C105", "status": "proved", "theorems": ["C105_nodes_and_neighbours"], "note": "for every view that shows a graph; edge_count wherever link_count is exact (FilteredGraph's is not, C60)"},
{"property": "C106", "status": "partial", "theorems": ["C106_edge_references_refuted", "C106_edge_references_partial"], "note": "REFUTED as stated: edge_references goes through all ports, so every link is yielded twice, the second time reversed, while len is the number of links. The partial theorem states exactly this, on every view"},
{"property": "C107", "status": "partial", "theorems": ["C107_node_edges_refuted", "C107_node_edges_partial"], "note": "REFUTED as stated: edges yields incoming links too, and incoming links have the node as source. The partial theorem: edges_directed with Outgoing is exact on every view, the others yield the links seen from the node; edges is exact for nodes without links from other nodes"},
{"property": "C108", "status": "partial", "theorems": ["C108_visit_map_refuted", "C108_visit_map_partial"], "note": "REFUTED as stated: visit returns whether the node was visited before, the negation of what petgraph asks for. The partial theorem: marks, is_visited and unvisit are exact for every sequence of calls"},
{"property": "C109", "status": "partial", "theorems": ["C109_node_bound_refuted", "C109_node_bound_partial"], "note": "REFUTED as stated: node_bound is the number of nodes, which is not above all indices when there are gaps. The partial theorem: exact without gaps"},
{"property": "C11", "status": "proved", "theorems": ["C11_set_num_ports_callbacks"], "note": ""},
{"property": "C110", "status": "proved", "theorems": ["C110_adjacency"], "note": "for every view that shows a graph; dense matrix for any node_capacity above all node indices"},
{"property": "C111", "status": "partial", "theorems": ["C111_dot_refuted", "C111_dot_partial"], "note": "REFUTED as stated: an edge from a shown node to a hidden node is written. The partial theorem: on every view and for all styles, one node statement per node that is not hidden with the right cells, and one edge statement per link that starts at such a node"},
{"property": "C112", "status": "proved", "theorems": ["C112_dot_hierarchy"], "note": "for every view that shows a graph and every reachable hierarchy"},
{"property": "C113", "status": "proved", "theorems": ["C113_labels"], "note": "for all strings and nestings of styles"},
{"property": "C114", "status": "partial", "theorems": ["C114_lca_view_refuted", "C114_lca_view_partial"], "note": "REFUTED as stated: only trees whose root is visible are visited, so on a region siblings are ancestors of each other and the lowest common ancestor is the first node. The partial theorem: every query returns, and is exact for nodes in trees whose root is visible"},
{"property": "C115", "status": "partial", "theorems": ["C115_mermaid_refuted", "C115_mermaid_partial", "C115_flat"], "note": "REFUTED as stated: children are drawn whether visible or not, so on a filtered graph hidden nodes are drawn and nodes below them twice. The partial theorem: exact on every view that contains the children of its nodes (graphs, regions); C115_flat: exact on every view without a hierarchy"},
{"property": "C116", "status": "partial", "theorems": ["C116_placement_refuted", "C116_placement_partial"], "note": "REFUTED as stated: a link from a leaf to itself is written outside of all blocks, and on a region below the root of the hierarchy links between siblings too. The partial theorem: on views that contain whole trees every link is in the block of the lowest common ancestor of its nodes, and outside of all blocks if there is none or it is the leaf itself"},
{"property": "C117", "status": "proved", "theorems": ["C117_text", "C117_styles"], "note": "for all items, labels and styles; the attributes and custom arrows have no line feeds"},
{"property": "C118", "status": "proved", "theorems": ["C118_index_round_trip", "C118_graph_round_trip", "C118_map_round_trip"], "note": "documents are trees as in JSON and MessagePack, structs as objects or arrays; BitVecs (code of the bitvec crate) as arrays of booleans; hierarchies whose entries are valid node indices"},
{"property": "C119", "status": "partial", "theorems": ["C119_read_refuted", "C119_read_partial"], "note": "REFUTED as stated: deserialization goes through NodeIndex::new, MaybeNodeIndex::new and PortOffset::new, which panic above the base type's maximum, and a number above the largest index can be read as index 0. The partial theorem: no panic if all numbers are at most 2^w - 2, and numbers within the maximum are kept"},
{"property": "C12", "status": "proved", "theorems": ["C12_compact_nodes"], "note": ""},
{"property": "C120", "status": "partial", "theorems": ["C120_read_usable_refuted", "C120_read_usable_partial"], "note": "REFUTED as stated: nothing is checked: a document can give a port linked to a port that does not exist, and unlink_port panics. The partial theorem: documents written for a graph with a history are read as a graph with that history, and determine it"},
{"property": "C121", "status": "proved", "theorems": ["C121_portgraph", "C121_multiportgraph", "C121_node_index"], "note": "what the proptest library picks and the iteration order of the hash sets are arbitrary; sizes bounded so that indices and offsets fit. The node ranges are 1..max_n_nodes, so a graph with edges has at most max_n_nodes - 1 nodes; with max_n_nodes at most 1 the range is empty, which the library rejects"},
{"property": "C122", "status": "partial", "theorems": ["C122_dot_text_refuted", "C122_dot_text_partial", "C122_dot_lines"], "note": "REFUTED as stated: labels are not escaped, so a label can close the table of its node and add statements; with labels without line feeds and opening angle brackets, and other values without line feeds and double quotes, the text determines the drawing (the label of an edge style is not part of the dot text)"},
{"property": "C123", "status": "proved", "theorems": ["C123_members"], "note": "derived implementations as documented by serde; found as a gap by a seeded fault"},
{"property": "C124", "status": "proved", "theorems": ["C124_debug_graph", "C124_debug_entries"], "note": "what debug_struct, debug_map and decimal numbers are written as is modelled from the documentation of the standard library; the one-line format only"},
{"property": "C125", "status": "proved", "theorems": ["C125_debug_index"], "note": "for indices up to the documented maximum (C26); the index kinds are a parameter of the model"},
{"property": "C126", "status": "partial", "theorems": ["C126_equal_refuted", "C126_equal_partial"], "note": "REFUTED as stated: free lists and unused slots are compared, so a graph from which a node was removed differs from the same graph without that node. Equal graphs cannot be told apart; graphs that cannot be told apart are equal if both were compacted (nodes and ports) after the last removal"},
{"property": "C127", "status": "proved", "theorems": ["C127_hierarchy_equal", "C127_hierarchy_children", "C127_region_equal"], "note": "Equality of hierarchies: for every history, equal iff all six queries agree on every node; for histories without a self-push (C38), equal iff first child and next sibling agree everywhere, and equal hierarchies answer the same further calls alike and stay equal. Regions: equality ignores the cache; equal regions list the same nodes in the same order and answer membership alike. The equality of the underlying graph is a parameter (C126 for PortGraph)."},
{"property": "C128", "status": "partial", "theorems": ["C128_multi_equal_refuted", "C128_multi_equal_partial"], "note": "REFUTED as stated: two multigraphs built by the same calls in another order (two ports get two links each, nothing removed, compacted) answer every query alike but differ in the numbering of their hidden copy nodes. Equal multigraphs cannot be told apart and stay equal; multigraphs made of tidy graphs (C126) that cannot be told apart are equal and stay so under the same calls"},
{"property": "C129", "status": "proved", "theorems": ["C129_link_errors", "C129_other_errors"], "note": "what thiserror derives from the error attributes is modelled from its documentation; indices up to the documented maximum (C26)"},
{"property": "C13", "status": "proved", "theorems": ["C13_compact_ports"], "note": "graphs without hollow nodes; the others are C14"},
{"property": "C130", "status": "partial", "theorems": ["C130_mermaid_text_refuted", "C130_mermaid_text_partial"], "note": "REFUTED as stated: a quote and the text #quot; in a label are written alike, a line feed and <br> too, and an attribute with a comma is written like two. Proved for labels without these escapes, attributes without commas and line feeds and edge styles that are not custom; dotted and dashed links are one kind"},
{"property": "C131", "status": "partial", "theorems": ["C131_port_capacity_refuted", "C131_port_capacity_partial"], "note": "REFUTED as stated: set_num_ports reallocates when the new total equals the capacity (the range 1..old_capacity excludes it), and when it is 0. Proved for totals from 1 to below the capacity; ports never exceed the capacity"},
{"property": "C132", "status": "proved", "theorems": ["C132_graph_capacity", "C132_view_capacity", "C132_part_capacity"], "note": "the allocator is any function that gives at least what is needed; set_num_ports counts as adding the next power of two of its total (its new slab). In C132_view_capacity and C132_part_capacity the capacities of the graph below are any numbers not below its counts"},
{"property": "C133", "status": "partial", "theorems": ["C133_dense_capacity", "C133_set_capacity_refuted", "C133_set_capacity_partial"], "note": "REFUTED as stated: for BitVec and HashSet ensure_capacity reserves capacity - self.capacity() more elements than the length, not than the capacity, and so does nothing for a map with spare room. Proved for UnmanagedDenseMap, and for the other two when length and capacity agree"},
{"property": "C134", "status": "partial", "theorems": ["C134_shrink_refuted", "C134_shrink_partial"], "note": "REFUTED as stated: shrink_to truncates and then shrinks to fit, so it takes away all spare room, even when the capacity is below k. Proved: the capacity does not rise, values below k stay, others are dropped; the capacity becomes k right after an ensure_capacity that grew the map"},
{"property": "C135", "status": "proved", "theorems": ["C135_reuse", "C135_capacity"], "note": "histories of allowed calls (C06); the new node is within the limits of C20"},
{"property": "C136", "status": "partial", "theorems": ["C136_room_refuted", "C136_above_max_refuted", "C136_dense_iter_partial", "C136_dense_panics", "C136_bits_iter_partial"], "note": "REFUTED as stated: ensure_capacity can store more slots than there are keys, and NodeIndex::new accepts max_index + 1 (C26); both make iter panic in try_into().unwrap(). Proved for all calls with keys up to max_index that ask for room for at most max_index + 1; C136_dense_panics says exactly which dense maps panic"},
{"property": "C137", "status": "partial", "theorems": ["C137_link_nodes_refuted", "C137_link_offsets_partial", "C137_link_nodes_partial"], "note": "REFUTED as stated: port_index of a MultiPortGraph also answers for internal copy nodes, and link_ports accepts their ports: link_nodes with an index that is no node of the graph can succeed and redirect existing links. Proved for all other indices, unknown nodes included"},
{"property": "C138", "status": "partial", "theorems": ["C138_stale_refuted", "C138_unlink_partial", "C138_remove_partial", "C138_link_result"], "note": "REFUTED as stated: compact_nodes renames nodes without telling the order; unlink_port then panics in disconnect_nodes(..).expect and remove_node in remove_node(..).expect, after the graph was already changed. link_ports can make a link and still return UnknownPort (C101_compact_refuted shows such a call); C138_link_result lists all outcomes of calls that return. The partial theorems say exactly which calls panic, for any well-formed graph and any order in step with its positions, and what the others do"},
{"property": "C14", "status": "partial", "theorems": ["C14_hollow_refuted", "C14_compact_ports_partial"], "note": "REFUTED as stated: after compact_ports on a graph with a hollow node, remove_node destroys another node's port. C14_compact_ports_partial: on every reachable graph, with or without hollow nodes, compact_ports itself does what it should (all observations as in C13); later operations are what is missing."},
{"property": "C15", "status": "proved", "theorems": ["C15_swap_nodes"], "note": ""},
{"property": "C16", "status": "partial", "theorems": ["C16_swap_free_refuted", "C16_swap_free_partial"], "note": "REFUTED as stated: swapping with the head of the free list makes the next add_node panic"},
{"property": "C17", "status": "proved", "theorems": ["C17_nodes_and_ports", "C17_node_ports"], "note": ""},
{"property": "C18", "status": "proved", "theorems": ["C18_links", "C18_connections"], "note": "iterators are consumed with next: the public methods return impl Iterator, so next_back is not reachable"},
{"property": "C19", "status": "proved", "theorems": ["C19_refinement"], "note": "Abstract port graph and its step relation in AGSpec.v. Histories contain the calls listed in PGSpec.allowed: compact_ports not while a hollow node exists (C14), swap_nodes on nodes or on a node and a spare slot (C16), port totals that fit 16 bits (C20)."},
{"property": "C20", "status": "partial", "theorems": ["C20_port_counts_refuted", "C20_port_counts_partial"], "note": "REFUTED as stated: 32-bit offsets truncate the counts"},
{"property": "C21", "status": "partial", "theorems": ["C21_offset_type_refuted", "C21_offset_type_partial"], "note": "REFUTED as stated: set_num_ports accepts counts the offset type cannot express"},
{"property": "C22", "status": "proved", "theorems": ["C22_clear_reserve_shrink"], "note": "reserve and shrink_to_fit touch only Vec capacities, the subject of C132"},
{"property": "C23", "status": "proved", "theorems": ["C23_insert_graph"], "note": "Source and target are PortGraphs; port counts of the source must be representable and the number of nodes/ports ever created must stay below 2^31 (else add_node panics, C06)."},
{"property": "C24", "status": "proved", "theorems": ["C24_link_nodes", "C24_link_offsets"], "note": "Offsets are those the offset type can represent (at most po_max_offset, see C26)."},
{"property": "C25", "status": "proved", "theorems": ["C25_index_faithful"], "note": ""},
{"property": "C26", "status": "partial", "theorems": ["C26_new_above_max_refuted", "C26_new_panics_partial"], "note": "REFUTED as stated: some out-of-range values above the maximum index are accepted"},
{"property": "C27", "status": "proved", "theorems": ["C27_maybe_index"], "note": ""},
{"property": "C28", "status": "proved", "theorems": ["C28_port_offset"], "note": ""},
{"property": "C29", "status": "proved", "theorems": ["C29_bitfield_setters", "C29_portmeta_faithful"], "note": ""},
{"property": "C30", "status": "proved", "theorems": ["C30_dense_map"], "note": "The vector's spare capacity is an arbitrary parameter of each ensure_capacity call."},
{"property": "C31", "status": "partial", "theorems": ["C31_rekey_custom_default_refuted", "C31_rekey_never_written_refuted", "C31_rekey_partial"], "note": "REFUTED as stated: rekey writes V::default() instead of the map's own default; C31_rekey_partial says exactly what rekey leaves."},
{"property": "C32", "status": "proved", "theorems": ["C32_shrink_to"], "note": ""},
{"property": "C33", "status": "proved", "theorems": ["C33_equality"], "note": ""},
{"property": "C34", "status": "partial", "theorems": ["C34_iter_refuted", "C34_iter_partial"], "note": "REFUTED as stated: iter also yields stored default values; C34_iter_partial says exactly what it yields."},
{"property": "C35", "status": "proved", "theorems": ["C35_bool_maps"], "note": ""},
{"property": "C36", "status": "partial", "theorems": ["C36_hierarchy_refuted", "C36_hierarchy_partial"], "note": "REFUTED as stated: push_child(0,0) followed by swap_nodes(0,1) leaves node 1 with parent 0 while 0 has no children. Proved for every history that never pushes a childless root below itself (the only call whose cycle is missed, see C38); shrink_to included."},
{"property": "C37", "status": "partial", "theorems": ["C37_insertions_refuted", "C37_push_child_partial", "C37_push_front_child_partial", "C37_insert_before", "C37_insert_after"], "note": "REFUTED as stated: push_child(n,n) of a childless root succeeds although a cycle arises. Everything else proved, with the exact errors."},
{"property": "C38", "status": "partial", "theorems": ["C38_acyclic_refuted", "C38_loop_refuted", "C38_acyclic_partial"], "note": "REFUTED as stated: push_child(0,0) on a childless root is accepted; a later push_child then never returns. Proved for the histories without such a call."},
{"property": "C39", "status": "proved", "theorems": ["C39_detach", "C39_shrink_to"], "note": "On the histories without a self-push (C38)."},
{"property": "C40", "status": "proved", "theorems": ["C40_children"], "note": "On the histories without a self-push (C38)."},
{"property": "C41", "status": "proved", "theorems": ["C41_descendants"], "note": "The histories without a self-push are the acyclic ones (C38)."},
{"property": "C42", "status": "proved", "theorems": ["C42_swap_nodes", "C42_rekey"], "note": "On the histories without a self-push (C38)."},
{"property": "C43", "status": "partial", "theorems": ["C43_rekey_same_refuted", "C43_rekey_same_partial"], "note": "REFUTED as stated: rekey(n,n) panics for every node with a parent or children; it is a no-op exactly for the others."},
{"property": "C44", "status": "proved", "theorems": ["C44_lca"], "note": "For every hierarchy reached without a self-push (C38), over any duplicate-free node list containing all attached nodes; answers hold for every sufficiently large fuel."},
{"property": "C45", "status": "proved", "theorems": ["C45_toposort"], "note": "For distinct sources; acyclicity only needed for completeness."},
{"property": "C46", "status": "partial", "theorems": ["C46_toposort_multi_refuted", "C46_toposort_multi_partial"], "note": "REFUTED as stated: an input port counts as visited after its first link, so a node can come before a predecessor. C46_toposort_multi_partial: everything else of C45 holds for multigraphs, and the order too when no such port has links to different nodes."},
{"property": "C47", "status": "partial", "theorems": ["C47_target_port_refuted", "C47_filtered_pred_refuted", "C47_toposort_filtered_partial", "C47_symmetric_filters_partial"], "note": "REFUTED as stated: next consults the port filter only on the source side and becomes_ready only on the target side, and rejected predecessors still block a node. The _partial theorems give the exact behaviour for arbitrary filters, and the property in full for consistent filters."},
{"property": "C48", "status": "proved", "theorems": ["C48_postorder"], "note": "Accepted sources must lie below the node capacity (beyond it the bit vectors panic)."},
{"property": "C49", "status": "partial", "theorems": ["C49_dominators_refuted", "C49_filtered_entry_panics", "C49_dominators_partial", "C49_dominators_unreachable_partial"], "note": "REFUTED as stated: a predecessor that is not reachable from the entry is looked up in the index map with its default 0, so its link counts as one from the first node of the post-order; and a rejected entry panics. C49_dominators_partial proves the property when all accepted predecessors of reachable nodes are reachable and the entry is accepted; C49_dominators_unreachable_partial gives the exact result for all graphs."},
{"property": "C50", "status": "proved", "theorems": ["C50_topo_convex"], "note": "Listed output ports must be ports of the graph (port_link panics otherwise)."},
{"property": "C51", "status": "proved", "theorems": ["C51_line_convex", "C51_empty_set_panics", "C51_repeated_nodes"], "note": "The floating-point interpolation is an arbitrary guess between low and high. The two further theorems show that the restriction to non-empty duplicate-free sets is needed."},
{"property": "C52", "status": "partial", "theorems": ["C52_dynamic_link_refuted", "C52_dynamic_link_partial", "C52_reaching_link_panics", "C52_input_first_panics"], "note": "REFUTED as stated: the first cycle check of link_ports has its arguments swapped, so every link to a node that is already reachable panics (0 -> 1 -> 2, then 0 -> 2); a link given with the input port first panics too. C52_dynamic_link_partial proves the property for links to nodes not yet reachable, as long as the order is topological (C71)."},
{"property": "C53", "status": "partial", "theorems": ["C53_dynamic_convex_refuted", "C53_dynamic_convex_partial", "C53_reordered_refuted"], "note": "REFUTED as stated: has_path_outside_subgraph stops at any node outside the set without requiring that the other end is reachable, so convex sets are reported as not convex; after a reordering link (C71) non-convex sets can be reported convex. C53_dynamic_convex_partial gives the exact meaning of the answers while the order is topological, soundness of the answer true, and exactness under a stated condition."},
{"property": "C54", "status": "partial", "theorems": ["C54_multi_links_refuted", "C54_multi_links_partial"], "note": "REFUTED as stated: set_num_ports on a multigraph does not update the copy node when the port it stands for moves, and links get lost or misattributed. C54_multi_links_partial proves the property for all histories that satisfy the stated guard (no shrinking that reuses a multiport's index, room for one more subport at every link)."},
{"property": "C55", "status": "partial", "theorems": ["C55_multi_counts_refuted", "C55_multi_counts_partial"], "note": "REFUTED as stated: link_ports(0, 2) with port 2 not in the multigraph succeeds when the copy node made for port 0 takes the index 2; node and port counts are then wrong. Guarded theorem for all allowed histories."},
{"property": "C56", "status": "partial", "theorems": ["C56_multi_link_refuted", "C56_multi_link_partial"], "note": "REFUTED as stated: with 32-bit offsets link_ports panics once 65535 subports of a port are in use, although the offset type has room. Guarded theorem (room for one more subport)."},
{"property": "C57", "status": "partial", "theorems": ["C57_multi_unlink_refuted", "C57_multi_unlink_partial"], "note": "REFUTED as stated: unlink_port of a port with two links removes both and returns a subport of the port itself. C57_multi_unlink_partial: it removes exactly the links of the port, and returns the partner when both have one subport."},
{"property": "C58", "status": "partial", "theorems": ["C58_multi_set_num_ports_refuted", "C58_multi_set_num_ports_partial"], "note": "REFUTED as stated: see C54; the callback moreover reports ports of internal copy nodes. Guarded theorem for histories that do not reuse the index of a removed multiport."},
{"property": "C59", "status": "proved", "theorems": ["C59_filtered", "C59_filtered_portgraph", "C59_filtered_multigraph", "C59_filtered_hidden"], "note": "Filter closures are pure functions. C59_filtered is for any view that shows a graph, so filters can be stacked."},
{"property": "C60", "status": "partial", "theorems": ["C60_filtered_link_count_refuted", "C60_filtered_link_count_partial"], "note": "REFUTED as stated: link_count counts a link between two different nodes twice. The partial theorem gives the exact count."},
{"property": "C61", "status": "proved", "theorems": ["C61_region_membership"], "note": "For hierarchies with a history that pushes no node under itself (C38). The node is looked up in the hierarchy only; whether it is a node of the graph is not checked by the code."},
{"property": "C62", "status": "partial", "theorems": ["C62_region_clone_refuted", "C62_region_clone_partial", "C62_no_deadlock"], "note": "REFUTED as stated: a clone made while another thread holds the write lock starts with an empty cache that lacks the entry for the root, and then denies membership of descendants. C62_region_clone_partial: in every interleaving all answers of the original, and of every clone that managed to read the cache, are right."},
{"property": "C63", "status": "proved", "theorems": ["C63_flat_region"], "note": "For hierarchies with a history that pushes no node under itself (C38)."},
{"property": "C64", "status": "partial", "theorems": ["C64_flat_region_empty_refuted", "C64_flat_region_empty_partial"], "note": "REFUTED as stated: is_empty is always false, also for a region without its root and without children. It is right exactly if node_count is positive."},
{"property": "C65", "status": "partial", "theorems": ["C65_new_subgraph", "C65_new_subgraph_multigraph_refuted", "C65_internal_nodes_any", "C65_copy_in_parent"], "note": "REFUTED as stated: in a MultiPortGraph only the first link of a port is followed, so reachable nodes can be missing (C65_new_subgraph_multigraph_refuted). For graphs and views with one link per port C65_new_subgraph gives the exact node set. C65_copy_in_parent covers subgraphs of a PortGraph with port counts and index space in range; copying in a MultiPortGraph is C100."},
{"property": "C66", "status": "partial", "theorems": ["C66_port_ordering_partial", "C66_subgraph_partial", "C66_is_stronger", "C66_boundary_stronger_partial", "C66_outside_refuted", "C66_inside_link_refuted"], "note": "REFUTED as stated: port_ordering panics on a boundary of a graph that goes on outside it, and on the subgraph the boundary induces when a link joins two boundary ports. Proved for acyclic views with one link per port when boundary ports have no link in the view, in particular for induced subgraphs without a link from a boundary port back into the subgraph. is_stronger_than and missing_pairs of orderings are characterised in full."},
{"property": "C67", "status": "proved", "theorems": ["C67_side_tables"], "note": ""},
{"property": "C68", "status": "partial", "theorems": ["C68_total_partial", "C38_loop_refuted"], "note": "REFUTED as stated: after a self-push, push_child may never return. Proved for the histories without a self-push."},
{"property": "C69", "status": "proved", "theorems": ["C69_toposort_size_hint"], "note": ""},
{"property": "C70", "status": "proved", "theorems": ["C70_postorder_size_hint"], "note": ""},
{"property": "C71", "status": "partial", "theorems": ["C71_dynamic_order_refuted", "C71_dynamic_order_partial", "C71_reorder_needed"], "note": "REFUTED as stated: update_order writes the two cones in depth-first order and may break the order. C71_dynamic_order_partial: it is kept along histories whose links point forward in the order or whose reordering is harmless: the nodes between the two ends form a tree below the target and are no predecessors of the source. C71_reorder_needed: all but the tree shape is necessary."},
{"property": "C72", "status": "partial", "theorems": ["C72_multi_link_errors_refuted", "C72_multi_link_errors_partial"], "note": "REFUTED as stated: link_ports with an unknown second port may succeed (see C55), and a call that fails because of the directions may leave the first port with another subport. C72_multi_link_errors_partial covers unknown first ports, unknown second ports when the first has a free subport, and shows that nodes, ports and links are kept on direction errors."},
{"property": "C73", "status": "proved", "theorems": ["C73_multi_iterators"], "note": "For histories of allowed calls (see C54)."},
{"property": "C74", "status": "proved", "theorems": ["C74_multi_add_remove"], "note": "For histories of allowed calls (see C54)."},
{"property": "C75", "status": "proved", "theorems": ["C75_multi_renumber"], "note": "For histories of allowed calls (see C54). The callbacks are also told about internal copy nodes and their ports; compact_ports requires no hollow node (C14)."},
{"property": "C76", "status": "proved", "theorems": ["C76_multi_subport_ops"], "note": "For histories of allowed calls (see C54)."},
{"property": "C77", "status": "partial", "theorems": ["C77_filtered_subports_refuted", "C77_filtered_subports_partial"], "note": "REFUTED as stated: subport_link ignores the node filter, so it reports links to hidden nodes. The partial theorem says what it yields."},
{"property": "C78", "status": "proved", "theorems": ["C78_flat_region_view", "C78_subgraph_view", "C78_subports", "C78_region_view", "C78_region_subports"], "note": "For hierarchies with a history that pushes no node under itself (C38)."},
{"property": "C79", "status": "partial", "theorems": ["C79_dynamic_boundary_refuted", "C79_dynamic_boundary_partial"], "note": "REFUTED as stated: can_reach_inputs walks backwards from the outputs to the inputs, so a path that leaves the set at an output and comes back at an input is missed. C79_dynamic_boundary_partial: termination and the exact meaning of both answers for arbitrary lists of ports; the answer 'not convex' is right if the inputs belong to the set."},
{"property": "C80", "status": "proved", "theorems": ["C80_with_nodes"], "note": "For every view with the laws of a graph (C78 and ViewSpec.shows)."},
{"property": "C81", "status": "proved", "theorems": ["C81_subgraph_convex", "C81_with_nodes_convex"], "note": "For acyclic PortGraphs and the TopoConvexChecker."},
{"property": "C82", "status": "proved", "theorems": ["C82_boundary_ports"], "note": ""},
{"property": "C83", "status": "proved", "theorems": ["C83_line_intervals"], "note": "acyclic PortGraphs; the interpolation guess is arbitrary within its bounds"},
{"property": "C84", "status": "proved", "theorems": ["C84_try_extend"], "note": "acyclic PortGraphs; the interpolation guess is arbitrary within its bounds"},
{"property": "C85", "status": "proved", "theorems": ["C85_lines_at_port"], "note": "acyclic PortGraphs; port offsets representable"},
{"property": "C86", "status": "proved", "theorems": ["C86_toposort_view"], "note": "every view that satisfies `shows`: multigraphs, filtered graphs, regions, flat regions, subgraphs (C59, C63, C65)"},
{"property": "C87", "status": "partial", "theorems": ["C87_view_convex_refuted", "C87_boundary_refuted", "C87_topo_convex_partial", "C87_line_convex_partial"], "note": "REFUTED as stated: on an acyclic multigraph with an input port linked to two nodes the topological order can be wrong, then TopoConvexChecker answers wrongly and LineConvexChecker::new panics; is_convex looks at the first link of an output only. The partial theorems: both checkers are exact on every acyclic view in which the links of each input port come from one node (all views of a PortGraph, and multigraphs with fan-out), is_convex if moreover no listed output is linked to two ports."},
{"property": "C88", "status": "partial", "theorems": ["C88_links_both_ends_refuted", "C88_links_both_ends_partial"], "note": "REFUTED as stated: all_links from the back yields a self-link twice (next_back does not look at ignore_target_ports; the trait methods hide next_back behind impl Iterator, so only code inside the crate can see it). The partial theorem: everything else, and all_links from the back on nodes without a link to themselves"},
{"property": "C89", "status": "partial", "theorems": ["C89_multi_iterators_refuted", "C89_multi_iterators_partial"], "note": "REFUTED as stated: port_links on a port without links has size_hint (1, Some(1)) and yields nothing. The partial theorem: everything else"},
{"property": "C90", "status": "partial", "theorems": ["C90_portless_refuted", "C90_duplicates_refuted", "C90_add_sources_partial"], "note": "REFUTED as stated: add_sources never adds a node without ports, though toposort yields such a source; and a source given twice to toposort is yielded twice, after which size_hint underflows. The partial theorem: for distinct initial sources and any program of next and add_sources calls, everything else"},
{"property": "C91", "status": "proved", "theorems": ["C91_ports_remaining"], "note": "for every PortGraph, direction and program of next and add_sources calls"},
{"property": "C92", "status": "proved", "theorems": ["C92_flat_graph"], "note": "for every history of a MultiPortGraph"},
{"property": "C93", "status": "proved", "theorems": ["C93_view_shorthands"], "note": "for every view that shows a graph (PortGraph, MultiPortGraph, and by C59, C62, C63 and C78 the views on them)"},
{"property": "C94", "status": "proved", "theorems": ["C94_weights_follow"], "note": "for every history, with swap and with rekey"},
{"property": "C95", "status": "partial", "theorems": ["C95_unset_weights_refuted", "C95_unset_weights_partial"], "note": "REFUTED as stated: with the documented swap callback a new port can come up with the weight of a dropped one. The partial theorem: with rekey it does not, for all calls but remove_node and clear, which have no callback"},
{"property": "C96", "status": "partial", "theorems": ["C96_shrink_weights_refuted", "C96_shrink_weights_partial"], "note": "REFUTED as stated: indices are not compact after remove_node, so shrink_to(node_count) drops weights of live nodes. The partial theorem: it is right after compact_nodes and compact_ports"},
{"property": "C97", "status": "proved", "theorems": ["C97_multi_weights"], "note": "for every history of a MultiPortGraph (calls as in mallowed)"},
{"property": "C98", "status": "proved", "theorems": ["C98_insert_view"], "note": "for every view over a reachable graph (PortGraph, MultiPortGraph, filtered graph, subgraph, region), within the index and offset bounds"},
{"property": "C99", "status": "proved", "theorems": ["C99_multi_insert"], "note": "at most min(max offset + 1, 32767) links per port, nodes and ports (65536 per link) below 2^31"}
]}
