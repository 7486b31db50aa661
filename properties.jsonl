{"id": "C01", "title": "Links are symmetric and join opposite directions", "statement": "In every state a PortGraph can reach, if port p reports a link to q then both p and q are ports of the graph, q reports a link to p, p and q differ, and one is Incoming while the other is Outgoing; so each port takes part in at most one link.", "quantifier": "every finite history of PortGraph operations (add_node, remove_node, link_ports, unlink_port, set_num_ports, swap_nodes of live nodes, compact_nodes, compact_ports, clear, reserve, shrink_to_fit) from the empty graph, with every choice of arguments", "why_tests_cant": "The invariant spans arbitrarily long interleavings of slab reallocation, freeing, compaction and linking; tests sample a handful of histories.", "anchors": ["src/portgraph.rs: link_ports, unlink_port, remove_node, set_num_ports, compact_ports, port_links"]}
{"id": "C02", "title": "Ports and nodes agree on who owns which port", "statement": "In every reachable state: port_index(n, off) returns a port p exactly for off below num_ports(n, dir); then port_node(p)=n and port_direction(p)=dir, and port_offset(p) gives back off. Every port for which contains_port holds is found this way from its node, ports of different (node, direction, offset) triples are different, and the ports of a node are contiguous, inputs before outputs.", "quantifier": "every finite history of PortGraph operations (add_node, remove_node, link_ports, unlink_port, set_num_ports, swap_nodes of live nodes, compact_nodes, compact_ports, clear, reserve, shrink_to_fit) from the empty graph, with every choice of arguments", "why_tests_cant": "Port slabs are reused, shifted and reallocated; overlap between two nodes' slabs only shows after particular histories.", "anchors": ["src/portgraph.rs: port_index, port_offset, port_node, port_direction, num_ports, input, output", "src/portgraph/iter.rs: _ports, _all_ports, _port_offsets"]}
{"id": "C03", "title": "Counts match contents", "statement": "In every reachable state node_count equals the number of indices with contains_node, port_count equals the number of indices with contains_port, and link_count equals the number of linked outgoing ports; is_empty holds exactly when there is no node.", "quantifier": "every finite history of PortGraph operations (add_node, remove_node, link_ports, unlink_port, set_num_ports, swap_nodes of live nodes, compact_nodes, compact_ports, clear, reserve, shrink_to_fit) from the empty graph, with every choice of arguments", "why_tests_cant": "The counters are maintained incrementally by every operation; a drift needs a specific history to appear.", "anchors": ["src/portgraph.rs: node_count, port_count, link_count, is_empty"]}
{"id": "C04", "title": "add_node creates exactly what was asked and disturbs nothing", "statement": "For port counts up to the offset type's maximum, add_node(i,o) returns an index that was not a node, which afterwards has exactly i incoming and o outgoing ports, all of them indices that were not ports and all unlinked; every other node keeps its port indices, every other port keeps its link, node_count grows by one, port_count by i+o, link_count is unchanged.", "quantifier": "every reachable graph and every i, o within the documented maximum", "why_tests_cant": "Fresh slots come from free lists whose shape depends on the entire history.", "anchors": ["src/portgraph.rs: add_node, alloc_node, alloc_ports"]}
{"id": "C05", "title": "remove_node removes the node, its ports and its links only", "statement": "remove_node(n) on a node removes n, exactly its ports, and exactly the links touching them: the former partners become unlinked, all other nodes keep their port indices and all other links survive. On an index that is not a node it changes nothing.", "quantifier": "every reachable graph and every node index", "why_tests_cant": "Same as C01: depends on slabs and free lists built by history.", "anchors": ["src/portgraph.rs: remove_node, free_node, free_ports"]}
{"id": "C06", "title": "No operation hits an internal panic", "statement": "In every reachable state, every PortGraph operation called with arguments within documented limits (live nodes for swap_nodes, port totals that fit the slab counter) completes without panicking: free lists only ever lead to free slots, slabs are always in range.", "quantifier": "every finite history of PortGraph operations (add_node, remove_node, link_ports, unlink_port, set_num_ports, swap_nodes of live nodes, compact_nodes, compact_ports, clear, reserve, shrink_to_fit) from the empty graph, with every choice of arguments", "why_tests_cant": "Panics on corrupted free lists need long specific histories.", "anchors": ["src/portgraph.rs: alloc_node, free_node, free_ports, NodeMeta::new, remove_node, set_num_ports"]}
{"id": "C07", "title": "link_ports succeeds exactly when it should", "statement": "link_ports(a,b) succeeds iff a and b are ports of the graph, have opposite directions and are both unlinked; it then links exactly a and b, increments link_count, and changes nothing else. Otherwise it returns an error and the graph is unchanged; IncompatibleDirections and AlreadyLinked name the true cause and a port that really is linked.", "quantifier": "every reachable graph, every pair of port indices", "why_tests_cant": "Needs every combination of liveness, direction and link status in all reachable graphs.", "anchors": ["src/portgraph.rs: link_ports, LinkError"]}
{"id": "C08", "title": "UnknownPort names the unknown port", "statement": "When link_ports(a,b) returns UnknownPort{port}, port is not a port of the graph.", "quantifier": "every reachable graph, every pair of port indices", "why_tests_cant": "An error payload on the second argument is easily never exercised by tests.", "anchors": ["src/portgraph.rs: link_ports (second UnknownPort branch)"]}
{"id": "C09", "title": "unlink_port removes exactly one link", "statement": "unlink_port(p) returns the partner q of p if p is a linked port, and afterwards exactly p and q are unlinked, link_count drops by one and nothing else changes; otherwise it returns None and changes nothing. Linking and then unlinking restores the original graph.", "quantifier": "every reachable graph and port index", "why_tests_cant": "Quantifies over all reachable graphs.", "anchors": ["src/portgraph.rs: unlink_port"]}
{"id": "C10", "title": "set_num_ports keeps the surviving ports' links", "statement": "After set_num_ports(n,i,o) with totals that fit, node n has exactly i inputs and o outputs; for each direction and each offset below both the old and new counts the port at that offset is linked to the same partner as before (self-links included, at the partner's possibly new index); ports dropped are unlinked together with their partners; new ports are unlinked; other nodes keep their port indices and all links among other nodes; counts are updated accordingly.", "quantifier": "every reachable graph, node, and pair of new counts", "why_tests_cant": "In-place shifting and reallocation move port data over each other; correctness depends on the relative sizes and on self-links.", "anchors": ["src/portgraph.rs: set_num_ports, resize_ports_inplace"]}
{"id": "C11", "title": "set_num_ports reports every port move and removal", "statement": "The rekey callback receives Removed exactly once for each dropped port, with the link it had at that moment, and Moved{new} for each surviving port whose index changes; replaying the callbacks on a side table with swap (the idiom in the documentation) leaves each surviving port's value at its new index, and reported new indices are the ports' real new indices.", "quantifier": "every reachable graph, node, pair of counts and side table", "why_tests_cant": "The order of overlapping moves matters for every combination of counts.", "anchors": ["src/portgraph.rs: set_num_ports, resize_ports_inplace, PortOperation", "src/weights.rs: module documentation idiom"]}
{"id": "C12", "title": "compact_nodes renumbers nodes contiguously and preserves the graph", "statement": "After compact_nodes the nodes are exactly 0..node_count in the previous relative order; the k-th node keeps its port indices and all links are unchanged; the callback is called exactly once per node, with (old,new) in ascending order, and the port metadata points to the new index.", "quantifier": "every reachable graph", "why_tests_cant": "All histories of removals before compaction.", "anchors": ["src/portgraph.rs: compact_nodes"]}
{"id": "C13", "title": "compact_ports renumbers ports contiguously and preserves the graph", "statement": "After compact_ports the ports are exactly 0..port_count in the previous relative order; each (node, direction, offset) still exists and is linked to the same (node, direction, offset) as before; the callback reports each port's (old,new) exactly once in ascending order; counts are unchanged; and the graph remains well formed for all later operations.", "quantifier": "every reachable graph", "why_tests_cant": "The link vector is compacted in place by following back-links; correctness needs an inductive invariant.", "anchors": ["src/portgraph.rs: compact_ports"]}
{"id": "C14", "title": "compact_ports is safe on nodes that lost all their ports", "statement": "The guarantee of C13 also holds for graphs containing nodes whose ports were all removed with set_num_ports(n,0,0).", "quantifier": "every reachable graph without further conditions", "why_tests_cant": "Needs a history mixing set_num_ports(n,0,0), compact_ports, and later additions and removals.", "anchors": ["src/portgraph.rs: set_num_ports (next_power_of_two(0)), compact_ports, remove_node"]}
{"id": "C15", "title": "swap_nodes exchanges two nodes", "statement": "For two nodes a and b, after swap_nodes(a,b) node a has exactly the ports previously owned by b and vice versa, with links and all other nodes unchanged; doing it twice restores the graph.", "quantifier": "every reachable graph and every pair of its nodes", "why_tests_cant": "All reachable graphs.", "anchors": ["src/portgraph.rs: swap_nodes"]}
{"id": "C16", "title": "swap_nodes with a free slot keeps the graph usable", "statement": "swap_nodes(a,b) where a is a node and b is a free slot below the highest used index moves the node to b and leaves the graph usable: a later add_node succeeds.", "quantifier": "every reachable graph, node and free slot", "why_tests_cant": "The failure needs the free slot to be the head of the free list and then a later allocation.", "anchors": ["src/portgraph.rs: swap_nodes (update_free_list), alloc_node"]}
{"id": "C17", "title": "Node and port iteration is exact", "statement": "nodes_iter and ports_iter enumerate exactly the indices with contains_node / contains_port, each once, in ascending order, and yield node_count / port_count items; ports(n,dir), all_ports(n), port_offsets enumerate exactly port_index(n,0), port_index(n,1), ... in offset order, inputs before outputs; consuming them from the back yields the reverse.", "quantifier": "every reachable graph and node", "why_tests_cant": "All reachable graphs, and all interleavings of next and next_back.", "anchors": ["src/portgraph/iter.rs: Nodes, Ports, NodePorts, NodePortOffsets"]}
{"id": "C18", "title": "Link and neighbour iteration is exact", "statement": "links(n,dir) lists (p, partner) for exactly the linked ports of n in that direction in offset order; all_links(n) lists every link incident to n exactly once, a self-link only from its outgoing side; neighbours/all_neighbours give the nodes owning the partners in the same order; get_connections(a,b) lists exactly the links from an output of a to an input of b; get_connection and connected agree with it.", "quantifier": "every reachable graph and all nodes", "why_tests_cant": "All reachable graphs incl. self-links and parallel links.", "anchors": ["src/portgraph/iter.rs: NodeLinks, Neighbours, NodeConnections", "src/view.rs: get_connection, connected"]}
{"id": "C19", "title": "Every history refines the abstract port graph", "statement": "Any sequence of API calls returns exactly what an abstract port graph (nodes with ordered lists of ports, plus a symmetric partial matching) allows: each call's visible effect on contains_node, port_index, port_link and the counts is the specified one and nothing else changes.", "quantifier": "every finite history of PortGraph operations (add_node, remove_node, link_ports, unlink_port, set_num_ports, swap_nodes of live nodes, compact_nodes, compact_ports, clear, reserve, shrink_to_fit) from the empty graph, with every choice of arguments", "why_tests_cant": "Quantifies over unbounded call sequences.", "anchors": ["src/portgraph.rs: PortMut, LinkMut, PortView, LinkView for PortGraph"]}
{"id": "C20", "title": "Port-count limits: what is asked is what is made, or a panic", "statement": "For every offset type, add_node(i,o) either panics or creates a node with exactly i inputs and o outputs, and port_count grows by exactly the number of ports created.", "quantifier": "every offset type width and all i, o", "why_tests_cant": "Needs counts beyond 65535, and offset types wider than u16.", "anchors": ["src/portgraph.rs: add_node, alloc_ports, NodeMeta::new", "src/index.rs: PortOffset::max_offset"]}
{"id": "C21", "title": "set_num_ports respects the offset type", "statement": "After a set_num_ports call that does not panic, port_offset of every port of the node returns that port's own direction and offset.", "quantifier": "every reachable graph, all counts accepted by set_num_ports", "why_tests_cant": "Needs more than 32766 ports on a node.", "anchors": ["src/portgraph.rs: set_num_ports, NodeMeta::MAX_INCOMING, port_offset", "src/index.rs: PortOffset"]}
{"id": "C22", "title": "clear, reserve and shrink_to_fit", "statement": "clear gives a graph with no nodes, ports or links that behaves like a new one; reserve and shrink_to_fit change no observable of the graph other than capacities.", "quantifier": "every reachable graph", "why_tests_cant": "All histories before and after.", "anchors": ["src/portgraph.rs: clear, reserve, shrink_to_fit"]}
{"id": "C23", "title": "insert_graph adds a disjoint isomorphic copy", "statement": "insert_graph(other) adds exactly one new node per node of other, with the same port counts, linked exactly as in other (same offsets), returns the bijection old index to new index, and leaves all previously present nodes, ports and links unchanged.", "quantifier": "every pair of reachable graphs", "why_tests_cant": "Links are copied while nodes are being created; must hold for all link structures incl. self links.", "anchors": ["src/view.rs: insert_graph"]}
{"id": "C24", "title": "link_nodes and link_offsets link the requested offsets", "statement": "link_nodes(a,i,b,j) links output i of a with input j of b when both exist and are free, reports UnknownOffset naming the missing offset when one does not exist, and otherwise behaves as link_ports; on error the graph is unchanged.", "quantifier": "every reachable graph, nodes and offsets", "why_tests_cant": "All reachable graphs.", "anchors": ["src/view.rs: link_nodes, link_offsets"]}
{"id": "C25", "title": "Index newtypes are faithful", "statement": "For every base width, index(new(i)) = i for all i up to max_index, distinct values give distinct indices, conversions to and from usize round-trip, and TryFrom rejects exactly the values above max_index.", "quantifier": "every unsigned base width and every usize value", "why_tests_cant": "2^64 values.", "anchors": ["src/index.rs: NodeIndex, PortIndex, BitField, TryFrom<usize>"]}
{"id": "C26", "title": "Index construction panics above the maximum", "statement": "NodeIndex::new(i) and PortIndex::new(i) panic for every i above max_index, as documented.", "quantifier": "every usize value", "why_tests_cant": "The gap between max_index and the base type's maximum is never hit in tests.", "anchors": ["src/index.rs: NodeIndex::new, PortIndex::new"]}
{"id": "C27", "title": "Optional indices never confuse None with a value", "statement": "MaybeNodeIndex/MaybePortIndex round-trip Option: to_option(from(x)) = x for all valid x, None is distinct from every valid index, take leaves None and returns the old value, replace returns the old value.", "quantifier": "every width, every valid index", "why_tests_cant": "All values.", "anchors": ["src/index.rs: MaybeNodeIndex, MaybePortIndex"]}
{"id": "C28", "title": "Port offsets encode direction and position without interference", "statement": "For every direction and every offset up to max_offset, PortOffset::new(dir,i) has direction dir and index i; two offsets are equal iff both components are equal; opposite flips only the direction; ordering is lexicographic as documented by the encoding.", "quantifier": "every width, direction and offset", "why_tests_cant": "All values.", "anchors": ["src/index.rs: PortOffset, BitField"]}
{"id": "C29", "title": "Bit-field setters touch only their part", "statement": "On the packed index-with-flag representation, setting, clearing or flipping the flag leaves the index unchanged, setting the index leaves the flag unchanged, and no sequence of valid settings produces the none value.", "quantifier": "every width, index and sequence of updates", "why_tests_cant": "All values and sequences.", "anchors": ["src/index.rs: BitField"]}
{"id": "C30", "title": "A dense secondary map is a total map with a default", "statement": "For every sequence of set, get, get_mut, take, remove, swap, rekey, ensure_capacity, resize and clone on an UnmanagedDenseMap created with new, get(k) returns the last value moved or written to k, or the default.", "quantifier": "every finite sequence of operations, keys and values", "why_tests_cant": "Growth on demand interacts with every operation order.", "anchors": ["src/unmanaged.rs: UnmanagedDenseMap, SecondaryMap impl"]}
{"id": "C31", "title": "rekey on a map with a custom default", "statement": "On a map created with a custom default value d, rekey(old, None) leaves get(old) = d, and rekey(old, Some(new)) of a never-written key makes get(new) = d.", "quantifier": "every default value and key", "why_tests_cant": "Tests use the type's own default.", "anchors": ["src/unmanaged.rs: rekey, with_default"]}
{"id": "C32", "title": "shrink_to forgets only keys at or above the bound", "statement": "After shrink_to(n), get(k) is unchanged for k below n, and is either unchanged or the default for k at or above n.", "quantifier": "every map, bound, key", "why_tests_cant": "All map contents.", "anchors": ["src/unmanaged.rs: shrink_to"]}
{"id": "C33", "title": "Dense maps: equality means same defaults and same entries", "statement": "Two UnmanagedDenseMaps compare equal only if they return the same value for every key; and maps with the same default holding the same values at all keys compare equal irrespective of their allocated length.", "quantifier": "every pair of maps", "why_tests_cant": "All length combinations.", "anchors": ["src/unmanaged.rs: PartialEq"]}
{"id": "C34", "title": "iter on a dense map lists the non-default entries", "statement": "iter yields every key whose value differs from the default exactly once with its value, in ascending order, and yields only non-default entries.", "quantifier": "every map", "why_tests_cant": "All map contents.", "anchors": ["src/unmanaged.rs: iter", "src/secondary.rs: SecondaryMap::iter"]}
{"id": "C35", "title": "BitVec and HashSet secondary maps agree with a total boolean map", "statement": "For every sequence of set, take, remove, rekey, swap operations, the BitVec and the HashSet implementations return the same values as a total map to bool with default false; their iterators yield exactly the true keys, BitVec's in ascending order.", "quantifier": "every finite sequence of operations", "why_tests_cant": "Sequences of unbounded length.", "anchors": ["src/secondary.rs: impl SecondaryMap for BitVec, impl SecondaryMap for HashSet"]}
{"id": "C36", "title": "Hierarchy keeps parents, children and siblings consistent", "statement": "In every reachable state: c is in the children list of p exactly when parent(c)=p; each node occurs at most once in its parent's list; first, last, next, prev and child_count all describe the same ordered list; nodes without parent have no siblings.", "quantifier": "every finite history of Hierarchy operations (push_child, push_front_child, insert_before, insert_after, detach, detach_children, remove, swap_nodes, rekey, ensure_capacity) from an empty hierarchy, with every choice of arguments", "why_tests_cant": "A doubly linked structure mutated by ten operations.", "anchors": ["src/hierarchy.rs: push_child, push_front_child, insert_before, insert_after, detach, detach_children, remove, parent, first, last, next, prev, child_count"]}
{"id": "C37", "title": "Hierarchy insertions put the node at the right place or change nothing", "statement": "push_child(n,p) appends, push_front_child prepends, insert_before/after(n,s) inserts right next to s under s's parent; all other children lists and the relative order are unchanged. They fail exactly when the node already has a parent, the target is a root (for insert), or a cycle would arise, and then nothing changes.", "quantifier": "every reachable hierarchy and all node arguments", "why_tests_cant": "All reachable hierarchies.", "anchors": ["src/hierarchy.rs: push_child, push_front_child, insert_before, insert_after, AttachError"]}
{"id": "C38", "title": "Hierarchy never becomes cyclic", "statement": "In every reachable state no node is its own ancestor; attaching a node below itself or below one of its descendants is rejected with RelationCycle.", "quantifier": "every finite history of Hierarchy operations (push_child, push_front_child, insert_before, insert_after, detach, detach_children, remove, swap_nodes, rekey, ensure_capacity) from an empty hierarchy, with every choice of arguments", "why_tests_cant": "The check has a fast path; all reachable shapes must be covered.", "anchors": ["src/hierarchy.rs: cycle_check, push_child, push_front_child"]}
{"id": "C39", "title": "detach, detach_children and remove", "statement": "detach(n) makes n a root, returns its old parent and leaves n's own subtree and the order of its former siblings intact; detach_children(n) makes exactly n's children roots; remove(n) does both; everything else is unchanged.", "quantifier": "every reachable hierarchy and node", "why_tests_cant": "All reachable hierarchies.", "anchors": ["src/hierarchy.rs: detach, detach_children, remove"]}
{"id": "C40", "title": "children iterates the exact child list", "statement": "children(n) yields exactly the children of n in order, reports child_count(n) as its exact length at every point, and any interleaving of next and next_back yields each child once.", "quantifier": "every reachable hierarchy, node and interleaving", "why_tests_cant": "All shapes and interleavings.", "anchors": ["src/hierarchy.rs: children, Children"]}
{"id": "C41", "title": "descendants visits the subtree exactly once, breadth first", "statement": "In an acyclic hierarchy descendants(n) terminates and yields n and every descendant of n exactly once, parents before children, level by level, each level in sibling order.", "quantifier": "every acyclic reachable hierarchy and node", "why_tests_cant": "All shapes.", "anchors": ["src/hierarchy.rs: descendants, Descendants"]}
{"id": "C42", "title": "Hierarchy swap_nodes and rekey rename nodes", "statement": "swap_nodes(a,b) exchanges the roles of a and b everywhere (also if related as parent/child or siblings); rekey(old,new) to an unused new gives new the role of old and leaves old detached and childless.", "quantifier": "every reachable hierarchy and pair of indices", "why_tests_cant": "All relative positions of the two nodes.", "anchors": ["src/hierarchy.rs: swap_nodes, rekey"]}
{"id": "C43", "title": "Hierarchy::rekey tolerates unchanged indices", "statement": "hierarchy.rekey can be used as the callback of compact_nodes for every graph: calling it with old == new is a no-op.", "quantifier": "every reachable hierarchy and node", "why_tests_cant": "Needs a non-trivial node that keeps its index.", "anchors": ["src/hierarchy.rs: rekey", "src/portgraph.rs: compact_nodes"]}
{"id": "C44", "title": "Lowest common ancestor queries are right", "statement": "For every forest hierarchy over the nodes of a graph and all nodes a,b: is_ancestor(a,b) holds iff a is b or an ancestor of b; root(a) is the root of a's tree; lca(a,b) is a common ancestor of which every common ancestor is an ancestor, and None iff a and b are in different trees; no query panics or loops.", "quantifier": "every forest and pair of nodes", "why_tests_cant": "Binary lifting correctness needs all depths.", "anchors": ["src/algorithms/lca.rs: LCA::new, is_ancestor, root, lca"]}
{"id": "C45", "title": "Topological order is topological", "statement": "On any PortGraph, for distinct source nodes: toposort yields no node twice; each yielded node that is not a source comes after all nodes with a link into it in the traversal direction, each of which is yielded; every node all of whose (at least one) predecessors are yielded is yielded. On an acyclic graph with all nodes without predecessors as sources every node is yielded exactly once.", "quantifier": "every well-formed graph, both directions, every list of distinct sources", "why_tests_cant": "All graphs.", "anchors": ["src/algorithms/toposort.rs: TopoSort, becomes_ready"]}
{"id": "C46", "title": "Topological order on multigraphs", "statement": "The guarantee of C45 also holds for MultiPortGraph, where a port may carry several links.", "quantifier": "every multigraph", "why_tests_cant": "Needs a multi-linked input whose second predecessor depends on the first.", "anchors": ["src/algorithms/toposort.rs: becomes_ready"]}
{"id": "C47", "title": "Filtered topological order respects the filters", "statement": "toposort_filtered never yields a node reachable only through filtered ports or nodes, and yields every node of an acyclic graph all of whose remaining predecessors are yielded.", "quantifier": "every graph and pair of filters", "why_tests_cant": "Filters on target ports and source ports take different paths in the code.", "anchors": ["src/algorithms/toposort.rs: toposort_filtered, ignore_port, becomes_ready"]}
{"id": "C48", "title": "Post-order traversal is a depth-first post-order", "statement": "postorder(_filtered) yields exactly the nodes reachable from the (unfiltered) sources through unfiltered ports and nodes, each exactly once, in the order of the recursive depth-first post-order in port order; if u has an unfiltered link to v, then v is yielded before u unless v reaches u.", "quantifier": "every well-formed graph, direction, sources and filters", "why_tests_cant": "All graphs incl. cycles and parallel links.", "anchors": ["src/algorithms/post_order.rs: PostOrder"]}
{"id": "C49", "title": "Dominator tree is the immediate-dominator tree", "statement": "For every graph, entry and direction, immediate_dominator(v) is defined exactly for the nodes other than the entry reachable from it, and is the unique strict dominator of v that is dominated by all strict dominators of v (dominance over all paths from the entry).", "quantifier": "every well-formed graph, entry node and filters", "why_tests_cant": "All graphs, including ones with predecessors unreachable from the entry.", "anchors": ["src/algorithms/dominators.rs: DominatorTree::new, intersect"]}
{"id": "C50", "title": "Convexity check by topological order is exact", "statement": "On any acyclic PortGraph, TopoConvexChecker::is_node_convex(S) returns true iff no path between two nodes of S passes through a node outside S; is_convex additionally returns false iff some listed output port is linked to a listed input port.", "quantifier": "every acyclic graph and node set", "why_tests_cant": "All DAGs and subsets.", "anchors": ["src/algorithms/convex/topo_convex_checker.rs"]}
{"id": "C51", "title": "Convexity check by lines is exact and agrees", "statement": "On any acyclic PortGraph and any duplicate-free non-empty S, LineConvexChecker::is_node_convex(S) returns the same answer as the definition in C50, and does not panic.", "quantifier": "every acyclic graph and node set", "why_tests_cant": "All DAGs, all line partitions, all interpolation-search guesses.", "anchors": ["src/algorithms/convex/line_convex_checker.rs"]}
{"id": "C52", "title": "Dynamic convexity checker accepts every acyclic link", "statement": "DynamicTopoConvexChecker::link_ports succeeds whenever the underlying link is possible and keeps the graph acyclic.", "quantifier": "every acyclic graph and pair of ports", "why_tests_cant": "Needs a transitive or parallel edge.", "anchors": ["src/algorithms/dynamic.rs: link_ports, would_create_cycle"]}
{"id": "C53", "title": "Dynamic convexity answers are exact", "statement": "DynamicTopoConvexChecker::is_convex(S, [], []) returns true iff no path between two nodes of S passes outside S.", "quantifier": "every acyclic graph and node set", "why_tests_cant": "All DAGs and subsets.", "anchors": ["src/algorithms/dynamic.rs: is_convex, has_path_outside_subgraph"]}
{"id": "C54", "title": "Multigraph links connect opposite directions and are reported from both ends", "statement": "In every reachable MultiPortGraph, port_links of p lists q exactly as often as port_links of q lists p, always with opposite directions, and the copy nodes used internally are never visible as nodes, ports, or neighbours.", "quantifier": "every finite history of MultiPortGraph operations, with every choice of arguments", "why_tests_cant": "Copy nodes are created and removed by history.", "anchors": ["src/multiportgraph.rs: link_ports, port_links, nodes_iter, ports_iter"]}
{"id": "C55", "title": "Multigraph counts", "statement": "node_count, port_count and link_count of a MultiPortGraph equal the number of visible nodes, visible ports and visible links in every reachable state.", "quantifier": "every finite history of MultiPortGraph operations, with every choice of arguments", "why_tests_cant": "Counts are derived by subtracting internal bookkeeping.", "anchors": ["src/multiportgraph.rs: node_count, port_count, link_count"]}
{"id": "C56", "title": "Multigraph link_ports always adds one link between compatible ports", "statement": "link_ports(a,b) on ports of opposite direction always succeeds, adds exactly one link between a and b, keeps every other link with its endpoints; on the returned subports subport_link gives the partner.", "quantifier": "every reachable multigraph and pair of ports", "why_tests_cant": "All histories of multi-linking.", "anchors": ["src/multiportgraph.rs: link_ports, get_free_multiport, link_ports_directed"]}
{"id": "C57", "title": "Multigraph unlink_port returns the former partner", "statement": "unlink_port(p) removes one link of p and returns the other end of the removed link.", "quantifier": "every reachable multigraph and port", "why_tests_cant": "Return value on multiports.", "anchors": ["src/multiportgraph.rs: unlink_port, remove_copy_node"]}
{"id": "C58", "title": "Multigraph set_num_ports keeps surviving multi-links", "statement": "set_num_ports on a multigraph node keeps all links of the ports that survive, and leaves the graph usable.", "quantifier": "every reachable multigraph, node and counts", "why_tests_cant": "Flags are permuted while ports shift.", "anchors": ["src/multiportgraph.rs: set_num_ports"]}
{"id": "C59", "title": "Filtered views show exactly the filtered graph", "statement": "FilteredGraph: contains_node, nodes_iter, node_count, ports_iter, port_count describe the nodes passing the filter and their ports; links, all_links, port_links, neighbours and get_connections show exactly the links whose two ends lie on passing nodes and pass the link filter.", "quantifier": "every underlying graph and filters", "why_tests_cant": "All graphs and filters.", "anchors": ["src/view/filter.rs"]}
{"id": "C60", "title": "Filtered link_count", "statement": "FilteredGraph::link_count equals the number of visible links.", "quantifier": "every underlying graph and filters", "why_tests_cant": "Needs comparison with an independent count.", "anchors": ["src/view/filter.rs: link_count"]}
{"id": "C61", "title": "Region membership is descendance, whatever was asked before", "statement": "In a Region rooted at r of an acyclic hierarchy, contains_node(n) iff n is a node that is r or a descendant of r; the answer does not depend on which queries were made before.", "quantifier": "every acyclic hierarchy, root and sequence of earlier queries", "why_tests_cant": "The membership cache is filled by arbitrary query sequences.", "anchors": ["src/view/region.rs: is_descendant"]}
{"id": "C62", "title": "Cloning a region keeps its answers under every schedule", "statement": "A clone of a Region gives the same membership answers as the original, no matter what other threads are doing with the original during the clone.", "quantifier": "every interleaving of clone with a concurrent query", "why_tests_cant": "Depends on a lock being held at that instant.", "anchors": ["src/view/region.rs: Clone"]}
{"id": "C63", "title": "Flat region membership", "statement": "FlatRegion contains exactly the root (if included) and its children; nodes_iter lists exactly these, node_count agrees.", "quantifier": "every hierarchy and graph", "why_tests_cant": "All hierarchies.", "anchors": ["src/view/flat_region.rs"]}
{"id": "C64", "title": "Flat region emptiness", "statement": "FlatRegion::is_empty holds exactly when node_count is 0.", "quantifier": "every hierarchy and graph", "why_tests_cant": "Needs a rootless region without children.", "anchors": ["src/view/flat_region.rs: is_empty"]}
{"id": "C65", "title": "Subgraph from a boundary", "statement": "Subgraph::new_subgraph with boundary ports contains exactly the nodes reachable from the boundary without crossing it, and copy_in_parent adds an isomorphic copy or leaves the graph as before.", "quantifier": "every graph and boundary", "why_tests_cant": "All graphs and boundaries.", "anchors": ["src/view/subgraph.rs", "src/boundary.rs: internal_nodes"]}
{"id": "C66", "title": "Boundary port partial order", "statement": "Boundary::port_ordering relates an input to an output exactly when the output is reachable from the input inside the boundary, and is_stronger_than compares these relations.", "quantifier": "every acyclic graph and boundary", "why_tests_cant": "All graphs.", "anchors": ["src/boundary.rs: port_ordering, is_stronger_than, missing_pairs"]}
{"id": "C67", "title": "Secondary maps stay in sync through compaction", "statement": "Replaying the callbacks of compact_nodes / compact_ports on a side table with rekey leaves each surviving key's value at its new index.", "quantifier": "every reachable graph and side table", "why_tests_cant": "Callback order matters for all gap patterns.", "anchors": ["src/portgraph.rs: compact_nodes, compact_ports", "src/secondary.rs: rekey"]}
{"id": "C68", "title": "Hierarchy operations terminate and only rekey panics", "statement": "In every reachable hierarchy every operation returns; the only panic is rekey onto an index that has a parent or children.", "quantifier": "every reachable hierarchy and operation with all arguments", "why_tests_cant": "Termination of the cycle check, of detach_children and of the rekeying loops depends on the shape of all reachable linked structures.", "anchors": ["src/hierarchy.rs: cycle_check, detach, detach_children, rekey, rekey_in_children, swap_nodes, shrink_to"]}
{"id": "C69", "title": "Topological sort size hints are sound", "statement": "On any PortGraph, for distinct source nodes of the graph, after any number of next calls TopoSort::size_hint does not underflow and brackets the number of nodes still to be yielded.", "quantifier": "every well-formed graph, both directions, every list of distinct sources, after every number of calls", "why_tests_cant": "All graphs and all intermediate iterator states.", "anchors": ["src/algorithms/toposort.rs: TopoSort::size_hint"]}
{"id": "C70", "title": "Post-order size hints are sound", "statement": "For source nodes of the graph, after any number of next calls PostOrder::size_hint does not underflow and its upper bound is at least the number of nodes still to be yielded.", "quantifier": "every well-formed graph, direction, sources and filters, after every number of calls", "why_tests_cant": "All graphs and all intermediate iterator states.", "anchors": ["src/algorithms/post_order.rs: PostOrder::size_hint"]}
{"id": "C71", "title": "The dynamic checker keeps a topological order", "statement": "After every sequence of add_node, remove_node, link_ports and unlink_port calls on a DynamicTopoConvexChecker built from an acyclic graph, the order it keeps is a topological order of its graph; remove_node on a node and unlink_port do not panic.", "quantifier": "every acyclic start graph and every sequence of calls", "why_tests_cant": "The order depends on the whole history of links.", "anchors": ["src/algorithms/dynamic.rs: update_order, add_node, remove_node, link_ports, unlink_port"]}
{"id": "C72", "title": "Failing multigraph links change nothing", "statement": "MultiPortGraph::link_ports with a port that is not in the multigraph, or with two ports of the same direction, returns an error and leaves nodes, ports, subports and links as they were.", "quantifier": "every reachable multigraph and every pair of ports", "why_tests_cant": "The copy nodes take port indices out of the same range, depending on the whole history.", "anchors": ["src/multiportgraph.rs: link_ports, get_free_multiport"]}
{"id": "C73", "title": "Multigraph iterators agree with the links", "statement": "In a reachable MultiPortGraph links(n, d) is the concatenation of port_links over the ports of n, all_links omits links that end in an output of n, neighbours and all_neighbours give the nodes at the other ends in the same order, get_connections lists each link between two nodes once, and the subports of a port are numbered from 0 with subport_link giving the partner.", "quantifier": "every reachable multigraph, node and port", "why_tests_cant": "All histories of links and all distributions over subports.", "anchors": ["src/multiportgraph.rs: links, all_links, neighbours, get_connections, subports, subport_link", "src/multiportgraph/iter.rs"]}
{"id": "C74", "title": "Adding and removing multigraph nodes", "statement": "MultiPortGraph::add_node adds one node with the given ports and no links; remove_node removes one node with its ports and exactly the links at these; all else is kept.", "quantifier": "every reachable multigraph", "why_tests_cant": "remove_node has to clean up copy nodes at both ends.", "anchors": ["src/multiportgraph.rs: add_node, remove_node, free_multiport"]}
{"id": "C75", "title": "Renumbering a multigraph", "statement": "MultiPortGraph::swap_nodes exchanges two nodes; compact_nodes and compact_ports renumber nodes and ports as the callback is told, injectively onto 0..k; links and all else are kept.", "quantifier": "every reachable multigraph", "why_tests_cant": "The copy flags and multiport flags must follow each single move.", "anchors": ["src/multiportgraph.rs: swap_nodes, compact_nodes, compact_ports"]}
{"id": "C76", "title": "Linking and unlinking subports", "statement": "link_subports on two subports of opposite direction without links adds exactly that link, and otherwise returns an error and changes nothing; unlink_subport removes exactly the link of the subport and returns its partner. Neither panics on subports of the multigraph.", "quantifier": "every reachable multigraph and all its subports", "why_tests_cant": "All histories and all subports.", "anchors": ["src/multiportgraph.rs: link_subports, unlink_subport"]}
{"id": "C77", "title": "Subports of filtered graphs", "statement": "FilteredGraph::subports and all_subports list the subports of a visible node, and subport_link yields the other end of a link exactly if links shows that link.", "quantifier": "every underlying multigraph view and filters", "why_tests_cant": "All graphs and filters.", "anchors": ["src/view/filter.rs: MultiView for FilteredGraph"]}
{"id": "C78", "title": "Flat regions, regions and subgraphs show the induced graph", "statement": "If the members of a FlatRegion, Region or Subgraph are nodes of the graph, then its ports are the ports of the members, links, all_links, port_links, neighbours, all_neighbours, get_connections and subport_link show exactly the links between members, and link_count counts them.", "quantifier": "every underlying graph view, hierarchy and root, and every set of nodes", "why_tests_cant": "All graphs, hierarchies and node sets.", "anchors": ["src/view/flat_region.rs", "src/view/region.rs", "src/view/subgraph.rs"]}
{"id": "C79", "title": "Dynamic convexity with a boundary", "statement": "If ins and outs are the incoming and outgoing ports of S that are linked to nodes outside S, then DynamicTopoConvexChecker::is_convex(S, ins, outs) returns true iff no path between two nodes of S passes outside S.", "quantifier": "every acyclic graph and node set", "why_tests_cant": "All DAGs and subsets.", "anchors": ["src/algorithms/dynamic.rs: is_convex, can_reach_inputs"]}
{"id": "C80", "title": "Boundary of a node set", "statement": "Subgraph::with_nodes on valid nodes yields a subgraph with exactly these nodes whose boundary inputs (outputs) are the incoming (outgoing) ports of these nodes that have a link to a node outside the set, ordered by the given node order and then by port offset.", "quantifier": "every graph or view and list of its nodes", "why_tests_cant": "All graphs and subsets.", "anchors": ["src/view/subgraph.rs: with_nodes"]}
{"id": "C81", "title": "Convexity of a subgraph", "statement": "On an acyclic graph Subgraph::is_convex returns true iff no path between two nodes of the subgraph passes outside it and no boundary output is linked to a boundary input; for a subgraph made by with_nodes the second condition always holds.", "quantifier": "every acyclic graph, node set and boundary of ports of these nodes", "why_tests_cant": "All DAGs and subsets.", "anchors": ["src/view/subgraph.rs: is_convex, is_convex_with_checker"]}
{"id": "C82", "title": "Boundary ports and their indices", "statement": "Boundary::from_ports splits valid ports by direction, keeping their order; on a boundary without duplicate ports find_port and port_index are inverse to each other and ports(d) lists exactly the valid boundary ports of direction d; is_compatible holds iff both boundaries have the same boundary ports.", "quantifier": "every graph and list of ports", "why_tests_cant": "All boundaries.", "anchors": ["src/boundary.rs: from_ports, find_port, port_index, ports, is_compatible"]}
{"id": "C83", "title": "Line intervals of a set of nodes", "statement": "On an acyclic graph LineConvexChecker::get_intervals_from_nodes on distinct nodes returns intervals iff the nodes are consecutive on every line (which holds if they are convex); each interval then is from the first to the last position of the nodes on its line, and nodes_in_intervals gives back exactly these nodes, each once, ordered by position and then by index.", "quantifier": "every acyclic graph and list of distinct nodes", "why_tests_cant": "All DAGs and subsets.", "anchors": ["src/algorithms/convex/line_convex_checker.rs: get_intervals_from_nodes, nodes_in_intervals"]}
{"id": "C84", "title": "Extending line intervals", "statement": "On an acyclic graph, given the intervals of a set of nodes, LineConvexChecker::try_extend_intervals with a further node returns true iff the extended set is still consecutive on every line, and then the intervals are those of the extended set; if it returns false the intervals are unchanged.", "quantifier": "every acyclic graph, set of nodes with intervals, and node", "why_tests_cant": "All DAGs, subsets and nodes.", "anchors": ["src/algorithms/convex/line_convex_checker.rs: try_extend_intervals"]}
{"id": "C85", "title": "Lines at a port", "statement": "On an acyclic graph every link lies on exactly one line of the LineConvexChecker: lines_at_port gives the same single line at both of its ports, the line contains both nodes and no node between them; unlinked ports have no line, and ports on the same side of a node have different lines.", "quantifier": "every acyclic graph and port", "why_tests_cant": "All DAGs.", "anchors": ["src/algorithms/convex/line_convex_checker.rs: new, extend, lines_at_port"]}
{"id": "C86", "title": "Topological sort of a view", "statement": "On every graph view (multigraph, filtered graph, region, flat region, subgraph), for distinct visible sources, toposort ends without a panic and yields the sources and then other visible nodes, each once; every linked port against the direction of a yielded non-source has a link from a node yielded before, hence all predecessors come before if the links of each such port lead to one node; a node with predecessors, all yielded, is yielded; on an acyclic view with all nodes without predecessors among the sources exactly the visible nodes are yielded.", "quantifier": "every view, direction and list of distinct visible sources", "why_tests_cant": "All views of all graphs.", "anchors": ["src/algorithms/toposort.rs: toposort, TopoSort::next", "src/view.rs: LinkView"]}
{"id": "C87", "title": "Convexity checking on a view", "statement": "On every acyclic graph view (multigraph, filtered graph, region, flat region, subgraph) TopoConvexChecker::new and LineConvexChecker::new succeed, is_node_convex(S) is true iff no path of the view between two nodes of S passes through a visible node outside S, and is_convex(S, inputs, outputs) iff moreover no listed output is linked to a listed input.", "quantifier": "every acyclic view and set of visible nodes", "why_tests_cant": "All views of all graphs and all subsets.", "anchors": ["src/algorithms/convex/topo_convex_checker.rs: new, is_node_convex, is_convex", "src/algorithms/convex/line_convex_checker.rs: new, is_node_convex, is_convex"]}
{"id": "C88", "title": "Link iterators from both ends", "statement": "In a PortGraph the iterators of links, all_links, neighbours, all_neighbours and get_connections can be consumed from both ends: any interleaving of next and next_back yields the items of the list from the respective ends, an exhausted iterator keeps answering None, and size_hint brackets the number of items left.", "quantifier": "every history, node, direction and interleaving of next and next_back", "why_tests_cant": "All graphs and all interleavings.", "anchors": ["src/portgraph/iter.rs: NodeLinks, Neighbours, NodeConnections"]}
{"id": "C89", "title": "Multigraph iterators, step by step", "statement": "In a MultiPortGraph next on the iterators of nodes_iter, ports_iter, port_links, links, all_links, neighbours, all_neighbours, subports, all_subports and get_connections ends and yields the items of the list in order and then None for ever; nodes_iter, ports_iter and port_links yield them from both ends in any interleaving; size_hint brackets the number of items left at every point.", "quantifier": "every history, node, port, direction and interleaving of next and next_back", "why_tests_cant": "All multigraphs and all interleavings.", "anchors": ["src/multiportgraph/iter.rs: Nodes, Ports, PortLinks, NodeSubports, Neighbours, NodeLinks, NodeConnections"]}
{"id": "C90", "title": "Sources added to a running topological sort", "statement": "On a PortGraph, for any sources and any program of next and TopoSort::add_sources calls: nothing panics; no node is yielded twice, in particular no node already yielded is returned again; every yielded node that was never a source comes after the ends of its accepted incoming links; and once the iterator is exhausted every accepted source and every node made ready by yielded nodes was yielded.", "quantifier": "every well-formed graph, both directions, all filters, every list of sources and every program of calls", "why_tests_cant": "All graphs and all interleavings of calls.", "anchors": ["src/algorithms/toposort.rs: TopoSort::add_sources, next"]}
{"id": "C91", "title": "Remaining ports reveal cycles", "statement": "When a TopoSort over a PortGraph is exhausted, ports_remaining contains a port of a node exactly when the node has ports and was not yielded. If all nodes without predecessors were given as sources and a port remains, the graph has a cycle; if only nodes without predecessors were given as sources and no port remains, it has none.", "quantifier": "every well-formed graph, both directions, every list of distinct sources and every program of next and add_sources calls that exhausts the iterator", "why_tests_cant": "All graphs.", "anchors": ["src/algorithms/toposort.rs: TopoSort::ports_remaining"]}
{"id": "C92", "title": "The plain graph inside a multigraph", "statement": "In the graph returned by MultiPortGraph::as_portgraph, pg_main_node of a node of the multigraph is the node itself; pg_main_node of any other node (a copy node) is a node of the multigraph, to one of whose ports the only port on one side of the copy node is linked, with two or more ports on the other side. All other links of the plain graph correspond one to one to the links of the multigraph, between the nodes with these main nodes.", "quantifier": "every history of a MultiPortGraph", "why_tests_cant": "All multigraphs.", "anchors": ["src/multiportgraph.rs: as_portgraph, pg_main_node, copy_node_main_port"]}
{"id": "C93", "title": "Shorthand queries on views", "statement": "On every graph and view get_connection is the first of get_connections, connected tells whether some output of the one node is linked to the other node, and port_link is the far end of the first of port_links and None exactly if the port has no link.", "quantifier": "every view, node and port", "why_tests_cant": "All graphs and stacks of views.", "anchors": ["src/view.rs: LinkView::get_connection, connected, port_link"]}
{"id": "C94", "title": "Weights follow their nodes and ports", "statement": "A client keeps a Weights beside a PortGraph and passes set_num_ports, compact_nodes and compact_ports the callbacks of the documentation (swap, or rekey). No callback panics, and after any number of calls the weight of a node or port is the one last written to it, wherever the calls have moved it.", "quantifier": "every history of calls and writes, both kinds of callback, every type of weights", "why_tests_cant": "Unbounded histories; only short ones can be sampled.", "anchors": ["src/weights.rs: Weights", "src/unmanaged.rs: swap, rekey", "src/portgraph.rs: set_num_ports, compact_nodes, compact_ports, swap_nodes"]}
{"id": "C95", "title": "Unset weights are the default", "statement": "With the documented callback, a port that was never given a weight has the default weight: a new port does not inherit the weight of a port that no longer exists.", "quantifier": "every history of calls and writes", "why_tests_cant": "Needs particular index reuse.", "anchors": ["src/weights.rs: documentation of the module"]}
{"id": "C96", "title": "Shrinking the weights", "statement": "After remove_node, weights.nodes.shrink_to(graph.node_count()) and weights.ports.shrink_to(graph.port_count()) (as in the documentation) keep the weight of every remaining node and port.", "quantifier": "every history of calls and writes", "why_tests_cant": "All graphs and removals.", "anchors": ["src/weights.rs: documentation of the module", "src/unmanaged.rs: shrink_to"]}
{"id": "C97", "title": "Weights beside a multigraph", "statement": "The client of C94 on a MultiPortGraph: no callback panics, and every call leaves the weight of every node and port of the multigraph with it, although the callbacks also report copy nodes and their ports.", "quantifier": "every history of a MultiPortGraph, both kinds of callback", "why_tests_cant": "All multigraphs.", "anchors": ["src/weights.rs: Weights", "src/multiportgraph.rs: set_num_ports, compact_nodes, compact_ports, swap_nodes"]}
{"id": "C98", "title": "Inserting a view into a PortGraph", "statement": "insert_graph(other) of a PortGraph, where other is any graph or view (subgraph, region, filtered graph, multigraph), returns. If every port of other has at most one link, it succeeds: the returned map takes the nodes of other to distinct new nodes with as many ports of each direction, and exactly the links of other are copied to the corresponding ports. Otherwise it fails with AlreadyLinked. Nodes, ports and links that the graph had are kept in both cases.", "quantifier": "every history of a PortGraph, every view that behaves like a graph and whose size fits", "why_tests_cant": "All graphs and all views.", "anchors": ["src/view.rs: LinkMut::insert_graph, link_offsets", "src/portgraph.rs: add_node, link_ports"]}
{"id": "C99", "title": "Inserting a view into a MultiPortGraph", "statement": "insert_graph(other) of a MultiPortGraph, where other is any graph or view, also one with several links per port, succeeds within the index and offset bounds: distinct new nodes with as many ports, one new link per link of other between the corresponding ports, and nothing else of the graph changes.", "quantifier": "every history of a MultiPortGraph, every view that behaves like a graph and whose size fits", "why_tests_cant": "All multigraphs and all views.", "anchors": ["src/view.rs: LinkMut::insert_graph, link_offsets", "src/multiportgraph.rs: add_node, link_ports, get_free_multiport"]}
{"id": "C100", "title": "Copying a part of a MultiPortGraph in place", "statement": "copy_in_parent of a Subgraph of a MultiPortGraph succeeds within the index and offset bounds, in whatever order its hash map is iterated over. The returned map takes the nodes of the subgraph to distinct new nodes with as many ports of each direction. Every link with an end at one of these nodes is copied exactly once: ends at the nodes move to the corresponding new ports, other ends stay at their port. Nothing else of the graph changes.", "quantifier": "every history of a MultiPortGraph, every set of its nodes, every iteration order", "why_tests_cant": "All multigraphs, node sets and hash map orders.", "anchors": ["src/view/subgraph.rs: copy_in_parent", "src/multiportgraph.rs: add_node, all_links, link_ports, get_free_multiport"]}
{"id": "C101", "title": "Renumbering under the dynamic checker", "statement": "Every mutating call that a DynamicTopoConvexChecker passes on to its graph (set_num_ports, swap_nodes, compact_nodes, compact_ports, clear) leaves it with a topological order of the graph.", "quantifier": "every history of the checker and every such call", "why_tests_cant": "All histories; the tests only add nodes and links.", "anchors": ["src/algorithms/dynamic.rs: PortMut for DynamicTopoConvexChecker, link_ports, is_convex"]}
{"id": "C102", "title": "Line intervals on graph views", "statement": "On every graph view for which LineConvexChecker::new succeeds, get_intervals_from_nodes, nodes_in_intervals and try_extend_intervals behave as on a PortGraph (C83, C84): the intervals are exactly those of the node set, they exist iff the set is consecutive on every line among the visible nodes, they give back the set, and extending by a node succeeds iff the larger set is consecutive.", "quantifier": "every acyclic view in which the links of each input port come from one node, every set of visible nodes", "why_tests_cant": "All views and node sets.", "anchors": ["src/algorithms/convex/line_convex_checker.rs: get_intervals_from_nodes, nodes_in_intervals, try_extend_intervals"]}
{"id": "C103", "title": "Convexity from line intervals", "statement": "is_convex_by_intervals gives the exact answer for the intervals of any non-empty set of nodes that is consecutive on every line, however these intervals were obtained.", "quantifier": "every acyclic view in which the links of each input port come from one node, every node set, every order of the lines", "why_tests_cant": "All views, node sets and ways to build the intervals.", "anchors": ["src/algorithms/convex/line_convex_checker.rs: is_convex_by_intervals, try_extend_intervals"]}
{"id": "C104", "title": "Line intervals of a boundary", "statement": "get_intervals_from_boundary and get_intervals_from_boundary_ports return the intervals of the nodes of the subgraph with that boundary if these are consecutive on every line, and None otherwise, without a panic.", "quantifier": "every acyclic graph for which the checker can be built and every boundary of its ports", "why_tests_cant": "All graphs and boundaries; tests use graphs with one link per port.", "anchors": ["src/algorithms/convex/line_convex_checker.rs: get_intervals_from_boundary, get_intervals_from_boundary_ports", "src/boundary.rs: internal_nodes"]}
{"id": "C105", "title": "petgraph: nodes, counts and neighbours", "statement": "node_identifiers and node_references yield every node of the graph or view once and node_count is their number; edge_count is the number of links; neighbors and neighbors_directed yield the node at the other end of each link at the ports of the node in that direction, once per link.", "quantifier": "every PortGraph, MultiPortGraph and view, every node and direction", "why_tests_cant": "All graphs, links and filters; tests use a handful of nodes.", "anchors": ["src/view/petgraph.rs: impl_petgraph_traits"]}
{"id": "C106", "title": "petgraph: edge_references", "statement": "edge_references yields each edge of the directed graph exactly once, from its source to its target, and its len is the number of edges it yields.", "quantifier": "every PortGraph, MultiPortGraph and view", "why_tests_cant": "All graphs and ports; a test comparing only the length or only the set of unordered pairs does not notice reversed duplicates.", "anchors": ["src/view/petgraph.rs: EdgeRefs"]}
{"id": "C107", "title": "petgraph: edges and edges_directed", "statement": "edges(n) yields the edges out of n, each with n as its source; edges_directed(n, Outgoing) the same, and edges_directed(n, Incoming) the edges into n with n as their target.", "quantifier": "every PortGraph, MultiPortGraph and view, every node", "why_tests_cant": "All graphs and nodes; tests on sources without incoming links do not notice.", "anchors": ["src/view/petgraph.rs: NodeEdgeRefs, IntoEdges, IntoEdgesDirected"]}
{"id": "C108", "title": "petgraph: visit map", "statement": "On the visit map of a graph, visit marks the node and returns true iff this is the first visit since creation, reset or unvisit; is_visited tells whether the node is marked; unvisit removes the mark and returns whether there was one.", "quantifier": "every sequence of visit, unvisit and reset_map calls on any nodes", "why_tests_cant": "All call sequences; a short test may only look at is_visited.", "anchors": ["src/view/petgraph.rs: VisitMap for BitVec, Visitable"]}
{"id": "C109", "title": "petgraph: node_bound", "statement": "Every node index is below node_bound, and from_index inverts to_index.", "quantifier": "every PortGraph, MultiPortGraph and view", "why_tests_cant": "All histories with removals and all views; tests use graphs without gaps in the indices.", "anchors": ["src/view/petgraph.rs: NodeIndexable"]}
{"id": "C110", "title": "petgraph: adjacency matrix", "statement": "adjacency_matrix does not panic, and is_adjacent(matrix, a, b) holds iff a link leads from node a to node b.", "quantifier": "every PortGraph, MultiPortGraph and view, every pair of nodes", "why_tests_cant": "All graphs, with gaps in the indices, and all pairs of nodes.", "anchors": ["src/view/petgraph.rs: impl_visit_dense, impl_visit_sparse"]}
{"id": "C111", "title": "dot output: nodes, ports and edges", "statement": "DotFormat::dot_string writes exactly one node statement per node that is not hidden, whose table has one cell per port that is not hidden, and exactly one edge statement per link between nodes that are not hidden, naming the node and port offset of both ends; hidden nodes are ignored and no edges are connected to them.", "quantifier": "every graph and view, every choice of node, port and edge styles", "why_tests_cant": "All graphs and all style functions; the repository's tests compare a few fixed strings.", "anchors": ["src/render/dot.rs", "src/render.rs: NodeStyle, PortStyle"]}
{"id": "C112", "title": "dot output: hierarchy", "statement": "With a hierarchy, the output also has one hierarchy node per visible node and one hierarchy edge for each visible child of a visible node, with children in their order, and nothing else changes.", "quantifier": "every graph and view, every hierarchy", "why_tests_cant": "All hierarchies, also those with nodes that are not visible.", "anchors": ["src/render/dot.rs: get_hier_strings"]}
{"id": "C113", "title": "labels and edge styles", "statement": "encode_label gives the id for an empty label and otherwise a quoted text without double quotes or line feeds inside; strip_label leaves no label and with_label keeps the style; as_mermaid_str and as_dot_str return for every style, however deep the labels are nested, and do not reach unreachable!.", "quantifier": "every label text and every nesting of edge styles", "why_tests_cant": "All strings and nestings.", "anchors": ["src/render.rs: EdgeStyle", "src/render/mermaid.rs: encode_label"]}
{"id": "C114", "title": "lowest common ancestors on views", "statement": "lca(view, hierarchy) returns, and for all nodes of the view is_ancestor, root and lca answer according to the hierarchy.", "quantifier": "every view, also regions and filtered graphs that do not contain the root of the hierarchy; every hierarchy", "why_tests_cant": "All views; tests use whole graphs only.", "anchors": ["src/algorithms/lca.rs"]}
{"id": "C115", "title": "mermaid output: nodes, blocks and links", "statement": "mermaid_format writes every node of the graph exactly once, as a subgraph block if it has children in the hierarchy and otherwise as a leaf, inside the blocks of its ancestors that are in the graph; blocks match and are indented by their depth; every link is written exactly once, between the nodes of its ends.", "quantifier": "every graph and view, with or without a hierarchy, and every iteration order of the HashMap of delayed edges", "why_tests_cant": "All graphs, hierarchies and views; the repository compares a few snapshots.", "anchors": ["src/render/mermaid.rs: explore_forest"]}
{"id": "C116", "title": "mermaid output: place of the links", "statement": "Each link is written in the innermost block that contains both of its nodes (delayed until we are in a region that is the parent of both).", "quantifier": "every graph and view with every hierarchy", "why_tests_cant": "All hierarchies and pairs of nodes; no test looks at links that cross several levels on a view.", "anchors": ["src/render/mermaid.rs: explore_forest", "src/algorithms/lca.rs"]}
{"id": "C117", "title": "mermaid output: lines", "statement": "The text is the header line followed by the lines of the items written, indented by four spaces per level; no label can break a line, whatever its characters.", "quantifier": "every sequence of items, every label and style whose attributes and custom arrows have no line feeds", "why_tests_cant": "All strings.", "anchors": ["src/render/mermaid.rs: MermaidBuilder, encode_label, encode_presentation_attrs", "src/render.rs"]}
{"id": "C118", "title": "Serialization round trip", "statement": "Serializing and deserializing gives back the same value: indices, optional indices, port offsets, subport indices, graphs, multigraphs, hierarchies, dense maps and weights; whether the format writes structs as objects or as arrays, and whatever the order of the members of objects.", "quantifier": "every value; graphs and multigraphs with every history, including free nodes and free ports; every index width", "why_tests_cant": "The tests serialize random small graphs that were only built, never those with removed nodes and ports, and never reorder members.", "anchors": ["src/index.rs: Serialize, Deserialize", "src/portgraph.rs: PortGraph, NodeEntry, PortEntry, NodeMeta, PortMeta", "src/multiportgraph.rs: MultiPortGraph, SubportIndex", "src/hierarchy.rs: Hierarchy, NodeData", "src/unmanaged.rs: UnmanagedDenseMap", "src/weights.rs: Weights"]}
{"id": "C119", "title": "Deserialization reports errors", "statement": "Deserializing a document that does not hold a value of the type returns an error of the format; it never panics, and never reads a number as a different index.", "quantifier": "every document", "why_tests_cant": "All documents; the tests only read back what they wrote.", "anchors": ["src/index.rs: Deserialize", "src/index.rs: BitField::new"]}
{"id": "C120", "title": "Deserialized graphs are usable", "statement": "A graph accepted by deserialization satisfies the invariants of the graphs made by calls, so that no operation on it panics.", "quantifier": "every document accepted", "why_tests_cant": "All documents.", "anchors": ["src/portgraph.rs: Deserialize for PortGraph"]}
{"id": "C121", "title": "Generated test graphs", "statement": "gen_portgraph and gen_multiportgraph never panic, and return exactly the graph of the edges that were picked: one node per node of the edges, as many ports as the largest offset used requires, one link per edge at the ports it names, and a single node when there are no edges. Node, port and link counts are within the requested sizes. gen_node_index picks nodes of the graph, and can pick each of them.", "quantifier": "every choice of edges within the requested sizes, every iteration order of the hash sets", "why_tests_cant": "The generator feeds the other property tests; its own tests only compare the counts on random graphs with ten nodes and do not relate the graph to the edges.", "anchors": ["src/proptest.rs: gen_portgraph", "src/proptest.rs: gen_multiportgraph", "src/proptest.rs: graph_from_edges", "src/proptest.rs: gen_node_index"]}
{"id": "C122", "title": "Graphviz text", "statement": "The text returned by dot_string and DotFormatter::finish has one line per statement between its first and its last line and determines the drawing: two graphs with the same text have the same nodes with the same labels and attributes, the same ports with the same texts and borders, and the same edges with the same styles. In particular a label only changes the text shown and cannot add nodes or edges.", "quantifier": "every graph, view and hierarchy, every choice of labels, attributes and styles", "why_tests_cant": "The tests compare the text of a few graphs with numbers as labels; that the text is unambiguous is a statement about pairs of texts of any length.", "anchors": ["src/render/dot.rs: DotFormatter::finish", "src/render/dot.rs: node_and_edge_strings", "src/render/dot.rs: get_ports_row_dot", "src/render/dot.rs: get_edge_dot", "src/render/dot.rs: hierarchy_strings", "src/render/dot.rs: encode_presentation_attrs"]}
{"id": "C123", "title": "Members of serialized graphs", "statement": "Reading a PortGraph or MultiPortGraph from an object depends only on the members named like its fields: unknown members are skipped. A missing first free node is read as no free node, since optional indices are read as options. An object with any other field missing, or with a field given twice, is never read as a graph.", "quantifier": "every object, with any members in any order", "why_tests_cant": "Round trip tests only read documents that the library has written, with exactly the members it writes.", "anchors": ["src/portgraph.rs: PortGraph", "src/multiportgraph.rs: MultiPortGraph", "src/index.rs: MaybeNodeIndex"]}
{"id": "C124", "title": "Debug output of graphs", "statement": "Formatting a PortGraph with {:?} never panics. Two graphs have the same text if and only if no query tells them apart: the same nodes with the same ports in the same order, the same owners, directions and links of ports, the same counts. What was freed before, and in which order, does not show.", "quantifier": "every pair of graphs with any histories and offset types", "why_tests_cant": "The only test compares the text of one graph; that the text is unambiguous, and that ranges of ports up to the largest index can be printed, is a statement about all graphs.", "anchors": ["src/portgraph.rs: impl Debug for PortGraph", "src/portgraph.rs: debug::NodeDebug", "src/portgraph.rs: debug::PortRangeDebug", "src/portgraph.rs: debug::PortDebug"]}
{"id": "C125", "title": "Debug output of indices", "statement": "The {:?} text of a NodeIndex, PortIndex, PortOffset, SubportIndex and of optional indices consists of the kind or direction and the numbers it was made from, formatting never panics, and different values have different texts.", "quantifier": "every base type and every valid index, offset and subport", "why_tests_cant": "Tests format a few values; the packed representation differs from the number shown for half of all values.", "anchors": ["src/index.rs: impl Debug for NodeIndex", "src/index.rs: impl Debug for MaybeNodeIndex", "src/index.rs: impl Debug for PortOffset", "src/multiportgraph.rs: impl Debug for SubportIndex"]}
{"id": "C126", "title": "Equality of graphs", "statement": "== on PortGraph is an equivalence; graphs that compare equal answer every query alike and stay equal under the same further calls; graphs that no query tells apart compare equal.", "quantifier": "every pair of graphs with the same offset type and any histories", "why_tests_cant": "Tests compare a graph with its clone or its deserialized copy; whether the comparison depends on what was freed earlier takes pairs of different histories that lead to the same graph.", "anchors": ["src/portgraph.rs: PortGraph (derived PartialEq)", "src/portgraph.rs: compact_nodes", "src/portgraph.rs: compact_ports"]}
{"id": "C127", "title": "Equality of hierarchies and regions", "statement": "== on Hierarchy holds exactly if parent, first, last, next, prev and child_count agree on every node, whatever storage is allocated; without a childless root pushed below itself, exactly if every node has the same children in the same order, and then the same further calls return the same and leave equal hierarchies. == on Region holds exactly if root, graph and hierarchy are equal, whatever was asked before, and equal regions list and contain the same nodes.", "quantifier": "every pair of hierarchies with any histories, every pair of regions with any earlier queries", "why_tests_cant": "No test compares hierarchies with different storage or regions with different caches; whether earlier calls leave a trace takes all pairs of histories.", "anchors": ["src/hierarchy.rs: Hierarchy, NodeData (derived PartialEq)", "src/unmanaged.rs: impl PartialEq for UnmanagedDenseMap", "src/view/region.rs: impl PartialEq for Region"]}
{"id": "C128", "title": "Equality of multigraphs", "statement": "== on MultiPortGraph is an equivalence; multigraphs that compare equal answer every query alike and the same further calls do the same on both; multigraphs that no query tells apart compare equal, at least if nothing was ever removed.", "quantifier": "every pair of multigraphs with the same offset type and any histories", "why_tests_cant": "Tests compare a multigraph with its clone or deserialized copy; the hidden copy nodes of a multigraph are numbered in the order in which ports get their second link, which only pairs of different histories show.", "anchors": ["src/multiportgraph.rs: MultiPortGraph (derived PartialEq)", "src/multiportgraph.rs: get_copy_node"]}
{"id": "C129", "title": "Error texts", "statement": "The Display text of a LinkError, AttachError, DynamicTopoSortError, CopySubgraphError or IndexError can always be produced and identifies the error: different errors of a type have different texts. try_from fails exactly for numbers above the maximum index, and the text of its error names the number.", "quantifier": "every error with any valid indices, every offset type, every number", "why_tests_cant": "Tests compare error values, not texts; the Python interface only passes the text on.", "anchors": ["src/portgraph.rs: LinkError", "src/hierarchy.rs: AttachError", "src/algorithms/dynamic.rs: DynamicTopoSortError", "src/view/subgraph.rs: CopySubgraphError", "src/index.rs: IndexError"]}
{"id": "C130", "title": "The text of a mermaid chart determines the drawing", "statement": "Two mermaid texts that are equal draw the same leaves, blocks and links in the same order, with the same labels and attributes.", "quantifier": "every list of nodes, blocks and links, every node style and edge style, any two charts", "why_tests_cant": "The tests compare the text of a few graphs with snapshots; two different charts with the same text cannot show up in them.", "anchors": ["src/render/mermaid.rs: MermaidBuilder", "src/render/mermaid.rs: encode_label", "src/render/mermaid.rs: encode_presentation_attrs", "src/render.rs: EdgeStyle::as_mermaid_str"]}
{"id": "C131", "title": "Port capacity of a node", "statement": "A node never has more ports than node_port_capacity. Changes to its number of ports do not reallocate until the number exceeds this capacity: set_num_ports with a total of at most the capacity keeps the capacity, the first port index and all port indices within the same slab.", "quantifier": "every reachable graph, node and requested numbers of ports", "why_tests_cant": "The tests resize nodes to totals well below or above the capacity and compare port counts, not indices.", "anchors": ["src/view.rs: PortView::node_port_capacity", "src/portgraph.rs: set_num_ports", "src/portgraph.rs: resize_ports_inplace"]}
{"id": "C132", "title": "Node and port capacity", "statement": "node_capacity and port_capacity are above every index in use and at least the counts. After reserve(nodes, ports), or in a graph made by with_capacity, calls that add at most that many nodes and ports do not change the capacities. The capacities reported by multigraphs and views do not underflow and are at least their counts.", "quantifier": "every allocator, every history of calls, any numbers of nodes and ports", "why_tests_cant": "Tests see one allocator and a few capacities.", "anchors": ["src/portgraph.rs: with_capacity", "src/portgraph.rs: reserve", "src/multiportgraph.rs: node_capacity", "src/multiportgraph.rs: port_capacity", "src/view/region.rs: node_capacity"]}
{"id": "C133", "title": "Capacity of secondary maps", "statement": "ensure_capacity(c) makes the capacity of a secondary map at least c without changing a value, and does nothing if it already is. Keys at or above the capacity have the default value; calls with keys below the capacity do not change it.", "quantifier": "every allocator, default value, history of calls and capacity, for UnmanagedDenseMap, BitVec and HashSet", "why_tests_cant": "Tests ask a new map for capacity once; the wrong argument to reserve shows only in a map with spare capacity.", "anchors": ["src/unmanaged.rs: ensure_capacity", "src/secondary.rs: SecondaryMap::ensure_capacity", "src/secondary.rs: SecondaryMap::capacity"]}
{"id": "C134", "title": "shrink_to and the capacity", "statement": "UnmanagedDenseMap::shrink_to(k) reduces the capacity of the map to k, drops the values at k and above and keeps the others, and does nothing when the capacity is already lower than k.", "quantifier": "every allocator, history of calls and k", "why_tests_cant": "The test shrinks a map without spare room; with spare room the capacity goes to the number of stored values instead.", "anchors": ["src/unmanaged.rs: shrink_to"]}
{"id": "C135", "title": "Indices of removed nodes are reused", "statement": "add_node right after remove_node(n) returns n. If it asks for as many ports as node_port_capacity(n) was, the new node takes the port indices of the old one, and node_capacity and port_capacity do not change. As long as an index below that of some node is free, add_node does not raise node_capacity.", "quantifier": "every reachable graph, node, numbers of ports and allocator", "why_tests_cant": "Depends on the free lists after arbitrary histories.", "anchors": ["src/portgraph.rs: alloc_node", "src/portgraph.rs: free_node", "src/portgraph.rs: alloc_ports", "src/portgraph.rs: free_ports"]}
{"id": "C136", "title": "Iterating maps keyed by indices", "statement": "Iterating a secondary map (UnmanagedDenseMap or BitVec) whose keys are NodeIndex or PortIndex of any width never panics, with next, next_back and nth in any order, whatever calls on the map came before. The keys it yields are keys of the type, in ascending order, each with the value get gives for it; every key with another value than the default is among them.", "quantifier": "every key width above one bit, every sequence of calls on the map with values of the key type, every sequence of next and next_back calls", "why_tests_cant": "Depends on the key width and on arbitrary histories of calls; with 32-bit keys the failing maps need 2^31 slots.", "anchors": ["src/unmanaged.rs: UnmanagedIter", "src/secondary.rs: BitVecIter", "src/index.rs: TryFrom<usize>"]}
{"id": "C137", "title": "Linking multigraph ports by node and offset", "statement": "On a MultiPortGraph, link_nodes(a, i, b, j) and link_offsets fail with UnknownOffset and change nothing if a node or offset does not exist. Otherwise they link the two ports as link_ports does: with room for another link they add exactly one link between them and keep all others, and on ports of the same direction they fail and keep all links.", "quantifier": "every multigraph reached by allowed calls, all nodes and offsets, every offset width", "why_tests_cant": "The failing calls name indices that internal copy nodes happen to occupy, which depends on the history.", "anchors": ["src/view.rs: link_nodes", "src/view.rs: link_offsets", "src/multiportgraph.rs: port_index, link_ports"]}
{"id": "C138", "title": "Linking, unlinking and removing in the dynamic checker after renumbering", "statement": "On a DynamicTopoConvexChecker, unlink_port and remove_node of a node never panic and change the graph as the calls of the underlying graph do, also after calls that renumber or remove nodes without telling the order (compact_nodes, swap_nodes, clear). A link_ports call that returns an error made no link.", "quantifier": "every well-formed graph, every order the checker may hold (positions and order in step), all ports and nodes", "why_tests_cant": "The order and the graph drift apart depending on the history; the panic needs a remaining link from the same node.", "anchors": ["src/algorithms/dynamic.rs: DynamicTopoConvexChecker::unlink_port, remove_node, link_ports, compact_nodes", "src/algorithms/dynamic.rs: DynamicTopoSort::disconnect_nodes, remove_node"]}
