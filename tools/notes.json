{
 "_full": [
  "C136",
  "C85",
  "C91"
 ],
 "C03": "False of the code (refuted with a witness). Proved exactly what happens instead: which tuples are accepted after every history, which in-range cell each accepted tuple names (row-major place modulo the number of cells), and IndexError for all others.",
 "C08": "False of the code (refuted: contraction in append leaves _front stale). Proved exactly (AqSpec.place_run): used with append and popleft every history is answered right until an append meets a full array whose dead front is at least two cells longer than the queue, and the popleft after that append is always wrong.",
 "C10": "False of the code (refuted). Proved for every history, pops from the right and appendleft included, that AqSpec.place_run (front index, rear index, number of cells) follows to its end; and exact: the operation at which it stops, or the popleft after it, is answered wrongly when the deque then holds no item twice.",
 "C13": "False at index -len (refuted); proved for SinglyCircularLinkedList with all other indices, and for DoublyCircularLinkedList in both directions (next and prev, insert_after and insert_before included) for the histories that never insert at -len and never extract the first of several elements. DoublyCircularLinkedList.extract(0) of several refuted (it leaves head.prev None). Also proved when extract(0) is allowed but insert_before at the first node is not: same answers, circular forwards, backwards from the tail down to the head; only the head's own back link may be missing. Outside that, extract(0) followed by insert_before at the head opens the ring (refuted).",
 "C20": "Total correctness for non-empty ranges; the empty range raises IndexError (C20_quick_sort_empty_raises).",
 "C21": "False of the code (refuted: pivot at low gives [2,1,3]). Proved for every returning picker: terminates, permutes the range, touches nothing else. Sorts whenever the picker only rearranges the range it is asked about (it is given the array itself) and returns a value tied with the last cell it leaves.",
 "C22": "Non-empty ranges; log(0) raises ValueError on an empty one. Stability for comparators that answer True on ties.",
 "C23": "False of the code (refuted). Proved exactly when: with a total, transitive comparator it ends, and sorts, iff no two cells of the range are tied both ways under comp; with one tie in the range it never ends (C23_brick_sort_ties_diverge_refuted).",
 "C24": "comp is the elements' <= (heapsort takes no comparator).",
 "C25": "comp is the elements' <= (intro_sort takes no comparator).",
 "C27": "False of the code for [0,None,0] (refuted). Proved when some number is positive or no cell is None. With no positive number the array is returned unchanged, or TypeError when the first cell of the range is None.",
 "C28": "False of the code (refuted: ZeroDivisionError, IndexError). Proved exactly for non-negative numbers: sorts iff count <= max, max // (max // count) = count and count <= 256 (the code compares with 'is not'), ZeroDivisionError if max < count, IndexError otherwise, TypeError without numbers.",
 "C31": "False of the code for start>0 (refuted). Proved for start=0; and for any start when the array is ascending up to the end of the range: an answer always holds the value, and it is exact when the value does not occur before the start.",
 "C32": "Empty array raises IndexError (C32_bounds_empty_raise).",
 "C33": "False of the code (refuted: [1,1] is False; None hides a descent). Proved exactly what it decides, None cells included.",
 "C37": "False of the code with duplicates (refuted). Proved exactly for every range: False iff strictly ascending; otherwise right iff the element before the longest strictly ascending tail does not occur in it, and then never below the range. Always a rearrangement.",
 "C38": "False of the code for non-square matrices (refuted). Proved for square ones, and exactly what is computed for every pair of rectangular matrices that can be multiplied (partial sums and None cells, or IndexError).",
 "C47": "The table stores int(value). Proved: every query is the fold of the range of the truncated values, for every array and every combiner that maps whole numbers to whole numbers (C47_sparse_table_truncates); hence exact for ints, wrong for floats (refuted).",
 "C86": "update proved; get_sum(0,n) silently leaves values out (refuted). Proved exactly what get_prefix_sum and get_sum answer for every pair of indices after every history of in-range updates.",
 "C49": "Static back ends agree on ints. Dynamic ones: for every sequence of calls the array back end gives exactly the expected outcomes, exceptions included, and the segment tree those of the same calls with every index in -n..-1 read as -1 (C49_dynamic_back_ends_exact); hence they differ on indices -n..-2 (refuted).",
 "C50": "Proved for a non-empty set of segments; with none, query raises IndexError (refuted).",
 "C53": "False of the code (refuted: lower-case six-letter collision). Proved: complete, reports exactly the windows with equal hash, exact for queries of up to 3 characters below 257.",
 "C54": "False of the code when a match is followed by '$' (refuted). Proved: exact characterisation of the report; exact on texts without '$'.",
 "C56": "False of the code for a stored prefix (refuted). Proved: exact if the prefix is not stored or one character; otherwise exact on proper extensions.",
 "C72": "num_edges counts removed edges (refuted). Proved: vertices, is_adjacent, neighbors, add_edge errors for all histories; num_edges exact without remove_edge, and after every history exactly the number of pairs ever named by an accepted add_edge or a remove_edge.",
 "C73": "False of the code for names with underscores and after remove_vertex (both refuted). Proved exactly what get_edge answers for every history: by joined name over any names (C73_get_edge_by_joined_name_exact), and for ordinary names the cost last given to the pair unless remove_edge removed it since, remove_vertex playing no part (C73_adjacency_list_get_edge_exact); without remove_vertex and on matrices that is the cost of the edge.",
 "C80": "Distances proved exact; next_vertex is None for every pair improved through an intermediate vertex (refuted). Proved exactly what next_vertex holds: i itself when i = j or the edge costs the least cost, None for other connected pairs, no entry otherwise (C80_next_vertex_exact).",
 "C88": "False of the code (refuted); proved instead: after a successful call the graph has the same vertices and no edges, and after topological_sort_parallel no vertices either.",
 "C89": "False of the code (refuted for every graph and every attribute name). Proved for all other names, the empty string and underscores included, after every history.",
 "C81": "All four kruskal entry points (sequential and parallel, lists and matrices): the costs held by the result are exactly a minimum spanning forest, both directions, for every history of distinct ordinary names (adjacency lists: without remove_vertex, whose stale costs are the C73 bug). Partial because of those restrictions and because the parallel variant raises ValueError on a graph without priced edges (refuted theorem). Prim: see C92.",
 "C90": "Proved for matrices. Refuted for adjacency lists (kruskal and prim): the tree shares the caller's node objects, so non-tree edges stay visible and one-way edges of the caller's graph become two-way.",
 "C57": "Every insert history from any constructor call (default comparator): search, stored data, ascending in-order listing. Integer keys.",
 "C58": "False in general: four counterexamples (insert after deleting the last cell; order-statistic tree; emptied tree; the delete that compacts the array after a root with one child was deleted). Proved: any inserts then at most #keys/2 deletes of any keys; any inserts then any number of deletes, compacting ones included, of the keys [deletable] allows, where the tree is the textbook tree node by node (C58_bst_shape_partial); and inserts and deletes in any order (C58_bst_history_partial), where a delete spares the newest key and the key before it, takes the root's key only between other keys, and leaves at least half of the keys ever inserted.",
 "C59": "False for every comparator: the code stores `key1 < key2 if comp is None else comp` which returns the function itself.",
 "C60": "All insert histories; the mixed histories of C58_bst_history_partial; and every array holding a search tree, whatever led to it. Also the histories with compacting deletes (C58_bst_shape_partial states both bounds).",
 "C61": "All insert histories with at least one key, the mixed insert/delete histories of C58_bst_history_partial, and any inserts followed by any number of deletes, compacting ones included, of the keys [deletable] allows (C61_order_statistics_compacting_partial); rank inverts select, ValueError outside the range. On an empty tree select(1) returns the key-less root (refuted).",
 "C62": "Both algorithms for all insert histories, the mixed insert/delete histories of C58_bst_history_partial, and any inserts followed by any number of deletes, compacting ones included, of the keys [deletable] allows (C62_lca_compacting_partial) (algorithm 2 unless a key is the root's; refuted with the root's key). Refuted on rotated trees (C62_lca_avl_refuted).",
 "C63": "The four rotation methods at every site of every linked tree.",
 "C69": "Every linked tree, from any of its nodes; and every tree built by inserts.",
 "C64": "Full, plus order-statistic queries and bounds of an AVLTree. AVL rotations break the is_root flags (C62_lca_avl_refuted).",
 "C65": "False: after every insert history and for every absent key delete returns True (proved for all of them); on an emptied tree it raises TypeError.",
 "C66": "Contents and black root: every history. Colour invariants: histories without re-inserted keys; a re-insert breaks the black count (refuted), as do RedBlackTree(key, data) followed by insert and insert after a delete of the last cell.",
 "C67": "Proved for histories that insert no key twice; re-inserting a key corrupts the tree (TypeError witness).",
 "C68": "Search order and contents: every history. Heap order: histories without re-inserted keys, any priorities; re-insert with a larger priority breaks it (refuted); CartesianTree(key, data) has a root without priority (refuted).",
 "C70": "Counts, membership and len: every history that returns. Histories that never remove the last occurrence return and have the right bounds; removing a last occurrence breaks the tree for the next add (refuted). C70_multiset_mixed_partial: adds and removes in any order return and leave the right counts and bounds, as long as a remove of a last occurrence spares the value that came last and the value just after it, two values stay, and half of the values that ever came stay.",
 "C82": "False of the code (refuted). Proved exactly when it raises: KeyError iff some vertex has no incoming edge. Otherwise its sets partition the vertices, never split a strongly connected component and have a member reached by all; and the answer is right when every edge lies on a cycle.",
 "C85": "Proved in full for undirected graphs. The docstring adds each edge in one direction only; for such graphs the claim is refuted.",
 "C84": "False of the code: a one-way pipe inside the network can make the value too small (flow is never taken back over a missing reverse edge), and source = sink on a cycle, or dinic with a pipe into the source, never terminates (refuted with witnesses). Proved for source <> sink and non-negative capacities: both algorithms terminate with the value of a feasible flow (dinic: no pipe into the source), and it is the maximum when every pipe that neither leaves the source nor enters the sink has an opposite pipe.",
 "C79": "The property is false of the code: entries left over from improved distances use up the |V| rounds (C79_dijkstra_stale_entries_refuted). Proved for every network: the call ends with a tree of real walks, predecessors at their least cost; and exact distances when no vertex farther away offers a cheaper way in (in particular equal costs). float('inf') is the key inf_key of the model, proved larger than all distances that occur.",
 "C75": "The property is false of the code: visited is asked for node objects but filled with names, so on every graph with a cycle that can be reached the search never ends (C75_parallel_bfs_cycle_refuted, for all such graphs), and a falsy result of operation is forgotten unless it comes from the last node of a layer. Proved for every graph without such a cycle and every order of iteration over the sets: it ends with the discoveries of breadth_first_search.",
 "C14": "Every history of insert/extract/search/size of SkipList on its heap of nodes with next and down, for every stream of random bits, against a bag of pairs: outputs, KeyError, size, and the levels read off the heap (framed, ascending, each part of the one below, the lowest = the bag). Equal keys are extracted newest first. Keys are integers; the text of the KeyError (__str__) is not modelled.",
 "C91": "Adjacency lists with ordinary names; neighbors and remove_edge are taken to be atomic and interleave arbitrarily. The caller's graph is emptied (see C88).",
 "C92": "Proved for graphs whose edges occur in both directions at the same cost, sequential and parallel. Refuted: with one-way edges (as in the documentation) KeyError, without vertices StopIteration.",
 "C93": "Proved for every insert history followed by any deletes, at most half as many as there are keys (the array is then never compacted); heights and sizes from three keys on. Refuted: a delete that compacts the array corrupts parent links (inserting 1..9 and deleting 1..6 raises AttributeError), an insert after a delete raises IndexError, deleting the root of a two-key tree leaves its old height and size. The value True for an absent key is C65. C93_avl_history_partial: also for inserts and deletes in any order, as long as each delete spares the newest key and the key just before it (whose cell the next insert needs), two keys stay, and half of the keys ever inserted stay (no compaction).",
 "C94": "Proved for every insert history (any priorities) followed by any number of deletes that leave at least one key, including the deletes that compact the array; heap order when no key was inserted twice (C68). Refuted: an insert after a delete raises IndexError; deleting the last key leaves a key-less node that the traversals list. C94_cartesian_history_partial: also for inserts of new keys and deletes in any order, as long as each delete spares the newest and the last key and half of the keys ever inserted stay.",
 "C95": "Right on an AVLTree (all insert histories; after deletes: C93) and on a BinarySearchTree (C61). Refuted: the rotations of CartesianTree/Treap, RedBlackTree and SplayTree do not update the sizes (rank 7 in a tree of four keys).",
 "C96": "Proved for every history of inserts of different keys followed by any deletes, at most half as many as there are keys (the array is then never compacted). Refuted: _remove_node (1475-1489) ignores the new indices when the node has one child, so the delete that compacts the array raises IndexError (keys 1..9, delete 1..5, then 8); deleting the last key leaves a node without a key; an insert after a delete is C66. C96_rb_history_partial: also for inserts of new keys and deletes in any order, as long as each delete spares the newest key and the key just after it (whose cell the next insert needs), two keys stay, and half of the keys ever inserted stay (no compaction).",
 "C97": "False in general (refuted): the graph's costs are overwritten by the reweighted ones; after the ValueError the vertex __q__ and its edges stay in the graph; KeyError after a remove_vertex; reachable vertices at infinity (inherited from dijkstra); next_vertex does not describe the way. Proved for every history without remove_vertex: ValueError iff negative cycle; otherwise finite entries are costs of real walks, exact for a row if the reweighted graph has no detour from that vertex (for instance one incoming edge per vertex), exact description of next_vertex and of the changed graph.",
 "C98": "Proved for inserts of different keys followed by deletes each of which is of an absent key, of a key between two others, or of one of two keys, with any number of compactions of the array. Refuted: deleting the least or greatest of three or more keys leaves a parent link to the deleted node, and later deletes raise AttributeError; an insert after a delete raises IndexError. C98_splay_history_partial: also for inserts and deletes in any order, as long as each delete is of an absent key or of one between two others that is neither the newest nor the one just before it, and half of the keys ever inserted stay.",
 "C99": "ValueError on unordered trees: proved for all sizes. Entries of both after a join: proved when the first tree has 2^n - 1 keys (its array is then full). Refuted otherwise: links of the copied nodes are moved by the length of the array, but they are appended at the first free cell; and an insert after a join raises TypeError (the copies have no parent links).",
 "C100": "Proved for every history of inserts of new keys and splits at present keys, going on with either half as long as it is not empty. Refuted: a split at an absent key returns None and splits nothing (proved for all such keys too); a split at the greatest key returns a tree whose traversal shows one node without a key.",
 "C101": "Proved for every array, range and comparator returning True/False: the range is sorted, nothing else changes, same result as Python. Refuted: bubble_sort on an empty array fails (size_t underflow); a comparator returning truthy objects other than True is taken for False.",
 "C102": "Proved for ranges starting at index 1 or later, and for ranges from 0 whose first cell is a minimum (then same result as Python). Refuted: one-element arrays and [2, 1] are never sorted, p - 1 wraps around in size_t when a pivot ends up at index 0.",
 "C103": "linear_search: all arrays and ranges. binary_search and jump_search: all sorted ranges of arrays below 2^31 cells (int indices); jump_search on an empty array is refuted (it fails instead of answering None).",
 "C104": "Refuted in general as in Python (C33: ties, None cells). Proved: same answer as the Python backend for every array, range and True/False comparator; without None it says that no cell comes before its predecessor under comp. Exact answer with None cells too.",
 "C105": "Proved for every process history, array below 2^31 cells, range and element type whose values fit the machine type; int arrays: same result as the Python backend. Refuted: ints beyond 64 bits raise OverflowError; a custom comparator raises NotImplementedError (for all arrays). LLVM's compilation of the IR is trusted; rounding conversions (float32, ints in a float buffer) are not modelled.",
 "C106": "Refuted: the builder rebinds i64 from a type to an instruction and fails, so until bubble_sort was used in the process every selection_sort with something to sort raises RuntimeError (proved for all processes, arrays and ranges). Proved: after a bubble_sort on the same machine type it runs the code cached for bubble_sort, and sorts.",
 "C107": "Proved for names without underscores, fresh nodes, None or integer costs. Refuted with underscores: keys of edges collide, and remove_vertex parses the key at the first underscore, so it leaves edges of the removed vertex or drops edges of others.",
 "C108": "Proved for names without underscores, every iteration order and every operation: every reachable vertex once, nearest first, along edges. Refuted: the operation's result is ignored, so the search does not stop at a falsy result (and leaves get no call).",
 "C109": "Proved for names without underscores and histories without remove_vertex, for every iteration order of the edge map, with respect to the edges of non-negative cost (others are skipped); doubles are exact integers in the model. Refuted: names with underscores, graphs after remove_vertex (out-of-bounds ids), unknown sources (taken for vertex 0 and then inserted), negative costs silently skipped.",
 "C110": "Proved for names without underscores, graphs in which each edge has its reverse with the same cost, every iteration order and every choice among equal costs: get_edge of the result is exactly a minimum spanning tree of the component, and the given graph is unchanged. Refuted: the result shares node objects with the graph, so is_adjacent shows edges outside the tree; one-way edges change the given graph (and a later call can follow a null pointer); an empty graph reads nodes[0]; the result's next id is 0.",
 "C111": "Proved for distinct vertices with any names: num_vertices, num_edges, is_adjacent, neighbors and the exceptions; get_edge for names without underscores while its results are kept alive (costs as exact integers: up to 2^53). Refuted: get_edge takes no reference, so asking twice is undefined; underscored names share edge records; an overflowing cost raises but leaves the edge; costless edges have no record; duplicate names are counted twice.",
 "C112": "Proved for distinct vertices, every iteration order and operation. Refuted: the operation's result is ignored.",
 "C113": "Proved for arrays built from a list or a size without init, every history and reference-count bookkeeping. Refuted: with init= all cells share one reference, so a cell can end up pointing to a freed object. A write of the wrong type raises SystemError, not TypeError.",
 "C114": "append, delete and the forced compaction agree with the Python class (whose own properties are C02, C03), with the load factor compared exactly; with the code's single-precision quotient they agree when the denominator of the load factor is a power of two (the default 0.25) and the array stays below 2^23/denominator cells. Refuted: with load_factor 0.45 the C++ array compacts where Python does not; append stores objects of any type; _modify(True) without elements reads before the buffer.",
 "C115": "Proved for every history of non-None items. Refuted: a pushed None can never be popped.",
 "C116": "Proved modulo 2^64 for every history of in-range updates; equal to the Python backend whenever the asked sum fits a long. Refuted: larger sums wrap (undefined in C++), updates out of range touch memory outside the array instead of raising.",
 "C117": "Proved for one object per key, a comparator that returns 1 for less and 0 otherwise, and the histories of C58_bst_history_partial (a delete spares the newest key and the key before it, takes the root's key only between other keys, leaves at least half of the keys ever inserted); and for any inserts followed by any number of deletes, compacting ones included, of the keys [deletable] allows, where keys, links and parent links are those of the textbook tree (C117_cpp_bst_shape_partial). Refuted outside: equal keys in two objects, inserts after a compaction, a delete of a node with one child that compacts, an emptied tree, a root without data, other comparators.",
 "C118": "Proved after every history of C117_cpp_bst_history_partial, for keys that are one object each. Compacting deletes: stated in C117_cpp_bst_shape_partial.",
 "C119": "Proved after every history of C117_cpp_bst_history_partial and of C117_cpp_bst_shape_partial (any inserts, then deletes [deletable] allows, compactions included). Open: other histories (where the tree itself fails).",
 "C120": "Algorithm 2 proved unless a key is the root's; algorithm 1 proved for keys whose integers are in -5..256 and trees that have had at most 257 nodes, where it returns the second key if the first is the ancestor. Refuted outside: see the _refuted theorems; on a rotated tree algorithm 1 is undefined. Same after deletes that compact the array (C120_cpp_lca_compacting_partial).",
 "C121": "Proved after every history of C117_cpp_bst_history_partial.",
 "C122": "Proved for inserts followed by deletes of up to half of the keys, at most 257 keys, one object per key. Refuted: beyond 257 keys the tree does not stay balanced (the new index object is compared by identity); delete reports True for absent keys. C122_cpp_avl_history_partial: also for inserts and deletes in any order, at most 257 keys ever; each delete spares the newest key and the key just before it, two keys stay and half of the keys ever inserted stay.",
 "C123": "Proved for any inserts followed by deletes of up to half of the keys; heap order if no key is inserted twice; one object per key, priorities as integers (they are only compared). Refuted: heap order after a key is inserted again, inserts after a delete, an emptied tree keeps a node without key; a key given to the constructor has priority 0 (differs from Python). C123_cpp_cartesian_compacting_partial: any number of deletes after the inserts as long as one key stays, compactions of the array included (keys with different integer values). C123_cpp_cartesian_history_partial: also for inserts of new keys and deletes in any order; each delete spares the newest and the last key and half of the keys ever inserted stay.",
 "C124": "Proved for inserts of different keys followed by deletes of up to half of them; contents also for keys inserted again. Refuted: colours after a key is inserted again, a tree constructed with a key (follows a missing parent), inserts after a delete, deletes after a compaction. C124_cpp_red_black_history_partial: also for inserts of new keys and deletes in any order; each delete spares the newest key and the key just after it, two keys stay and half of the keys ever inserted stay.",
 "C125": "Proved for inserts of different keys followed by safe deletes (absent, neither least nor greatest, or one of two keys) of up to half of them. Refuted: a key inserted again, deletes of the greatest and then the least key, inserts after a delete (all undefined behaviour). C125_cpp_splay_compacting_partial: any number of safe deletes after the inserts, compactions of the array included (keys with different integer values). C125_cpp_splay_history_partial: also for inserts of new keys and deletes in any order; each delete is of an absent key or of one between two others that is neither the newest nor the one just before it, and half of the keys ever inserted stay.",
 "C126": "Proved: trees with overlapping keys are refused; a first tree with 2^n - 1 keys joined with greater keys has the entries of both. Refuted for other sizes of the first tree (links into empty cells: undefined behaviour), and an insert after a join is undefined behaviour.",
 "C127": "Proved for every history of inserts of new keys and splits at present keys (going on with either half). Refuted: a split at an absent key splits nothing; a split at the greatest key returns a tree with a node without a key.",
 "C128": "All four containers, every history.",
 "C129": "Refuted: after insert_at(-len, ...) printing never ends, in both classes. Proved for histories without an index of -len (and, doubly linked, without extracting the first of several items). Doubly linked: also proved for every history without an index of -len and without insert_before at the first node (extract(0) allowed).",
 "C131": "Refuted: an ArrayStack prints spare cells as None; an empty ArrayQueue, and one whose array has shrunk, raise IndexError. Proved: an ArrayStack prints its items followed only by None, every history; a non-empty ArrayQueue prints its items in histories where a popleft leaves at least as many items as were removed since the queue was last empty. Exactly: after every history that place_run (C10) follows, a non-empty ArrayQueue prints its items iff its rear index is that of its last item.",
 "C133": "Proved for every history: printing never fails and exactly which cells are shown; with different keys all pairs are shown in order. Refuted: of two pairs with equal keys one is missing.",
 "C135": "Proved for the mixed histories of C58, C93, C94, C96, C98. Refuted: after an insert that follows the delete of the newest key the table points outside itself.",
 "C136": "IEEE binary64 operations of Coq.Floats.SpecFloat. Outside the stated bounds refuted: int(sqrt(2^54-1)) is one too large; a logarithm below the exact one makes SparseTable raise IndexError.",
 "C137": "Proved for every history that leaves an element (arrays of fixed size: every history). Refuted: an empty C++ dynamic array or stack prints one '' for each spare cell. The text of an item is not modelled.",
 "C138": "Proved for the mixed histories of C117 and C122-C125. Refuted: after an insert that follows a compaction the table points outside itself.",
 "C139": "Proved for strs without NUL and surrogates, ints of 64 bits, floats, None and other objects, with the exact condition for data to come back. Refuted: True comes back as 1, an int beyond 64 bits leaves -1, a NUL cuts the str, a surrogate is a null pointer; str differs for names with a quote or backslash and for every edge. The text of floats is a parameter.",
 "C140": "Python: proved for names that are not attributes of every node (refuted for those) and nodes made without adjacency_list (refuted: such neighbours cannot be removed and the caller's list changes). C++: exact answer; refuted for a name added while adjacent (the data takes the place of the node), for an adjacency_list that is not a list, and for a refused assignment to adjacent.",
 "C141": "Proved for arrays of numbers (the table keeps int(value)) and combiners as in C47; the text is proved for ints.",
 "C142": "Proved for coordinates that are multiples of 1/one (every finite list of floats). The empty interval (x, x) of a repeated end point is not used for the segment [x, x]. Without segments printing raises IndexError. Rows are values, not text.",
 "C143": "Proved for strongly_connected_components, minimum_spanning_tree_parallel, topological_sort_parallel, max_flow and the classes. False of the others (refuted): they run any function of the module whose name fits (all_pair_shortest_paths(g, 'kahn') sorts topologically and empties the graph), TypeError when the number of arguments does not fit; with the C++ backend unknown names give None. Proved exactly what every str runs (find: strs that do not begin with an underscore). Whether the function run accepts its arguments' values is not part of this."
}