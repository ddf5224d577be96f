# Formal model of pydatastructs in Rocq (Coq 8.16.1)

## 1. Method

* The **Python backend** (`Backend.PYTHON`, the default everywhere) of every module is modelled
  function by function as executable Gallina: `theories/*Model*.v`. The C++/LLVM backends are
  not modelled (trusted base, section 4).
* Python exceptions are values: `Base.v` defines `res A := Ret a | Raise e | OutOfFuel`.
  `OutOfFuel` is only produced when the explicit fuel of a `while` loop is exhausted; every
  positive theorem concludes `= Ret ..` for a stated fuel (so termination is part of the theorem), and
  non-termination findings are stated as `forall fuel, .. = OutOfFuel`.
* `while` -> `while_loop fuel body`; `for x in range(a,b)` -> fold over `zrange a b`.
* Python ints are `Z`; Python lists are `list`; `None` is `None : option _`.
* Objects with identity (linked list nodes, tree nodes, sets) are addresses into an explicit heap
  (a list of cells), so aliasing and stale pointers are visible.
* `Spec*.v` files hold the small independent specifications (sortedness, abstract deques, shortest walks ..),
  `Proofs*.v` the proofs, `Props*.v` nothing but the property theorems (closed by `exact`), their
  non-vacuity `Example`s and `Print Assumptions`.
* Where the code violates a property, `.._refuted` proves it with a concrete witness, and the
  strongest restricted statement we can prove carries the suffix `_partial`.

## 2. Plan per property

| ids | modelled | proof method |
|---|---|---|
| C01-C05 | arrays.py: OneDimensionalArray, MultiDimensionalArray, DynamicOneDimensionalArray | refinement to list / function on index tuples; invariant over op histories |
| C06-C10 | stack.py, queue.py (array and linked list) | refinement to abstract list; C08, C10 refuted by a history that triggers contraction, restricted versions proved |
| C11-C13 | linked_lists.py on a pointer heap | representation predicate (list segments), refinement |
| C14 | SkipModel: SkipList on an explicit heap of nodes (next, down), the random bits of each insert as a function argument | representation invariant (levels as lists of addresses, each linked down into the next), refinement of a bag of pairs |
| C15-C28 | algorithms.py sorts over arrays of `option A` | loop invariants (sortedness, permutation, frame), total correctness |
| C29-C38 | searches, LIS, LCS, permutations, matrix product | loop invariants; optimality by exchange arguments |
| C39-C42 | heaps.py, PriorityQueue | heap invariant + multiset refinement |
| C43-C45 | disjoint_set.py | forest with rank function, equivalence closure |
| C46-C50, C86 | Fenwick, sparse table, segment trees, range queries | interval decomposition lemmas |
| C51-C56 | strings | border theory (KMP), shift soundness (BM), Z invariants, hash homomorphism; trie as set |
| C57-C70 | binary_trees.py array-indexed nodes, multiset.py | representation predicate between the index graph and an inductive tree |
| C03, C23, C31, C38, C72 (exact) | `MdaSpec`, `MatSpec`, `ExactProps` | exact characterisation of the code's behaviour where the property fails: accepted index tuples, ties that make brick_sort run for ever, jump_search with a start, rectangular products, what num_edges counts |
| C27, C28, C33, C86, C104 (exact) | `ExactSpec`, `ExactProps2` | exact answers where the property fails: radix_sort without positive numbers, when bucket_sort raises what, is_ordered with empty cells, Fenwick sums for every index |
| C82 (exact) | `KosarajuProofs2`, `ExactProps3` | KeyError iff some vertex has no incoming edge; right when every edge lies on a cycle |
| C47, C49, C73, C80 (exact) | `RangeProps2`, `CostProps`, `FloydProps` | exact answers where the property fails: a sparse table of floats, negative update indices in the segment tree, the cost get_edge remembers (joined names, removed vertices), every entry of floyd_warshall's next_vertex |
| C89 (exact) | `NameSpec`, `NameProofs`, `NameProps` | the refinement of C71 for every name that is not an attribute (the dunder attributes of `object` are outside the model); attribute names fail in every graph |
| C13, C129 (forward) | `LinkedDouble2`, `LinkedProps2` | DoublyCircularLinkedList with extract(0) allowed: invariant weaker than the two-way ring (the head's back link may be missing), preserved by every operation but insert_before at the first node, which then opens the ring (`C13_insert_before_after_extract_refuted`) |
| C08, C10, C131 (exact) | `AqSpec`, `AqProofs`, `AqProps` | a machine on (front, rear, cells) decides from the history alone how far ArrayQueue answers like a deque; simulation for all operations, and the step at which the machine stops is answered wrongly at once or at the next popleft; prints right iff rear = front + len - 1 |
| C21, C37 (exact) | `QuickPick`, `ExactProps4` | quick_sort with a picker that may reorder the array (quick_sort_mut; SortModel.quick_sort is the case that does not): sorts when the value picked is tied with the last cell; prev_permutation on every range: split at the longest strictly ascending tail |
| C71-C85 | graphs | BFS/DFS worklist invariants, relaxation invariants, cut/flow arguments |
| C91 | KahnParModel: the jobs of a round interleaved call by call by an arbitrary scheduler | job invariant (edges left = edges owed by live jobs), layered-peeling specification, graph emptied |
| C92 | PrimModel: prim and parallel prim over binomial heaps, the tree sharing the node objects of the graph | cut property by exchanging edges of an arbitrary spanning forest; queue invariant (every crossing edge is queued, e[w] is the cheapest one) |
| C93 | TreeModel2: AVLTree.delete with the base delete of TreeModel | strong delete lemma (all links, parents too, TreeDel2/3), then the rebalancing walk with a height invariant on the context above the change (TreeDel4) |
| C94 | TreeModel2: CartesianTree.delete; ArrayForTrees._modify of TreeModel | renumbering lemma for the compaction (TreeCompact), the trickle-down loop with a context invariant, then deletion of a leaf with or without compaction (TreeDel5) |
| C96 | TreeModel2: RedBlackTree.delete with _transplant_values, _remove_node and __fix_deletion | __fix_deletion with a context/hole invariant: before the black leaf is cut the tree is red-black except that the ways through the current node lack one black node (TreeRbDel); the leaf, one-child, two-children and root cases (TreeRbDel2) |
| C97 | JohnsonModel: _johnson_adjacency_list over the models of bellman_ford, dijkstra and AdjacencyList; returns the changed graph with the outcome | growing and shrinking the graph by loop invariants over the abstract digraph; C78 on the graph with the extra vertex gives the potentials; C79 on the reweighted graph; walks correspond (JohnsonProofs) |
| C98 | TreeModel2: SplayTree.delete over the base delete of TreeModel with the compaction of the array | splay keeps the links (TreeSplayDel: zig/zag cases over a context), then deletion of a root with two children (or of one of two keys) with or without compaction |
| C99 | TreeModel3: SplayTree.join | the ends of the tree by a descent invariant, the array has 2^m - 1 cells, appending the cells of another array, the copied tree is the other one moved (TreeJoin) |
| C100 | TreeModel3: SplayTree.split | a tree whose array may have unused cells (TreeGap: insert and splay again for such states), clearing the right subtree from the last visited node back (each search reads only nodes above it, TreeSplit), histories of inserts and splits by induction (TreeSplit2) |
| C101 | CppModel: the C++ sorts over size_t arithmetic (wrap at 2^64), None cells, comparators as Python objects | equality of the C++ loops with the Python model loop by loop inside the bounds, then C15-C17 |
| C102 | CppModel: C++ quick_sort with its explicit stack of size_t | witnesses; where no pivot lands on index 0 the run is the Python run (CppQuick) |
| C103, C104 | CppModel: C++ linear_search, binary_search, jump_search (32-bit indices), is_ordered | loop invariants (CppSearch); equality with the Python is_ordered |
| C105 | LlvmModel: IRBuilder calls as a monad producing a control-flow graph, a semantics of the IR fragment (phis, i32 wrap, gep/load/store), the pointer cache, the C++ wrapper | lemma per basic block, loop invariants over blocks (LlvmProofs), gathering and writing back (LlvmWrap), induction over the process's calls for the cache |
| C106 | same, _build_selection_sort_ir | running the builder raises; the cache only ever holds bubble_sort's code (induction over calls) |
| C107 | AdjacencyListGraph of the C++ backend (CppGraphModel: node_map, name_to_id, id_map, adjacent, edges, next_id) | refinement: every call keeps a representation of the abstract digraph (induction over the history) |
| C108 | breadth_first_search_adjacency_list (C++), iteration order of each hash map a parameter | queue invariant with distance labels |
| C109 | shortest_paths_dijkstra_adjacency_list (C++): adjacency vectors by id, sorted priority queue, lazy deletion | invariant of settled ids on the id graph, then transfer to names |
| C110 | minimum_spanning_tree_prim_adjacency_list (C++): priority queue popping any least entry, id maps of the new graph | tree invariant shared with the Python prim (PrimProofs.tinv), exchange argument |
| C111 | AdjacencyMatrixGraph of the C++ backend (CppMatrixModel: nodes, matrix, node_map, edge_weights, freed edges) | refinement of the abstract digraph, induction over the history |
| C112 | breadth_first_search_adjacency_matrix (C++) | the queue invariant of C108, generic in the neighbour loop |
| C113 | CppArrayModel: C++ OneDimensionalArray with a reference count per object and the references the caller holds | invariant: each cell owns one reference, induction over the history |
| C114 | CppArrayModel: C++ DynamicOneDimensionalArray over a buffer (an access outside of it is undefined); FloatModel2: the same with the single-precision load test | equality with the Python model call by call under its invariant; rounding analysis of binary32 against binary64 (FloatSingle, FloatSingle2) |
| C115 | CppArrayModel: C++ ArrayStack | refinement of a stack through C114 |
| C116 | CppBitModel: C++ BinaryIndexedTree over 64-bit longs | simulation: the C++ tree is the Python tree modulo 2^64; then C46 |
| C117-C121 | CppTreeModel: TreeNode, ArrayForTrees, BinaryTree, BinarySearchTree, BinaryTreeTraversal of the C++ backend: key objects with identity, raw buffers, index objects | simulation with the Python model (CppTreeSim) on every history that does not compact the array, then the invariants of C58-C62; trees of key objects (CppTreeSpec) |
| C122 | CppTreeModel: rotations and AVLTree of the C++ backend, index objects cached up to 256 | simulation with the Python AVL model, then C65, C93 |
| C123-C125 | CppTreeModel2: CartesianTree, Treap, RedBlackTree, SplayTree (insert, delete) of the C++ backend | simulation with the Python models (CppTreeSim2) on inserts followed by deletes that do not compact the array (CppTreeHist2), then C66-C68, C94, C96, C98; trees of nodes with priorities and colours (CppTreeSpec2); deletes that compact: a simulation of ArrayForTrees_modify with the dictionaries of new indices (CppTreeCompact, CppTreeCompact2), for deletes of a node that has not exactly one child and a parent, which is all CartesianTree and SplayTree do |
| C126-C127 | CppTreeModel3: SplayTree join and split of the C++ backend | simulation with the Python models (CppTreeJoin, CppTreeJoin2), then C99, C100; histories in CppTreeSpec3 |
| C57, C58, C60-C62 (textbook shape) | TreeModel insert and delete against functional search trees (TreeShapeSpec: insertion at a leaf, deletion by the next greater key, with the number of array cells) | skeleton of the tree at the root; one delete is `st_cut` on the skeleton, compacted or not (TreeShape, TreeShape2); induction over inserts, then deletes (TreeShape3); the root stays in cell 0 and the sizes stay right (or the tree has one node), so rank, select and both lca algorithms follow |
| C117-C120 (textbook shape) | CppTreeModel c_insert and c_delete against TreeShapeSpec | simulation with the Python model that needs the inner array's _size only for inserts (CppTreeCompact3): a delete that compacts is never of a node with one child below the root; shape lemmas of TreeShape2 |
| C58, C60-C62 (mixed histories) | TreeModel: insert and delete in any order; TreeHist2Spec follows the history on a sorted list | invariant of an array with holes whose last cell stays in use (TreeHist2, TreeHist3): cells and keys of the tree, sizes, root; step lemmas for insert and delete, induction over the history |
| C93, C94, C96, C98 (mixed histories) | TreeModel2: insert and delete of AVLTree, CartesianTree/Treap, RedBlackTree, SplayTree in any order; TreeMixSpec follows the history on a sorted list | the array invariant of TreeHist2 with the cell of the newest key (TreeMix2), kept by everything that only rearranges the nodes (TreeMix, TreeMix4, TreeMix5: the rotations keep the cells of the keys) and the last cell (TreeMix3); for the red-black trees, whose fix-ups move cells, what each cell holds and which one carries the root mark (TreeMix6, TreeMix7, TreeMix8); step lemmas per class, induction over the history |
| C70 (mixed histories) | TreeModel2: Multiset.add and remove in any order; MultisetMixSpec reduces a history to the calls that change which values are there | the counter as in MultisetProofs, the tree by the step lemmas of the red-black trees (MultisetMix) |
| C122-C125 (mixed histories) | CppTreeModel, CppTreeModel2: insert and delete in any order; CppMixSpec names the keys by rank and reuses TreeMixSpec | the simulation of CppTreeSim and CppTreeSim2 along the Python histories of TreeMix3, 4, 5, 8 (CppTreeMix) |
| C128-C131 | PrintModel: `__str__` of the linked lists, stacks, queues and the dynamic array, up to the final conversion to text | the list invariants of C11-C13 and C06-C10, loop lemmas (PrintProofs, PrintProofs2) |
| C132 | PrintModel: DHeap.__str__ with _leftmost, _rightmost | positions by division (PrintProofs3), heap order from C39 |
| C133 | PrintModel: SkipList.__str__ with its two dictionaries | level representation of C14, no data-carrying node at the ends (PrintProofs4, PrintProofs5) |
| C134 | PrintModel3: ArraySegmentTree.__str__ with its stack | induction on the tree of C48 (PrintProofs6) |
| C135 | PrintModel2: BinaryTree.__str__, CartesianTree.__str__; PrintSpec2.table_shows reads the table | array invariant of the mixed histories (PrintProofs7) |
| C136 | FloatModel: the float load-factor test, int(sqrt(n)) (Coq.Floats.SpecFloat, binary64), merge_sort_parallel and SparseTable with an arbitrary logarithm | exactness of rounding to nearest (FloatProofs1-3, 5), simulation of histories (4), loop invariants (6) |
| C137 | CppPrintModel: `__str__` of utils.hpp and its three callers | loop invariants over the states of C113-C115 (CppPrintProofs) |
| C138 | CppPrintModel2: C++ BinaryTree.__str__; CppPrintSpec reads the table | array invariant of the mixed histories carried over by the simulation (CppPrintProofs2) |
| C139 | NodeModel: the members, getters and setters of the C++ nodes and edges, their str | induction over the assignments; converse direction by cases on the stored kind; lengths of the escaped text |
| C140 | NodeModel: neighbours of the Python and C++ AdjacencyListGraphNode | NodeSpec finds the last call about a name; induction over the history from its end |
| C141 | PrintModel4: SparseTable.__str__ with the text of ints | the invariant of C47 and its complement (cells never written); PrintSpec3 reads decimal notation |
| C142 | PrintModel4: rows of OneDimensionalSegmentTree.__str__ | each position has one parent (counting child numbers), intervals are nested; a segment stops exactly where it covers a row and not its parent (PrintProofs9-11) |
| C143 | DispatchModel: hasattr/getattr dispatch by constructed names over the transcribed namespaces; class selection | a name behind a fixed prefix and suffix is found iff its middle part is one of a computed list (dispatch_strip); tables compared with that list by a checked boolean (good_runs) |
| C95 | as C61, C93 | sizes of AvlTree proved; counterexamples by computation for the other trees |

Every property can be expressed in a model; concurrency in `*_parallel` functions is degenerate in this code
(`Executor.submit(..).result()` waits for each job before submitting the next), so a sequential model is exact,
except `_kahn_adjacency_list_parallel`, which has real interleavings: C91 models its threads and proves it under every schedule.

## 3. Findings from reading (each to be backed by a `_refuted` theorem)

1. ArrayQueue: `append` may contract the array (`DODA._modify`) while `_front` stays stale: after 7 appends, 5 poplefts and one
   append the next `popleft` returns None (FIFO broken). `pop` after contraction uses a stale `_rear`.
2. MultiDimensionalArray bounds check compares with suffix products: `MDA(int,2,3,4)[0,5,0]` aliases `[1,2,0]`. Negative coordinates pass too.
3. brick_sort loops forever on equal adjacent elements (default comp `<=`).
4. quick_sort with a custom pivot picker returns unsorted arrays ([2,3,1], pivot = array[low]).
5. bucket_sort raises ZeroDivisionError / IndexError on ordinary inputs ([1,1,1], [1,2,5]).
6. radix_sort leaves negative arrays unsorted.
7. is_ordered([1,1]) is False with the default comparator.
8. jump_search with start>0 misses or reports indices outside the range.
9. prev_permutation with duplicates returns (True, same array).
10. matrix_multiply_parallel wrong for non-square inputs.
11. find_root's "path splitting" assignment is a no-op (targets assigned left to right); harmless for correctness.
12. rabin_karp reports hash collisions (non-ASCII: chr(354)+'a' vs 'ab'); z_function misses matches followed by '$'.
13. Trie.strings_with_prefix returns only the last character when the prefix itself is stored.
14. BST custom `comp` never called (precedence of the conditional in the lambda).
15. BST insert after deleting the last array slot links the wrong index (`self.size` vs `_last_pos_filled`).
16. AVLTree.delete returns True for absent keys; BST.delete on an emptied tree raises TypeError.
17. dijkstra pops exactly |V| entries though stale entries remain: distances can stay inf.
18. kosaraju: KeyError if a vertex has no incoming edge; duplicates in the finishing list give wrong components.
19. max_flow ignores residual reverse arcs that are not edges: the value can be too small. dinic recurses for ever when a pipe enters the
    source (the source gets a parent); with source = sink on a cycle neither algorithm terminates.
20. breadth_first_search_parallel tests `visited` with node objects: infinite loop on cycles.
21. floyd_warshall next_vertex is None for every path with an intermediate vertex.
22. AdjacencyMatrix.num_edges counts removed edges; edge keys `u_v` collide ("a_b","c") vs ("a","b_c"); remove_vertex leaves costs behind.
23. Circular lists: insert_at(-len)/extract(-len) break the cycle; DoublyCircular.extract(0) leaves head.prev = None.
24. BinaryIndexedTree.get_sum(0, n) returns a wrong sum instead of raising IndexError; SparseTable truncates floats to ints;
    segment tree updates at an index in -n..-2 behave differently from the array back end; OneDimensionalSegmentTree([]) queries raise IndexError;
    ArraySegmentTree([]).build() recurses for ever.
25. insert_at/extract with index < -size raises AttributeError after size was already changed.
26. SplayTree.insert of a key already present sets the parent of an unrelated node: TypeError or an endless loop.
27. RedBlackTree.insert of a key already present turns its node red: the black counts differ. RedBlackTree(key, data) has a root without colour:
    the next insert raises AttributeError. After the deletion of the last array slot insert raises IndexError, and so does Multiset.add.
28. CartesianTree.insert of a key already present with a larger priority leaves the node where it is: the heap order breaks.
    CartesianTree(key, data) has a root without priority: the next insert raises AttributeError.
29. AVL rotations do not move the is_root mark: lowest_common_ancestor (algorithm 1) raises TypeError on an AVLTree of 1, 2, 3.
30. find_bridges follows directed edges although its docstring adds each edge once: on such graphs it reports edges of cycles.
31. minimum_spanning_tree(graph, 'prim') raises KeyError when an edge is given in one direction only, as in its docstring (the tree shares the caller's
    nodes, so joining v to u makes u a neighbour of v in the caller's graph, whose cost is then looked up); StopIteration on an empty graph.
32. BinarySearchTree.delete of a node with one child, when the array is compacted by that delete, stores the new parent in the cell with the child's OLD number
    (binary_trees.py 452-454): AVLTree with 1..9 inserted and 1..6 deleted raises AttributeError.
33. BinarySearchTree.delete of a root with one child (443-450) returns no node to start from, so heights and sizes are not updated.
34. The rotations of CartesianTree, Treap, RedBlackTree and SplayTree leave the sizes alone: with is_order_statistic=True, select and rank are wrong after a rotation.

35. RedBlackTree._remove_node (1475-1489) throws away the new indices of a compaction when the node has one child: the root index is stale and the same call raises IndexError.
36. _johnson_adjacency_list (977-1019) overwrites the costs of the caller's edges, leaves the vertex __q__ in the graph when there is a negative cycle, and raises KeyError once a vertex with
    incoming weighted edges was removed; its next_vertex table holds only None and the row's own vertex.
37. BinarySearchTree: after deleting a root with one child, a later delete that compacts the array raises AttributeError (the grandchildren still point to the freed cell).
38. SplayTree.delete of the least or greatest key: the subtree that becomes the tree keeps a parent link to the deleted root; the next splay raises AttributeError.
39. SplayTree.insert after a delete raises IndexError (the new node is not at index size - 1).
40. SplayTree.join moves links by the length of the array instead of the number of filled cells, and gives the copied nodes no parents.
41. SplayTree.split at an absent key returns None and splits nothing; at the greatest key it returns a tree with a keyless node.
42. C++ quick_sort on a range from index 0: `p - 1` wraps around when a pivot lands on index 0; even one-element arrays are never sorted.
43. C++ bubble_sort on an empty array: `arr_length - 1` wraps around and the loop reads cells that do not exist.
44. C++ comparators must return the object True: any other truthy answer counts as False.
45. C++ jump_search on an empty array reads cell 0 and fails.
46. (read, not modelled) C++ quick_sort with a pick_pivot_element: PyObject_CallFunctionObjArgs without its NULL sentinel (quick_sort.hpp 15).
47. LLVM selection_sort can not be built (i64 rebound): RuntimeError, unless bubble_sort was called before on the same dtype, whose code is then run (cache keyed by dtype alone).
48. LLVM sorts raise OverflowError on ints beyond 64 bits.
49. C++ AdjacencyList with underscores in names: two edges share a key ("a"+"b_c", "a_b"+"c"); remove_vertex splits keys at the first
    underscore, leaves edges of the removed vertex and drops edges of others (`C107_cpp_underscore_refuted`).
50. C++ breadth_first_search ignores the operation's result and makes no call for leaves (`C108_cpp_bfs_stop_refuted`).
51. C++ dijkstra: edges with underscored source names are attributed to vertex 0 or lost (`C109_cpp_dijkstra_names_refuted`); after
    remove_vertex the ids exceed the arrays (undefined behaviour) or the result names a vertex "" (`C109_cpp_dijkstra_removed_refuted`); an
    unknown source is taken for vertex 0 and afterwards is_adjacent answers for it (`C109_cpp_dijkstra_unknown_source_refuted`); edges of
    negative cost are skipped silently (`C109_cpp_dijkstra_negative_refuted`).
52. C++ prim: the result shares node objects with the given graph, so is_adjacent on the tree shows edges outside of it
    (`C110_cpp_prim_adjacency_refuted`); one-way edges make it add adjacencies to the given graph, after which a second call can follow a
    null pointer (`C110_cpp_prim_one_way_refuted`); a graph without vertices reads nodes[0]; a vertex added to the tree takes over another
    vertex's id (`C110_cpp_prim_next_id_refuted`).
53. C++ AdjacencyMatrix.get_edge returns a borrowed reference: dropping the result frees the edge the map still points to
    (`C111_cpp_get_edge_twice_refuted`).
54. C++ AdjacencyMatrix: edge records of "a"+"b_c" and "a_b"+"c" collide; an overflowing cost raises but leaves the edge; an edge without
    cost has no record; duplicate vertex names are counted twice; C++ matrix search ignores the operation's result.
55. C++ OneDimensionalArray(dtype, n, init=x): all cells share one reference, a cell can point to a freed object (`C113_cpp_array_init_refuted`);
    a write of the wrong type ends in SystemError (the TypeError is cleared first).
56. C++ DynamicOneDimensionalArray.append checks no type (`C114_cpp_append_dtype_refuted`); `_modify(True)` without elements reads before the
    buffer (`C114_cpp_modify_force_refuted`).
57. C++ ArrayStack: a pushed None can never be popped (`C115_cpp_stack_none_refuted`).
58. C++ BinaryIndexedTree: sums wrap at 2^63 (`C116_cpp_fenwick_overflow_refuted`); an update out of range is undefined behaviour, not IndexError
    (`C116_cpp_fenwick_bounds_refuted`).
59. C++ search trees compare keys by identity: an equal key in another object is not found and is inserted a second time (`C117_equal_keys_refuted`).
60. C++ search trees: an insert after the array compacted itself links an index outside the buffer (`C117_insert_after_compaction_refuted`); a delete of a
    node with one child that compacts uses the root's index for the parent and reads a cell that moved (`C117_delete_one_child_refuted`); a delete on an
    emptied tree dereferences NULL (`C117_delete_emptied_refuted`).
61. C++ BinaryTree keeps the key of a root without data, Python drops it (`C117_root_without_data_refuted`).
62. C++ search goes left only when the comparator returns 1, insert whenever it does not return 0 (`C117_comparator_refuted`).
63. C++ `_lca_1`: the second loop is never entered, so the second key is returned when the first is its ancestor (`C120_lca_1_ancestor_refuted`); keys
    outside -5..256 raise ValueError although present (`C120_lca_1_values_refuted`); undefined on a tree whose root is not at index 0
    (`C120_lca_1_avl_refuted`). `_lca_2` with the root's key returns the other key (`C120_lca_2_root_refuted`).
64. C++ AVLTree: with more than 257 keys `_balance_insertion` compares a fresh index object by identity and leaves nodes unbalanced
    (`C122_avl_unbalanced_refuted`); delete returns True for absent keys (`C122_avl_delete_absent_refuted`).
65. C++ SelfBalancingBinaryTree: the methods `_lca_1` and `_lca_2` call `_simple_path`; TreeNode's member "color" is declared at the offset of `size` (by
    reading; not part of the model).
66. C++ CartesianTree/RedBlackTree/SplayTree: inserting a key again breaks the heap order, the colours, or (splay) follows a missing parent (`C123_reinsert_refuted`, `C124_reinsert_refuted`, `C125_reinsert_refuted`); the first insert into a RedBlackTree constructed with a key is undefined behaviour (`C124_constructed_refuted`); an insert after a delete links an index that is not the node's (`C123_insert_after_delete_refuted`, `C124_…`, `C125_…`); RedBlackTree goes on with old indices after a compaction (`C124_compaction_refuted`); SplayTree cannot delete the least key after the greatest (`C125_delete_ends_refuted`).
67. C++ SplayTree.join: links of the copies are moved by the capacity of the array, not by the number of used cells (`C126_join_refuted`), copies have no parent (`C126_insert_after_join_refuted`); split at an absent key does nothing, at the greatest key returns a tree with an empty node (`C127_split_absent_refuted`, `C127_split_at_greatest_refuted`).
68. Printing: a circular list never ends after insert_at(-len) (`C129_circular_print_refuted`); ArrayStack prints spare cells, an empty ArrayQueue raises IndexError (`C131_array_stack_queue_print_refuted`); SkipList leaves out equal keys (`C133_skip_list_print_refuted`).
69. MAryTree.__str__ appends to a tuple, which raises as soon as a node has a child (by reading; no public call gives a node a child).
70. C++ DynamicOneDimensionalArray divides in single precision and compares with a double: with load_factor=0.45, 9 elements in 20 cells count as below the load factor, so the array compacts where Python's does not (`C114_cpp_float_load_refuted`).
71. C++: an empty DynamicOneDimensionalArray or ArrayStack prints one '' for each spare cell, because -1 means both "nothing filled" and "print everything" (`C137_cpp_empty_print_refuted`).
72. AdjacencyMatrix.remove_edge of an edge that was never added increases num_edges by one, even when the target is not a vertex (`C72_num_edges_counts_partial`, `C72_count_case`).
73. DoublyCircularLinkedList: extract(0) of several, then insert_before at the first node, opens the ring and printing never ends (`C13_insert_before_after_extract_refuted`).
74. C++ nodes and edges: True comes back as 1, `node.data = 2**64` stores -1 with an exception left set, a NUL cuts a str, a surrogate is a null pointer passed to std::string (`C139_cpp_node_data_refuted`); str is not escaped, and str of an edge shows the value too (`C139_cpp_node_str_refuted`, `C139_cpp_edge_str_refuted`).
75. C++ AdjacencyListGraphNode: add_adjacent_node of an adjacent name puts the data in the place of the node (`C140_cpp_second_add_refuted`); an adjacency_list that is not a list is ignored, a refused assignment to adjacent has dropped the neighbours (`C140_cpp_adjacency_refuted`).
76. Python AdjacencyListGraphNode made with adjacency_list: adjacent holds node objects instead of names, is the caller's own list, and remove_adjacent_node of such a neighbour raises ValueError (`C140_py_adjacency_list_refuted`).
77. minimum_spanning_tree, shortest_paths, all_pair_shortest_paths, topological_sort and find look the name up among all functions of their module: undocumented names run other algorithms or helpers, or raise TypeError (`C143_undocumented_names_refuted`); with the C++ backend unknown names give None (`C143_cpp_unknown_names_refuted`).

## 4. Trusted base

* Coq 8.16.1 kernel (`coqc`, `coqchk`).
* Axioms: `Print Assumptions` is run under every property theorem (files `*Props.v`) and prints "Closed under the global
  context" for all of them: no theorem rests on an axiom. Loading the standard library's ssreflect support brings in the module
  type fields `Coq.ssr.ssrunder.Under_rel.*` (7 constants of the Coq distribution); they are listed by tools that look at the loaded
  environment, and no theorem uses them.
* The reading of the Python code: every definition cites file and lines.
* C++ backend: modelled are the sorts, searches and is_ordered of linear_data_structures (CppModel) and the adjacency-list graph with
  its breadth_first_search, dijkstra and prim (CppGraphModel: nodes fresh and in one graph only, costs None or ints, doubles exact, so
  sums of costs up to 2^53; iteration orders of hash maps are parameters) and the adjacency-matrix graph with its
  breadth_first_search (CppMatrixModel), the arrays, ArrayStack and BinaryIndexedTree (CppArrayModel, CppBitModel), and the trees
  BinarySearchTree, AVLTree, CartesianTree, Treap, RedBlackTree and SplayTree with ArrayForTrees and the traversals (CppTreeModel, CppTreeModel2, CppTreeModel3: reference counts not modelled), the node and edge objects by themselves (NodeModel). The CPython API is trusted; a
  failing GetItem/SetItem is modelled as an exception, also where the C++ code does not check for it (undefined behaviour).
* LLVM backend: modelled are the IR builders, the pointer cache and the wrappers (LlvmModel). llvmlite, the LLVM compiler and its
  passes are trusted to implement our semantics of the IR fragment.
* Printing: `__str__` is modelled up to the final conversion of values to text (C128-C135, C137, C138, C142; with the text for ints in C139, C141).
* Not modelled: Python recursion limit, memory exhaustion,
  the accuracy of libm's `log2`/`log` (modelled by exact integer functions; C136 shows which errors do no harm; `sqrt` and `/` are shown exact below 2^52, taking Coq.Floats.SpecFloat as binary64; the C++ quotient of floats is binary32, C114), user comparators with side effects.
