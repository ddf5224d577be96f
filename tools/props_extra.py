p("BinaryIndexedTree rejects out-of-range indices","update and get_sum raise IndexError for indices outside the array and change nothing.","all arrays, histories, out-of-range indices",HIST,[T+"binary_trees.py:BinaryIndexedTree.update",T+"binary_trees.py:BinaryIndexedTree.get_sum"])
G="pydatastructs/graphs/"
p("Searches stop at the first falsy operation call","breadth_first_search and depth_first_search with an arbitrary operation make exactly the calls of the always-true search up to and including the first call that returns a falsy value.","all finite graphs, sources, operations (whose result may depend on earlier calls)",HIST,[G+"algorithms.py:_breadth_first_search_adjacency_list",G+"algorithms.py:_depth_first_search_adjacency_list"])
p("topological_sort leaves the caller's graph unchanged","After topological_sort(graph, 'kahn') the graph still has the same vertices, edges and costs.","all acyclic graphs",HIST,[G+"algorithms.py:_kahn_adjacency_list"])
p("Vertex names are arbitrary strings","Adjacency lists behave as edge sets whatever strings the vertices are called.","all vertex names, all histories",HIST,[G+"adjacency_list.py:AdjacencyList.is_adjacent","pydatastructs/utils/misc_util.py:AdjacencyListGraphNode.add_adjacent_node"])
p("A minimum spanning tree contains only its own edges","The graph returned by minimum_spanning_tree(graph, 'kruskal') is adjacent exactly along the chosen edges (in both directions), and the given graph is unchanged.","all finite weighted graphs",INF,[G+"algorithms.py:_minimum_spanning_tree_kruskal_adjacency_list",G+"algorithms.py:_generate_mst_object"])
p("topological_sort_parallel is correct under every schedule","topological_sort_parallel(graph, 'kahn', n) returns a linear extension of the graph if it has no cycle and raises ValueError otherwise, and the list returned does not depend on how the threads interleave.","all finite graphs built by any history of additions and removals, all interleavings of the jobs of each round",HIST,[G+"algorithms.py:_kahn_adjacency_list_parallel"])
p("prim returns a minimum spanning tree","minimum_spanning_tree(graph, 'prim') and minimum_spanning_tree_parallel(graph, 'prim', n) return the vertices and a minimum spanning tree of the component of the first vertex, holding the cost of each tree edge in both directions, and leave the graph as it was.","all finite weighted graphs built by any history, all costs (negative too), all thread counts",INF,[G+"algorithms.py:_minimum_spanning_tree_prim_adjacency_list",G+"algorithms.py:_minimum_spanning_tree_parallel_prim_adjacency_list"])
p("AVLTree stays a balanced sorted map through deletes","After any inserts and deletes an AVLTree holds exactly the remaining entries in key order, search, bounds, select and rank agree with them, the two subtrees of every node differ in height by at most one, and every node stores its height (and, when asked for, its size).","all histories of inserts and deletes",HIST,[T+"binary_trees.py:AVLTree.delete",T+"binary_trees.py:AVLTree._balance_deletion"])
p("CartesianTree and Treap stay sorted maps through deletes","After any inserts and deletes a CartesianTree or Treap holds exactly the remaining entries in key order, search and bounds agree with them, delete reports whether the key was there, and the priorities stay in heap order.","all histories of inserts (with any priorities) and deletes",HIST,[T+"binary_trees.py:CartesianTree.delete",T+"binary_trees.py:CartesianTree._trickle_down",T+"binary_trees.py:Treap"])
p("Order statistics work on every search tree","With is_order_statistic, select(i) is the i-th smallest node and rank its inverse on an AVLTree, CartesianTree, Treap, RedBlackTree and SplayTree.","all insert histories",HIST,[T+"binary_trees.py:BinarySearchTree.select",T+"binary_trees.py:BinarySearchTree.rank",T+"binary_trees.py:SelfBalancingBinaryTree._right_rotate"])
p("RedBlackTree stays a red-black sorted map through deletes","After any inserts and deletes a RedBlackTree holds exactly the remaining entries in key order, search and bounds agree with them, delete reports whether the key was there, the root is black, no red node has a red child and every way down from the root meets the same number of black nodes.","all histories of inserts and deletes",HIST,[T+"binary_trees.py:RedBlackTree.delete",T+"binary_trees.py:RedBlackTree._RedBlackTree__fix_deletion",T+"binary_trees.py:RedBlackTree._remove_node"])
p("johnson finds all shortest paths and leaves the graph alone","shortest_paths(graph, 'johnson', ...) returns for every pair of vertices the least cost of a walk (infinity if there is none), raises ValueError exactly if the graph has a negative cycle, and leaves the caller's graph as it was.","all finite weighted adjacency-list graphs built by any history, all integer costs",INF,[G+"algorithms.py:_johnson_adjacency_list"])
p("SplayTree stays a sorted map through deletes","After any inserts and deletes a SplayTree holds exactly the remaining entries in key order, search and bounds agree with them, and delete reports whether the key was there.","all histories of inserts and deletes",HIST,[T+"binary_trees.py:SplayTree.delete",T+"binary_trees.py:SplayTree.splay",T+"binary_trees.py:BinarySearchTree.delete"])
p("SplayTree.join unites two trees","self.join(other) raises ValueError if some key of self is not less than some key of other; otherwise self then holds the entries of both, and traversal and search agree with them.","all pairs of splay trees built by any inserts",INF,[T+"binary_trees.py:SplayTree.join","pydatastructs/linear_data_structures/arrays.py:ArrayForTrees.append"])
p("SplayTree.split cuts a tree at a key","self.split(x) leaves in self the entries with keys up to x and returns a SplayTree with those above x, and both trees go on working (search, traversal, bounds, inserts, further splits).","all histories of inserts and splits, all x",HIST,[T+"binary_trees.py:SplayTree.split",T+"binary_trees.py:SplayTree.insert"])
L="pydatastructs/linear_data_structures/"
B=L+"_backend/cpp/algorithms/"
p("The C++ bubble, selection and insertion sorts agree with the Python ones","bubble_sort, selection_sort and insertion_sort with backend=Backend.CPP sort the addressed range, touch nothing else, and return the array the Python backend returns.","all arrays (with None cells), ranges, comparators",INF,[B+"quadratic_time_sort.hpp:bubble_sort",B+"quadratic_time_sort.hpp:selection_sort",B+"quadratic_time_sort.hpp:insertion_sort"])
p("The C++ quick_sort sorts","quick_sort with backend=Backend.CPP returns, with the addressed range sorted and nothing else touched.","all arrays (with None cells), ranges, comparators",INF,[B+"quick_sort.hpp:quick_sort"])
p("The C++ searches are exact","linear_search, binary_search and jump_search with backend=Backend.CPP return an index of the value in the range (the first one for linear_search) and None exactly if there is none.","all arrays, ranges, values (sorted ranges for binary and jump search)",INF,[B+"misc_algorithms.hpp:linear_search",B+"misc_algorithms.hpp:binary_search",B+"misc_algorithms.hpp:jump_search"])
p("The C++ is_ordered decides orderedness","is_ordered with backend=Backend.CPP returns whether the range is sorted under the comparator, as the Python backend does.","all arrays, ranges, comparators",INF,[B+"misc_algorithms.hpp:is_ordered"])
p("bubble_sort with the LLVM backend sorts","bubble_sort with backend=Backend.LLVM returns, with the addressed range sorted (None last) and nothing else touched, whatever was sorted before in the process; the result is the one of the Python backend.","all arrays, ranges, dtypes, all earlier calls in the process",HIST,[B+"llvm_algorithms.py:_build_bubble_sort_ir",B+"llvm_algorithms.py:get_bubble_sort_ptr",B+"quadratic_time_sort.hpp:bubble_sort_llvm"])
p("selection_sort with the LLVM backend sorts","selection_sort with backend=Backend.LLVM returns, with the addressed range sorted (None last) and nothing else touched, whatever was sorted before in the process.","all arrays, ranges, dtypes, all earlier calls in the process",HIST,[B+"llvm_algorithms.py:_build_selection_sort_ir",B+"llvm_algorithms.py:get_selection_sort_ptr",B+"quadratic_time_sort.hpp:selection_sort_llvm"])
GC=G+"_backend/cpp/"
p("The C++ adjacency list is a digraph","After any history of add_vertex, remove_vertex, add_edge and remove_edge calls, an AdjacencyList with backend=Backend.CPP answers num_vertices, num_edges, is_adjacent, neighbors and get_edge as the digraph the calls describe; calls about unknown or duplicate vertices raise and change nothing.","all vertex names, all histories",HIST,[GC+"AdjacencyList.hpp:AdjacencyListGraph_add_vertex",GC+"AdjacencyList.hpp:AdjacencyListGraph_remove_vertex",GC+"AdjacencyList.hpp:AdjacencyListGraph_add_edge",GC+"AdjacencyList.hpp:AdjacencyListGraph_remove_edge"])
p("The C++ breadth_first_search visits each reachable vertex once, nearest first","breadth_first_search with backend=Backend.CPP on an adjacency list calls the operation once for every reachable vertex other than the source, in order of distance, with a predecessor on a shortest path, and stops at the first falsy result as the Python backend does.","all graphs built by any history, sources, operations, iteration orders of the hash maps",HIST,[GC+"Algorithms.hpp:breadth_first_search_adjacency_list"])
p("The C++ dijkstra returns least costs","shortest_paths(graph, 'dijkstra', source) with backend=Backend.CPP returns for every vertex the least cost of a walk from the source (infinity if there is none) and predecessors that lead back to the source along least-cost walks, with the costs and predecessors of a single target likewise; the graph is left as it was.","all graphs built by any history, all sources, targets and iteration orders of the hash maps",INF,[GC+"Algorithms.hpp:shortest_paths_dijkstra_adjacency_list"])
p("The C++ prim returns a minimum spanning tree","minimum_spanning_tree(graph, 'prim') with backend=Backend.CPP returns the vertices and a minimum spanning tree of the component of the first vertex, holding the cost of each tree edge in both directions; the returned graph is adjacent exactly along its edges, and the given graph is left as it was.","all graphs built by any history, all integer costs, all iteration orders of the hash maps, all choices among equal costs",INF,[GC+"Algorithms.hpp:minimum_spanning_tree_prim_adjacency_list"])
p("The C++ adjacency matrix is a digraph","After any history of add_edge and remove_edge calls, an AdjacencyMatrix with backend=Backend.CPP answers num_vertices, num_edges, is_adjacent, neighbors and get_edge as the digraph the calls describe; failing calls raise and change nothing.","all vertex names, all histories, any number of questions in between",HIST,[GC+"AdjacencyMatrix.hpp:AdjacencyMatrixGraph_add_edge",GC+"AdjacencyMatrix.hpp:AdjacencyMatrixGraph_remove_edge",GC+"AdjacencyMatrix.hpp:AdjacencyMatrixGraph_get_edge"])
p("The C++ breadth_first_search of a matrix visits each reachable vertex once, nearest first","breadth_first_search with backend=Backend.CPP on an adjacency matrix calls the operation once for every reachable vertex other than the source, in order of distance, with a predecessor on a shortest path, and stops at the first falsy result as the Python backend does.","all graphs built by any history, sources, operations, iteration orders of the hash maps",HIST,[GC+"Algorithms.hpp:breadth_first_search_adjacency_matrix"])
LC=L+"_backend/cpp/arrays/"
p("The C++ OneDimensionalArray is a row of typed cells","After any history of reads, writes and fills, OneDimensionalArray with backend=Backend.CPP answers as n independent cells that hold only None and instances of the dtype, refuses what is out of range or of another type, and never hands out an object that has been freed.","all dtypes, initial contents, histories (including references let go by the caller)",HIST,[LC+"OneDimensionalArray.hpp:OneDimensionalArray___new__",LC+"OneDimensionalArray.hpp:OneDimensionalArray___setitem__",LC+"OneDimensionalArray.hpp:OneDimensionalArray_fill"])
p("The C++ DynamicOneDimensionalArray behaves like the Python one","After any history of append and delete calls, DynamicOneDimensionalArray with backend=Backend.CPP has the cells, size and number of elements of the Python class, and no call touches memory outside its buffer.","all initial contents, load factors up to one half, histories",HIST,[LC+"DynamicOneDimensionalArray.hpp:DynamicOneDimensionalArray_append",LC+"DynamicOneDimensionalArray.hpp:DynamicOneDimensionalArray_delete",LC+"DynamicOneDimensionalArray.hpp:DynamicOneDimensionalArray__modify"])
p("The C++ ArrayStack is a stack","Stack(implementation='array', backend=Backend.CPP) returns pushed items last in first out, and peek, len and is_empty agree, for every history; pop and peek of an empty stack raise IndexError.","all initial items, all histories, all items (None too)",HIST,["pydatastructs/miscellaneous_data_structures/_backend/cpp/stack/ArrayStack.hpp:ArrayStack_push","pydatastructs/miscellaneous_data_structures/_backend/cpp/stack/ArrayStack.hpp:ArrayStack_pop"])
p("The C++ BinaryIndexedTree sums ranges","After any history of updates, get_sum and get_prefix_sum of BinaryIndexedTree with backend=Backend.CPP return the sums of the current values, as the Python backend does, and an index out of range raises IndexError.","all arrays of ints, all histories of updates, all ranges",HIST,[T+"_backend/cpp/BinaryIndexedTree.hpp:BinaryIndexedTree_update",T+"_backend/cpp/BinaryIndexedTree.hpp:BinaryIndexedTree_get_sum",T+"_backend/cpp/BinaryIndexedTree.hpp:BinaryIndexedTree___new__"])
TC=T+"_backend/cpp/"
p("The C++ BinarySearchTree is a sorted map","After any history of insert and delete calls a BinarySearchTree with backend=Backend.CPP holds exactly the remaining entries in key order, search finds exactly their keys, delete reports whether the key was there, and no call touches memory outside the tree's array.","all keys, data, comparators and histories of inserts and deletes",HIST,[TC+"BinarySearchTree.hpp:BinarySearchTree_insert",TC+"BinarySearchTree.hpp:BinarySearchTree_delete",TC+"BinarySearchTree.hpp:BinarySearchTree_search",LC+"ArrayForTrees.hpp:ArrayForTrees__modify"])
p("The C++ lower_bound and upper_bound are exact","lower_bound(key) and upper_bound(key) of a C++ search tree return the least key of the tree that is not less than, resp. greater than, the given one, and None if there is none.","all trees built by any history of inserts and deletes, all keys",HIST,[TC+"BinarySearchTree.hpp:BinarySearchTree__bound_helper"])
p("The C++ order statistics agree with the sorted entries","With is_order_statistic, select(i) of a C++ search tree is the node of the i-th smallest key and rank its inverse; select out of range raises ValueError and rank of an absent key is None.","all trees built by any history of inserts and deletes",HIST,[TC+"BinarySearchTree.hpp:BinarySearchTree_select",TC+"BinarySearchTree.hpp:BinarySearchTree_rank"])
p("The C++ lowest_common_ancestor is exact","lowest_common_ancestor(j, k, algorithm) of a C++ search tree returns the key of the deepest node that has both keys in its subtree, with both algorithms, and raises ValueError if a key is absent.","all trees built by any history of inserts and deletes, all pairs of keys, both algorithms",HIST,[TC+"BinarySearchTree.hpp:BinarySearchTree__lca_1",TC+"BinarySearchTree.hpp:BinarySearchTree__lca_2",TC+"BinarySearchTree.hpp:BinarySearchTree__simple_path"])
p("The C++ traversals list every node in the right order","BinaryTreeTraversal with backend=Backend.CPP lists every node of the tree exactly once, in pre-order, in-order, post-order, reverse in-order or level by level, and never fails to end.","all trees built by any history of inserts and deletes, all five orders",HIST,[TC+"BinaryTreeTraversal.hpp:BinaryTreeTraversal_depth_first_search",TC+"BinaryTreeTraversal.hpp:BinaryTreeTraversal_breadth_first_search"])
p("The C++ AVLTree stays a balanced sorted map","After any inserts and deletes an AVLTree with backend=Backend.CPP holds exactly the remaining entries in key order, the two subtrees of every node differ in height by at most one, and search, bounds, select and rank agree with the entries.","all histories of inserts and deletes",HIST,[TC+"AVLTree.hpp:AVLTree_insert",TC+"AVLTree.hpp:AVLTree_delete",TC+"AVLTree.hpp:AVLTree__balance_insertion",TC+"SelfBalancingBinaryTree.hpp:SelfBalancingBinaryTree__left_rotate"])
p("The C++ CartesianTree and Treap keep search order and heap order","After any inserts and deletes a CartesianTree or Treap with backend=Backend.CPP holds exactly the remaining entries in key order, no node has a smaller priority than its parent, search and bounds agree with the entries, and delete reports whether the key was there.","all histories of inserts (with any priorities, so whatever rand() returns) and deletes",HIST,[TC+"CartesianTree.hpp:CartesianTree_insert",TC+"CartesianTree.hpp:CartesianTree_delete",TC+"CartesianTree.hpp:CartesianTree__bubble_up",TC+"CartesianTree.hpp:CartesianTree__trickle_down",TC+"Treap.hpp:Treap_insert"])
p("The C++ RedBlackTree stays a red-black tree","After any inserts and deletes a RedBlackTree with backend=Backend.CPP holds exactly the remaining entries in key order, its root is black, no red node has a red child, every path down meets the same number of black nodes, and search and bounds agree with the entries.","all histories of inserts and deletes",HIST,[TC+"RedBlackTree.hpp:RedBlackTree_insert",TC+"RedBlackTree.hpp:RedBlackTree_delete",TC+"RedBlackTree.hpp:RedBlackTree___fix_insert",TC+"RedBlackTree.hpp:RedBlackTree___fix_deletion"])
p("The C++ SplayTree is a sorted map with the last key at the root","After any inserts and deletes a SplayTree with backend=Backend.CPP holds exactly the remaining entries in key order, search and bounds agree with them, delete reports whether the key was there, and the key inserted last is at the root.","all histories of inserts and deletes",HIST,[TC+"SplayTree.hpp:SplayTree_insert",TC+"SplayTree.hpp:SplayTree_delete",TC+"SplayTree.hpp:SplayTree_splay"])
p("The C++ SplayTree join unites ordered trees","join of two C++ splay trees where every key of the first is less than every key of the second leaves a tree with the entries of both, and raises ValueError for other trees.","all pairs of non-empty splay trees built by inserts",INF,[TC+"SplayTree.hpp:SplayTree_join"])
p("The C++ SplayTree split divides at the key","split(x) of a C++ splay tree leaves the entries with keys up to x and returns a tree with the others, whatever inserts and splits came before.","all histories of inserts and splits, all keys",HIST,[TC+"SplayTree.hpp:SplayTree_split",TC+"SplayTree.hpp:SplayTree__pre_order"])
M="pydatastructs/miscellaneous_data_structures/"
p("Printing a linked list, stack or queue shows its contents in order","str of a SinglyLinkedList, DoublyLinkedList, linked Stack or linked Queue shows exactly the items it holds, each once, in list order (stack: bottom first; queue: front first), after any history of calls.","all histories of calls, all items",HIST,[L+"linked_lists.py:LinkedList.__str__",M+"stack.py:LinkedListStack.__str__",M+"queue.py:LinkedListQueue.__str__"])
p("Printing a circular list ends and shows each item once","str of a SinglyCircularLinkedList or DoublyCircularLinkedList ends and shows exactly the items of the list, once each and in order, after any history of calls.","all histories of calls, all items",HIST,[L+"linked_lists.py:LinkedList.__str__",L+"linked_lists.py:SinglyCircularLinkedList.insert_at"])
p("Printing and reversing a dynamic array agree with its cells","After any history of append and delete calls, str of a DynamicOneDimensionalArray shows the cells up to the last filled one as reads return them, leaving out nothing filled, and reversed() yields the same cells backwards.","all start sizes, load factors up to one half, histories",HIST,[L+"arrays.py:DynamicOneDimensionalArray.__str__",L+"arrays.py:DynamicOneDimensionalArray.__reversed__"])
p("Printing an array stack or queue shows its items","str of an array Stack or array Queue shows exactly its items in order after any history, the empty one included.","all histories of calls, all items",HIST,[M+"stack.py:ArrayStack.__str__",M+"queue.py:ArrayQueue.__str__"])
p("Printing a heap shows the tree of its elements","After any history of insert and extract calls, str of a DHeap shows every element once with the positions of its children: every position but the first is listed under exactly one element, none lists more than d, and no child comes before its parent in the heap's order.","all d, comparators, initial elements and histories",HIST,[T+"heaps.py:DHeap.__str__",T+"heaps.py:DHeap._build"])
p("Printing a skip list shows every level","After any history of insert and extract calls (and whatever the random bits), str of a SkipList shows one row per level and every stored pair in the lowest row in key order.","all histories, all random bits",HIST,[L+"linked_lists.py:SkipList.__str__"])
p("Printing a segment tree shows every node with its value","After build and any history of updates, str of an ArraySegmentTree shows every node with its range and the combination of the current values of that range, in pre-order.","all arrays, associative combiners, histories of updates",HIST,[M+"segment_tree.py:ArraySegmentTree.__str__"])
p("The printed table of a search tree describes the tree","After any history of insert and delete calls, following the printed left and right numbers of a BinarySearchTree, AVLTree, SplayTree, RedBlackTree or CartesianTree from the root's row shows exactly the entries of the tree, in key order.","all keys, data, priorities and histories",HIST,[T+"binary_trees.py:BinaryTree.__str__",T+"binary_trees.py:CartesianTree.__str__"])
p("Floating-point rounding does not change the results","The decisions the library takes in floating point come out as for exact numbers: the load factor test of a dynamic array (so every history has the contents and size that exact fractions give), the step int(sqrt(n)) of jump_search; and merge_sort_parallel sorts and a sparse table answers whatever log comes out as, if it is not too small.","all sizes below 2^52 divided by the denominator of the load factor, all histories, all values of the logarithm not below the exact one",INF,[L+"arrays.py:DynamicOneDimensionalArray._modify",L+"algorithms.py:jump_search",L+"algorithms.py:merge_sort_parallel",M+"sparse_table.py:SparseTable.query"])
p("Printing a C++ array or array stack shows its contents","str of a OneDimensionalArray with backend=Backend.CPP shows the value of each cell in order; str of a C++ DynamicOneDimensionalArray shows what the Python class shows, and str of a C++ array Stack exactly its items, bottom first, after any history of calls, the empty one included.","all initial contents, load factors up to one half, histories",HIST,["pydatastructs/utils/_backend/cpp/utils.hpp:__str__",LC+"DynamicOneDimensionalArray.hpp:DynamicOneDimensionalArray___str__",LC+"OneDimensionalArray.hpp:OneDimensionalArray___str__","pydatastructs/miscellaneous_data_structures/_backend/cpp/stack/ArrayStack.hpp:ArrayStack__str__"])
p("The printed table of a C++ search tree describes the tree","After any history of insert and delete calls, following the printed left and right numbers of a BinarySearchTree, AVLTree, SplayTree, RedBlackTree, CartesianTree or Treap with backend=Backend.CPP from the root's row shows exactly the entries of the tree in key order; the printed priorities of a CartesianTree are in heap order.","all keys, data, priorities, comparators and histories",HIST,[TC+"BinaryTree.hpp:BinaryTree___str__"])
UC="pydatastructs/utils/_backend/cpp/"
p("Graph nodes and edges give back their data","The name and data of a C++ GraphNode, AdjacencyMatrixGraphNode or AdjacencyListGraphNode and the value of a C++ GraphEdge are the ones assigned last, after any history of assignments, and refused assignments change nothing; str of a C++ node or edge is str of the Python one.","all names, all data objects, all histories of assignments",HIST,[UC+"GraphNode.hpp:GraphNode_new",UC+"GraphNode.hpp:GraphNode_set",UC+"GraphNode.hpp:GraphNode_str",UC+"AdjacencyListGraphNode.hpp:AdjacencyListGraphNode_set_data",UC+"GraphEdge.hpp:GraphEdge_new",UC+"GraphEdge.hpp:GraphEdge_set_value",UC+"GraphEdge.hpp:GraphEdge_str"])
p("The neighbours of a node are those added and not removed","After any history of add_adjacent_node and remove_adjacent_node calls, adjacent of an AdjacencyListGraphNode (both backends) has exactly the nodes added and not removed since, each with the data given last; removing another name raises ValueError; nodes given as adjacency_list are neighbours from the start like added ones.","all names, data objects, initial lists and histories",HIST,["pydatastructs/utils/misc_util.py:AdjacencyListGraphNode.add_adjacent_node","pydatastructs/utils/misc_util.py:AdjacencyListGraphNode.remove_adjacent_node",UC+"AdjacencyListGraphNode.hpp:AdjacencyListGraphNode_new",UC+"AdjacencyListGraphNode.hpp:AdjacencyListGraphNode_add_adjacent_node",UC+"AdjacencyListGraphNode.hpp:AdjacencyListGraphNode_remove_adjacent_node",UC+"AdjacencyListGraphNode.hpp:AdjacencyListGraphNode_set_adjacent"])
p("Printing a sparse table shows the fold of every block","str of a SparseTable shows one row for each element and one cell for each power of two up to the size: the combination of that many elements from there on, None where fewer are left.","all non-empty arrays of numbers, associative combiners",INF,[M+"sparse_table.py:SparseTable.__new__",M+"sparse_table.py:SparseTable.__str__",L+"arrays.py:Array.__str__"])
p("Printing a one-dimensional segment tree shows where each segment is kept","str of a OneDimensionalSegmentTree shows the tree: read from the last row, its leaves cut the line at the sorted end points; every other row is the child of exactly one row; and each row lists, in the order given, exactly the segments that cover its interval but not that of its parent.","all non-empty lists of segments with ends in any order, repeated ends and single points included",INF,[T+"space_partitioning_trees.py:OneDimensionalSegmentTree.__str__",T+"space_partitioning_trees.py:OneDimensionalSegmentTree.build"])

p("A name selects what the documentation says, and unknown names are refused","minimum_spanning_tree, minimum_spanning_tree_parallel, strongly_connected_components, shortest_paths, all_pair_shortest_paths, topological_sort, topological_sort_parallel, max_flow and find run, for every documented algorithm name (and implementation of the graph), the function for it and raise NotImplementedError for every other str; Stack, Queue, PriorityQueue, RangeQueryStatic and RangeQueryDynamic likewise make an object of the class of the implementation asked for; the same holds with the C++ backend.","all strs, both implementations of graphs, both backends",INF,[G+"algorithms.py:minimum_spanning_tree",G+"algorithms.py:shortest_paths",G+"algorithms.py:all_pair_shortest_paths",G+"algorithms.py:topological_sort",G+"algorithms.py:max_flow","pydatastructs/strings/algorithms.py:find",M+"stack.py:Stack.__new__",M+"queue.py:Queue.__new__",M+"algorithms.py:RangeQueryStatic.__new__"])
