#!/usr/bin/env python3
"""Single source for properties.jsonl (run: python3 tools/props.py)."""
import json, os
P=[]
def p(title, statement, quantifier, why, anchors):
    P.append(dict(id="C%02d"%(len(P)+1), title=title, statement=statement, quantifier=quantifier, why_tests_cant=why, anchors=anchors))
A="pydatastructs/linear_data_structures/arrays.py"
L="pydatastructs/linear_data_structures/linked_lists.py"
S="pydatastructs/linear_data_structures/algorithms.py"
M="pydatastructs/miscellaneous_data_structures/"
T="pydatastructs/trees/"
G="pydatastructs/graphs/"
ST="pydatastructs/strings/"
U="pydatastructs/utils/misc_util.py"
INF="Inputs are unbounded; a test only samples finitely many of them."
HIST="The guarantee is about every finite history of calls; tests run a handful of fixed histories."
# --- arrays
p("OneDimensionalArray reads back the last write","After any history of in-range writes and fills, arr[i] returns the (dtype-coerced) value most recently stored at i, every other cell is unchanged, len(arr) never changes, and reading outside [0,len) always raises IndexError.","all arrays, all histories of __setitem__/fill, all indices",HIST,[A+":OneDimensionalArray"])
p("MultiDimensionalArray cells are independent","For every shape with positive dimensions, shape returns exactly the constructor's dimensions, and for in-range index tuples arr[t] returns the last value written at t: distinct in-range tuples never alias.","all dimension lists (any rank, any sizes), all pairs of in-range index tuples, all write histories",INF,[A+":MultiDimensionalArray.__new__",A+":MultiDimensionalArray.__getitem__",A+":MultiDimensionalArray.__setitem__",A+":MultiDimensionalArray.shape"])
p("MultiDimensionalArray rejects out-of-range indices","Documented: IndexError is raised when an index goes out of boundaries. For every shape and every tuple with some coordinate outside its dimension, access raises IndexError.","all shapes, all out-of-range index tuples",INF,[A+":MultiDimensionalArray._compare_shape"])
p("DynamicOneDimensionalArray behaves as a growable sequence with holes","After any history of append/delete, the sequence of non-None values read in index order equals the abstract sequence (appends add at the end, deleting an occupied index removes that element, other deletes change nothing), no element is lost or reordered by growth or contraction, and the element count equals the number of non-None cells.","all histories of append/delete with arbitrary indices (default load factor 0.25)",HIST,[A+":DynamicOneDimensionalArray.append",A+":DynamicOneDimensionalArray.delete",A+":DynamicOneDimensionalArray._modify"])
p("DynamicOneDimensionalArray stays dense enough","After any history of append/delete starting from an empty array, at least a load_factor fraction of the allocated cells is occupied whenever the last mutating call took effect (an empty array has capacity at most 1), and capacity is never below the number of elements.","all histories of append/delete",HIST,[A+":DynamicOneDimensionalArray._modify"])
# --- stack / queue
p("ArrayStack is LIFO","For every history of push/pop on Stack(implementation='array') with non-None values of one type, pop returns the most recently pushed value not yet popped, raises IndexError exactly when the stack is empty, len equals pushes minus pops, and peek shows the next pop.","all histories of push/pop/peek/len, all initial item lists",HIST,[M+"stack.py:ArrayStack"])
p("LinkedListStack is LIFO","Same contract for Stack(implementation='linked_list').","all histories of push/pop, all initial item lists",HIST,[M+"stack.py:LinkedListStack",L+":SinglyLinkedList"])
p("ArrayQueue is FIFO","For every history of append/popleft on Queue(implementation='array'), popleft returns the oldest value not yet removed, raises IndexError exactly when empty, and len is exact.","all histories of append/popleft",HIST,[M+"queue.py:ArrayQueue.append",M+"queue.py:ArrayQueue.popleft",A+":DynamicOneDimensionalArray._modify"])
p("LinkedListQueue is FIFO / a deque","For every history of append/appendleft/popleft/pop on Queue(implementation='linked_list'), the queue behaves as the abstract deque; when double_ended is False, appendleft and pop raise NotImplementedError and change nothing.","all histories, both double_ended modes",HIST,[M+"queue.py:LinkedListQueue",L+":SinglyLinkedList"])
p("ArrayQueue double-ended mode is a deque","For every history of append/appendleft/popleft/pop on a double ended array queue, results agree with an abstract deque.","all histories of deque operations",HIST,[M+"queue.py:ArrayQueue.pop",M+"queue.py:ArrayQueue.appendleft"])
# --- linked lists
p("SinglyLinkedList refines a sequence","For every history of insert_at/append/appendleft/extract/popleft/popright with in-range indices (Python negative indices included), the keys read by following links from head equal the abstract list, size is its length, tail is its last node and out-of-range positive indices raise IndexError without changing the list.","all histories of list operations, all indices",HIST,[L+":SinglyLinkedList",L+":LinkedList.__getitem__"])
p("DoublyLinkedList links are mutually inverse","For every history of insert_at/insert_after/insert_before/extract, forward traversal from head equals the abstract list, backward traversal from tail equals its reverse, and size is exact.","all histories of doubly linked list operations",HIST,[L+":DoublyLinkedList"])
p("Circular lists stay circular","For every history of insert_at/extract on SinglyCircularLinkedList with any valid (also negative) index, tail.next is head and following next from head cycles through exactly the size elements.","all histories, all valid Python indices",HIST,[L+":SinglyCircularLinkedList",L+":DoublyCircularLinkedList"])
p("SkipList is a sorted multiset whatever the coin flips","For every sequence of random bits and every history of insert/extract of finite keys, search(k) is True iff k is currently stored, the bottom level is sorted, size is exact, extract removes one stored occurrence and raises KeyError iff absent.","all random bit streams, all histories","Randomised: tests see a few seeds only.",[L+":SkipList"])
# --- sorts
SORT=" returns normally, the addressed range ends up sorted w.r.t. comp with all None cells last, the whole array is a permutation of the input and cells outside [start,end] are untouched"
def srt(name,title,extra=""):
    p(title,"For every array (None cells allowed), every total preorder comp and every valid start/end, "+name+SORT+"."+extra,"all arrays, all total preorders comp, all valid ranges",INF,[S+":"+name])
srt("bubble_sort","bubble_sort sorts")
srt("selection_sort","selection_sort sorts")
srt("insertion_sort","insertion_sort sorts")
srt("cocktail_shaker_sort","cocktail_shaker_sort sorts")
srt("shell_sort","shell_sort sorts")
srt("quick_sort","quick_sort sorts"," With the default pivot choice. (An empty range raises IndexError and changes nothing.)")
p("quick_sort sorts with any pivot picker","Documented option: for every pick_pivot_element that returns an element of the current partition, quick_sort still sorts.","all arrays, all pivot pickers",INF,[S+":quick_sort"])
srt("merge_sort_parallel","merge_sort_parallel sorts and is stable"," Elements equivalent under comp keep their order. Any number of threads; non-empty range.")
p("brick_sort terminates and sorts","For every array and the default comparator, brick_sort terminates with the range sorted.","all arrays including duplicates","Non-termination cannot be established by a test.",[S+":brick_sort",S+":brick_sort_parallel"])
srt("heapsort","heapsort sorts"," heapsort ignores comp: the order is the elements' <=.")
srt("intro_sort","intro_sort sorts"," For every maxdepth and ins_threshold; intro_sort ignores comp: the order is the elements' <=.")
p("counting_sort sorts","For every non-empty integer array (None cells allowed, at least one number), counting_sort returns a new array that is the sorted permutation of the non-None input values; the input is unchanged.","all integer arrays",INF,[S+":counting_sort"])
p("radix_sort sorts","For every array of non-negative integers (None allowed except first) radix_sort yields the sorted permutation, None last.","all arrays; negatives are a documented-by-omission gap",INF,[S+":radix_sort"])
p("bucket_sort sorts","For every integer array, bucket_sort returns the sorted permutation.","all integer arrays",INF,[S+":bucket_sort"])
# --- searches and misc
p("linear_search returns the first occurrence","Returns the least index in [start,end] holding value, None iff absent.","all arrays, values, ranges",INF,[S+":linear_search"])
p("binary_search is exact on sorted ranges","On a sorted range, returns an index in range holding value iff one exists, else None; always terminates.","all sorted arrays, all values, all ranges",INF,[S+":binary_search"])
p("jump_search is exact on sorted ranges","Same contract for jump_search.","all sorted arrays, all values, all ranges",INF,[S+":jump_search"])
p("lower_bound/upper_bound are the partition points","On a sorted range they return the first index whose element is not less than (resp. greater than) value, or end.","all sorted arrays, values, ranges",INF,[S+":lower_bound",S+":upper_bound"])
p("is_ordered decides orderedness","is_ordered returns True iff the non-None elements in the range are in non-decreasing order.","all arrays",INF,[S+":is_ordered"])
p("longest_common_subsequence is optimal","The result is a common subsequence of both inputs and no common subsequence is longer.","all pairs of sequences",INF,[S+":longest_common_subsequence"])
p("longest_increasing_subsequence is optimal","The result is a strictly increasing subsequence of the input and none is longer.","all non-empty arrays",INF,[S+":longest_increasing_subsequence"])
p("next_permutation is the lexicographic successor","Returns (True, p') with p' the least rearrangement greater than the range, or (False, the sorted arrangement) iff none exists; the input is not modified.","all arrays and ranges, duplicates included",INF,[S+":next_permutation",S+":_permutation_util"])
p("prev_permutation is the lexicographic predecessor","Dual of next_permutation.","all arrays and ranges, duplicates included",INF,[S+":prev_permutation"])
p("matrix_multiply_parallel computes the product","For all matrices with compatible shapes the result is the matrix product.","all compatible matrices",INF,[S+":matrix_multiply_parallel",S+":_matrix_multiply_helper"])
# --- heaps / pq
p("DHeap extracts in priority order","For every d>=1, every initial list and every history of insert/extract, the root is extremal, extract returns an extremal element of the current multiset and removes exactly that element; IndexError iff empty.","all d, all histories, both heap properties",HIST,[T+"heaps.py:DHeap"])
p("BinomialHeap is a priority queue","For every history of insert/merge/delete_minimum, find_minimum returns a least stored element, the stored multiset is exact and root orders stay strictly increasing with heap ordered binomial trees.","all histories incl. merges of arbitrary heaps",HIST,[T+"heaps.py:BinomialHeap",M+"binomial_trees.py:BinomialTree"])
p("BinomialHeap decrease_key/delete act on the given element","decrease_key lowers exactly one stored key; delete removes exactly the given element.","all heaps, nodes, keys",HIST,[T+"heaps.py:BinomialHeap.decrease_key",T+"heaps.py:BinomialHeap.delete"])
p("PriorityQueue pops an extremal value","For each of the three implementations and every history of push/pop with a strict-order comparator, pop returns a value of extremal priority among those stored and removes only it; the linked_list one serves equal priorities first-in first-out.","all histories, all implementations",HIST,[M+"queue.py:PriorityQueue",M+"queue.py:LinkedListPriorityQueue",M+"queue.py:BinaryHeapPriorityQueue",M+"queue.py:BinomialHeapPriorityQueue"])
# --- dsf
p("DisjointSetForest maintains the induced partition","After any history of make_set/union/make_root, two keys have the same root iff they are connected by the unions performed; find_root always terminates and KeyError is raised exactly for unknown keys.","all histories of make_set/union/make_root/find_root",HIST,[M+"disjoint_set.py:DisjointSetForest"])
p("DisjointSetForest sizes are exact","After any history find_size(k) is the number of keys in k's set, and make_root(k) makes k its own root without changing the partition.","all histories",HIST,[M+"disjoint_set.py:DisjointSetForest.find_size",M+"disjoint_set.py:DisjointSetForest.make_root"])
p("Union by size keeps finds logarithmic","Without make_root, every find_root follows at most log2(size of the set) parent links.","all histories of make_set/union",HIST,[M+"disjoint_set.py:DisjointSetForest.union"])
# --- range queries
p("BinaryIndexedTree sums are exact","After construction and any history of updates, get_sum(l,r) equals the sum of the current values at l..r.","all arrays, histories, valid ranges",HIST,[T+"binary_trees.py:BinaryIndexedTree"])
p("SparseTable range queries are exact","For every non-empty array and associative combiner (minimum, summation, gcd), query(l,r) equals the fold of the inclusive range.","all arrays, all valid ranges",INF,[M+"sparse_table.py:SparseTable",M+"algorithms.py:RangeQueryStaticSparseTable",U+":minimum",U+":summation",U+":greatest_common_divisor"])
p("Segment tree queries see the latest updates","After build and any history of in-range updates, query(l,r) equals the fold of the current values l..r.","all arrays, histories, ranges",HIST,[M+"segment_tree.py:OneDimensionalArraySegmentTree",M+"algorithms.py:RangeQueryDynamicSegmentTree"])
p("All range-query back ends agree","RangeQueryStatic array / sparse_table and RangeQueryDynamic array / segment_tree return equal answers and raise the same exceptions on the same inputs.","all arrays, histories, ranges",HIST,[M+"algorithms.py"])
p("OneDimensionalSegmentTree stabbing queries are exact","query(x) returns exactly the stored intervals that contain x.","all interval sets, all points",INF,[T+"space_partitioning_trees.py:OneDimensionalSegmentTree"])
# --- strings
FIND="For every text and query, find(text, query, '%s') returns exactly the ascending list of all (overlapping) occurrence positions; empty inputs give none."
p("find kmp is exact",FIND%"kmp","all strings",INF,[ST+"algorithms.py:_knuth_morris_pratt",ST+"algorithms.py:_build_kmp_table",ST+"algorithms.py:_do_match"])
p("find boyer_moore is exact",FIND%"boyer_moore","all strings",INF,[ST+"algorithms.py:_boyer_moore"])
p("find rabin_karp is exact",FIND%"rabin_karp","all strings",INF,[ST+"algorithms.py:_rabin_karp",ST+"algorithms.py:_hash_str"])
p("find z_function is exact",FIND%"z_function","all strings, also those containing '$'",INF,[ST+"algorithms.py:_z_function",ST+"algorithms.py:_z_vector"])
p("Trie is a set of strings","For every history of insert/delete, is_inserted(s) iff s was inserted and not deleted since; is_present(s) iff s is a prefix of some inserted string (or empty).","all histories of insert/delete",HIST,[ST+"trie.py:Trie"])
p("Trie strings_with_prefix enumerates exactly the matches","strings_with_prefix(p) returns every inserted string starting with p exactly once and nothing else.","all histories, all prefixes",HIST,[ST+"trie.py:Trie.strings_with_prefix"])
# --- trees
p("BinarySearchTree is a map (insert/search)","After any history of inserts, search finds exactly the inserted keys, the node found carries the last data given for the key, and in-order traversal lists the keys strictly ascending.","all insert histories",HIST,[T+"binary_trees.py:BinarySearchTree.insert",T+"binary_trees.py:BinarySearchTree.search"])
p("BinarySearchTree is a map (with deletes)","The same after any interleaving of insert and delete: delete returns True iff the key was present, None otherwise, and later operations see exactly the remaining keys.","all insert/delete histories",HIST,[T+"binary_trees.py:BinarySearchTree.delete",A+":ArrayForTrees._modify"])
p("Custom comparators order the tree","A tree built with comp orders its keys by comp.","all comparators",INF,[T+"binary_trees.py:BinaryTree.__new__"])
p("BST lower_bound/upper_bound","lower_bound(k)/upper_bound(k) return the least stored key >= k / > k, None iff none.","all trees and keys",INF,[T+"binary_trees.py:BinarySearchTree._bound_helper"])
p("Order statistics","With is_order_statistic, select(i) is the i-th smallest node and rank is its inverse.","all trees, all i",HIST,[T+"binary_trees.py:BinarySearchTree.select",T+"binary_trees.py:BinarySearchTree.rank"])
p("Lowest common ancestor","lowest_common_ancestor(j,k) returns the key of the deepest node that has both as descendants.","all trees, key pairs",INF,[T+"binary_trees.py:BinarySearchTree._lca_1",T+"binary_trees.py:BinarySearchTree._lca_2"])
p("Rotations preserve the in-order sequence","Each of the four rotations keeps the in-order key sequence and well-formed parent links.","all trees, all rotation sites",INF,[T+"binary_trees.py:SelfBalancingBinaryTree"])
p("AVLTree stays balanced","After any insert history the tree is a search tree on the inserted keys with balance factors in {-1,0,1} and correct stored heights.","all insert histories",HIST,[T+"binary_trees.py:AVLTree"])
p("AVLTree delete reports presence","delete(k) returns True iff k was present, None otherwise.","all histories",HIST,[T+"binary_trees.py:AVLTree.delete"])
p("RedBlackTree invariants","After any insert history no red node has a red child, all root-leaf paths have equal black count, the root is black and the key set is exact.","all insert histories",HIST,[T+"binary_trees.py:RedBlackTree"])
p("SplayTree moves the accessed key to the root","After insert the inserted key is at the root, and the key set and order are exact.","all histories",HIST,[T+"binary_trees.py:SplayTree"])
p("Treap / CartesianTree keep both orders","After any insert history keys are in search order and priorities in heap order, whatever the random priorities.","all histories, all priorities",HIST,[T+"binary_trees.py:CartesianTree",T+"binary_trees.py:Treap"])
p("Traversals visit every node once in the stated order","pre/in/post/out-order and breadth-first traversal list every node of the tree exactly once in the textbook order.","all trees",INF,[T+"binary_trees.py:BinaryTreeTraversal"])
p("Multiset counts are exact","For every history of add/remove, count(x), x in m and len(m) equal the abstract multiset; remove raises KeyError exactly for never-added elements.","all histories",HIST,[M+"multiset.py:Multiset"])
# --- graphs
p("AdjacencyList graph operations refine an edge set","For every history of add_vertex/add_edge/remove_edge/remove_vertex over ordinary names, is_adjacent/neighbors/num_edges reflect exactly the abstract edge set; add_edge raises ValueError for unknown vertices.","all histories",HIST,[G+"adjacency_list.py:AdjacencyList",U+":AdjacencyListGraphNode"])
p("AdjacencyMatrix graph operations refine an edge set","Same for the matrix implementation.","all histories",HIST,[G+"adjacency_matrix.py:AdjacencyMatrix"])
p("get_edge returns the cost of that edge","get_edge(u,v) returns the cost last given for edge (u,v), None if there is none.","all histories, all vertex names",HIST,[G+"adjacency_list.py:AdjacencyList.get_edge",G+"adjacency_matrix.py:AdjacencyMatrix.get_edge"])
p("breadth_first_search visits the reachable set once, by distance","With an always-true operation, every vertex reachable from the source is discovered exactly once, in non-decreasing distance, and nothing else; it terminates on every finite graph.","all finite graphs, sources",INF,[G+"algorithms.py:_breadth_first_search_adjacency_list"])
p("breadth_first_search_parallel terminates and visits like BFS","The parallel variant terminates and makes the same discoveries.","all finite graphs","Non-termination cannot be established by a test.",[G+"algorithms.py:_generate_layer",G+"algorithms.py:_breadth_first_search_parallel_adjacency_list"])
p("depth_first_search visits exactly the reachable set once","With an always-true operation every reachable vertex is discovered exactly once.","all finite graphs",INF,[G+"algorithms.py:_depth_first_search_adjacency_list"])
p("topological_sort is a linear extension or reports a cycle","kahn returns a permutation of the vertices with every edge going forward iff the graph is acyclic, and raises ValueError otherwise.","all finite graphs",INF,[G+"algorithms.py:_kahn_adjacency_list"])
p("bellman_ford distances are exact","Terminates on every graph; returns the least walk weights from the source, or raises ValueError only if a negative cycle is reachable.","all finite weighted graphs",INF,[G+"algorithms.py:_bellman_ford_adjacency_list"])
p("dijkstra distances are exact","For non-negative weights shortest_paths(..., 'dijkstra', s) returns the least path weight for every vertex.","all finite graphs with non-negative weights",INF,[G+"algorithms.py:_dijkstra_adjacency_list"])
p("floyd_warshall distances are exact","Without negative cycles dist[i][j] is the least walk weight, and next_vertex allows path reconstruction.","all finite weighted graphs without negative cycles",INF,[G+"algorithms.py:_floyd_warshall_adjacency_list"])
p("kruskal returns a minimum spanning forest","The selected edges form an acyclic spanning set of minimum total cost.","all finite weighted undirected graphs",INF,[G+"algorithms.py:_minimum_spanning_tree_kruskal_adjacency_list"])
p("kosaraju returns the strongly connected components","The returned sets are exactly the SCCs.","all finite digraphs",INF,[G+"algorithms.py:_strongly_connected_components_kosaraju_adjacency_list"])
p("tarjan returns the strongly connected components","The returned sets are exactly the SCCs.","all finite digraphs",INF,[G+"algorithms.py:_strongly_connected_components_tarjan_adjacency_list"])
p("max_flow is a maximum flow","edmonds_karp returns the value of a feasible flow and no feasible flow is larger.","all finite capacitated graphs",INF,[G+"algorithms.py:_max_flow_edmonds_karp_",G+"algorithms.py:_breadth_first_search_max_flow"])
p("find_bridges returns exactly the bridges","An edge is reported iff its removal disconnects its endpoints.","all finite undirected graphs",INF,[G+"algorithms.py:find_bridges"])
exec(open(os.path.join(os.path.dirname(__file__),'props_extra.py')).read()) if os.path.exists(os.path.join(os.path.dirname(__file__),'props_extra.py')) else None
with open(os.path.join(os.path.dirname(__file__),'..','properties.jsonl'),'w') as f:
    for x in P: f.write(json.dumps(x)+"\n")
for x in P: print(x['id'],x['title'])
