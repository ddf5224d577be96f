{"id": "C01", "title": "OneDimensionalArray reads back the last write", "statement": "After any history of in-range writes and fills, arr[i] returns the (dtype-coerced) value most recently stored at i, every other cell is unchanged, len(arr) never changes, and reading outside [0,len) always raises IndexError.", "quantifier": "all arrays, all histories of __setitem__/fill, all indices", "why_tests_cant": "The guarantee is about every finite history of calls; tests run a handful of fixed histories.", "anchors": ["pydatastructs/linear_data_structures/arrays.py:OneDimensionalArray"]}
{"id": "C02", "title": "MultiDimensionalArray cells are independent", "statement": "For every shape with positive dimensions, shape returns exactly the constructor's dimensions, and for in-range index tuples arr[t] returns the last value written at t: distinct in-range tuples never alias.", "quantifier": "all dimension lists (any rank, any sizes), all pairs of in-range index tuples, all write histories", "why_tests_cant": "Inputs are unbounded; a test only samples finitely many of them.", "anchors": ["pydatastructs/linear_data_structures/arrays.py:MultiDimensionalArray.__new__", "pydatastructs/linear_data_structures/arrays.py:MultiDimensionalArray.__getitem__", "pydatastructs/linear_data_structures/arrays.py:MultiDimensionalArray.__setitem__", "pydatastructs/linear_data_structures/arrays.py:MultiDimensionalArray.shape"]}
{"id": "C03", "title": "MultiDimensionalArray rejects out-of-range indices", "statement": "Documented: IndexError is raised when an index goes out of boundaries. For every shape and every tuple with some coordinate outside its dimension, access raises IndexError.", "quantifier": "all shapes, all out-of-range index tuples", "why_tests_cant": "Inputs are unbounded; a test only samples finitely many of them.", "anchors": ["pydatastructs/linear_data_structures/arrays.py:MultiDimensionalArray._compare_shape"]}
{"id": "C04", "title": "DynamicOneDimensionalArray behaves as a growable sequence with holes", "statement": "After any history of append/delete, the sequence of non-None values read in index order equals the abstract sequence (appends add at the end, deleting an occupied index removes that element, other deletes change nothing), no element is lost or reordered by growth or contraction, and the element count equals the number of non-None cells.", "quantifier": "all histories of append/delete with arbitrary indices (default load factor 0.25)", "why_tests_cant": "The guarantee is about every finite history of calls; tests run a handful of fixed histories.", "anchors": ["pydatastructs/linear_data_structures/arrays.py:DynamicOneDimensionalArray.append", "pydatastructs/linear_data_structures/arrays.py:DynamicOneDimensionalArray.delete", "pydatastructs/linear_data_structures/arrays.py:DynamicOneDimensionalArray._modify"]}
{"id": "C05", "title": "DynamicOneDimensionalArray stays dense enough", "statement": "After any history of append/delete starting from an empty array, at least a load_factor fraction of the allocated cells is occupied whenever the last mutating call took effect (an empty array has capacity at most 1), and capacity is never below the number of elements.", "quantifier": "all histories of append/delete", "why_tests_cant": "The guarantee is about every finite history of calls; tests run a handful of fixed histories.", "anchors": ["pydatastructs/linear_data_structures/arrays.py:DynamicOneDimensionalArray._modify"]}
{"id": "C06", "title": "ArrayStack is LIFO", "statement": "For every history of push/pop on Stack(implementation='array') with non-None values of one type, pop returns the most recently pushed value not yet popped, raises IndexError exactly when the stack is empty, len equals pushes minus pops, and peek shows the next pop.", "quantifier": "all histories of push/pop/peek/len, all initial item lists", "why_tests_cant": "The guarantee is about every finite history of calls; tests run a handful of fixed histories.", "anchors": ["pydatastructs/miscellaneous_data_structures/stack.py:ArrayStack"]}
{"id": "C07", "title": "LinkedListStack is LIFO", "statement": "Same contract for Stack(implementation='linked_list').", "quantifier": "all histories of push/pop, all initial item lists", "why_tests_cant": "The guarantee is about every finite history of calls; tests run a handful of fixed histories.", "anchors": ["pydatastructs/miscellaneous_data_structures/stack.py:LinkedListStack", "pydatastructs/linear_data_structures/linked_lists.py:SinglyLinkedList"]}
{"id": "C08", "title": "ArrayQueue is FIFO", "statement": "For every history of append/popleft on Queue(implementation='array'), popleft returns the oldest value not yet removed, raises IndexError exactly when empty, and len is exact.", "quantifier": "all histories of append/popleft", "why_tests_cant": "The guarantee is about every finite history of calls; tests run a handful of fixed histories.", "anchors": ["pydatastructs/miscellaneous_data_structures/queue.py:ArrayQueue.append", "pydatastructs/miscellaneous_data_structures/queue.py:ArrayQueue.popleft", "pydatastructs/linear_data_structures/arrays.py:DynamicOneDimensionalArray._modify"]}
{"id": "C09", "title": "LinkedListQueue is FIFO / a deque", "statement": "For every history of append/appendleft/popleft/pop on Queue(implementation='linked_list'), the queue behaves as the abstract deque; when double_ended is False, appendleft and pop raise NotImplementedError and change nothing.", "quantifier": "all histories, both double_ended modes", "why_tests_cant": "The guarantee is about every finite history of calls; tests run a handful of fixed histories.", "anchors": ["pydatastructs/miscellaneous_data_structures/queue.py:LinkedListQueue", "pydatastructs/linear_data_structures/linked_lists.py:SinglyLinkedList"]}
{"id": "C10", "title": "ArrayQueue double-ended mode is a deque", "statement": "For every history of append/appendleft/popleft/pop on a double ended array queue, results agree with an abstract deque.", "quantifier": "all histories of deque operations", "why_tests_cant": "The guarantee is about every finite history of calls; tests run a handful of fixed histories.", "anchors": ["pydatastructs/miscellaneous_data_structures/queue.py:ArrayQueue.pop", "pydatastructs/miscellaneous_data_structures/queue.py:ArrayQueue.appendleft"]}
{"id": "C11", "title": "SinglyLinkedList refines a sequence", "statement": "For every history of insert_at/append/appendleft/extract/popleft/popright with in-range indices (Python negative indices included), the keys read by following links from head equal the abstract list, size is its length, tail is its last node and out-of-range positive indices raise IndexError without changing the list.", "quantifier": "all histories of list operations, all indices", "why_tests_cant": "The guarantee is about every finite history of calls; tests run a handful of fixed histories.", "anchors": ["pydatastructs/linear_data_structures/linked_lists.py:SinglyLinkedList", "pydatastructs/linear_data_structures/linked_lists.py:LinkedList.__getitem__"]}
{"id": "C12", "title": "DoublyLinkedList links are mutually inverse", "statement": "For every history of insert_at/insert_after/insert_before/extract, forward traversal from head equals the abstract list, backward traversal from tail equals its reverse, and size is exact.", "quantifier": "all histories of doubly linked list operations", "why_tests_cant": "The guarantee is about every finite history of calls; tests run a handful of fixed histories.", "anchors": ["pydatastructs/linear_data_structures/linked_lists.py:DoublyLinkedList"]}
{"id": "C13", "title": "Circular lists stay circular", "statement": "For every history of insert_at/extract on SinglyCircularLinkedList with any valid (also negative) index, tail.next is head and following next from head cycles through exactly the size elements.", "quantifier": "all histories, all valid Python indices", "why_tests_cant": "The guarantee is about every finite history of calls; tests run a handful of fixed histories.", "anchors": ["pydatastructs/linear_data_structures/linked_lists.py:SinglyCircularLinkedList", "pydatastructs/linear_data_structures/linked_lists.py:DoublyCircularLinkedList"]}
{"id": "C14", "title": "SkipList is a sorted multiset whatever the coin flips", "statement": "For every sequence of random bits and every history of insert/extract of finite keys, search(k) is True iff k is currently stored, the bottom level is sorted, size is exact, extract removes one stored occurrence and raises KeyError iff absent.", "quantifier": "all random bit streams, all histories", "why_tests_cant": "Randomised: tests see a few seeds only.", "anchors": ["pydatastructs/linear_data_structures/linked_lists.py:SkipList"]}
{"id": "C15", "title": "bubble_sort sorts", "statement": "For every array (None cells allowed), every total preorder comp and every valid start/end, bubble_sort returns normally, the addressed range ends up sorted w.r.t. comp with all None cells last, the whole array is a permutation of the input and cells outside [start,end] are untouched.", "quantifier": "all arrays, all total preorders comp, all valid ranges", "why_tests_cant": "Inputs are unbounded; a test only samples finitely many of them.", "anchors": ["pydatastructs/linear_data_structures/algorithms.py:bubble_sort"]}
{"id": "C16", "title": "selection_sort sorts", "statement": "For every array (None cells allowed), every total preorder comp and every valid start/end, selection_sort returns normally, the addressed range ends up sorted w.r.t. comp with all None cells last, the whole array is a permutation of the input and cells outside [start,end] are untouched.", "quantifier": "all arrays, all total preorders comp, all valid ranges", "why_tests_cant": "Inputs are unbounded; a test only samples finitely many of them.", "anchors": ["pydatastructs/linear_data_structures/algorithms.py:selection_sort"]}
{"id": "C17", "title": "insertion_sort sorts", "statement": "For every array (None cells allowed), every total preorder comp and every valid start/end, insertion_sort returns normally, the addressed range ends up sorted w.r.t. comp with all None cells last, the whole array is a permutation of the input and cells outside [start,end] are untouched.", "quantifier": "all arrays, all total preorders comp, all valid ranges", "why_tests_cant": "Inputs are unbounded; a test only samples finitely many of them.", "anchors": ["pydatastructs/linear_data_structures/algorithms.py:insertion_sort"]}
{"id": "C18", "title": "cocktail_shaker_sort sorts", "statement": "For every array (None cells allowed), every total preorder comp and every valid start/end, cocktail_shaker_sort returns normally, the addressed range ends up sorted w.r.t. comp with all None cells last, the whole array is a permutation of the input and cells outside [start,end] are untouched.", "quantifier": "all arrays, all total preorders comp, all valid ranges", "why_tests_cant": "Inputs are unbounded; a test only samples finitely many of them.", "anchors": ["pydatastructs/linear_data_structures/algorithms.py:cocktail_shaker_sort"]}
{"id": "C19", "title": "shell_sort sorts", "statement": "For every array (None cells allowed), every total preorder comp and every valid start/end, shell_sort returns normally, the addressed range ends up sorted w.r.t. comp with all None cells last, the whole array is a permutation of the input and cells outside [start,end] are untouched.", "quantifier": "all arrays, all total preorders comp, all valid ranges", "why_tests_cant": "Inputs are unbounded; a test only samples finitely many of them.", "anchors": ["pydatastructs/linear_data_structures/algorithms.py:shell_sort"]}
{"id": "C20", "title": "quick_sort sorts", "statement": "For every array (None cells allowed), every total preorder comp and every valid start/end, quick_sort returns normally, the addressed range ends up sorted w.r.t. comp with all None cells last, the whole array is a permutation of the input and cells outside [start,end] are untouched. With the default pivot choice. (An empty range raises IndexError and changes nothing.)", "quantifier": "all arrays, all total preorders comp, all valid ranges", "why_tests_cant": "Inputs are unbounded; a test only samples finitely many of them.", "anchors": ["pydatastructs/linear_data_structures/algorithms.py:quick_sort"]}
{"id": "C21", "title": "quick_sort sorts with any pivot picker", "statement": "Documented option: for every pick_pivot_element that returns an element of the current partition, quick_sort still sorts.", "quantifier": "all arrays, all pivot pickers", "why_tests_cant": "Inputs are unbounded; a test only samples finitely many of them.", "anchors": ["pydatastructs/linear_data_structures/algorithms.py:quick_sort"]}
{"id": "C22", "title": "merge_sort_parallel sorts and is stable", "statement": "For every array (None cells allowed), every total preorder comp and every valid start/end, merge_sort_parallel returns normally, the addressed range ends up sorted w.r.t. comp with all None cells last, the whole array is a permutation of the input and cells outside [start,end] are untouched. Elements equivalent under comp keep their order. Any number of threads; non-empty range.", "quantifier": "all arrays, all total preorders comp, all valid ranges", "why_tests_cant": "Inputs are unbounded; a test only samples finitely many of them.", "anchors": ["pydatastructs/linear_data_structures/algorithms.py:merge_sort_parallel"]}
{"id": "C23", "title": "brick_sort terminates and sorts", "statement": "For every array and the default comparator, brick_sort terminates with the range sorted.", "quantifier": "all arrays including duplicates", "why_tests_cant": "Non-termination cannot be established by a test.", "anchors": ["pydatastructs/linear_data_structures/algorithms.py:brick_sort", "pydatastructs/linear_data_structures/algorithms.py:brick_sort_parallel"]}
{"id": "C24", "title": "heapsort sorts", "statement": "For every array (None cells allowed), every total preorder comp and every valid start/end, heapsort returns normally, the addressed range ends up sorted w.r.t. comp with all None cells last, the whole array is a permutation of the input and cells outside [start,end] are untouched. heapsort ignores comp: the order is the elements' <=.", "quantifier": "all arrays, all total preorders comp, all valid ranges", "why_tests_cant": "Inputs are unbounded; a test only samples finitely many of them.", "anchors": ["pydatastructs/linear_data_structures/algorithms.py:heapsort"]}
{"id": "C25", "title": "intro_sort sorts", "statement": "For every array (None cells allowed), every total preorder comp and every valid start/end, intro_sort returns normally, the addressed range ends up sorted w.r.t. comp with all None cells last, the whole array is a permutation of the input and cells outside [start,end] are untouched. For every maxdepth and ins_threshold; intro_sort ignores comp: the order is the elements' <=.", "quantifier": "all arrays, all total preorders comp, all valid ranges", "why_tests_cant": "Inputs are unbounded; a test only samples finitely many of them.", "anchors": ["pydatastructs/linear_data_structures/algorithms.py:intro_sort"]}
{"id": "C26", "title": "counting_sort sorts", "statement": "For every non-empty integer array (None cells allowed, at least one number), counting_sort returns a new array that is the sorted permutation of the non-None input values; the input is unchanged.", "quantifier": "all integer arrays", "why_tests_cant": "Inputs are unbounded; a test only samples finitely many of them.", "anchors": ["pydatastructs/linear_data_structures/algorithms.py:counting_sort"]}
{"id": "C27", "title": "radix_sort sorts", "statement": "For every array of non-negative integers (None allowed except first) radix_sort yields the sorted permutation, None last.", "quantifier": "all arrays; negatives are a documented-by-omission gap", "why_tests_cant": "Inputs are unbounded; a test only samples finitely many of them.", "anchors": ["pydatastructs/linear_data_structures/algorithms.py:radix_sort"]}
{"id": "C28", "title": "bucket_sort sorts", "statement": "For every integer array, bucket_sort returns the sorted permutation.", "quantifier": "all integer arrays", "why_tests_cant": "Inputs are unbounded; a test only samples finitely many of them.", "anchors": ["pydatastructs/linear_data_structures/algorithms.py:bucket_sort"]}
{"id": "C29", "title": "linear_search returns the first occurrence", "statement": "Returns the least index in [start,end] holding value, None iff absent.", "quantifier": "all arrays, values, ranges", "why_tests_cant": "Inputs are unbounded; a test only samples finitely many of them.", "anchors": ["pydatastructs/linear_data_structures/algorithms.py:linear_search"]}
{"id": "C30", "title": "binary_search is exact on sorted ranges", "statement": "On a sorted range, returns an index in range holding value iff one exists, else None; always terminates.", "quantifier": "all sorted arrays, all values, all ranges", "why_tests_cant": "Inputs are unbounded; a test only samples finitely many of them.", "anchors": ["pydatastructs/linear_data_structures/algorithms.py:binary_search"]}
{"id": "C31", "title": "jump_search is exact on sorted ranges", "statement": "Same contract for jump_search.", "quantifier": "all sorted arrays, all values, all ranges", "why_tests_cant": "Inputs are unbounded; a test only samples finitely many of them.", "anchors": ["pydatastructs/linear_data_structures/algorithms.py:jump_search"]}
{"id": "C32", "title": "lower_bound/upper_bound are the partition points", "statement": "On a sorted range they return the first index whose element is not less than (resp. greater than) value, or end.", "quantifier": "all sorted arrays, values, ranges", "why_tests_cant": "Inputs are unbounded; a test only samples finitely many of them.", "anchors": ["pydatastructs/linear_data_structures/algorithms.py:lower_bound", "pydatastructs/linear_data_structures/algorithms.py:upper_bound"]}
{"id": "C33", "title": "is_ordered decides orderedness", "statement": "is_ordered returns True iff the non-None elements in the range are in non-decreasing order.", "quantifier": "all arrays", "why_tests_cant": "Inputs are unbounded; a test only samples finitely many of them.", "anchors": ["pydatastructs/linear_data_structures/algorithms.py:is_ordered"]}
{"id": "C34", "title": "longest_common_subsequence is optimal", "statement": "The result is a common subsequence of both inputs and no common subsequence is longer.", "quantifier": "all pairs of sequences", "why_tests_cant": "Inputs are unbounded; a test only samples finitely many of them.", "anchors": ["pydatastructs/linear_data_structures/algorithms.py:longest_common_subsequence"]}
{"id": "C35", "title": "longest_increasing_subsequence is optimal", "statement": "The result is a strictly increasing subsequence of the input and none is longer.", "quantifier": "all non-empty arrays", "why_tests_cant": "Inputs are unbounded; a test only samples finitely many of them.", "anchors": ["pydatastructs/linear_data_structures/algorithms.py:longest_increasing_subsequence"]}
{"id": "C36", "title": "next_permutation is the lexicographic successor", "statement": "Returns (True, p') with p' the least rearrangement greater than the range, or (False, the sorted arrangement) iff none exists; the input is not modified.", "quantifier": "all arrays and ranges, duplicates included", "why_tests_cant": "Inputs are unbounded; a test only samples finitely many of them.", "anchors": ["pydatastructs/linear_data_structures/algorithms.py:next_permutation", "pydatastructs/linear_data_structures/algorithms.py:_permutation_util"]}
{"id": "C37", "title": "prev_permutation is the lexicographic predecessor", "statement": "Dual of next_permutation.", "quantifier": "all arrays and ranges, duplicates included", "why_tests_cant": "Inputs are unbounded; a test only samples finitely many of them.", "anchors": ["pydatastructs/linear_data_structures/algorithms.py:prev_permutation"]}
{"id": "C38", "title": "matrix_multiply_parallel computes the product", "statement": "For all matrices with compatible shapes the result is the matrix product.", "quantifier": "all compatible matrices", "why_tests_cant": "Inputs are unbounded; a test only samples finitely many of them.", "anchors": ["pydatastructs/linear_data_structures/algorithms.py:matrix_multiply_parallel", "pydatastructs/linear_data_structures/algorithms.py:_matrix_multiply_helper"]}
{"id": "C39", "title": "DHeap extracts in priority order", "statement": "For every d>=1, every initial list and every history of insert/extract, the root is extremal, extract returns an extremal element of the current multiset and removes exactly that element; IndexError iff empty.", "quantifier": "all d, all histories, both heap properties", "why_tests_cant": "The guarantee is about every finite history of calls; tests run a handful of fixed histories.", "anchors": ["pydatastructs/trees/heaps.py:DHeap"]}
{"id": "C40", "title": "BinomialHeap is a priority queue", "statement": "For every history of insert/merge/delete_minimum, find_minimum returns a least stored element, the stored multiset is exact and root orders stay strictly increasing with heap ordered binomial trees.", "quantifier": "all histories incl. merges of arbitrary heaps", "why_tests_cant": "The guarantee is about every finite history of calls; tests run a handful of fixed histories.", "anchors": ["pydatastructs/trees/heaps.py:BinomialHeap", "pydatastructs/miscellaneous_data_structures/binomial_trees.py:BinomialTree"]}
{"id": "C41", "title": "BinomialHeap decrease_key/delete act on the given element", "statement": "decrease_key lowers exactly one stored key; delete removes exactly the given element.", "quantifier": "all heaps, nodes, keys", "why_tests_cant": "The guarantee is about every finite history of calls; tests run a handful of fixed histories.", "anchors": ["pydatastructs/trees/heaps.py:BinomialHeap.decrease_key", "pydatastructs/trees/heaps.py:BinomialHeap.delete"]}
{"id": "C42", "title": "PriorityQueue pops an extremal value", "statement": "For each of the three implementations and every history of push/pop with a strict-order comparator, pop returns a value of extremal priority among those stored and removes only it; the linked_list one serves equal priorities first-in first-out.", "quantifier": "all histories, all implementations", "why_tests_cant": "The guarantee is about every finite history of calls; tests run a handful of fixed histories.", "anchors": ["pydatastructs/miscellaneous_data_structures/queue.py:PriorityQueue", "pydatastructs/miscellaneous_data_structures/queue.py:LinkedListPriorityQueue", "pydatastructs/miscellaneous_data_structures/queue.py:BinaryHeapPriorityQueue", "pydatastructs/miscellaneous_data_structures/queue.py:BinomialHeapPriorityQueue"]}
{"id": "C43", "title": "DisjointSetForest maintains the induced partition", "statement": "After any history of make_set/union/make_root, two keys have the same root iff they are connected by the unions performed; find_root always terminates and KeyError is raised exactly for unknown keys.", "quantifier": "all histories of make_set/union/make_root/find_root", "why_tests_cant": "The guarantee is about every finite history of calls; tests run a handful of fixed histories.", "anchors": ["pydatastructs/miscellaneous_data_structures/disjoint_set.py:DisjointSetForest"]}
{"id": "C44", "title": "DisjointSetForest sizes are exact", "statement": "After any history find_size(k) is the number of keys in k's set, and make_root(k) makes k its own root without changing the partition.", "quantifier": "all histories", "why_tests_cant": "The guarantee is about every finite history of calls; tests run a handful of fixed histories.", "anchors": ["pydatastructs/miscellaneous_data_structures/disjoint_set.py:DisjointSetForest.find_size", "pydatastructs/miscellaneous_data_structures/disjoint_set.py:DisjointSetForest.make_root"]}
{"id": "C45", "title": "Union by size keeps finds logarithmic", "statement": "Without make_root, every find_root follows at most log2(size of the set) parent links.", "quantifier": "all histories of make_set/union", "why_tests_cant": "The guarantee is about every finite history of calls; tests run a handful of fixed histories.", "anchors": ["pydatastructs/miscellaneous_data_structures/disjoint_set.py:DisjointSetForest.union"]}
{"id": "C46", "title": "BinaryIndexedTree sums are exact", "statement": "After construction and any history of updates, get_sum(l,r) equals the sum of the current values at l..r.", "quantifier": "all arrays, histories, valid ranges", "why_tests_cant": "The guarantee is about every finite history of calls; tests run a handful of fixed histories.", "anchors": ["pydatastructs/trees/binary_trees.py:BinaryIndexedTree"]}
{"id": "C47", "title": "SparseTable range queries are exact", "statement": "For every non-empty array and associative combiner (minimum, summation, gcd), query(l,r) equals the fold of the inclusive range.", "quantifier": "all arrays, all valid ranges", "why_tests_cant": "Inputs are unbounded; a test only samples finitely many of them.", "anchors": ["pydatastructs/miscellaneous_data_structures/sparse_table.py:SparseTable", "pydatastructs/miscellaneous_data_structures/algorithms.py:RangeQueryStaticSparseTable", "pydatastructs/utils/misc_util.py:minimum", "pydatastructs/utils/misc_util.py:summation", "pydatastructs/utils/misc_util.py:greatest_common_divisor"]}
{"id": "C48", "title": "Segment tree queries see the latest updates", "statement": "After build and any history of in-range updates, query(l,r) equals the fold of the current values l..r.", "quantifier": "all arrays, histories, ranges", "why_tests_cant": "The guarantee is about every finite history of calls; tests run a handful of fixed histories.", "anchors": ["pydatastructs/miscellaneous_data_structures/segment_tree.py:OneDimensionalArraySegmentTree", "pydatastructs/miscellaneous_data_structures/algorithms.py:RangeQueryDynamicSegmentTree"]}
{"id": "C49", "title": "All range-query back ends agree", "statement": "RangeQueryStatic array / sparse_table and RangeQueryDynamic array / segment_tree return equal answers and raise the same exceptions on the same inputs.", "quantifier": "all arrays, histories, ranges", "why_tests_cant": "The guarantee is about every finite history of calls; tests run a handful of fixed histories.", "anchors": ["pydatastructs/miscellaneous_data_structures/algorithms.py"]}
{"id": "C50", "title": "OneDimensionalSegmentTree stabbing queries are exact", "statement": "query(x) returns exactly the stored intervals that contain x.", "quantifier": "all interval sets, all points", "why_tests_cant": "Inputs are unbounded; a test only samples finitely many of them.", "anchors": ["pydatastructs/trees/space_partitioning_trees.py:OneDimensionalSegmentTree"]}
{"id": "C51", "title": "find kmp is exact", "statement": "For every text and query, find(text, query, 'kmp') returns exactly the ascending list of all (overlapping) occurrence positions; empty inputs give none.", "quantifier": "all strings", "why_tests_cant": "Inputs are unbounded; a test only samples finitely many of them.", "anchors": ["pydatastructs/strings/algorithms.py:_knuth_morris_pratt", "pydatastructs/strings/algorithms.py:_build_kmp_table", "pydatastructs/strings/algorithms.py:_do_match"]}
{"id": "C52", "title": "find boyer_moore is exact", "statement": "For every text and query, find(text, query, 'boyer_moore') returns exactly the ascending list of all (overlapping) occurrence positions; empty inputs give none.", "quantifier": "all strings", "why_tests_cant": "Inputs are unbounded; a test only samples finitely many of them.", "anchors": ["pydatastructs/strings/algorithms.py:_boyer_moore"]}
{"id": "C53", "title": "find rabin_karp is exact", "statement": "For every text and query, find(text, query, 'rabin_karp') returns exactly the ascending list of all (overlapping) occurrence positions; empty inputs give none.", "quantifier": "all strings", "why_tests_cant": "Inputs are unbounded; a test only samples finitely many of them.", "anchors": ["pydatastructs/strings/algorithms.py:_rabin_karp", "pydatastructs/strings/algorithms.py:_hash_str"]}
{"id": "C54", "title": "find z_function is exact", "statement": "For every text and query, find(text, query, 'z_function') returns exactly the ascending list of all (overlapping) occurrence positions; empty inputs give none.", "quantifier": "all strings, also those containing '$'", "why_tests_cant": "Inputs are unbounded; a test only samples finitely many of them.", "anchors": ["pydatastructs/strings/algorithms.py:_z_function", "pydatastructs/strings/algorithms.py:_z_vector"]}
{"id": "C55", "title": "Trie is a set of strings", "statement": "For every history of insert/delete, is_inserted(s) iff s was inserted and not deleted since; is_present(s) iff s is a prefix of some inserted string (or empty).", "quantifier": "all histories of insert/delete", "why_tests_cant": "The guarantee is about every finite history of calls; tests run a handful of fixed histories.", "anchors": ["pydatastructs/strings/trie.py:Trie"]}
{"id": "C56", "title": "Trie strings_with_prefix enumerates exactly the matches", "statement": "strings_with_prefix(p) returns every inserted string starting with p exactly once and nothing else.", "quantifier": "all histories, all prefixes", "why_tests_cant": "The guarantee is about every finite history of calls; tests run a handful of fixed histories.", "anchors": ["pydatastructs/strings/trie.py:Trie.strings_with_prefix"]}
{"id": "C57", "title": "BinarySearchTree is a map (insert/search)", "statement": "After any history of inserts, search finds exactly the inserted keys, the node found carries the last data given for the key, and in-order traversal lists the keys strictly ascending.", "quantifier": "all insert histories", "why_tests_cant": "The guarantee is about every finite history of calls; tests run a handful of fixed histories.", "anchors": ["pydatastructs/trees/binary_trees.py:BinarySearchTree.insert", "pydatastructs/trees/binary_trees.py:BinarySearchTree.search"]}
{"id": "C58", "title": "BinarySearchTree is a map (with deletes)", "statement": "The same after any interleaving of insert and delete: delete returns True iff the key was present, None otherwise, and later operations see exactly the remaining keys.", "quantifier": "all insert/delete histories", "why_tests_cant": "The guarantee is about every finite history of calls; tests run a handful of fixed histories.", "anchors": ["pydatastructs/trees/binary_trees.py:BinarySearchTree.delete", "pydatastructs/linear_data_structures/arrays.py:ArrayForTrees._modify"]}
{"id": "C59", "title": "Custom comparators order the tree", "statement": "A tree built with comp orders its keys by comp.", "quantifier": "all comparators", "why_tests_cant": "Inputs are unbounded; a test only samples finitely many of them.", "anchors": ["pydatastructs/trees/binary_trees.py:BinaryTree.__new__"]}
{"id": "C60", "title": "BST lower_bound/upper_bound", "statement": "lower_bound(k)/upper_bound(k) return the least stored key >= k / > k, None iff none.", "quantifier": "all trees and keys", "why_tests_cant": "Inputs are unbounded; a test only samples finitely many of them.", "anchors": ["pydatastructs/trees/binary_trees.py:BinarySearchTree._bound_helper"]}
{"id": "C61", "title": "Order statistics", "statement": "With is_order_statistic, select(i) is the i-th smallest node and rank is its inverse.", "quantifier": "all trees, all i", "why_tests_cant": "The guarantee is about every finite history of calls; tests run a handful of fixed histories.", "anchors": ["pydatastructs/trees/binary_trees.py:BinarySearchTree.select", "pydatastructs/trees/binary_trees.py:BinarySearchTree.rank"]}
{"id": "C62", "title": "Lowest common ancestor", "statement": "lowest_common_ancestor(j,k) returns the key of the deepest node that has both as descendants.", "quantifier": "all trees, key pairs", "why_tests_cant": "Inputs are unbounded; a test only samples finitely many of them.", "anchors": ["pydatastructs/trees/binary_trees.py:BinarySearchTree._lca_1", "pydatastructs/trees/binary_trees.py:BinarySearchTree._lca_2"]}
{"id": "C63", "title": "Rotations preserve the in-order sequence", "statement": "Each of the four rotations keeps the in-order key sequence and well-formed parent links.", "quantifier": "all trees, all rotation sites", "why_tests_cant": "Inputs are unbounded; a test only samples finitely many of them.", "anchors": ["pydatastructs/trees/binary_trees.py:SelfBalancingBinaryTree"]}
{"id": "C64", "title": "AVLTree stays balanced", "statement": "After any insert history the tree is a search tree on the inserted keys with balance factors in {-1,0,1} and correct stored heights.", "quantifier": "all insert histories", "why_tests_cant": "The guarantee is about every finite history of calls; tests run a handful of fixed histories.", "anchors": ["pydatastructs/trees/binary_trees.py:AVLTree"]}
{"id": "C65", "title": "AVLTree delete reports presence", "statement": "delete(k) returns True iff k was present, None otherwise.", "quantifier": "all histories", "why_tests_cant": "The guarantee is about every finite history of calls; tests run a handful of fixed histories.", "anchors": ["pydatastructs/trees/binary_trees.py:AVLTree.delete"]}
{"id": "C66", "title": "RedBlackTree invariants", "statement": "After any insert history no red node has a red child, all root-leaf paths have equal black count, the root is black and the key set is exact.", "quantifier": "all insert histories", "why_tests_cant": "The guarantee is about every finite history of calls; tests run a handful of fixed histories.", "anchors": ["pydatastructs/trees/binary_trees.py:RedBlackTree"]}
{"id": "C67", "title": "SplayTree moves the accessed key to the root", "statement": "After insert the inserted key is at the root, and the key set and order are exact.", "quantifier": "all histories", "why_tests_cant": "The guarantee is about every finite history of calls; tests run a handful of fixed histories.", "anchors": ["pydatastructs/trees/binary_trees.py:SplayTree"]}
{"id": "C68", "title": "Treap / CartesianTree keep both orders", "statement": "After any insert history keys are in search order and priorities in heap order, whatever the random priorities.", "quantifier": "all histories, all priorities", "why_tests_cant": "The guarantee is about every finite history of calls; tests run a handful of fixed histories.", "anchors": ["pydatastructs/trees/binary_trees.py:CartesianTree", "pydatastructs/trees/binary_trees.py:Treap"]}
{"id": "C69", "title": "Traversals visit every node once in the stated order", "statement": "pre/in/post/out-order and breadth-first traversal list every node of the tree exactly once in the textbook order.", "quantifier": "all trees", "why_tests_cant": "Inputs are unbounded; a test only samples finitely many of them.", "anchors": ["pydatastructs/trees/binary_trees.py:BinaryTreeTraversal"]}
{"id": "C70", "title": "Multiset counts are exact", "statement": "For every history of add/remove, count(x), x in m and len(m) equal the abstract multiset; remove raises KeyError exactly for never-added elements.", "quantifier": "all histories", "why_tests_cant": "The guarantee is about every finite history of calls; tests run a handful of fixed histories.", "anchors": ["pydatastructs/miscellaneous_data_structures/multiset.py:Multiset"]}
{"id": "C71", "title": "AdjacencyList graph operations refine an edge set", "statement": "For every history of add_vertex/add_edge/remove_edge/remove_vertex over ordinary names, is_adjacent/neighbors/num_edges reflect exactly the abstract edge set; add_edge raises ValueError for unknown vertices.", "quantifier": "all histories", "why_tests_cant": "The guarantee is about every finite history of calls; tests run a handful of fixed histories.", "anchors": ["pydatastructs/graphs/adjacency_list.py:AdjacencyList", "pydatastructs/utils/misc_util.py:AdjacencyListGraphNode"]}
{"id": "C72", "title": "AdjacencyMatrix graph operations refine an edge set", "statement": "Same for the matrix implementation.", "quantifier": "all histories", "why_tests_cant": "The guarantee is about every finite history of calls; tests run a handful of fixed histories.", "anchors": ["pydatastructs/graphs/adjacency_matrix.py:AdjacencyMatrix"]}
{"id": "C73", "title": "get_edge returns the cost of that edge", "statement": "get_edge(u,v) returns the cost last given for edge (u,v), None if there is none.", "quantifier": "all histories, all vertex names", "why_tests_cant": "The guarantee is about every finite history of calls; tests run a handful of fixed histories.", "anchors": ["pydatastructs/graphs/adjacency_list.py:AdjacencyList.get_edge", "pydatastructs/graphs/adjacency_matrix.py:AdjacencyMatrix.get_edge"]}
{"id": "C74", "title": "breadth_first_search visits the reachable set once, by distance", "statement": "With an always-true operation, every vertex reachable from the source is discovered exactly once, in non-decreasing distance, and nothing else; it terminates on every finite graph.", "quantifier": "all finite graphs, sources", "why_tests_cant": "Inputs are unbounded; a test only samples finitely many of them.", "anchors": ["pydatastructs/graphs/algorithms.py:_breadth_first_search_adjacency_list"]}
{"id": "C75", "title": "breadth_first_search_parallel terminates and visits like BFS", "statement": "The parallel variant terminates and makes the same discoveries.", "quantifier": "all finite graphs", "why_tests_cant": "Non-termination cannot be established by a test.", "anchors": ["pydatastructs/graphs/algorithms.py:_generate_layer", "pydatastructs/graphs/algorithms.py:_breadth_first_search_parallel_adjacency_list"]}
{"id": "C76", "title": "depth_first_search visits exactly the reachable set once", "statement": "With an always-true operation every reachable vertex is discovered exactly once.", "quantifier": "all finite graphs", "why_tests_cant": "Inputs are unbounded; a test only samples finitely many of them.", "anchors": ["pydatastructs/graphs/algorithms.py:_depth_first_search_adjacency_list"]}
{"id": "C77", "title": "topological_sort is a linear extension or reports a cycle", "statement": "kahn returns a permutation of the vertices with every edge going forward iff the graph is acyclic, and raises ValueError otherwise.", "quantifier": "all finite graphs", "why_tests_cant": "Inputs are unbounded; a test only samples finitely many of them.", "anchors": ["pydatastructs/graphs/algorithms.py:_kahn_adjacency_list"]}
{"id": "C78", "title": "bellman_ford distances are exact", "statement": "Terminates on every graph; returns the least walk weights from the source, or raises ValueError only if a negative cycle is reachable.", "quantifier": "all finite weighted graphs", "why_tests_cant": "Inputs are unbounded; a test only samples finitely many of them.", "anchors": ["pydatastructs/graphs/algorithms.py:_bellman_ford_adjacency_list"]}
{"id": "C79", "title": "dijkstra distances are exact", "statement": "For non-negative weights shortest_paths(..., 'dijkstra', s) returns the least path weight for every vertex.", "quantifier": "all finite graphs with non-negative weights", "why_tests_cant": "Inputs are unbounded; a test only samples finitely many of them.", "anchors": ["pydatastructs/graphs/algorithms.py:_dijkstra_adjacency_list"]}
{"id": "C80", "title": "floyd_warshall distances are exact", "statement": "Without negative cycles dist[i][j] is the least walk weight, and next_vertex allows path reconstruction.", "quantifier": "all finite weighted graphs without negative cycles", "why_tests_cant": "Inputs are unbounded; a test only samples finitely many of them.", "anchors": ["pydatastructs/graphs/algorithms.py:_floyd_warshall_adjacency_list"]}
{"id": "C81", "title": "kruskal returns a minimum spanning forest", "statement": "The selected edges form an acyclic spanning set of minimum total cost.", "quantifier": "all finite weighted undirected graphs", "why_tests_cant": "Inputs are unbounded; a test only samples finitely many of them.", "anchors": ["pydatastructs/graphs/algorithms.py:_minimum_spanning_tree_kruskal_adjacency_list"]}
{"id": "C82", "title": "kosaraju returns the strongly connected components", "statement": "The returned sets are exactly the SCCs.", "quantifier": "all finite digraphs", "why_tests_cant": "Inputs are unbounded; a test only samples finitely many of them.", "anchors": ["pydatastructs/graphs/algorithms.py:_strongly_connected_components_kosaraju_adjacency_list"]}
{"id": "C83", "title": "tarjan returns the strongly connected components", "statement": "The returned sets are exactly the SCCs.", "quantifier": "all finite digraphs", "why_tests_cant": "Inputs are unbounded; a test only samples finitely many of them.", "anchors": ["pydatastructs/graphs/algorithms.py:_strongly_connected_components_tarjan_adjacency_list"]}
{"id": "C84", "title": "max_flow is a maximum flow", "statement": "edmonds_karp returns the value of a feasible flow and no feasible flow is larger.", "quantifier": "all finite capacitated graphs", "why_tests_cant": "Inputs are unbounded; a test only samples finitely many of them.", "anchors": ["pydatastructs/graphs/algorithms.py:_max_flow_edmonds_karp_", "pydatastructs/graphs/algorithms.py:_breadth_first_search_max_flow"]}
{"id": "C85", "title": "find_bridges returns exactly the bridges", "statement": "An edge is reported iff its removal disconnects its endpoints.", "quantifier": "all finite undirected graphs", "why_tests_cant": "Inputs are unbounded; a test only samples finitely many of them.", "anchors": ["pydatastructs/graphs/algorithms.py:find_bridges"]}
{"id": "C86", "title": "BinaryIndexedTree rejects out-of-range indices", "statement": "update and get_sum raise IndexError for indices outside the array and change nothing.", "quantifier": "all arrays, histories, out-of-range indices", "why_tests_cant": "The guarantee is about every finite history of calls; tests run a handful of fixed histories.", "anchors": ["pydatastructs/trees/binary_trees.py:BinaryIndexedTree.update", "pydatastructs/trees/binary_trees.py:BinaryIndexedTree.get_sum"]}
{"id": "C87", "title": "Searches stop at the first falsy operation call", "statement": "breadth_first_search and depth_first_search with an arbitrary operation make exactly the calls of the always-true search up to and including the first call that returns a falsy value.", "quantifier": "all finite graphs, sources, operations (whose result may depend on earlier calls)", "why_tests_cant": "The guarantee is about every finite history of calls; tests run a handful of fixed histories.", "anchors": ["pydatastructs/graphs/algorithms.py:_breadth_first_search_adjacency_list", "pydatastructs/graphs/algorithms.py:_depth_first_search_adjacency_list"]}
{"id": "C88", "title": "topological_sort leaves the caller's graph unchanged", "statement": "After topological_sort(graph, 'kahn') the graph still has the same vertices, edges and costs.", "quantifier": "all acyclic graphs", "why_tests_cant": "The guarantee is about every finite history of calls; tests run a handful of fixed histories.", "anchors": ["pydatastructs/graphs/algorithms.py:_kahn_adjacency_list"]}
{"id": "C89", "title": "Vertex names are arbitrary strings", "statement": "Adjacency lists behave as edge sets whatever strings the vertices are called.", "quantifier": "all vertex names, all histories", "why_tests_cant": "The guarantee is about every finite history of calls; tests run a handful of fixed histories.", "anchors": ["pydatastructs/graphs/adjacency_list.py:AdjacencyList.is_adjacent", "pydatastructs/utils/misc_util.py:AdjacencyListGraphNode.add_adjacent_node"]}
{"id": "C90", "title": "A minimum spanning tree contains only its own edges", "statement": "The graph returned by minimum_spanning_tree(graph, 'kruskal') is adjacent exactly along the chosen edges (in both directions), and the given graph is unchanged.", "quantifier": "all finite weighted graphs", "why_tests_cant": "Inputs are unbounded; a test only samples finitely many of them.", "anchors": ["pydatastructs/graphs/algorithms.py:_minimum_spanning_tree_kruskal_adjacency_list", "pydatastructs/graphs/algorithms.py:_generate_mst_object"]}
{"id": "C91", "title": "topological_sort_parallel is correct under every schedule", "statement": "topological_sort_parallel(graph, 'kahn', n) returns a linear extension of the graph if it has no cycle and raises ValueError otherwise, and the list returned does not depend on how the threads interleave.", "quantifier": "all finite graphs built by any history of additions and removals, all interleavings of the jobs of each round", "why_tests_cant": "The guarantee is about every finite history of calls; tests run a handful of fixed histories.", "anchors": ["pydatastructs/graphs/algorithms.py:_kahn_adjacency_list_parallel"]}
{"id": "C92", "title": "prim returns a minimum spanning tree", "statement": "minimum_spanning_tree(graph, 'prim') and minimum_spanning_tree_parallel(graph, 'prim', n) return the vertices and a minimum spanning tree of the component of the first vertex, holding the cost of each tree edge in both directions, and leave the graph as it was.", "quantifier": "all finite weighted graphs built by any history, all costs (negative too), all thread counts", "why_tests_cant": "Inputs are unbounded; a test only samples finitely many of them.", "anchors": ["pydatastructs/graphs/algorithms.py:_minimum_spanning_tree_prim_adjacency_list", "pydatastructs/graphs/algorithms.py:_minimum_spanning_tree_parallel_prim_adjacency_list"]}
{"id": "C93", "title": "AVLTree stays a balanced sorted map through deletes", "statement": "After any inserts and deletes an AVLTree holds exactly the remaining entries in key order, search, bounds, select and rank agree with them, the two subtrees of every node differ in height by at most one, and every node stores its height (and, when asked for, its size).", "quantifier": "all histories of inserts and deletes", "why_tests_cant": "The guarantee is about every finite history of calls; tests run a handful of fixed histories.", "anchors": ["pydatastructs/trees/binary_trees.py:AVLTree.delete", "pydatastructs/trees/binary_trees.py:AVLTree._balance_deletion"]}
{"id": "C94", "title": "CartesianTree and Treap stay sorted maps through deletes", "statement": "After any inserts and deletes a CartesianTree or Treap holds exactly the remaining entries in key order, search and bounds agree with them, delete reports whether the key was there, and the priorities stay in heap order.", "quantifier": "all histories of inserts (with any priorities) and deletes", "why_tests_cant": "The guarantee is about every finite history of calls; tests run a handful of fixed histories.", "anchors": ["pydatastructs/trees/binary_trees.py:CartesianTree.delete", "pydatastructs/trees/binary_trees.py:CartesianTree._trickle_down", "pydatastructs/trees/binary_trees.py:Treap"]}
{"id": "C95", "title": "Order statistics work on every search tree", "statement": "With is_order_statistic, select(i) is the i-th smallest node and rank its inverse on an AVLTree, CartesianTree, Treap, RedBlackTree and SplayTree.", "quantifier": "all insert histories", "why_tests_cant": "The guarantee is about every finite history of calls; tests run a handful of fixed histories.", "anchors": ["pydatastructs/trees/binary_trees.py:BinarySearchTree.select", "pydatastructs/trees/binary_trees.py:BinarySearchTree.rank", "pydatastructs/trees/binary_trees.py:SelfBalancingBinaryTree._right_rotate"]}
{"id": "C96", "title": "RedBlackTree stays a red-black sorted map through deletes", "statement": "After any inserts and deletes a RedBlackTree holds exactly the remaining entries in key order, search and bounds agree with them, delete reports whether the key was there, the root is black, no red node has a red child and every way down from the root meets the same number of black nodes.", "quantifier": "all histories of inserts and deletes", "why_tests_cant": "The guarantee is about every finite history of calls; tests run a handful of fixed histories.", "anchors": ["pydatastructs/trees/binary_trees.py:RedBlackTree.delete", "pydatastructs/trees/binary_trees.py:RedBlackTree._RedBlackTree__fix_deletion", "pydatastructs/trees/binary_trees.py:RedBlackTree._remove_node"]}
{"id": "C97", "title": "johnson finds all shortest paths and leaves the graph alone", "statement": "shortest_paths(graph, 'johnson', ...) returns for every pair of vertices the least cost of a walk (infinity if there is none), raises ValueError exactly if the graph has a negative cycle, and leaves the caller's graph as it was.", "quantifier": "all finite weighted adjacency-list graphs built by any history, all integer costs", "why_tests_cant": "Inputs are unbounded; a test only samples finitely many of them.", "anchors": ["pydatastructs/graphs/algorithms.py:_johnson_adjacency_list"]}
{"id": "C98", "title": "SplayTree stays a sorted map through deletes", "statement": "After any inserts and deletes a SplayTree holds exactly the remaining entries in key order, search and bounds agree with them, and delete reports whether the key was there.", "quantifier": "all histories of inserts and deletes", "why_tests_cant": "The guarantee is about every finite history of calls; tests run a handful of fixed histories.", "anchors": ["pydatastructs/trees/binary_trees.py:SplayTree.delete", "pydatastructs/trees/binary_trees.py:SplayTree.splay", "pydatastructs/trees/binary_trees.py:BinarySearchTree.delete"]}
{"id": "C99", "title": "SplayTree.join unites two trees", "statement": "self.join(other) raises ValueError if some key of self is not less than some key of other; otherwise self then holds the entries of both, and traversal and search agree with them.", "quantifier": "all pairs of splay trees built by any inserts", "why_tests_cant": "Inputs are unbounded; a test only samples finitely many of them.", "anchors": ["pydatastructs/trees/binary_trees.py:SplayTree.join", "pydatastructs/linear_data_structures/arrays.py:ArrayForTrees.append"]}
{"id": "C100", "title": "SplayTree.split cuts a tree at a key", "statement": "self.split(x) leaves in self the entries with keys up to x and returns a SplayTree with those above x, and both trees go on working (search, traversal, bounds, inserts, further splits).", "quantifier": "all histories of inserts and splits, all x", "why_tests_cant": "The guarantee is about every finite history of calls; tests run a handful of fixed histories.", "anchors": ["pydatastructs/trees/binary_trees.py:SplayTree.split", "pydatastructs/trees/binary_trees.py:SplayTree.insert"]}
{"id": "C101", "title": "The C++ bubble, selection and insertion sorts agree with the Python ones", "statement": "bubble_sort, selection_sort and insertion_sort with backend=Backend.CPP sort the addressed range, touch nothing else, and return the array the Python backend returns.", "quantifier": "all arrays (with None cells), ranges, comparators", "why_tests_cant": "Inputs are unbounded; a test only samples finitely many of them.", "anchors": ["pydatastructs/linear_data_structures/_backend/cpp/algorithms/quadratic_time_sort.hpp:bubble_sort", "pydatastructs/linear_data_structures/_backend/cpp/algorithms/quadratic_time_sort.hpp:selection_sort", "pydatastructs/linear_data_structures/_backend/cpp/algorithms/quadratic_time_sort.hpp:insertion_sort"]}
{"id": "C102", "title": "The C++ quick_sort sorts", "statement": "quick_sort with backend=Backend.CPP returns, with the addressed range sorted and nothing else touched.", "quantifier": "all arrays (with None cells), ranges, comparators", "why_tests_cant": "Inputs are unbounded; a test only samples finitely many of them.", "anchors": ["pydatastructs/linear_data_structures/_backend/cpp/algorithms/quick_sort.hpp:quick_sort"]}
{"id": "C103", "title": "The C++ searches are exact", "statement": "linear_search, binary_search and jump_search with backend=Backend.CPP return an index of the value in the range (the first one for linear_search) and None exactly if there is none.", "quantifier": "all arrays, ranges, values (sorted ranges for binary and jump search)", "why_tests_cant": "Inputs are unbounded; a test only samples finitely many of them.", "anchors": ["pydatastructs/linear_data_structures/_backend/cpp/algorithms/misc_algorithms.hpp:linear_search", "pydatastructs/linear_data_structures/_backend/cpp/algorithms/misc_algorithms.hpp:binary_search", "pydatastructs/linear_data_structures/_backend/cpp/algorithms/misc_algorithms.hpp:jump_search"]}
{"id": "C104", "title": "The C++ is_ordered decides orderedness", "statement": "is_ordered with backend=Backend.CPP returns whether the range is sorted under the comparator, as the Python backend does.", "quantifier": "all arrays, ranges, comparators", "why_tests_cant": "Inputs are unbounded; a test only samples finitely many of them.", "anchors": ["pydatastructs/linear_data_structures/_backend/cpp/algorithms/misc_algorithms.hpp:is_ordered"]}
{"id": "C105", "title": "bubble_sort with the LLVM backend sorts", "statement": "bubble_sort with backend=Backend.LLVM returns, with the addressed range sorted (None last) and nothing else touched, whatever was sorted before in the process; the result is the one of the Python backend.", "quantifier": "all arrays, ranges, dtypes, all earlier calls in the process", "why_tests_cant": "The guarantee is about every finite history of calls; tests run a handful of fixed histories.", "anchors": ["pydatastructs/linear_data_structures/_backend/cpp/algorithms/llvm_algorithms.py:_build_bubble_sort_ir", "pydatastructs/linear_data_structures/_backend/cpp/algorithms/llvm_algorithms.py:get_bubble_sort_ptr", "pydatastructs/linear_data_structures/_backend/cpp/algorithms/quadratic_time_sort.hpp:bubble_sort_llvm"]}
{"id": "C106", "title": "selection_sort with the LLVM backend sorts", "statement": "selection_sort with backend=Backend.LLVM returns, with the addressed range sorted (None last) and nothing else touched, whatever was sorted before in the process.", "quantifier": "all arrays, ranges, dtypes, all earlier calls in the process", "why_tests_cant": "The guarantee is about every finite history of calls; tests run a handful of fixed histories.", "anchors": ["pydatastructs/linear_data_structures/_backend/cpp/algorithms/llvm_algorithms.py:_build_selection_sort_ir", "pydatastructs/linear_data_structures/_backend/cpp/algorithms/llvm_algorithms.py:get_selection_sort_ptr", "pydatastructs/linear_data_structures/_backend/cpp/algorithms/quadratic_time_sort.hpp:selection_sort_llvm"]}
{"id": "C107", "title": "The C++ adjacency list is a digraph", "statement": "After any history of add_vertex, remove_vertex, add_edge and remove_edge calls, an AdjacencyList with backend=Backend.CPP answers num_vertices, num_edges, is_adjacent, neighbors and get_edge as the digraph the calls describe; calls about unknown or duplicate vertices raise and change nothing.", "quantifier": "all vertex names, all histories", "why_tests_cant": "The guarantee is about every finite history of calls; tests run a handful of fixed histories.", "anchors": ["pydatastructs/graphs/_backend/cpp/AdjacencyList.hpp:AdjacencyListGraph_add_vertex", "pydatastructs/graphs/_backend/cpp/AdjacencyList.hpp:AdjacencyListGraph_remove_vertex", "pydatastructs/graphs/_backend/cpp/AdjacencyList.hpp:AdjacencyListGraph_add_edge", "pydatastructs/graphs/_backend/cpp/AdjacencyList.hpp:AdjacencyListGraph_remove_edge"]}
{"id": "C108", "title": "The C++ breadth_first_search visits each reachable vertex once, nearest first", "statement": "breadth_first_search with backend=Backend.CPP on an adjacency list calls the operation once for every reachable vertex other than the source, in order of distance, with a predecessor on a shortest path, and stops at the first falsy result as the Python backend does.", "quantifier": "all graphs built by any history, sources, operations, iteration orders of the hash maps", "why_tests_cant": "The guarantee is about every finite history of calls; tests run a handful of fixed histories.", "anchors": ["pydatastructs/graphs/_backend/cpp/Algorithms.hpp:breadth_first_search_adjacency_list"]}
{"id": "C109", "title": "The C++ dijkstra returns least costs", "statement": "shortest_paths(graph, 'dijkstra', source) with backend=Backend.CPP returns for every vertex the least cost of a walk from the source (infinity if there is none) and predecessors that lead back to the source along least-cost walks, with the costs and predecessors of a single target likewise; the graph is left as it was.", "quantifier": "all graphs built by any history, all sources, targets and iteration orders of the hash maps", "why_tests_cant": "Inputs are unbounded; a test only samples finitely many of them.", "anchors": ["pydatastructs/graphs/_backend/cpp/Algorithms.hpp:shortest_paths_dijkstra_adjacency_list"]}
{"id": "C110", "title": "The C++ prim returns a minimum spanning tree", "statement": "minimum_spanning_tree(graph, 'prim') with backend=Backend.CPP returns the vertices and a minimum spanning tree of the component of the first vertex, holding the cost of each tree edge in both directions; the returned graph is adjacent exactly along its edges, and the given graph is left as it was.", "quantifier": "all graphs built by any history, all integer costs, all iteration orders of the hash maps, all choices among equal costs", "why_tests_cant": "Inputs are unbounded; a test only samples finitely many of them.", "anchors": ["pydatastructs/graphs/_backend/cpp/Algorithms.hpp:minimum_spanning_tree_prim_adjacency_list"]}
{"id": "C111", "title": "The C++ adjacency matrix is a digraph", "statement": "After any history of add_edge and remove_edge calls, an AdjacencyMatrix with backend=Backend.CPP answers num_vertices, num_edges, is_adjacent, neighbors and get_edge as the digraph the calls describe; failing calls raise and change nothing.", "quantifier": "all vertex names, all histories, any number of questions in between", "why_tests_cant": "The guarantee is about every finite history of calls; tests run a handful of fixed histories.", "anchors": ["pydatastructs/graphs/_backend/cpp/AdjacencyMatrix.hpp:AdjacencyMatrixGraph_add_edge", "pydatastructs/graphs/_backend/cpp/AdjacencyMatrix.hpp:AdjacencyMatrixGraph_remove_edge", "pydatastructs/graphs/_backend/cpp/AdjacencyMatrix.hpp:AdjacencyMatrixGraph_get_edge"]}
{"id": "C112", "title": "The C++ breadth_first_search of a matrix visits each reachable vertex once, nearest first", "statement": "breadth_first_search with backend=Backend.CPP on an adjacency matrix calls the operation once for every reachable vertex other than the source, in order of distance, with a predecessor on a shortest path, and stops at the first falsy result as the Python backend does.", "quantifier": "all graphs built by any history, sources, operations, iteration orders of the hash maps", "why_tests_cant": "The guarantee is about every finite history of calls; tests run a handful of fixed histories.", "anchors": ["pydatastructs/graphs/_backend/cpp/Algorithms.hpp:breadth_first_search_adjacency_matrix"]}
{"id": "C113", "title": "The C++ OneDimensionalArray is a row of typed cells", "statement": "After any history of reads, writes and fills, OneDimensionalArray with backend=Backend.CPP answers as n independent cells that hold only None and instances of the dtype, refuses what is out of range or of another type, and never hands out an object that has been freed.", "quantifier": "all dtypes, initial contents, histories (including references let go by the caller)", "why_tests_cant": "The guarantee is about every finite history of calls; tests run a handful of fixed histories.", "anchors": ["pydatastructs/linear_data_structures/_backend/cpp/arrays/OneDimensionalArray.hpp:OneDimensionalArray___new__", "pydatastructs/linear_data_structures/_backend/cpp/arrays/OneDimensionalArray.hpp:OneDimensionalArray___setitem__", "pydatastructs/linear_data_structures/_backend/cpp/arrays/OneDimensionalArray.hpp:OneDimensionalArray_fill"]}
{"id": "C114", "title": "The C++ DynamicOneDimensionalArray behaves like the Python one", "statement": "After any history of append and delete calls, DynamicOneDimensionalArray with backend=Backend.CPP has the cells, size and number of elements of the Python class, and no call touches memory outside its buffer.", "quantifier": "all initial contents, load factors up to one half, histories", "why_tests_cant": "The guarantee is about every finite history of calls; tests run a handful of fixed histories.", "anchors": ["pydatastructs/linear_data_structures/_backend/cpp/arrays/DynamicOneDimensionalArray.hpp:DynamicOneDimensionalArray_append", "pydatastructs/linear_data_structures/_backend/cpp/arrays/DynamicOneDimensionalArray.hpp:DynamicOneDimensionalArray_delete", "pydatastructs/linear_data_structures/_backend/cpp/arrays/DynamicOneDimensionalArray.hpp:DynamicOneDimensionalArray__modify"]}
{"id": "C115", "title": "The C++ ArrayStack is a stack", "statement": "Stack(implementation='array', backend=Backend.CPP) returns pushed items last in first out, and peek, len and is_empty agree, for every history; pop and peek of an empty stack raise IndexError.", "quantifier": "all initial items, all histories, all items (None too)", "why_tests_cant": "The guarantee is about every finite history of calls; tests run a handful of fixed histories.", "anchors": ["pydatastructs/miscellaneous_data_structures/_backend/cpp/stack/ArrayStack.hpp:ArrayStack_push", "pydatastructs/miscellaneous_data_structures/_backend/cpp/stack/ArrayStack.hpp:ArrayStack_pop"]}
{"id": "C116", "title": "The C++ BinaryIndexedTree sums ranges", "statement": "After any history of updates, get_sum and get_prefix_sum of BinaryIndexedTree with backend=Backend.CPP return the sums of the current values, as the Python backend does, and an index out of range raises IndexError.", "quantifier": "all arrays of ints, all histories of updates, all ranges", "why_tests_cant": "The guarantee is about every finite history of calls; tests run a handful of fixed histories.", "anchors": ["pydatastructs/trees/_backend/cpp/BinaryIndexedTree.hpp:BinaryIndexedTree_update", "pydatastructs/trees/_backend/cpp/BinaryIndexedTree.hpp:BinaryIndexedTree_get_sum", "pydatastructs/trees/_backend/cpp/BinaryIndexedTree.hpp:BinaryIndexedTree___new__"]}
{"id": "C117", "title": "The C++ BinarySearchTree is a sorted map", "statement": "After any history of insert and delete calls a BinarySearchTree with backend=Backend.CPP holds exactly the remaining entries in key order, search finds exactly their keys, delete reports whether the key was there, and no call touches memory outside the tree's array.", "quantifier": "all keys, data, comparators and histories of inserts and deletes", "why_tests_cant": "The guarantee is about every finite history of calls; tests run a handful of fixed histories.", "anchors": ["pydatastructs/trees/_backend/cpp/BinarySearchTree.hpp:BinarySearchTree_insert", "pydatastructs/trees/_backend/cpp/BinarySearchTree.hpp:BinarySearchTree_delete", "pydatastructs/trees/_backend/cpp/BinarySearchTree.hpp:BinarySearchTree_search", "pydatastructs/linear_data_structures/_backend/cpp/arrays/ArrayForTrees.hpp:ArrayForTrees__modify"]}
{"id": "C118", "title": "The C++ lower_bound and upper_bound are exact", "statement": "lower_bound(key) and upper_bound(key) of a C++ search tree return the least key of the tree that is not less than, resp. greater than, the given one, and None if there is none.", "quantifier": "all trees built by any history of inserts and deletes, all keys", "why_tests_cant": "The guarantee is about every finite history of calls; tests run a handful of fixed histories.", "anchors": ["pydatastructs/trees/_backend/cpp/BinarySearchTree.hpp:BinarySearchTree__bound_helper"]}
{"id": "C119", "title": "The C++ order statistics agree with the sorted entries", "statement": "With is_order_statistic, select(i) of a C++ search tree is the node of the i-th smallest key and rank its inverse; select out of range raises ValueError and rank of an absent key is None.", "quantifier": "all trees built by any history of inserts and deletes", "why_tests_cant": "The guarantee is about every finite history of calls; tests run a handful of fixed histories.", "anchors": ["pydatastructs/trees/_backend/cpp/BinarySearchTree.hpp:BinarySearchTree_select", "pydatastructs/trees/_backend/cpp/BinarySearchTree.hpp:BinarySearchTree_rank"]}
{"id": "C120", "title": "The C++ lowest_common_ancestor is exact", "statement": "lowest_common_ancestor(j, k, algorithm) of a C++ search tree returns the key of the deepest node that has both keys in its subtree, with both algorithms, and raises ValueError if a key is absent.", "quantifier": "all trees built by any history of inserts and deletes, all pairs of keys, both algorithms", "why_tests_cant": "The guarantee is about every finite history of calls; tests run a handful of fixed histories.", "anchors": ["pydatastructs/trees/_backend/cpp/BinarySearchTree.hpp:BinarySearchTree__lca_1", "pydatastructs/trees/_backend/cpp/BinarySearchTree.hpp:BinarySearchTree__lca_2", "pydatastructs/trees/_backend/cpp/BinarySearchTree.hpp:BinarySearchTree__simple_path"]}
{"id": "C121", "title": "The C++ traversals list every node in the right order", "statement": "BinaryTreeTraversal with backend=Backend.CPP lists every node of the tree exactly once, in pre-order, in-order, post-order, reverse in-order or level by level, and never fails to end.", "quantifier": "all trees built by any history of inserts and deletes, all five orders", "why_tests_cant": "The guarantee is about every finite history of calls; tests run a handful of fixed histories.", "anchors": ["pydatastructs/trees/_backend/cpp/BinaryTreeTraversal.hpp:BinaryTreeTraversal_depth_first_search", "pydatastructs/trees/_backend/cpp/BinaryTreeTraversal.hpp:BinaryTreeTraversal_breadth_first_search"]}
{"id": "C122", "title": "The C++ AVLTree stays a balanced sorted map", "statement": "After any inserts and deletes an AVLTree with backend=Backend.CPP holds exactly the remaining entries in key order, the two subtrees of every node differ in height by at most one, and search, bounds, select and rank agree with the entries.", "quantifier": "all histories of inserts and deletes", "why_tests_cant": "The guarantee is about every finite history of calls; tests run a handful of fixed histories.", "anchors": ["pydatastructs/trees/_backend/cpp/AVLTree.hpp:AVLTree_insert", "pydatastructs/trees/_backend/cpp/AVLTree.hpp:AVLTree_delete", "pydatastructs/trees/_backend/cpp/AVLTree.hpp:AVLTree__balance_insertion", "pydatastructs/trees/_backend/cpp/SelfBalancingBinaryTree.hpp:SelfBalancingBinaryTree__left_rotate"]}
{"id": "C123", "title": "The C++ CartesianTree and Treap keep search order and heap order", "statement": "After any inserts and deletes a CartesianTree or Treap with backend=Backend.CPP holds exactly the remaining entries in key order, no node has a smaller priority than its parent, search and bounds agree with the entries, and delete reports whether the key was there.", "quantifier": "all histories of inserts (with any priorities, so whatever rand() returns) and deletes", "why_tests_cant": "The guarantee is about every finite history of calls; tests run a handful of fixed histories.", "anchors": ["pydatastructs/trees/_backend/cpp/CartesianTree.hpp:CartesianTree_insert", "pydatastructs/trees/_backend/cpp/CartesianTree.hpp:CartesianTree_delete", "pydatastructs/trees/_backend/cpp/CartesianTree.hpp:CartesianTree__bubble_up", "pydatastructs/trees/_backend/cpp/CartesianTree.hpp:CartesianTree__trickle_down", "pydatastructs/trees/_backend/cpp/Treap.hpp:Treap_insert"]}
{"id": "C124", "title": "The C++ RedBlackTree stays a red-black tree", "statement": "After any inserts and deletes a RedBlackTree with backend=Backend.CPP holds exactly the remaining entries in key order, its root is black, no red node has a red child, every path down meets the same number of black nodes, and search and bounds agree with the entries.", "quantifier": "all histories of inserts and deletes", "why_tests_cant": "The guarantee is about every finite history of calls; tests run a handful of fixed histories.", "anchors": ["pydatastructs/trees/_backend/cpp/RedBlackTree.hpp:RedBlackTree_insert", "pydatastructs/trees/_backend/cpp/RedBlackTree.hpp:RedBlackTree_delete", "pydatastructs/trees/_backend/cpp/RedBlackTree.hpp:RedBlackTree___fix_insert", "pydatastructs/trees/_backend/cpp/RedBlackTree.hpp:RedBlackTree___fix_deletion"]}
{"id": "C125", "title": "The C++ SplayTree is a sorted map with the last key at the root", "statement": "After any inserts and deletes a SplayTree with backend=Backend.CPP holds exactly the remaining entries in key order, search and bounds agree with them, delete reports whether the key was there, and the key inserted last is at the root.", "quantifier": "all histories of inserts and deletes", "why_tests_cant": "The guarantee is about every finite history of calls; tests run a handful of fixed histories.", "anchors": ["pydatastructs/trees/_backend/cpp/SplayTree.hpp:SplayTree_insert", "pydatastructs/trees/_backend/cpp/SplayTree.hpp:SplayTree_delete", "pydatastructs/trees/_backend/cpp/SplayTree.hpp:SplayTree_splay"]}
{"id": "C126", "title": "The C++ SplayTree join unites ordered trees", "statement": "join of two C++ splay trees where every key of the first is less than every key of the second leaves a tree with the entries of both, and raises ValueError for other trees.", "quantifier": "all pairs of non-empty splay trees built by inserts", "why_tests_cant": "Inputs are unbounded; a test only samples finitely many of them.", "anchors": ["pydatastructs/trees/_backend/cpp/SplayTree.hpp:SplayTree_join"]}
{"id": "C127", "title": "The C++ SplayTree split divides at the key", "statement": "split(x) of a C++ splay tree leaves the entries with keys up to x and returns a tree with the others, whatever inserts and splits came before.", "quantifier": "all histories of inserts and splits, all keys", "why_tests_cant": "The guarantee is about every finite history of calls; tests run a handful of fixed histories.", "anchors": ["pydatastructs/trees/_backend/cpp/SplayTree.hpp:SplayTree_split", "pydatastructs/trees/_backend/cpp/SplayTree.hpp:SplayTree__pre_order"]}
{"id": "C128", "title": "Printing a linked list, stack or queue shows its contents in order", "statement": "str of a SinglyLinkedList, DoublyLinkedList, linked Stack or linked Queue shows exactly the items it holds, each once, in list order (stack: bottom first; queue: front first), after any history of calls.", "quantifier": "all histories of calls, all items", "why_tests_cant": "The guarantee is about every finite history of calls; tests run a handful of fixed histories.", "anchors": ["pydatastructs/linear_data_structures/linked_lists.py:LinkedList.__str__", "pydatastructs/miscellaneous_data_structures/stack.py:LinkedListStack.__str__", "pydatastructs/miscellaneous_data_structures/queue.py:LinkedListQueue.__str__"]}
{"id": "C129", "title": "Printing a circular list ends and shows each item once", "statement": "str of a SinglyCircularLinkedList or DoublyCircularLinkedList ends and shows exactly the items of the list, once each and in order, after any history of calls.", "quantifier": "all histories of calls, all items", "why_tests_cant": "The guarantee is about every finite history of calls; tests run a handful of fixed histories.", "anchors": ["pydatastructs/linear_data_structures/linked_lists.py:LinkedList.__str__", "pydatastructs/linear_data_structures/linked_lists.py:SinglyCircularLinkedList.insert_at"]}
{"id": "C130", "title": "Printing and reversing a dynamic array agree with its cells", "statement": "After any history of append and delete calls, str of a DynamicOneDimensionalArray shows the cells up to the last filled one as reads return them, leaving out nothing filled, and reversed() yields the same cells backwards.", "quantifier": "all start sizes, load factors up to one half, histories", "why_tests_cant": "The guarantee is about every finite history of calls; tests run a handful of fixed histories.", "anchors": ["pydatastructs/linear_data_structures/arrays.py:DynamicOneDimensionalArray.__str__", "pydatastructs/linear_data_structures/arrays.py:DynamicOneDimensionalArray.__reversed__"]}
{"id": "C131", "title": "Printing an array stack or queue shows its items", "statement": "str of an array Stack or array Queue shows exactly its items in order after any history, the empty one included.", "quantifier": "all histories of calls, all items", "why_tests_cant": "The guarantee is about every finite history of calls; tests run a handful of fixed histories.", "anchors": ["pydatastructs/miscellaneous_data_structures/stack.py:ArrayStack.__str__", "pydatastructs/miscellaneous_data_structures/queue.py:ArrayQueue.__str__"]}
{"id": "C132", "title": "Printing a heap shows the tree of its elements", "statement": "After any history of insert and extract calls, str of a DHeap shows every element once with the positions of its children: every position but the first is listed under exactly one element, none lists more than d, and no child comes before its parent in the heap's order.", "quantifier": "all d, comparators, initial elements and histories", "why_tests_cant": "The guarantee is about every finite history of calls; tests run a handful of fixed histories.", "anchors": ["pydatastructs/trees/heaps.py:DHeap.__str__", "pydatastructs/trees/heaps.py:DHeap._build"]}
{"id": "C133", "title": "Printing a skip list shows every level", "statement": "After any history of insert and extract calls (and whatever the random bits), str of a SkipList shows one row per level and every stored pair in the lowest row in key order.", "quantifier": "all histories, all random bits", "why_tests_cant": "The guarantee is about every finite history of calls; tests run a handful of fixed histories.", "anchors": ["pydatastructs/linear_data_structures/linked_lists.py:SkipList.__str__"]}
{"id": "C134", "title": "Printing a segment tree shows every node with its value", "statement": "After build and any history of updates, str of an ArraySegmentTree shows every node with its range and the combination of the current values of that range, in pre-order.", "quantifier": "all arrays, associative combiners, histories of updates", "why_tests_cant": "The guarantee is about every finite history of calls; tests run a handful of fixed histories.", "anchors": ["pydatastructs/miscellaneous_data_structures/segment_tree.py:ArraySegmentTree.__str__"]}
{"id": "C135", "title": "The printed table of a search tree describes the tree", "statement": "After any history of insert and delete calls, following the printed left and right numbers of a BinarySearchTree, AVLTree, SplayTree, RedBlackTree or CartesianTree from the root's row shows exactly the entries of the tree, in key order.", "quantifier": "all keys, data, priorities and histories", "why_tests_cant": "The guarantee is about every finite history of calls; tests run a handful of fixed histories.", "anchors": ["pydatastructs/trees/binary_trees.py:BinaryTree.__str__", "pydatastructs/trees/binary_trees.py:CartesianTree.__str__"]}
{"id": "C136", "title": "Floating-point rounding does not change the results", "statement": "The decisions the library takes in floating point come out as for exact numbers: the load factor test of a dynamic array (so every history has the contents and size that exact fractions give), the step int(sqrt(n)) of jump_search; and merge_sort_parallel sorts and a sparse table answers whatever log comes out as, if it is not too small.", "quantifier": "all sizes below 2^52 divided by the denominator of the load factor, all histories, all values of the logarithm not below the exact one", "why_tests_cant": "Inputs are unbounded; a test only samples finitely many of them.", "anchors": ["pydatastructs/linear_data_structures/arrays.py:DynamicOneDimensionalArray._modify", "pydatastructs/linear_data_structures/algorithms.py:jump_search", "pydatastructs/linear_data_structures/algorithms.py:merge_sort_parallel", "pydatastructs/miscellaneous_data_structures/sparse_table.py:SparseTable.query"]}
{"id": "C137", "title": "Printing a C++ array or array stack shows its contents", "statement": "str of a OneDimensionalArray with backend=Backend.CPP shows the value of each cell in order; str of a C++ DynamicOneDimensionalArray shows what the Python class shows, and str of a C++ array Stack exactly its items, bottom first, after any history of calls, the empty one included.", "quantifier": "all initial contents, load factors up to one half, histories", "why_tests_cant": "The guarantee is about every finite history of calls; tests run a handful of fixed histories.", "anchors": ["pydatastructs/utils/_backend/cpp/utils.hpp:__str__", "pydatastructs/linear_data_structures/_backend/cpp/arrays/DynamicOneDimensionalArray.hpp:DynamicOneDimensionalArray___str__", "pydatastructs/linear_data_structures/_backend/cpp/arrays/OneDimensionalArray.hpp:OneDimensionalArray___str__", "pydatastructs/miscellaneous_data_structures/_backend/cpp/stack/ArrayStack.hpp:ArrayStack__str__"]}
{"id": "C138", "title": "The printed table of a C++ search tree describes the tree", "statement": "After any history of insert and delete calls, following the printed left and right numbers of a BinarySearchTree, AVLTree, SplayTree, RedBlackTree, CartesianTree or Treap with backend=Backend.CPP from the root's row shows exactly the entries of the tree in key order; the printed priorities of a CartesianTree are in heap order.", "quantifier": "all keys, data, priorities, comparators and histories", "why_tests_cant": "The guarantee is about every finite history of calls; tests run a handful of fixed histories.", "anchors": ["pydatastructs/trees/_backend/cpp/BinaryTree.hpp:BinaryTree___str__"]}
{"id": "C139", "title": "Graph nodes and edges give back their data", "statement": "The name and data of a C++ GraphNode, AdjacencyMatrixGraphNode or AdjacencyListGraphNode and the value of a C++ GraphEdge are the ones assigned last, after any history of assignments, and refused assignments change nothing; str of a C++ node or edge is str of the Python one.", "quantifier": "all names, all data objects, all histories of assignments", "why_tests_cant": "The guarantee is about every finite history of calls; tests run a handful of fixed histories.", "anchors": ["pydatastructs/utils/_backend/cpp/GraphNode.hpp:GraphNode_new", "pydatastructs/utils/_backend/cpp/GraphNode.hpp:GraphNode_set", "pydatastructs/utils/_backend/cpp/GraphNode.hpp:GraphNode_str", "pydatastructs/utils/_backend/cpp/AdjacencyListGraphNode.hpp:AdjacencyListGraphNode_set_data", "pydatastructs/utils/_backend/cpp/GraphEdge.hpp:GraphEdge_new", "pydatastructs/utils/_backend/cpp/GraphEdge.hpp:GraphEdge_set_value", "pydatastructs/utils/_backend/cpp/GraphEdge.hpp:GraphEdge_str"]}
{"id": "C140", "title": "The neighbours of a node are those added and not removed", "statement": "After any history of add_adjacent_node and remove_adjacent_node calls, adjacent of an AdjacencyListGraphNode (both backends) has exactly the nodes added and not removed since, each with the data given last; removing another name raises ValueError; nodes given as adjacency_list are neighbours from the start like added ones.", "quantifier": "all names, data objects, initial lists and histories", "why_tests_cant": "The guarantee is about every finite history of calls; tests run a handful of fixed histories.", "anchors": ["pydatastructs/utils/misc_util.py:AdjacencyListGraphNode.add_adjacent_node", "pydatastructs/utils/misc_util.py:AdjacencyListGraphNode.remove_adjacent_node", "pydatastructs/utils/_backend/cpp/AdjacencyListGraphNode.hpp:AdjacencyListGraphNode_new", "pydatastructs/utils/_backend/cpp/AdjacencyListGraphNode.hpp:AdjacencyListGraphNode_add_adjacent_node", "pydatastructs/utils/_backend/cpp/AdjacencyListGraphNode.hpp:AdjacencyListGraphNode_remove_adjacent_node", "pydatastructs/utils/_backend/cpp/AdjacencyListGraphNode.hpp:AdjacencyListGraphNode_set_adjacent"]}
{"id": "C141", "title": "Printing a sparse table shows the fold of every block", "statement": "str of a SparseTable shows one row for each element and one cell for each power of two up to the size: the combination of that many elements from there on, None where fewer are left.", "quantifier": "all non-empty arrays of numbers, associative combiners", "why_tests_cant": "Inputs are unbounded; a test only samples finitely many of them.", "anchors": ["pydatastructs/miscellaneous_data_structures/sparse_table.py:SparseTable.__new__", "pydatastructs/miscellaneous_data_structures/sparse_table.py:SparseTable.__str__", "pydatastructs/linear_data_structures/arrays.py:Array.__str__"]}
{"id": "C142", "title": "Printing a one-dimensional segment tree shows where each segment is kept", "statement": "str of a OneDimensionalSegmentTree shows the tree: read from the last row, its leaves cut the line at the sorted end points; every other row is the child of exactly one row; and each row lists, in the order given, exactly the segments that cover its interval but not that of its parent.", "quantifier": "all non-empty lists of segments with ends in any order, repeated ends and single points included", "why_tests_cant": "Inputs are unbounded; a test only samples finitely many of them.", "anchors": ["pydatastructs/trees/space_partitioning_trees.py:OneDimensionalSegmentTree.__str__", "pydatastructs/trees/space_partitioning_trees.py:OneDimensionalSegmentTree.build"]}
{"id": "C143", "title": "A name selects what the documentation says, and unknown names are refused", "statement": "minimum_spanning_tree, minimum_spanning_tree_parallel, strongly_connected_components, shortest_paths, all_pair_shortest_paths, topological_sort, topological_sort_parallel, max_flow and find run, for every documented algorithm name (and implementation of the graph), the function for it and raise NotImplementedError for every other str; Stack, Queue, PriorityQueue, RangeQueryStatic and RangeQueryDynamic likewise make an object of the class of the implementation asked for; the same holds with the C++ backend.", "quantifier": "all strs, both implementations of graphs, both backends", "why_tests_cant": "Inputs are unbounded; a test only samples finitely many of them.", "anchors": ["pydatastructs/graphs/algorithms.py:minimum_spanning_tree", "pydatastructs/graphs/algorithms.py:shortest_paths", "pydatastructs/graphs/algorithms.py:all_pair_shortest_paths", "pydatastructs/graphs/algorithms.py:topological_sort", "pydatastructs/graphs/algorithms.py:max_flow", "pydatastructs/strings/algorithms.py:find", "pydatastructs/miscellaneous_data_structures/stack.py:Stack.__new__", "pydatastructs/miscellaneous_data_structures/queue.py:Queue.__new__", "pydatastructs/miscellaneous_data_structures/algorithms.py:RangeQueryStatic.__new__"]}
