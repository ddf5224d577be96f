{
 "claims": [
  {
   "property": "C01",
   "status": "proved",
   "theorems": [
    "C01_array_reads_last_write"
   ],
   "note": ""
  },
  {
   "property": "C02",
   "status": "proved",
   "theorems": [
    "C02_mda_cells_independent"
   ],
   "note": ""
  },
  {
   "property": "C03",
   "status": "partial",
   "theorems": [
    "C03_mda_accepts_exactly_partial",
    "C03_mda_out_of_range_refuted",
    "C03_mda_rejects_partial"
   ],
   "note": "False of the code (refuted with a witness). Proved exactly what happens instead: which tuples are accepted after every history, which in-range cell each accepted tuple names (row-major place modulo the number of cells), and IndexError for all others."
  },
  {
   "property": "C04",
   "status": "proved",
   "theorems": [
    "C04_dynamic_array_sequence"
   ],
   "note": ""
  },
  {
   "property": "C05",
   "status": "proved",
   "theorems": [
    "C05_dynamic_array_dense"
   ],
   "note": ""
  },
  {
   "property": "C06",
   "status": "proved",
   "theorems": [
    "C06_array_stack_lifo"
   ],
   "note": ""
  },
  {
   "property": "C07",
   "status": "proved",
   "theorems": [
    "C07_linked_stack_lifo"
   ],
   "note": ""
  },
  {
   "property": "C08",
   "status": "partial",
   "theorems": [
    "C08_array_queue_fifo_exact_partial",
    "C08_array_queue_fifo_refuted",
    "C08_array_queue_fifo_partial"
   ],
   "note": "False of the code (refuted: contraction in append leaves _front stale). Proved exactly (AqSpec.place_run): used with append and popleft every history is answered right until an append meets a full array whose dead front is at least two cells longer than the queue, and the popleft after that append is always wrong."
  },
  {
   "property": "C09",
   "status": "proved",
   "theorems": [
    "C09_linked_queue_deque"
   ],
   "note": ""
  },
  {
   "property": "C10",
   "status": "partial",
   "theorems": [
    "C10_array_deque_partial",
    "C10_array_deque_exact_partial",
    "C08_array_queue_fifo_partial",
    "C10_array_deque_refuted"
   ],
   "note": "False of the code (refuted). Proved for every history, pops from the right and appendleft included, that AqSpec.place_run (front index, rear index, number of cells) follows to its end; and exact: the operation at which it stops, or the popleft after it, is answered wrongly when the deque then holds no item twice."
  },
  {
   "property": "C11",
   "status": "proved",
   "theorems": [
    "C11_singly_linked_list"
   ],
   "note": ""
  },
  {
   "property": "C12",
   "status": "proved",
   "theorems": [
    "C12_doubly_linked_list"
   ],
   "note": ""
  },
  {
   "property": "C13",
   "status": "partial",
   "theorems": [
    "C13_circular_refuted",
    "C13_circular_partial",
    "C13_doubly_circular_partial",
    "C13_doubly_circular_forward_partial",
    "C13_insert_before_after_extract_refuted"
   ],
   "note": "False at index -len (refuted); proved for SinglyCircularLinkedList with all other indices, and for DoublyCircularLinkedList in both directions (next and prev, insert_after and insert_before included) for the histories that never insert at -len and never extract the first of several elements. DoublyCircularLinkedList.extract(0) of several refuted (it leaves head.prev None). Also proved when extract(0) is allowed but insert_before at the first node is not: same answers, circular forwards, backwards from the tail down to the head; only the head's own back link may be missing. Outside that, extract(0) followed by insert_before at the head opens the ring (refuted)."
  },
  {
   "property": "C14",
   "status": "proved",
   "theorems": [
    "C14_histories",
    "C14_levels",
    "C14_search"
   ],
   "note": "Every history of insert/extract/search/size of SkipList on its heap of nodes with next and down, for every stream of random bits, against a bag of pairs: outputs, KeyError, size, and the levels read off the heap (framed, ascending, each part of the one below, the lowest = the bag). Equal keys are extracted newest first. Keys are integers; the text of the KeyError (__str__) is not modelled."
  },
  {
   "property": "C15",
   "status": "proved",
   "theorems": [
    "C15_bubble_sort_sorts"
   ],
   "note": ""
  },
  {
   "property": "C16",
   "status": "proved",
   "theorems": [
    "C16_selection_sort_sorts"
   ],
   "note": ""
  },
  {
   "property": "C17",
   "status": "proved",
   "theorems": [
    "C17_insertion_sort_sorts"
   ],
   "note": ""
  },
  {
   "property": "C18",
   "status": "proved",
   "theorems": [
    "C18_cocktail_sort_sorts"
   ],
   "note": ""
  },
  {
   "property": "C19",
   "status": "proved",
   "theorems": [
    "C19_shell_sort_sorts"
   ],
   "note": ""
  },
  {
   "property": "C20",
   "status": "proved",
   "theorems": [
    "C20_quick_sort_sorts",
    "C20_quick_sort_empty_raises"
   ],
   "note": "Total correctness for non-empty ranges; the empty range raises IndexError (C20_quick_sort_empty_raises)."
  },
  {
   "property": "C21",
   "status": "partial",
   "theorems": [
    "C21_quick_sort_pick_swapping_partial",
    "C21_quick_sort_pick_last_partial",
    "C21_quick_sort_pick_refuted",
    "C21_quick_sort_pick_partial"
   ],
   "note": "False of the code (refuted: pivot at low gives [2,1,3]). Proved for every returning picker: terminates, permutes the range, touches nothing else. Sorts whenever the picker only rearranges the range it is asked about (it is given the array itself) and returns a value tied with the last cell it leaves."
  },
  {
   "property": "C22",
   "status": "proved",
   "theorems": [
    "C22_merge_sort_sorts_stably"
   ],
   "note": "Non-empty ranges; log(0) raises ValueError on an empty one. Stability for comparators that answer True on ties."
  },
  {
   "property": "C23",
   "status": "partial",
   "theorems": [
    "C23_brick_sort_range_partial",
    "C23_brick_sort_ties_diverge_refuted",
    "C23_brick_sort_diverges_refuted",
    "C23_brick_sort_sorts_partial"
   ],
   "note": "False of the code (refuted). Proved exactly when: with a total, transitive comparator it ends, and sorts, iff no two cells of the range are tied both ways under comp; with one tie in the range it never ends (C23_brick_sort_ties_diverge_refuted)."
  },
  {
   "property": "C24",
   "status": "proved",
   "theorems": [
    "C24_heapsort_sorts"
   ],
   "note": "comp is the elements' <= (heapsort takes no comparator)."
  },
  {
   "property": "C25",
   "status": "proved",
   "theorems": [
    "C25_intro_sort_sorts"
   ],
   "note": "comp is the elements' <= (intro_sort takes no comparator)."
  },
  {
   "property": "C26",
   "status": "proved",
   "theorems": [
    "C26_counting_sort_sorts"
   ],
   "note": ""
  },
  {
   "property": "C27",
   "status": "partial",
   "theorems": [
    "C27_radix_sort_no_positive_partial",
    "C27_radix_sort_none_refuted",
    "C27_radix_sort_sorts_partial"
   ],
   "note": "False of the code for [0,None,0] (refuted). Proved when some number is positive or no cell is None. With no positive number the array is returned unchanged, or TypeError when the first cell of the range is None."
  },
  {
   "property": "C28",
   "status": "partial",
   "theorems": [
    "C28_bucket_sort_exact_partial",
    "C28_bucket_sort_refuted",
    "C28_bucket_sort_sorts_partial"
   ],
   "note": "False of the code (refuted: ZeroDivisionError, IndexError). Proved exactly for non-negative numbers: sorts iff count <= max, max // (max // count) = count and count <= 256 (the code compares with 'is not'), ZeroDivisionError if max < count, IndexError otherwise, TypeError without numbers."
  },
  {
   "property": "C29",
   "status": "proved",
   "theorems": [
    "C29_linear_search_first"
   ],
   "note": ""
  },
  {
   "property": "C30",
   "status": "proved",
   "theorems": [
    "C30_binary_search_exact"
   ],
   "note": ""
  },
  {
   "property": "C31",
   "status": "partial",
   "theorems": [
    "C31_jump_search_from_partial",
    "C31_jump_search_start_refuted",
    "C31_jump_search_exact_partial"
   ],
   "note": "False of the code for start>0 (refuted). Proved for start=0; and for any start when the array is ascending up to the end of the range: an answer always holds the value, and it is exact when the value does not occur before the start."
  },
  {
   "property": "C32",
   "status": "proved",
   "theorems": [
    "C32_lower_bound_partition",
    "C32_upper_bound_partition",
    "C32_bounds_empty_raise"
   ],
   "note": "Empty array raises IndexError (C32_bounds_empty_raise)."
  },
  {
   "property": "C33",
   "status": "partial",
   "theorems": [
    "C33_is_ordered_exact_partial",
    "C33_is_ordered_refuted",
    "C33_is_ordered_adjacent_partial",
    "C33_is_ordered_strict_partial"
   ],
   "note": "False of the code (refuted: [1,1] is False; None hides a descent). Proved exactly what it decides, None cells included."
  },
  {
   "property": "C34",
   "status": "proved",
   "theorems": [
    "C34_lcs_optimal"
   ],
   "note": ""
  },
  {
   "property": "C35",
   "status": "proved",
   "theorems": [
    "C35_lis_optimal"
   ],
   "note": ""
  },
  {
   "property": "C36",
   "status": "proved",
   "theorems": [
    "C36_next_permutation"
   ],
   "note": ""
  },
  {
   "property": "C37",
   "status": "partial",
   "theorems": [
    "C37_prev_permutation_duplicates_partial",
    "C37_prev_permutation_refuted",
    "C37_prev_permutation_partial",
    "C37_prev_permutation_rearranges_partial"
   ],
   "note": "False of the code with duplicates (refuted). Proved exactly for every range: False iff strictly ascending; otherwise right iff the element before the longest strictly ascending tail does not occur in it, and then never below the range. Always a rearrangement."
  },
  {
   "property": "C38",
   "status": "partial",
   "theorems": [
    "C38_matrix_multiply_rectangular_partial",
    "C38_matrix_multiply_refuted",
    "C38_matrix_multiply_square_partial"
   ],
   "note": "False of the code for non-square matrices (refuted). Proved for square ones, and exactly what is computed for every pair of rectangular matrices that can be multiplied (partial sums and None cells, or IndexError)."
  },
  {
   "property": "C39",
   "status": "proved",
   "theorems": [
    "C39_dheap_priority_order",
    "C39_heap_storage"
   ],
   "note": ""
  },
  {
   "property": "C40",
   "status": "proved",
   "theorems": [
    "C40_binomial_heap",
    "C40_binomial_roots_logarithmic"
   ],
   "note": ""
  },
  {
   "property": "C41",
   "status": "proved",
   "theorems": [
    "C41_decrease_key_and_delete"
   ],
   "note": ""
  },
  {
   "property": "C42",
   "status": "proved",
   "theorems": [
    "C42_priority_queues",
    "C42_binomial_priority_queue",
    "C42_linked_priority_queue_stable"
   ],
   "note": ""
  },
  {
   "property": "C43",
   "status": "proved",
   "theorems": [
    "C43_partition"
   ],
   "note": ""
  },
  {
   "property": "C44",
   "status": "proved",
   "theorems": [
    "C44_sizes"
   ],
   "note": ""
  },
  {
   "property": "C45",
   "status": "proved",
   "theorems": [
    "C45_logarithmic_find"
   ],
   "note": ""
  },
  {
   "property": "C46",
   "status": "proved",
   "theorems": [
    "C46_fenwick_sums"
   ],
   "note": ""
  },
  {
   "property": "C47",
   "status": "partial",
   "theorems": [
    "C47_library_combiners",
    "C47_sparse_table_exact_partial",
    "C47_sparse_table_floats_refuted",
    "C47_sparse_table_truncates"
   ],
   "note": "The table stores int(value). Proved: every query is the fold of the range of the truncated values, for every array and every combiner that maps whole numbers to whole numbers (C47_sparse_table_truncates); hence exact for ints, wrong for floats (refuted)."
  },
  {
   "property": "C48",
   "status": "proved",
   "theorems": [
    "C48_segment_tree_exact"
   ],
   "note": ""
  },
  {
   "property": "C49",
   "status": "partial",
   "theorems": [
    "C49_dynamic_back_ends_agree_partial",
    "C49_static_back_ends_agree",
    "C49_negative_update_refuted",
    "C49_dynamic_back_ends_exact"
   ],
   "note": "Static back ends agree on ints. Dynamic ones: for every sequence of calls the array back end gives exactly the expected outcomes, exceptions included, and the segment tree those of the same calls with every index in -n..-1 read as -1 (C49_dynamic_back_ends_exact); hence they differ on indices -n..-2 (refuted)."
  },
  {
   "property": "C50",
   "status": "partial",
   "theorems": [
    "C50_stabbing_exact_partial",
    "C50_no_segments_refuted"
   ],
   "note": "Proved for a non-empty set of segments; with none, query raises IndexError (refuted)."
  },
  {
   "property": "C51",
   "status": "proved",
   "theorems": [
    "C51_kmp_exact"
   ],
   "note": ""
  },
  {
   "property": "C52",
   "status": "proved",
   "theorems": [
    "C52_boyer_moore_exact"
   ],
   "note": ""
  },
  {
   "property": "C53",
   "status": "partial",
   "theorems": [
    "C53_rabin_karp_complete_partial",
    "C53_rabin_karp_short_partial",
    "C53_rabin_karp_collision_refuted"
   ],
   "note": "False of the code (refuted: lower-case six-letter collision). Proved: complete, reports exactly the windows with equal hash, exact for queries of up to 3 characters below 257."
  },
  {
   "property": "C54",
   "status": "partial",
   "theorems": [
    "C54_z_function_reports_partial",
    "C54_z_function_exact_partial",
    "C54_z_function_dollar_refuted"
   ],
   "note": "False of the code when a match is followed by '$' (refuted). Proved: exact characterisation of the report; exact on texts without '$'."
  },
  {
   "property": "C55",
   "status": "proved",
   "theorems": [
    "C55_trie_set"
   ],
   "note": ""
  },
  {
   "property": "C56",
   "status": "partial",
   "theorems": [
    "C56_strings_with_prefix_partial",
    "C56_strings_with_prefix_extensions_partial",
    "C56_stored_prefix_refuted"
   ],
   "note": "False of the code for a stored prefix (refuted). Proved: exact if the prefix is not stored or one character; otherwise exact on proper extensions."
  },
  {
   "property": "C57",
   "status": "proved",
   "theorems": [
    "C57_bst_insert_histories",
    "C57_bst_insert_shape"
   ],
   "note": "Every insert history from any constructor call (default comparator): search, stored data, ascending in-order listing. Integer keys."
  },
  {
   "property": "C58",
   "status": "partial",
   "theorems": [
    "C58_insert_after_delete_refuted",
    "C58_order_statistic_delete_refuted",
    "C58_delete_emptied_refuted",
    "C58_compaction_refuted",
    "C58_bst_inserts_then_deletes_partial",
    "C58_bst_history_partial",
    "C58_bst_shape_partial"
   ],
   "note": "False in general: four counterexamples (insert after deleting the last cell; order-statistic tree; emptied tree; the delete that compacts the array after a root with one child was deleted). Proved: any inserts then at most #keys/2 deletes of any keys; any inserts then any number of deletes, compacting ones included, of the keys [deletable] allows, where the tree is the textbook tree node by node (C58_bst_shape_partial); and inserts and deletes in any order (C58_bst_history_partial), where a delete spares the newest key and the key before it, takes the root's key only between other keys, and leaves at least half of the keys ever inserted."
  },
  {
   "property": "C59",
   "status": "partial",
   "theorems": [
    "C59_comparator_refuted"
   ],
   "note": "False for every comparator: the code stores `key1 < key2 if comp is None else comp` which returns the function itself."
  },
  {
   "property": "C60",
   "status": "proved",
   "theorems": [
    "C60_bst_bounds",
    "C60_bounds_history",
    "C60_bounds_any_tree"
   ],
   "note": "All insert histories; the mixed histories of C58_bst_history_partial; and every array holding a search tree, whatever led to it. Also the histories with compacting deletes (C58_bst_shape_partial states both bounds)."
  },
  {
   "property": "C61",
   "status": "partial",
   "theorems": [
    "C61_order_statistics_partial",
    "C61_empty_tree_refuted",
    "C61_order_statistics_history_partial",
    "C61_order_statistics_compacting_partial"
   ],
   "note": "All insert histories with at least one key, the mixed insert/delete histories of C58_bst_history_partial, and any inserts followed by any number of deletes, compacting ones included, of the keys [deletable] allows (C61_order_statistics_compacting_partial); rank inverts select, ValueError outside the range. On an empty tree select(1) returns the key-less root (refuted)."
  },
  {
   "property": "C62",
   "status": "partial",
   "theorems": [
    "C62_lca_1_partial",
    "C62_lca_2_partial",
    "C62_lca_2_root_refuted",
    "C62_lca_avl_refuted",
    "C62_lca_history_partial",
    "C62_lca_compacting_partial"
   ],
   "note": "Both algorithms for all insert histories, the mixed insert/delete histories of C58_bst_history_partial, and any inserts followed by any number of deletes, compacting ones included, of the keys [deletable] allows (C62_lca_compacting_partial) (algorithm 2 unless a key is the root's; refuted with the root's key). Refuted on rotated trees (C62_lca_avl_refuted)."
  },
  {
   "property": "C63",
   "status": "proved",
   "theorems": [
    "C63_right_rotation",
    "C63_left_rotation",
    "C63_left_right_rotation",
    "C63_right_left_rotation"
   ],
   "note": "The four rotation methods at every site of every linked tree."
  },
  {
   "property": "C64",
   "status": "proved",
   "theorems": [
    "C64_avl_insert_histories",
    "C64_avl_queries"
   ],
   "note": "Full, plus order-statistic queries and bounds of an AVLTree. AVL rotations break the is_root flags (C62_lca_avl_refuted)."
  },
  {
   "property": "C65",
   "status": "partial",
   "theorems": [
    "C65_avl_delete_absent_refuted",
    "C65_avl_delete_emptied_refuted"
   ],
   "note": "False: after every insert history and for every absent key delete returns True (proved for all of them); on an emptied tree it raises TypeError."
  },
  {
   "property": "C66",
   "status": "partial",
   "theorems": [
    "C66_rb_insert_histories_partial",
    "C66_rb_contents",
    "C66_rb_reinsert_refuted",
    "C66_rb_constructed_refuted",
    "C66_rb_insert_after_delete_refuted"
   ],
   "note": "Contents and black root: every history. Colour invariants: histories without re-inserted keys; a re-insert breaks the black count (refuted), as do RedBlackTree(key, data) followed by insert and insert after a delete of the last cell."
  },
  {
   "property": "C67",
   "status": "partial",
   "theorems": [
    "C67_splay_insert_histories_partial",
    "C67_splay_reinsert_refuted"
   ],
   "note": "Proved for histories that insert no key twice; re-inserting a key corrupts the tree (TypeError witness)."
  },
  {
   "property": "C68",
   "status": "partial",
   "theorems": [
    "C68_heap_and_search_order_partial",
    "C68_contents",
    "C68_reinsert_refuted",
    "C68_constructed_refuted"
   ],
   "note": "Search order and contents: every history. Heap order: histories without re-inserted keys, any priorities; re-insert with a larger priority breaks it (refuted); CartesianTree(key, data) has a root without priority (refuted)."
  },
  {
   "property": "C69",
   "status": "proved",
   "theorems": [
    "C69_traversals",
    "C69_traversals_after_inserts"
   ],
   "note": "Every linked tree, from any of its nodes; and every tree built by inserts."
  },
  {
   "property": "C70",
   "status": "partial",
   "theorems": [
    "C70_multiset_mixed_partial",
    "C70_multiset_counts_partial",
    "C70_multiset_returns_partial",
    "C70_multiset_add_after_remove_refuted"
   ],
   "note": "Counts, membership and len: every history that returns. Histories that never remove the last occurrence return and have the right bounds; removing a last occurrence breaks the tree for the next add (refuted). C70_multiset_mixed_partial: adds and removes in any order return and leave the right counts and bounds, as long as a remove of a last occurrence spares the value that came last and the value just after it, two values stay, and half of the values that ever came stay."
  },
  {
   "property": "C71",
   "status": "proved",
   "theorems": [
    "C71_adjacency_list_refines_edge_set"
   ],
   "note": ""
  },
  {
   "property": "C72",
   "status": "partial",
   "theorems": [
    "C72_num_edges_counts_partial",
    "C72_adjacency_matrix_refines_edge_set_partial",
    "C72_num_edges_after_remove_edge_refuted"
   ],
   "note": "num_edges counts removed edges (refuted). Proved: vertices, is_adjacent, neighbors, add_edge errors for all histories; num_edges exact without remove_edge, and after every history exactly the number of pairs ever named by an accepted add_edge or a remove_edge."
  },
  {
   "property": "C73",
   "status": "partial",
   "theorems": [
    "C73_get_edge_by_joined_name_exact",
    "C73_adjacency_list_get_edge_exact",
    "C73_adjacency_list_get_edge_partial",
    "C73_adjacency_matrix_get_edge_partial",
    "C73_underscore_names_refuted",
    "C73_stale_after_remove_vertex_refuted"
   ],
   "note": "False of the code for names with underscores and after remove_vertex (both refuted). Proved exactly what get_edge answers for every history: by joined name over any names (C73_get_edge_by_joined_name_exact), and for ordinary names the cost last given to the pair unless remove_edge removed it since, remove_vertex playing no part (C73_adjacency_list_get_edge_exact); without remove_vertex and on matrices that is the cost of the edge."
  },
  {
   "property": "C74",
   "status": "proved",
   "theorems": [
    "C74_bfs_reachable_by_distance"
   ],
   "note": ""
  },
  {
   "property": "C75",
   "status": "partial",
   "theorems": [
    "C75_parallel_bfs_acyclic_partial",
    "C75_parallel_bfs_cycle_refuted",
    "C75_parallel_bfs_falsy_ignored_refuted"
   ],
   "note": "The property is false of the code: visited is asked for node objects but filled with names, so on every graph with a cycle that can be reached the search never ends (C75_parallel_bfs_cycle_refuted, for all such graphs), and a falsy result of operation is forgotten unless it comes from the last node of a layer. Proved for every graph without such a cycle and every order of iteration over the sets: it ends with the discoveries of breadth_first_search."
  },
  {
   "property": "C76",
   "status": "proved",
   "theorems": [
    "C76_dfs_reachable_once"
   ],
   "note": ""
  },
  {
   "property": "C77",
   "status": "proved",
   "theorems": [
    "C77_topological_sort"
   ],
   "note": ""
  },
  {
   "property": "C78",
   "status": "proved",
   "theorems": [
    "C78_bellman_ford_exact",
    "C78_bellman_ford_target"
   ],
   "note": ""
  },
  {
   "property": "C79",
   "status": "partial",
   "theorems": [
    "C79_dijkstra_sound_partial",
    "C79_dijkstra_exact_partial",
    "C79_dijkstra_equal_costs_partial",
    "C79_dijkstra_stale_entries_refuted"
   ],
   "note": "The property is false of the code: entries left over from improved distances use up the |V| rounds (C79_dijkstra_stale_entries_refuted). Proved for every network: the call ends with a tree of real walks, predecessors at their least cost; and exact distances when no vertex farther away offers a cheaper way in (in particular equal costs). float('inf') is the key inf_key of the model, proved larger than all distances that occur."
  },
  {
   "property": "C80",
   "status": "partial",
   "theorems": [
    "C80_next_vertex_exact",
    "C80_floyd_warshall_distances_partial",
    "C80_next_vertex_refuted"
   ],
   "note": "Distances proved exact; next_vertex is None for every pair improved through an intermediate vertex (refuted). Proved exactly what next_vertex holds: i itself when i = j or the edge costs the least cost, None for other connected pairs, no entry otherwise (C80_next_vertex_exact)."
  },
  {
   "property": "C81",
   "status": "partial",
   "theorems": [
    "C81_kruskal_adjacency_list_partial",
    "C81_kruskal_parallel_adjacency_list_partial",
    "C81_kruskal_adjacency_matrix_partial",
    "C81_kruskal_parallel_adjacency_matrix_partial",
    "C81_kruskal_parallel_no_edges_refuted"
   ],
   "note": "All four kruskal entry points (sequential and parallel, lists and matrices): the costs held by the result are exactly a minimum spanning forest, both directions, for every history of distinct ordinary names (adjacency lists: without remove_vertex, whose stale costs are the C73 bug). Partial because of those restrictions and because the parallel variant raises ValueError on a graph without priced edges (refuted theorem). Prim: see C92."
  },
  {
   "property": "C82",
   "status": "partial",
   "theorems": [
    "C82_kosaraju_raises_exactly_partial",
    "C82_kosaraju_cyclic_partial",
    "C82_kosaraju_no_incoming_refuted",
    "C82_kosaraju_merges_refuted",
    "C82_kosaraju_partial"
   ],
   "note": "False of the code (refuted). Proved exactly when it raises: KeyError iff some vertex has no incoming edge. Otherwise its sets partition the vertices, never split a strongly connected component and have a member reached by all; and the answer is right when every edge lies on a cycle."
  },
  {
   "property": "C83",
   "status": "proved",
   "theorems": [
    "C83_tarjan_components"
   ],
   "note": ""
  },
  {
   "property": "C84",
   "status": "partial",
   "theorems": [
    "C84_edmonds_karp_feasible_partial",
    "C84_edmonds_karp_maximum_partial",
    "C84_dinic_feasible_partial",
    "C84_dinic_maximum_partial",
    "C84_one_way_refuted",
    "C84_same_endpoints_refuted",
    "C84_dinic_into_source_refuted"
   ],
   "note": "False of the code: a one-way pipe inside the network can make the value too small (flow is never taken back over a missing reverse edge), and source = sink on a cycle, or dinic with a pipe into the source, never terminates (refuted with witnesses). Proved for source <> sink and non-negative capacities: both algorithms terminate with the value of a feasible flow (dinic: no pipe into the source), and it is the maximum when every pipe that neither leaves the source nor enters the sink has an opposite pipe."
  },
  {
   "property": "C85",
   "status": "proved",
   "theorems": [
    "C85_find_bridges",
    "C85_one_way_edges_refuted"
   ],
   "note": "Proved in full for undirected graphs. The docstring adds each edge in one direction only; for such graphs the claim is refuted."
  },
  {
   "property": "C86",
   "status": "partial",
   "theorems": [
    "C86_fenwick_get_sum_exact_partial",
    "C86_fenwick_update_bounds_partial",
    "C86_fenwick_get_sum_past_end_refuted"
   ],
   "note": "update proved; get_sum(0,n) silently leaves values out (refuted). Proved exactly what get_prefix_sum and get_sum answer for every pair of indices after every history of in-range updates."
  },
  {
   "property": "C87",
   "status": "proved",
   "theorems": [
    "C87_search_stops_at_first_falsy"
   ],
   "note": ""
  },
  {
   "property": "C88",
   "status": "partial",
   "theorems": [
    "C88_topological_sort_empties_graph",
    "C88_graph_unchanged_refuted",
    "C88_topological_sort_parallel_empties_graph"
   ],
   "note": "False of the code (refuted); proved instead: after a successful call the graph has the same vertices and no edges, and after topological_sort_parallel no vertices either."
  },
  {
   "property": "C89",
   "status": "partial",
   "theorems": [
    "C89_attribute_names_refuted",
    "C89_adjacency_list_any_names_partial",
    "C89_attribute_names_never_work_refuted"
   ],
   "note": "False of the code (refuted for every graph and every attribute name). Proved for all other names, the empty string and underscores included, after every history."
  },
  {
   "property": "C90",
   "status": "partial",
   "theorems": [
    "C90_tree_adjacency_matrix",
    "C90_tree_adjacency_list_refuted",
    "C90_prim_adjacency_refuted"
   ],
   "note": "Proved for matrices. Refuted for adjacency lists (kruskal and prim): the tree shares the caller's node objects, so non-tree edges stay visible and one-way edges of the caller's graph become two-way."
  },
  {
   "property": "C91",
   "status": "proved",
   "theorems": [
    "C91_topological_sort_parallel",
    "C91_same_order_for_every_schedule"
   ],
   "note": "Adjacency lists with ordinary names; neighbors and remove_edge are taken to be atomic and interleave arbitrarily. The caller's graph is emptied (see C88)."
  },
  {
   "property": "C92",
   "status": "partial",
   "theorems": [
    "C92_prim_partial",
    "C92_prim_parallel_partial",
    "C92_prim_connected_partial",
    "C92_one_way_edges_refuted",
    "C92_no_vertices_refuted"
   ],
   "note": "Proved for graphs whose edges occur in both directions at the same cost, sequential and parallel. Refuted: with one-way edges (as in the documentation) KeyError, without vertices StopIteration."
  },
  {
   "property": "C93",
   "status": "partial",
   "theorems": [
    "C93_avl_compaction_refuted",
    "C93_avl_insert_after_delete_refuted",
    "C93_avl_two_keys_refuted",
    "C93_avl_inserts_then_deletes_partial",
    "C93_avl_history_partial"
   ],
   "note": "Proved for every insert history followed by any deletes, at most half as many as there are keys (the array is then never compacted); heights and sizes from three keys on. Refuted: a delete that compacts the array corrupts parent links (inserting 1..9 and deleting 1..6 raises AttributeError), an insert after a delete raises IndexError, deleting the root of a two-key tree leaves its old height and size. The value True for an absent key is C65. C93_avl_history_partial: also for inserts and deletes in any order, as long as each delete spares the newest key and the key just before it (whose cell the next insert needs), two keys stay, and half of the keys ever inserted stay (no compaction)."
  },
  {
   "property": "C94",
   "status": "partial",
   "theorems": [
    "C94_cartesian_contents_partial",
    "C94_cartesian_heap_partial",
    "C94_insert_after_delete_refuted",
    "C94_emptied_refuted",
    "C94_cartesian_history_partial"
   ],
   "note": "Proved for every insert history (any priorities) followed by any number of deletes that leave at least one key, including the deletes that compact the array; heap order when no key was inserted twice (C68). Refuted: an insert after a delete raises IndexError; deleting the last key leaves a key-less node that the traversals list. C94_cartesian_history_partial: also for inserts of new keys and deletes in any order, as long as each delete spares the newest and the last key and half of the keys ever inserted stay."
  },
  {
   "property": "C95",
   "status": "partial",
   "theorems": [
    "C95_avl_partial",
    "C95_treap_refuted",
    "C95_red_black_refuted",
    "C95_splay_refuted"
   ],
   "note": "Right on an AVLTree (all insert histories; after deletes: C93) and on a BinarySearchTree (C61). Refuted: the rotations of CartesianTree/Treap, RedBlackTree and SplayTree do not update the sizes (rank 7 in a tree of four keys)."
  },
  {
   "property": "C96",
   "status": "partial",
   "theorems": [
    "C96_rb_compaction_refuted",
    "C96_rb_emptied_refuted",
    "C96_rb_inserts_then_deletes_partial",
    "C96_rb_history_partial"
   ],
   "note": "Proved for every history of inserts of different keys followed by any deletes, at most half as many as there are keys (the array is then never compacted). Refuted: _remove_node (1475-1489) ignores the new indices when the node has one child, so the delete that compacts the array raises IndexError (keys 1..9, delete 1..5, then 8); deleting the last key leaves a node without a key; an insert after a delete is C66. C96_rb_history_partial: also for inserts of new keys and deletes in any order, as long as each delete spares the newest key and the key just after it (whose cell the next insert needs), two keys stay, and half of the keys ever inserted stay (no compaction)."
  },
  {
   "property": "C97",
   "status": "partial",
   "theorems": [
    "C97_johnson_partial",
    "C97_johnson_one_way_in_partial",
    "C97_johnson_nonnegative_partial",
    "C97_graph_unchanged_refuted",
    "C97_extra_vertex_left_refuted",
    "C97_removed_vertex_refuted",
    "C97_reachable_at_infinity_refuted",
    "C97_next_vertex_refuted"
   ],
   "note": "False in general (refuted): the graph's costs are overwritten by the reweighted ones; after the ValueError the vertex __q__ and its edges stay in the graph; KeyError after a remove_vertex; reachable vertices at infinity (inherited from dijkstra); next_vertex does not describe the way. Proved for every history without remove_vertex: ValueError iff negative cycle; otherwise finite entries are costs of real walks, exact for a row if the reweighted graph has no detour from that vertex (for instance one incoming edge per vertex), exact description of next_vertex and of the changed graph."
  },
  {
   "property": "C98",
   "status": "partial",
   "theorems": [
    "C98_splay_delete_end_refuted",
    "C98_splay_insert_after_delete_refuted",
    "C98_splay_inserts_then_deletes_partial",
    "C98_splay_history_partial"
   ],
   "note": "Proved for inserts of different keys followed by deletes each of which is of an absent key, of a key between two others, or of one of two keys, with any number of compactions of the array. Refuted: deleting the least or greatest of three or more keys leaves a parent link to the deleted node, and later deletes raise AttributeError; an insert after a delete raises IndexError. C98_splay_history_partial: also for inserts and deletes in any order, as long as each delete is of an absent key or of one between two others that is neither the newest nor the one just before it, and half of the keys ever inserted stay."
  },
  {
   "property": "C99",
   "status": "partial",
   "theorems": [
    "C99_join_refuted",
    "C99_insert_after_join_refuted",
    "C99_join_partial"
   ],
   "note": "ValueError on unordered trees: proved for all sizes. Entries of both after a join: proved when the first tree has 2^n - 1 keys (its array is then full). Refuted otherwise: links of the copied nodes are moved by the length of the array, but they are appended at the first free cell; and an insert after a join raises TypeError (the copies have no parent links)."
  },
  {
   "property": "C100",
   "status": "partial",
   "theorems": [
    "C100_split_absent_refuted",
    "C100_split_at_greatest_refuted",
    "C100_split_histories_partial"
   ],
   "note": "Proved for every history of inserts of new keys and splits at present keys, going on with either half as long as it is not empty. Refuted: a split at an absent key returns None and splits nothing (proved for all such keys too); a split at the greatest key returns a tree whose traversal shows one node without a key."
  },
  {
   "property": "C101",
   "status": "partial",
   "theorems": [
    "C101_cpp_bubble_sort_sorts",
    "C101_cpp_selection_sort_sorts",
    "C101_cpp_insertion_sort_sorts",
    "C101_cpp_python_same",
    "C101_cpp_bubble_empty_refuted",
    "C101_cpp_truthy_refuted"
   ],
   "note": "Proved for every array, range and comparator returning True/False: the range is sorted, nothing else changes, same result as Python. Refuted: bubble_sort on an empty array fails (size_t underflow); a comparator returning truthy objects other than True is taken for False."
  },
  {
   "property": "C102",
   "status": "partial",
   "theorems": [
    "C102_cpp_quick_sort_refuted",
    "C102_cpp_quick_sort_partial"
   ],
   "note": "Proved for ranges starting at index 1 or later, and for ranges from 0 whose first cell is a minimum (then same result as Python). Refuted: one-element arrays and [2, 1] are never sorted, p - 1 wraps around in size_t when a pivot ends up at index 0."
  },
  {
   "property": "C103",
   "status": "partial",
   "theorems": [
    "C103_cpp_linear_search_first",
    "C103_cpp_binary_search_exact",
    "C103_cpp_jump_search_exact",
    "C103_cpp_jump_search_empty_refuted"
   ],
   "note": "linear_search: all arrays and ranges. binary_search and jump_search: all sorted ranges of arrays below 2^31 cells (int indices); jump_search on an empty array is refuted (it fails instead of answering None)."
  },
  {
   "property": "C104",
   "status": "partial",
   "theorems": [
    "C104_cpp_is_ordered_refuted",
    "C104_cpp_is_ordered_python_partial",
    "C104_cpp_is_ordered_adjacent_partial",
    "C104_cpp_is_ordered_exact_partial"
   ],
   "note": "Refuted in general as in Python (C33: ties, None cells). Proved: same answer as the Python backend for every array, range and True/False comparator; without None it says that no cell comes before its predecessor under comp. Exact answer with None cells too."
  },
  {
   "property": "C105",
   "status": "partial",
   "theorems": [
    "C105_llvm_bubble_sort_sorts",
    "C105_llvm_python_same",
    "C105_llvm_big_int_refuted",
    "C105_llvm_custom_comp_refuted"
   ],
   "note": "Proved for every process history, array below 2^31 cells, range and element type whose values fit the machine type; int arrays: same result as the Python backend. Refuted: ints beyond 64 bits raise OverflowError; a custom comparator raises NotImplementedError (for all arrays). LLVM's compilation of the IR is trusted; rounding conversions (float32, ints in a float buffer) are not modelled."
  },
  {
   "property": "C106",
   "status": "partial",
   "theorems": [
    "C106_llvm_selection_sort_refuted",
    "C106_llvm_selection_after_bubble_partial"
   ],
   "note": "Refuted: the builder rebinds i64 from a type to an instruction and fails, so until bubble_sort was used in the process every selection_sort with something to sort raises RuntimeError (proved for all processes, arrays and ranges). Proved: after a bubble_sort on the same machine type it runs the code cached for bubble_sort, and sorts."
  },
  {
   "property": "C107",
   "status": "partial",
   "theorems": [
    "C107_cpp_adjacency_list_partial",
    "C107_cpp_adjacency_list_errors_partial",
    "C107_cpp_duplicate_names",
    "C107_cpp_underscore_refuted"
   ],
   "note": "Proved for names without underscores, fresh nodes, None or integer costs. Refuted with underscores: keys of edges collide, and remove_vertex parses the key at the first underscore, so it leaves edges of the removed vertex or drops edges of others."
  },
  {
   "property": "C108",
   "status": "partial",
   "theorems": [
    "C108_cpp_bfs_partial",
    "C108_cpp_bfs_unknown_source",
    "C108_cpp_bfs_stop_refuted"
   ],
   "note": "Proved for names without underscores, every iteration order and every operation: every reachable vertex once, nearest first, along edges. Refuted: the operation's result is ignored, so the search does not stop at a falsy result (and leaves get no call)."
  },
  {
   "property": "C109",
   "status": "partial",
   "theorems": [
    "C109_cpp_dijkstra_partial",
    "C109_cpp_dijkstra_names_refuted",
    "C109_cpp_dijkstra_removed_refuted",
    "C109_cpp_dijkstra_unknown_source_refuted",
    "C109_cpp_dijkstra_negative_refuted"
   ],
   "note": "Proved for names without underscores and histories without remove_vertex, for every iteration order of the edge map, with respect to the edges of non-negative cost (others are skipped); doubles are exact integers in the model. Refuted: names with underscores, graphs after remove_vertex (out-of-bounds ids), unknown sources (taken for vertex 0 and then inserted), negative costs silently skipped."
  },
  {
   "property": "C110",
   "status": "partial",
   "theorems": [
    "C110_cpp_prim_partial",
    "C110_cpp_prim_adjacency_refuted",
    "C110_cpp_prim_one_way_refuted",
    "C110_cpp_prim_no_vertices_refuted",
    "C110_cpp_prim_next_id_refuted"
   ],
   "note": "Proved for names without underscores, graphs in which each edge has its reverse with the same cost, every iteration order and every choice among equal costs: get_edge of the result is exactly a minimum spanning tree of the component, and the given graph is unchanged. Refuted: the result shares node objects with the graph, so is_adjacent shows edges outside the tree; one-way edges change the given graph (and a later call can follow a null pointer); an empty graph reads nodes[0]; the result's next id is 0."
  },
  {
   "property": "C111",
   "status": "partial",
   "theorems": [
    "C111_cpp_adjacency_matrix_partial",
    "C111_cpp_matrix_get_edge_partial",
    "C111_cpp_matrix_errors",
    "C111_cpp_get_edge_twice_refuted",
    "C111_cpp_matrix_underscore_refuted",
    "C111_cpp_matrix_overflow_refuted",
    "C111_cpp_matrix_costless_refuted",
    "C111_cpp_matrix_duplicates_refuted"
   ],
   "note": "Proved for distinct vertices with any names: num_vertices, num_edges, is_adjacent, neighbors and the exceptions; get_edge for names without underscores while its results are kept alive (costs as exact integers: up to 2^53). Refuted: get_edge takes no reference, so asking twice is undefined; underscored names share edge records; an overflowing cost raises but leaves the edge; costless edges have no record; duplicate names are counted twice."
  },
  {
   "property": "C112",
   "status": "partial",
   "theorems": [
    "C112_cpp_matrix_bfs_partial",
    "C112_cpp_matrix_bfs_unknown_source",
    "C112_cpp_matrix_bfs_stop_refuted"
   ],
   "note": "Proved for distinct vertices, every iteration order and operation. Refuted: the operation's result is ignored."
  },
  {
   "property": "C113",
   "status": "partial",
   "theorems": [
    "C113_cpp_array",
    "C113_cpp_array_of_size",
    "C113_cpp_array_rejects",
    "C113_cpp_array_init_refuted"
   ],
   "note": "Proved for arrays built from a list or a size without init, every history and reference-count bookkeeping. Refuted: with init= all cells share one reference, so a cell can end up pointing to a freed object. A write of the wrong type raises SystemError, not TypeError."
  },
  {
   "property": "C114",
   "status": "partial",
   "theorems": [
    "C114_cpp_dynamic_array",
    "C114_cpp_modify_force",
    "C114_cpp_modify_force_refuted",
    "C114_cpp_append_dtype_refuted",
    "C114_cpp_float_test_partial",
    "C114_cpp_float_history_partial",
    "C114_cpp_float_load_refuted"
   ],
   "note": "append, delete and the forced compaction agree with the Python class (whose own properties are C02, C03), with the load factor compared exactly; with the code's single-precision quotient they agree when the denominator of the load factor is a power of two (the default 0.25) and the array stays below 2^23/denominator cells. Refuted: with load_factor 0.45 the C++ array compacts where Python does not; append stores objects of any type; _modify(True) without elements reads before the buffer."
  },
  {
   "property": "C115",
   "status": "partial",
   "theorems": [
    "C115_cpp_array_stack",
    "C115_cpp_stack_none_refuted"
   ],
   "note": "Proved for every history of non-None items. Refuted: a pushed None can never be popped."
  },
  {
   "property": "C116",
   "status": "partial",
   "theorems": [
    "C116_cpp_fenwick",
    "C116_cpp_fenwick_overflow_refuted",
    "C116_cpp_fenwick_bounds_refuted"
   ],
   "note": "Proved modulo 2^64 for every history of in-range updates; equal to the Python backend whenever the asked sum fits a long. Refuted: larger sums wrap (undefined in C++), updates out of range touch memory outside the array instead of raising."
  },
  {
   "property": "C117",
   "status": "partial",
   "theorems": [
    "C117_cpp_bst_history_partial",
    "C117_equal_keys_refuted",
    "C117_insert_after_compaction_refuted",
    "C117_delete_one_child_refuted",
    "C117_delete_emptied_refuted",
    "C117_root_without_data_refuted",
    "C117_comparator_refuted",
    "C117_cpp_bst_shape_partial"
   ],
   "note": "Proved for one object per key, a comparator that returns 1 for less and 0 otherwise, and the histories of C58_bst_history_partial (a delete spares the newest key and the key before it, takes the root's key only between other keys, leaves at least half of the keys ever inserted); and for any inserts followed by any number of deletes, compacting ones included, of the keys [deletable] allows, where keys, links and parent links are those of the textbook tree (C117_cpp_bst_shape_partial). Refuted outside: equal keys in two objects, inserts after a compaction, a delete of a node with one child that compacts, an emptied tree, a root without data, other comparators."
  },
  {
   "property": "C118",
   "status": "proved",
   "theorems": [
    "C118_cpp_bounds"
   ],
   "note": "Proved after every history of C117_cpp_bst_history_partial, for keys that are one object each. Compacting deletes: stated in C117_cpp_bst_shape_partial."
  },
  {
   "property": "C119",
   "status": "partial",
   "theorems": [
    "C119_cpp_order_statistics_partial",
    "C119_cpp_order_statistics_compacting_partial"
   ],
   "note": "Proved after every history of C117_cpp_bst_history_partial and of C117_cpp_bst_shape_partial (any inserts, then deletes [deletable] allows, compactions included). Open: other histories (where the tree itself fails)."
  },
  {
   "property": "C120",
   "status": "partial",
   "theorems": [
    "C120_cpp_lca_partial",
    "C120_lca_1_ancestor_refuted",
    "C120_lca_1_values_refuted",
    "C120_lca_2_root_refuted",
    "C120_lca_1_avl_refuted",
    "C120_cpp_lca_compacting_partial"
   ],
   "note": "Algorithm 2 proved unless a key is the root's; algorithm 1 proved for keys whose integers are in -5..256 and trees that have had at most 257 nodes, where it returns the second key if the first is the ancestor. Refuted outside: see the _refuted theorems; on a rotated tree algorithm 1 is undefined. Same after deletes that compact the array (C120_cpp_lca_compacting_partial)."
  },
  {
   "property": "C121",
   "status": "proved",
   "theorems": [
    "C121_cpp_traversals"
   ],
   "note": "Proved after every history of C117_cpp_bst_history_partial."
  },
  {
   "property": "C122",
   "status": "partial",
   "theorems": [
    "C122_cpp_avl_partial",
    "C122_avl_unbalanced_refuted",
    "C122_avl_delete_absent_refuted",
    "C122_cpp_avl_history_partial"
   ],
   "note": "Proved for inserts followed by deletes of up to half of the keys, at most 257 keys, one object per key. Refuted: beyond 257 keys the tree does not stay balanced (the new index object is compared by identity); delete reports True for absent keys. C122_cpp_avl_history_partial: also for inserts and deletes in any order, at most 257 keys ever; each delete spares the newest key and the key just before it, two keys stay and half of the keys ever inserted stay."
  },
  {
   "property": "C123",
   "status": "partial",
   "theorems": [
    "C123_cpp_cartesian_partial",
    "C123_reinsert_refuted",
    "C123_constructed_differs",
    "C123_insert_after_delete_refuted",
    "C123_emptied_refuted",
    "C123_cpp_cartesian_history_partial",
    "C123_cpp_cartesian_compacting_partial"
   ],
   "note": "Proved for any inserts followed by deletes of up to half of the keys; heap order if no key is inserted twice; one object per key, priorities as integers (they are only compared). Refuted: heap order after a key is inserted again, inserts after a delete, an emptied tree keeps a node without key; a key given to the constructor has priority 0 (differs from Python). C123_cpp_cartesian_compacting_partial: any number of deletes after the inserts as long as one key stays, compactions of the array included (keys with different integer values). C123_cpp_cartesian_history_partial: also for inserts of new keys and deletes in any order; each delete spares the newest and the last key and half of the keys ever inserted stay."
  },
  {
   "property": "C124",
   "status": "partial",
   "theorems": [
    "C124_cpp_red_black_partial",
    "C124_cpp_red_black_entries_partial",
    "C124_reinsert_refuted",
    "C124_constructed_refuted",
    "C124_insert_after_delete_refuted",
    "C124_compaction_refuted",
    "C124_cpp_red_black_history_partial"
   ],
   "note": "Proved for inserts of different keys followed by deletes of up to half of them; contents also for keys inserted again. Refuted: colours after a key is inserted again, a tree constructed with a key (follows a missing parent), inserts after a delete, deletes after a compaction. C124_cpp_red_black_history_partial: also for inserts of new keys and deletes in any order; each delete spares the newest key and the key just after it, two keys stay and half of the keys ever inserted stay."
  },
  {
   "property": "C125",
   "status": "partial",
   "theorems": [
    "C125_cpp_splay_partial",
    "C125_reinsert_refuted",
    "C125_delete_ends_refuted",
    "C125_insert_after_delete_refuted",
    "C125_cpp_splay_history_partial",
    "C125_cpp_splay_compacting_partial"
   ],
   "note": "Proved for inserts of different keys followed by safe deletes (absent, neither least nor greatest, or one of two keys) of up to half of them. Refuted: a key inserted again, deletes of the greatest and then the least key, inserts after a delete (all undefined behaviour). C125_cpp_splay_compacting_partial: any number of safe deletes after the inserts, compactions of the array included (keys with different integer values). C125_cpp_splay_history_partial: also for inserts of new keys and deletes in any order; each delete is of an absent key or of one between two others that is neither the newest nor the one just before it, and half of the keys ever inserted stay."
  },
  {
   "property": "C126",
   "status": "partial",
   "theorems": [
    "C126_cpp_join_partial",
    "C126_join_refuted",
    "C126_insert_after_join_refuted"
   ],
   "note": "Proved: trees with overlapping keys are refused; a first tree with 2^n - 1 keys joined with greater keys has the entries of both. Refuted for other sizes of the first tree (links into empty cells: undefined behaviour), and an insert after a join is undefined behaviour."
  },
  {
   "property": "C127",
   "status": "partial",
   "theorems": [
    "C127_cpp_split_histories_partial",
    "C127_split_absent_refuted",
    "C127_split_at_greatest_refuted"
   ],
   "note": "Proved for every history of inserts of new keys and splits at present keys (going on with either half). Refuted: a split at an absent key splits nothing; a split at the greatest key returns a tree with a node without a key."
  },
  {
   "property": "C128",
   "status": "proved",
   "theorems": [
    "C128_singly_linked_list_print",
    "C128_doubly_linked_list_print",
    "C128_linked_stack_print",
    "C128_linked_queue_print"
   ],
   "note": "All four containers, every history."
  },
  {
   "property": "C129",
   "status": "partial",
   "theorems": [
    "C129_doubly_circular_forward_print_partial",
    "C129_circular_print_refuted",
    "C129_circular_print_partial",
    "C129_doubly_circular_print_partial"
   ],
   "note": "Refuted: after insert_at(-len, ...) printing never ends, in both classes. Proved for histories without an index of -len (and, doubly linked, without extracting the first of several items). Doubly linked: also proved for every history without an index of -len and without insert_before at the first node (extract(0) allowed)."
  },
  {
   "property": "C130",
   "status": "proved",
   "theorems": [
    "C130_dynamic_array_print"
   ],
   "note": ""
  },
  {
   "property": "C131",
   "status": "partial",
   "theorems": [
    "C131_array_queue_print_exact_partial",
    "C131_array_stack_queue_print_refuted",
    "C131_array_stack_print_partial",
    "C131_array_queue_print_partial"
   ],
   "note": "Refuted: an ArrayStack prints spare cells as None; an empty ArrayQueue, and one whose array has shrunk, raise IndexError. Proved: an ArrayStack prints its items followed only by None, every history; a non-empty ArrayQueue prints its items in histories where a popleft leaves at least as many items as were removed since the queue was last empty. Exactly: after every history that place_run (C10) follows, a non-empty ArrayQueue prints its items iff its rear index is that of its last item."
  },
  {
   "property": "C132",
   "status": "proved",
   "theorems": [
    "C132_heap_print"
   ],
   "note": ""
  },
  {
   "property": "C133",
   "status": "partial",
   "theorems": [
    "C133_skip_list_print_refuted",
    "C133_skip_list_print_every_history",
    "C133_skip_list_print_partial"
   ],
   "note": "Proved for every history: printing never fails and exactly which cells are shown; with different keys all pairs are shown in order. Refuted: of two pairs with equal keys one is missing."
  },
  {
   "property": "C134",
   "status": "proved",
   "theorems": [
    "C134_segment_tree_print",
    "C134_print_determined"
   ],
   "note": ""
  },
  {
   "property": "C135",
   "status": "partial",
   "theorems": [
    "C135_tree_print_refuted",
    "C135_bst_print_partial",
    "C135_avl_print_partial",
    "C135_splay_print_partial",
    "C135_red_black_print_partial",
    "C135_cartesian_print_partial",
    "C135_table_determined"
   ],
   "note": "Proved for the mixed histories of C58, C93, C94, C96, C98. Refuted: after an insert that follows the delete of the newest key the table points outside itself."
  },
  {
   "property": "C136",
   "status": "proved",
   "theorems": [
    "C136_load_factor_test_exact",
    "C136_dynamic_array_history_exact",
    "C136_int_sqrt_exact",
    "C136_jump_search_exact",
    "C136_int_sqrt_large_refuted",
    "C136_merge_sort_any_log",
    "C136_sparse_table_any_log",
    "C136_sparse_table_low_log_refuted"
   ],
   "note": "IEEE binary64 operations of Coq.Floats.SpecFloat. Outside the stated bounds refuted: int(sqrt(2^54-1)) is one too large; a logarithm below the exact one makes SparseTable raise IndexError."
  },
  {
   "property": "C137",
   "status": "partial",
   "theorems": [
    "C137_cpp_array_print",
    "C137_cpp_dynamic_array_print_partial",
    "C137_cpp_stack_print_partial",
    "C137_cpp_empty_print_refuted"
   ],
   "note": "Proved for every history that leaves an element (arrays of fixed size: every history). Refuted: an empty C++ dynamic array or stack prints one '' for each spare cell. The text of an item is not modelled."
  },
  {
   "property": "C138",
   "status": "partial",
   "theorems": [
    "C138_cpp_bst_print_partial",
    "C138_cpp_avl_print_partial",
    "C138_cpp_red_black_print_partial",
    "C138_cpp_splay_print_partial",
    "C138_cpp_cartesian_print_partial",
    "C138_table_determined",
    "C138_cpp_tree_print_refuted"
   ],
   "note": "Proved for the mixed histories of C117 and C122-C125. Refuted: after an insert that follows a compaction the table points outside itself."
  },
  {
   "property": "C139",
   "status": "partial",
   "theorems": [
    "C139_cpp_node_attributes_partial",
    "C139_cpp_node_data_exact",
    "C139_cpp_node_data_refuted",
    "C139_cpp_edge_value_partial",
    "C139_cpp_node_str_partial",
    "C139_cpp_node_str_refuted",
    "C139_cpp_edge_str_refuted",
    "C139_int_text",
    "C139_edge_text",
    "C139_edge_refuses_objects"
   ],
   "note": "Proved for strs without NUL and surrogates, ints of 64 bits, floats, None and other objects, with the exact condition for data to come back. Refuted: True comes back as 1, an int beyond 64 bits leaves -1, a NUL cuts the str, a surrogate is a null pointer; str differs for names with a quote or backslash and for every edge. The text of floats is a parameter."
  },
  {
   "property": "C140",
   "status": "partial",
   "theorems": [
    "C140_py_neighbours_partial",
    "C140_py_reserved_refuted",
    "C140_py_adjacency_list_refuted",
    "C140_cpp_neighbours_exact",
    "C140_cpp_second_add_refuted",
    "C140_cpp_adjacency_list",
    "C140_cpp_adjacency_refuted"
   ],
   "note": "Python: proved for names that are not attributes of every node (refuted for those) and nodes made without adjacency_list (refuted: such neighbours cannot be removed and the caller's list changes). C++: exact answer; refuted for a name added while adjacent (the data takes the place of the node), for an adjacency_list that is not a list, and for a refused assignment to adjacent."
  },
  {
   "property": "C141",
   "status": "proved",
   "theorems": [
    "C141_sparse_table_cells",
    "C141_sparse_table_text",
    "C141_decimal_determined"
   ],
   "note": "Proved for arrays of numbers (the table keeps int(value)) and combiners as in C47; the text is proved for ints."
  },
  {
   "property": "C142",
   "status": "proved",
   "theorems": [
    "C142_segment_tree_print",
    "C142_empty_print"
   ],
   "note": "Proved for coordinates that are multiples of 1/one (every finite list of floats). The empty interval (x, x) of a repeated end point is not used for the segment [x, x]. Without segments printing raises IndexError. Rows are values, not text."
  },
  {
   "property": "C143",
   "status": "partial",
   "theorems": [
    "C143_documented_names_only",
    "C143_names_exact",
    "C143_find_names_exact",
    "C143_undocumented_names_refuted",
    "C143_cpp_backend_names",
    "C143_cpp_unknown_names_refuted",
    "C143_traversals",
    "C143_class_names",
    "C143_class_errors"
   ],
   "note": "Proved for strongly_connected_components, minimum_spanning_tree_parallel, topological_sort_parallel, max_flow and the classes. False of the others (refuted): they run any function of the module whose name fits (all_pair_shortest_paths(g, 'kahn') sorts topologically and empties the graph), TypeError when the number of arguments does not fit; with the C++ backend unknown names give None. Proved exactly what every str runs (find: strs that do not begin with an underscore). Whether the function run accepts its arguments' values is not part of this."
  }
 ]
}