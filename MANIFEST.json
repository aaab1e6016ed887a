{
 "claims": [
  {
   "property": "C01",
   "status": "proved",
   "theorems": [
    "C01_node_arguments",
    "C01_linked_list_is_python_list",
    "C01_many_lists",
    "C01_rejected_call_changes_nothing"
   ],
   "note": "Every history of method calls on one LinkedList (and every in-scope history over many lists) returns exactly what the list specification returns; a rejected call leaves all lists unchanged. C01_node_arguments: count and \"in\" given a node, for the three classes."
  },
  {
   "property": "C02",
   "status": "proved",
   "theorems": [
    "C02_doubly_linked_list_is_python_list",
    "C02_many_lists",
    "C02_backward_links_mirror"
   ],
   "note": "As C01 for DoublyLinkedList; following prev from the tail visits the same nodes backwards."
  },
  {
   "property": "C03",
   "status": "partial",
   "theorems": [
    "C03_circular_list_is_python_list_partial",
    "C03_many_lists_partial",
    "C03_last_is_followed_by_first",
    "C03_setitem_refuted",
    "C03_exact"
   ],
   "note": "REFUTED for item assignment: cll[i]=x on an empty list raises AttributeError or is silently accepted, cll[i]=None raises AssertionError. Proved for all other calls, and for item assignment of storable values on non-empty lists. C03_exact gives every answer of every history of one circular list, item assignments included (when the empty list accepts: iff an element has left it since it was created, cleared or rotated)."
  },
  {
   "property": "C04",
   "status": "partial",
   "theorems": [
    "C04_slicing_partial",
    "C04_slicing_refuted",
    "C04_exact",
    "C04_right_iff"
   ],
   "note": "REFUTED for negative steps: ll[::-1] is [ll[0]]. Proved for all positive steps and all start/stop. C04_exact covers every history with slices of any step: a negative step yields only the last of the elements it should, so the slice is right iff the step is positive or at most one element is due (C04_right_iff)."
  },
  {
   "property": "C05",
   "status": "proved",
   "theorems": [
    "C05_rotation",
    "C05_split"
   ],
   "note": "Rotation by d moves every element d places, in place or as a new list, and rotating back restores the list; split returns the two parts and keeps the original."
  },
  {
   "property": "C06",
   "status": "proved",
   "theorems": [
    "C06_copy_reverse_split_independent"
   ],
   "note": "copy, reverse, split and out-of-place rotation return lists that share nothing observable with the original."
  },
  {
   "property": "C07",
   "status": "partial",
   "theorems": [
    "C07_other_classes",
    "C07_extend_concatenates",
    "C07_independence_partial",
    "C07_receiver_partial",
    "C07_independence_refuted"
   ],
   "note": "REFUTED for LinkedList and DoublyLinkedList: extend shares the nodes of the argument. Proved: the receiver is the concatenation and the argument is unchanged right after the call; full independence for CircularLinkedList. C07_other_classes: a list of another class is taken by LinkedList and refused with TypeError, unchanged, by the other two."
  },
  {
   "property": "C08",
   "status": "partial",
   "theorems": [
    "C08_same_elements",
    "C08_independent_copy_partial",
    "C08_aliasing_refuted",
    "C08_not_an_ordinary_list_refuted"
   ],
   "note": "REFUTED when the source is an instance of the target class (same class, or LinkedList from a subclass): the new list aliases the old one. Proved for all other class pairs, and that the elements are equal right after construction for all pairs."
  },
  {
   "property": "C09",
   "status": "proved",
   "theorems": [
    "C09_equality"
   ],
   "note": "== is exactly equality of the element sequences and != its negation."
  },
  {
   "property": "C10",
   "status": "partial",
   "theorems": [
    "C10_mirror_iff",
    "C10_transitive",
    "C10_order_partial",
    "C10_order_meaning_partial",
    "C10_order_refuted"
   ],
   "note": "REFUTED for lists of different lengths: [1,1]<[2,2,2] but not [2,2,2]>[1,1]. Proved: exact meaning of the four operators, <= mirrors >=, < implies not >= reversed, antisymmetry, < mirrors > at equal lengths. a < b and b > a agree exactly when the lengths are equal, one list begins with the other, or a exceeds b somewhere (C10_mirror_iff); <=, < and >= are transitive (C10_transitive)."
  },
  {
   "property": "C11",
   "status": "partial",
   "theorems": [
    "C11_terminates_partial",
    "C11_circular_self_extend_refuted",
    "C11_search_after_self_extend_refuted"
   ],
   "note": "REFUTED: a.extend(a) never returns on a CircularLinkedList, and searches after it never return on the other classes. Proved: every history in the scope of the specification terminates."
  },
  {
   "property": "C12",
   "status": "proved",
   "theorems": [
    "C12_stack"
   ],
   "note": "For every max_capacity argument (rounded to the nearest integer, ties to even) and every history the stack answers as a bounded LIFO and stays within capacity."
  },
  {
   "property": "C13",
   "status": "proved",
   "theorems": [
    "C13_queue"
   ],
   "note": "For every max_capacity argument and every history the queue answers as a bounded FIFO that drops its oldest element when full."
  },
  {
   "property": "C14",
   "status": "proved",
   "theorems": [
    "C14_deque"
   ],
   "note": "For every max_capacity argument and every history the deque answers as a bounded double-ended queue."
  },
  {
   "property": "C15",
   "status": "partial",
   "theorems": [
    "C15_exact",
    "C15_ideal_iff",
    "C15_priority_queue_partial",
    "C15_small_queue_partial",
    "C15_priority_queue_refuted"
   ],
   "note": "REFUTED: removing the newest of at least three items gives its priority to the second newest one. C15_exact gives every answer of every history (any capacity, any random priorities) by a deterministic reference, and C15_ideal_iff says exactly when a dequeue is the ideal one."
  },
  {
   "property": "C16",
   "status": "partial",
   "theorems": [
    "C16_fails_iff",
    "C16_dequeue_never_fails_partial",
    "C16_dequeue_never_fails_refuted"
   ],
   "note": "REFUTED: the remembered extreme priority goes stale after mixing directions or after an overflow. C16_fails_iff: after any history a dequeue fails exactly when something is held but nothing of the remembered priority. Proved never to fail for histories with one direction and no overflow warning."
  },
  {
   "property": "C17",
   "status": "proved",
   "theorems": [
    "C17_sorted_set",
    "C17_set_laws",
    "C17_increasing",
    "C17_coins_irrelevant"
   ],
   "note": "For every history (all calls, all outcomes of the coin, all numbers including +inf, all index arguments) the answers are those of the sorted set; get_height is 1 + the largest number of heads among the present elements; coins influence nothing else."
  },
  {
   "property": "C18",
   "status": "partial",
   "theorems": [
    "C18_print_disagrees",
    "C18_refuted",
    "C18_remove_corrupts",
    "C18_contains_partial",
    "C18_insert_partial",
    "C18_exact",
    "C18_set_iff",
    "C18_remove_takes_smallest"
   ],
   "note": "REFUTED: -inf is in every list, inserting it does nothing, and remove(-inf) on a list holding 5 empties it while 5 is still found. Proved for every history that never removes -inf, whatever the coins: contains(-inf) is True, insert(-inf) changes nothing, and every other answer is that of the set of the other numbers, so such a history is that of a set iff those answers coincide. The first remove(-inf) in any list returns as usual and leaves a list that counts and lists itself without its smallest number."
  },
  {
   "property": "C19",
   "status": "partial",
   "theorems": [
    "C19_tree_measures_partial",
    "C19_membership_partial",
    "C19_binary_measures_partial",
    "C19_empty_tree_refuted"
   ],
   "note": "REFUTED for the empty tree: membership raises AttributeError, and it has 0 levels but height 0. Proved for every non-empty Tree and BinaryTree."
  },
  {
   "property": "C20",
   "status": "proved",
   "theorems": [
    "C20_traversals_list_in_order",
    "C20_orders_are_unique",
    "C20_traversals_are_permutations",
    "C20_preorder_inorder_determine",
    "C20_traverse_dispatch"
   ],
   "note": "Each traversal lists every node once in the order of the path order that defines it; the listing is unique."
  },
  {
   "property": "C21",
   "status": "partial",
   "theorems": [
    "C21_is_perfect",
    "C21_is_strict",
    "C21_is_balanced_refuted",
    "C21_is_balanced_partial"
   ],
   "note": "is_perfect and is_strict proved. is_balanced REFUTED against its documentation in both directions; its exact meaning is proved."
  },
  {
   "property": "C22",
   "status": "proved",
   "theorems": [
    "C22_side_views"
   ],
   "note": "For every binary tree, including the empty one."
  },
  {
   "property": "C23",
   "status": "proved",
   "theorems": [
    "C23_invert",
    "C23_invert_paths"
   ],
   "note": "Also: preorder of the inverse is the reversed postorder, every level is reversed, every path is flipped."
  },
  {
   "property": "C24",
   "status": "proved",
   "theorems": [
    "C24_insertions_implement_a_set",
    "C24_after_inserting"
   ],
   "note": "For every history without removals, all other calls included (membership, min, max, traversals, len, rejected arguments)."
  },
  {
   "property": "C25",
   "status": "partial",
   "theorems": [
    "C25_removal_refuted",
    "C25_nothing_lost_partial",
    "C25_removal_partial",
    "C25_histories_partial",
    "C25_absent_value",
    "C25_histories_iff"
   ],
   "note": "REFUTED: removing 10 from BST([10,20,40,30]) breaks the search order. Proved: no history crashes, loses or invents a value; a removal keeps the order iff below the replacing neighbour there is only a single branch; every history of replaceable removals implements the set; removing an absent value changes nothing. Conversely, a history that behaves as a set after each call has only replaceable removals (C25_histories_iff)."
  },
  {
   "property": "C26",
   "status": "proved",
   "theorems": [
    "C26_insertions_implement_a_set",
    "C26_balanced_after_insertions",
    "C26_get_height",
    "C26_after_inserting",
    "C26_height_fibonacci",
    "C26_height_logarithmic"
   ],
   "note": "Set behaviour, height balance and exact cached heights for every history without removals; get_height is the longest path; the number of values is at least the Fibonacci bound of the height, so the height is at most 2 log2(n+1)."
  },
  {
   "property": "C27",
   "status": "partial",
   "theorems": [
    "C27_balance_refuted",
    "C27_balanced_partial",
    "C27_minimum_removals_partial",
    "C27_removal_keeps_balance_iff",
    "C27_histories_iff"
   ],
   "note": "REFUTED: removing 70 after inserting 50,20,60,10,30,70,5,40. Proved when every removal is of the current minimum or of an absent value. Exact: on a balanced tree any removal answers right, and keeps the tree balanced if and only if nowhere on the way back to the root a right side shrinks that was already lower than a left side which is even at its root and whose right subtree is heavier on the right; whole histories stay balanced if and only if every removal is of that kind."
  },
  {
   "property": "C28",
   "status": "partial",
   "theorems": [
    "C28_removal_refuted",
    "C28_removal_partial",
    "C28_one_removal_partial",
    "C28_near_removals_partial",
    "C28_insert_crashes_refuted",
    "C28_duplicate_crashes_refuted"
   ],
   "note": "REFUTED: removals on a tree left unbalanced (C27) break the search order, after which insertions raise AttributeError. Proved: every history in which at most one node hangs below the neighbour replacing each removed value, in particular as long as the tree is balanced before each call every removal is exact and cached heights stay exact; in particular any single removal after any insertions."
  },
  {
   "property": "C29",
   "status": "partial",
   "theorems": [
    "C29_set_refuted",
    "C29_insertions",
    "C29_priorities_above_partial",
    "C29_after_inserting",
    "C29_sinkable",
    "C29_one_removal",
    "C29_histories_iff"
   ],
   "note": "REFUTED: with priorities of -2 and below, remove() crashes with AttributeError after inserting (2, priority 5), (1, priority -2): a missing child counts as one of priority -1, and the node sinks towards it. Proved for every history whose priorities exceed -1 (the default random ones included), and for every history without removals whatever the priorities: set behaviour, heap order, and each value keeps the priority it was added with. Exactly, whatever the priorities: a removal works iff the next smaller value below the removed one has a priority above -1 and the next larger one below it at least -1; otherwise AttributeError is raised and nothing is taken out (C29_one_removal). A history behaves as a set after each of its calls iff all its removals are of that kind (C29_histories_iff), and it then keeps the heap order (C29_sinkable)."
  },
  {
   "property": "C30",
   "status": "proved",
   "theorems": [
    "C30_insertions_implement_a_set",
    "C30_insert_moves_to_root",
    "C30_search_moves_to_root",
    "C30_after_inserting"
   ],
   "note": "Every history of insertions, lookups and reading calls answers as a set (looking anything up in an empty SplayTree raises AssertionError, stated in the specification); insert(x) makes x the root; a lookup makes the last node visited the root and keeps the contents."
  },
  {
   "property": "C31",
   "status": "partial",
   "theorems": [
    "C31_duplicated_refuted",
    "C31_never_returns_refuted",
    "C31_removal_refuted",
    "C31_removal_partial",
    "C31_absent_value_partial",
    "C31_one_removal",
    "C31_histories_iff"
   ],
   "note": "REFUTED: removing 1 after inserting 4,9,11,5,1 breaks the search order; after such a removal, removing an absent value can store a value twice or tie nodes into a circle on which get_min never returns. Proved: every history in which each removed value is replaceable when removed (a single branch below its in-order neighbour), absent values in particular. Exactly: after such a history any removal at all answers rightly and loses nothing but the value, and the values stay in order iff it was replaceable (C31_one_removal); so a history behaves as a set after each of its calls iff all its removals are replaceable (C31_histories_iff)."
  },
  {
   "property": "C32",
   "status": "proved",
   "theorems": [
    "C32_insertions_implement_a_set",
    "C32_root_is_black",
    "C32_after_inserting"
   ],
   "note": "For every history without removals, all other calls included."
  },
  {
   "property": "C33",
   "status": "partial",
   "theorems": [
    "C33_no_red_red_refuted",
    "C33_black_height_refuted",
    "C33_straight_insertions_partial",
    "C33_insertions_at_the_ends_partial",
    "C33_increasing_insertions_partial",
    "C33_one_straight_insertion_partial",
    "C33_insertion_keeps_valid_iff",
    "C33_straight_is_mended",
    "C33_histories_iff"
   ],
   "note": "REFUTED: inserting 50,20,80,10,30,5,35,40 gives a red node with a red child and unequal black heights (after a rotation the repair goes on from the new, black, top). Proved: every insertion whose search passes the inner red nodes without turning keeps the invariants; in particular every history inserting below the minimum or above the maximum (monotone sequences), with height at most 2 log2(n+1). Exact (C33_insertion_keeps_valid_iff): an insertion into a valid tree always stores the value, and leaves a valid tree if and only if mended (RbInsSpec.v) holds. For whole histories of insertions and removals (C33_histories_iff): all answers are right and the tree is valid after every call iff every insertion is mended and every removal removable."
  },
  {
   "property": "C34",
   "status": "partial",
   "theorems": [
    "C34_values_lost_refuted",
    "C34_removal_refuted",
    "C34_invariant_refuted",
    "C34_red_removals_partial",
    "C34_one_removal_partial",
    "C34_allowed_removals_partial",
    "C34_set_partial",
    "C34_removal_keeps_valid_iff",
    "C34_removal_outcomes"
   ],
   "note": "REFUTED: on RedBlackTree(1..8) remove(2) raises ValueError and remove(1) leaves a red node with a red child; a second removal can raise and lose another value. Proved: removals that can spare a red node (red leaf, or red in-order neighbour below, or last value) succeed and keep set and invariants, in every history of such calls. Exact (C34_removal_keeps_valid_iff, C34_removal_outcomes): on a valid tree a removal succeeds and leaves a valid tree if and only if removable (RbSpec.v) holds; otherwise it returns with the right values in an invalid tree, or raises ValueError with the tree unchanged (red inner node), or raises AttributeError (black node). See also C33_histories_iff."
  },
  {
   "property": "C35",
   "status": "proved",
   "theorems": [
    "C35_heap_histories",
    "C35_answers_depend_on_the_multiset_only",
    "C35_heapify_rejects"
   ],
   "note": "heapify plus every history that removes only the top: all answers are those of the multiset, the array stays heap-ordered."
  },
  {
   "property": "C36",
   "status": "proved",
   "theorems": [
    "C36_min_heap_sorts",
    "C36_max_heap_sorts"
   ],
   "note": "For MinHeap (ascending) and MaxHeap (descending)."
  },
  {
   "property": "C37",
   "status": "partial",
   "theorems": [
    "C37_arbitrary_removal_refuted",
    "C37_removal_partial",
    "C37_any_history_partial",
    "C37_histories_iff",
    "C37_fitting_histories",
    "C37_remove_max_refuted"
   ],
   "note": "REFUTED: removal only sifts down, so the moved element may precede its new parent and get_min goes wrong later. Proved: exactly one occurrence is removed, and heap order is kept iff the last element fits the freed place; in every history the multiset, membership, len, warnings and exceptions are right. Exactly the histories in which every removal fits (the last element may take the freed place) keep the heap in order, and they give the ideal answers; removing the maximum of a MinHeap may break it as well."
  },
  {
   "property": "C38",
   "status": "partial",
   "theorems": [
    "C38_iteration_partial",
    "C38_iteration_refuted",
    "C38_right_iff"
   ],
   "note": "REFUTED for the empty heap (AssertionError). Proved for every non-empty heap. So list(heap) works iff the heap is not empty (C38_right_iff)."
  },
  {
   "property": "C39",
   "status": "partial",
   "theorems": [
    "C39_trie_partial",
    "C39_refuted",
    "C39_has_prefix_refuted",
    "C39_exact",
    "C39_not_strings",
    "C39_blank"
   ],
   "note": "REFUTED: a string that continues a stored prefix with \"}\" cannot be inserted or looked up (AttributeError), and has_prefix(\"}\") is True on an empty trie. Proved in full, including the node count, for every history and query without the character \"}\". C39_exact: size, emptiness and answers after any history with any strings. C39_not_strings, C39_blank: what both tries answer to other arguments."
  },
  {
   "property": "C40",
   "status": "partial",
   "theorems": [
    "C40_refuted",
    "C40_insert_refuted",
    "C40_failures_partial"
   ],
   "note": "REFUTED: removing the only word raises AttributeError (after removing it), and so does inserting \"}\". Proved for every history over all strings: exactly which calls raise, and that all the others answer as the set of words."
  },
  {
   "property": "C41",
   "status": "partial",
   "theorems": [
    "C41_exact",
    "C41_radix_partial",
    "C41_refuted"
   ],
   "note": "REFUTED like C39 for \"}\". Proved for every history and query without the character \"}\": answers, and which calls raise. C41_exact gives, for every history and any strings, a deterministic reference (words and the points where nodes are kept): every answer and exactly which calls raise."
  },
  {
   "property": "C42",
   "status": "partial",
   "theorems": [
    "C42_substring_search_partial",
    "C42_substring_search_plain_partial",
    "C42_substring_search_refuted",
    "C42_substring_missed_refuted",
    "C42_empty_pattern_refuted",
    "C42_exact",
    "C42_right_iff",
    "C42_not_strings"
   ],
   "note": "REFUTED: \"$\" is found in \"ab\"; in \"a$b\", \"ab\" is found and \"a$b\" is not (\"$\" is dropped from the word and used as a mark); the empty pattern occurs 0 times. Proved for all words (read without their \"$\") and all patterns without \"$\" and \"}\". C42_exact gives every answer for every pattern (\"$\" and \"}\" included) in terms of the word alone (SuffixFindSpec.v); C42_right_iff says exactly when has_substring is right. C42_not_strings: patterns that are not strings."
  },
  {
   "property": "C43",
   "status": "partial",
   "theorems": [
    "C43_suffix_array_partial",
    "C43_suffix_array_letters_partial",
    "C43_suffix_array_refuted",
    "C43_exact"
   ],
   "note": "REFUTED: \" \" gives [0, 1], since the empty suffix is sorted as \"$\". Proved: always a permutation of 0..n, and the suffix array exactly when every character is above \"$\". C43_exact: the exact order for every word (the empty suffix is read as \"$\")."
  },
  {
   "property": "C44",
   "status": "partial",
   "theorems": [
    "C44_longest_repeated_partial",
    "C44_longest_repeated_refuted",
    "C44_exact",
    "C44_right_iff"
   ],
   "note": "REFUTED: \"aaaabcdefgXbcdefg\" gives only \"aaa\", missing \"bcdefg\" (only the two deepest levels are looked at). Proved for all words: the results are distinct, repeated, of one length, and no repeated string continues them; they are exactly the longest repeated substrings when get_height() <= 3. C44_exact gives the result for every word in terms of the word alone (SuffixDeepSpec.v: the longest of the points where suffixes part that are nested at most one less deep than the deepest), and C44_right_iff says exactly when it is right."
  },
  {
   "property": "C45",
   "status": "partial",
   "theorems": [
    "C45_common_prefix_partial",
    "C45_rejected_partial",
    "C45_common_prefix_refuted",
    "C45_dollar_refuted",
    "C45_exact"
   ],
   "note": "REFUTED: on \"ab\" (0, 2) is answered and (2, 0) raises ValueError; words with \"$\" are indexed without it. Proved for all i < n, j <= n, i != j; all other indices raise ValueError. C45_exact: the answer for all arguments; a position with itself gives the longest beginning of its suffix that occurs elsewhere."
  },
  {
   "property": "C46",
   "status": "proved",
   "theorems": [
    "C46_parse",
    "C46_parse_errors",
    "C46_parse_round_trip"
   ],
   "note": "Both directions: parse accepts exactly the described literals; errors are TypeError or ValueError only."
  },
  {
   "property": "C47",
   "status": "proved",
   "theorems": [
    "C47_history_independence",
    "C47_insertions_history_independence"
   ],
   "note": "By uniqueness of heap-ordered search trees with distinct priorities."
  },
  {
   "property": "C48",
   "status": "partial",
   "theorems": [
    "C48_black_height_refuted",
    "C48_black_height_partial",
    "C48_empty_partial",
    "C48_exact",
    "C48_right_iff"
   ],
   "note": "REFUTED together with C33. Proved whenever the invariants hold; an empty tree raises AttributeError. In every state (C48_exact) the answer is the number of black nodes on the way always to the left, so it is right iff all ways have equally many (C48_right_iff)."
  },
  {
   "property": "C49",
   "status": "partial",
   "theorems": [
    "C49_refuted",
    "C49_neither_alias",
    "C49_copy_alone_partial",
    "C49_one_set",
    "C49_seen_through"
   ],
   "note": "REFUTED: SkipList(a) shares the levels with a but counts them separately: b.insert(5) shows in a, and after a.remove(5) the 5 is still found in b. Proved: used alone, the copy is the sorted set with the elements of the original; and for every sequence of calls on both, as long as no call adds or removes a level they are one set under two names, and clear() on one of them makes two independent sets of it (C49_one_set)."
  },
  {
   "property": "C50",
   "status": "partial",
   "theorems": [
    "C50_suffix_trie_construction_partial",
    "C50_closing_brace_refuted",
    "C50_rejected_arguments"
   ],
   "note": "REFUTED: every word with \"}\" raises AttributeError. Proved for all others."
  },
  {
   "property": "C51",
   "status": "proved",
   "theorems": [
    "C51_constructor",
    "C51_sorts",
    "C51_order_irrelevant",
    "C51_rejects",
    "C51_skip_list_constructor",
    "C51_skip_list_rejects"
   ],
   "note": "All five trees and SkipList. -inf in a SkipList is C18."
  },
  {
   "property": "C52",
   "status": "proved",
   "theorems": [
    "C52_trie",
    "C52_radix"
   ],
   "note": "For every history whatever; the words are those for which \"in\" answers True (C39-C41 relate them to the history)."
  },
  {
   "property": "C53",
   "status": "partial",
   "theorems": [
    "C53_exact",
    "C53_proportional_refuted",
    "C53_never_more_than",
    "C53_radix_partial",
    "C53_removal_refuted",
    "C53_suffix_trie_linear"
   ],
   "note": "REFUTED for removals: a RadixTrie holding a single word can have any number of nodes (C53_proportional_refuted), against the documented O(s) space; insert \"ab\", insert \"ac\", remove \"ab\" leaves 3 nodes where \"ac\" alone has 2. Proved for every history without removals, and for every SuffixTrie. C53_exact gives the exact size and levels after any history, removals included. Whatever is removed, there are at most the root and two nodes per insertion (C53_never_more_than)."
  },
  {
   "property": "C54",
   "status": "partial",
   "theorems": [
    "C54_lines_in_preorder",
    "C54_one_line_per_node",
    "C54_print_determines_partial",
    "C54_string_trees_partial",
    "C54_empty_refuted",
    "C54_newline_refuted"
   ],
   "note": "REFUTED only in two corners: the empty tree prints like a single node \"--\", and TreeNode() stores a newline and the two characters backslash n alike. Proved for every tree: the printout is exactly the lines of the nodes in preorder, and (texts without newlines, which holds of all strings) it determines shape and texts of every non-empty tree."
  },
  {
   "property": "C55",
   "status": "partial",
   "theorems": [
    "C55_structural_queries_partial",
    "C55_after_histories_partial",
    "C55_avl_is_balanced_partial",
    "C55_avl_is_balanced_refuted"
   ],
   "note": "REFUTED for is_balanced: AVL looks at the root only and says True on a tree unbalanced below after a removal; the other classes inherit the test refuted in C21 (its exact meaning is proved). All other queries proved for every class and every history that leaves a tree; AVL.is_balanced is the truth without removals."
  },
  {
   "property": "C56",
   "status": "proved",
   "theorems": [
    "C56_from_path",
    "C56_spelling",
    "C56_len"
   ],
   "note": "For file systems without links that stay unchanged during the call; newlines in names are stored as the two characters backslash n (TreeNode)."
  },
  {
   "property": "C57",
   "status": "proved",
   "theorems": [
    "C57_lists_print",
    "C57_print_determines",
    "C57_rows",
    "C57_aligned",
    "C57_aligned_circular"
   ],
   "note": "For every history and every text; printing leaves the heap as it was. str() of stored objects is a parameter."
  },
  {
   "property": "C58",
   "status": "partial",
   "theorems": [
    "C58_stack",
    "C58_queue_partial",
    "C58_deque_partial",
    "C58_priority_queue_partial",
    "C58_emptied_queue_refuted",
    "C58_print_determines",
    "C58_aligned",
    "C58_rows",
    "C58_queue_exact",
    "C58_deque_exact",
    "C58_priority_queue_exact",
    "C58_right_iff"
   ],
   "note": "REFUTED for emptied queues: after its last item was taken out a Queue, Deque or PriorityQueue still prints that item (the container keeps its head node). Proved: Stack always, the three queues as long as they hold something. The exact printout after every history, empty ones included, is C58_queue_exact, C58_deque_exact, C58_priority_queue_exact: an emptied container prints an unclosed frame with the item that left last, a new or cleared one prints none; so printing is right iff something is held or nothing is left over (C58_right_iff)."
  },
  {
   "property": "C59",
   "status": "proved",
   "theorems": [
    "C59_drawing",
    "C59_print_determines",
    "C59_condition_needed",
    "C59_heaps",
    "C59_heap_print_determines",
    "C59_search_tree_states",
    "C59_search_tree_histories",
    "C59_red_black_print_determines"
   ],
   "note": "For texts without white space and underscores; C59_condition_needed shows that some condition is needed (a trailing space is lost). Search trees: in every state whose nodes form a tree, in particular after all histories named in C55. str() of numbers is a parameter."
  },
  {
   "property": "C60",
   "status": "partial",
   "theorems": [
    "C60_trie_drawing",
    "C60_radix_drawing",
    "C60_trie_print_determines",
    "C60_radix_print_determines_partial",
    "C60_check_mark_refuted",
    "C60_newline_refuted"
   ],
   "note": "Drawing: for every history and all words. The printout determines the words of a Trie always; of a RadixTrie only if no word contains a newline or a check mark (REFUTED otherwise: \"a\", \"ab\", \"ac\" print like \"a \u2713b\", \"a \u2713c\")."
  },
  {
   "property": "C61",
   "status": "partial",
   "theorems": [
    "C61_suffix_drawing_partial",
    "C61_print_determines_partial",
    "C61_to_list_partial",
    "C61_arrow_refuted"
   ],
   "note": "Words with \"}\" cannot be stored (C50). The printout determines the word for words without newlines. REFUTED for listing words that contain \" \u27f6 \": the strings are cut there."
  },
  {
   "property": "C62",
   "status": "proved",
   "theorems": [
    "C62_drawing",
    "C62_aligned",
    "C62_height",
    "C62_print_determines",
    "C62_str_int_good"
   ],
   "note": "For every history without -inf. str() of finite numbers is a parameter; C62_str_int_good shows that decimal notation meets the condition of C62_print_determines. After remove(-inf) the printout contradicts the list: C18_print_disagrees."
  },
  {
   "property": "C63",
   "status": "partial",
   "theorems": [
    "C63_list_follows_heap_refuted",
    "C63_heap_follows_list_refuted",
    "C63_shared_until_clear",
    "C63_detached_by_clear",
    "C63_reading_is_harmless"
   ],
   "note": "Refuted in both directions: to_list() returns the list the heap works on. C63_shared_until_clear, C63_detached_by_clear and C63_reading_is_harmless say exactly when the two are one list and when they are not."
  },
  {
   "property": "C64",
   "status": "partial",
   "theorems": [
    "C64_plain_loop",
    "C64_list_iterator_partial",
    "C64_list_iterators_partial",
    "C64_add_front_refuted",
    "C64_add_front_circular_refuted"
   ],
   "note": "Proved: a loop over a list that is not changed meanwhile gives exactly its elements, for every program around it (C64_plain_loop); every iterator behaves as that of a Python list as long as no call restructures the part of the list it has passed (appends, assignments, insertions and removals at or behind its position are fine). REFUTED in general: after add_front during a loop a LinkedList or DoublyLinkedList gives the remaining items and then raises AttributeError, for every list and position; a CircularLinkedList gives the new first item at the end."
  },
  {
   "property": "C65",
   "status": "partial",
   "theorems": [
    "C65_iterators_only_read",
    "C65_plain_loop",
    "C65_growing_partial",
    "C65_growing_ends",
    "C65_splay_lookup_refuted",
    "C65_updates_refuted"
   ],
   "note": "Proved: iterators never disturb the calls (C65_iterators_only_read); in all five classes a loop over a tree whose nodes no call changes gives exactly the values, level by level (C65_plain_loop); over a BST the same holds with insertions in the loop, where some of the new values may come in between (C65_growing_partial, C65_growing_ends). REFUTED in general: for x in t: x in t over a SplayTree with the values 1 and 2 never ends; an insertion into an AVLTree, RedBlackTree or Treap and a removal from a BST can make the loop lose a value that is in the tree the whole time."
  },
  {
   "property": "C66",
   "status": "proved",
   "theorems": [
    "C66_iterators_only_read",
    "C66_snapshot"
   ],
   "note": "Proved for every program: a loop sees the heap of its first step and nothing of what happens afterwards."
  },
  {
   "property": "C67",
   "status": "partial",
   "theorems": [
    "C67_iterators_only_read",
    "C67_never_raises",
    "C67_plain_loop",
    "C67_trie_loop",
    "C67_radix_refuted"
   ],
   "note": "REFUTED for RadixTrie: inserting a word during a loop can split a node the loop still holds; the loop then gives only the second half and the first letters of a word stored all the time are lost (\"ab\", \"cd\" stored, \"ce\" inserted after the first step: the loop gives \"ab\", \"d\"). Proved: for Trie under any updates, and for both classes while nothing is inserted or removed (clear() included); iterators never affect calls; no iterator ever raises."
  },
  {
   "property": "C68",
   "status": "partial",
   "theorems": [
    "C68_finding_is_logarithmic",
    "C68_search_calls_itself_per_node",
    "C68_removing_minima_is_quadratic",
    "C68_removal_work_refuted"
   ],
   "note": "REFUTED for removals: after inserting n, ..., 1, removing the minimum n times moves (n-1)(n-2)/2 values (BST._transplant shifts a whole branch by one node), so no constant bounds the work by c log n per call (C68_removal_work_refuted). Proved: the nodes passed to find the place, removals included, are at most 4 log2(n+1) per call on average for every history of replaceable removals (C31), in the form 2^total <= (n+1)^(4 calls); the number counted is the number of recursive calls of the search."
  },
  {
   "property": "C69",
   "status": "proved",
   "theorems": [
    "C69_programs",
    "C69_each_list_alone",
    "C69_loop_is_a_snapshot"
   ],
   "note": "Every program without -inf and without SkipList(other): the model run equals the run of independent sets with snapshot loops (C69_programs); each SkipList answers as a single one would (C69_each_list_alone); a loop equals to_list() at its first step (C69_loop_is_a_snapshot)."
  },
  {
   "property": "C70",
   "status": "partial",
   "theorems": [
    "C70_needs",
    "C70_enough_stack",
    "C70_failed_calls_are_no_ops",
    "C70_bst_one_depth",
    "C70_avl",
    "C70_avl_insertions",
    "C70_sorted_insertions_refuted",
    "C70_removal",
    "C70_splay_removal_refuted"
   ],
   "note": "REFUTED: a BST into which more than L+1 values were inserted in increasing order refuses every further larger value, although far fewer levels would do (C70_sorted_insertions_refuted); a SplayTree of at least L+2 increasing values raises RecursionError on removing the largest one and is left out of order (C70_splay_removal_refuted). Proved: the exact depth every call other than removal needs, call by call (C70_needs); with as many levels as the tree nothing changes (C70_enough_stack); failed calls other than removals are no-ops (C70_failed_calls_are_no_ops); a BST whose calls all start at one depth never breaks, removals included (C70_bst_one_depth); AVL trees need 2 log2(n+1)+1 (C70_avl, C70_avl_insertions); C70_removal gives the exact effect of a removal that runs out of room."
  },
  {
   "property": "C71",
   "status": "partial",
   "theorems": [
    "C71_draws",
    "C71_average",
    "C71_average_small",
    "C71_sorted",
    "C71_logarithmic_refuted"
   ],
   "note": "REFUTED for many values: there are only 101 priorities and a new value with the same priority is rotated above the old one, so inserting n increasing values makes the average depth of the smallest at least n/101 (C71_sorted, C71_logarithmic_refuted). Proved: for every history the average is at most n/101 + 2 log2 n + 2 (C71_average), so up to 101 values at most 2 log2 n + 3 (C71_average_small)."
  },
  {
   "property": "C72",
   "status": "proved",
   "theorems": [
    "C72_same_search",
    "C72_steps",
    "C72_chances",
    "C72_expected_steps",
    "C72_expected_height",
    "C72_expected_promotions",
    "C72_unlucky"
   ],
   "note": "Proved: the exact steps of every search (C72_steps: one to the right per value up to x that no taller value hides, one down per level); expected steps at most 3 log2 n + 4 (C72_expected_steps), expected get_height at most log2 n + 3, at most n promotions expected. The expectation is over unbounded numbers of heads: every partial sum is bounded (C72_chances says how the partial sums exhaust the probability). The coins are assumed fair and independent; the history does not depend on them."
  },
  {
   "property": "C73",
   "status": "partial",
   "theorems": [
    "C73_same_calls",
    "C73_limits",
    "C73_priority_queue",
    "C73_worst_insertion",
    "C73_worst_removal",
    "C73_best_insertion",
    "C73_other_end",
    "C73_absent",
    "C73_heapify",
    "C73_heapify_linear_refuted"
   ],
   "note": "REFUTED for heapify: it inserts one by one, and on n numbers each of which goes before all earlier ones it makes exactly log2 1 + ... + log2 n comparisons, more than any constant times n (C73_heapify_linear_refuted), although _heap.py, min_heap.py and max_heap.py document O(n). Proved: that sum is the worst case (at most n log2 n), n - 1 the best; the limits of all calls for arrays of any content (C73_limits), the worst and best insertions exactly, the worst removal at the root up to two comparisons (C73_worst_removal), the cost of a priority queue over whole histories. Comparisons are counted (<, >, ==, and those in list.index, in, min and max); moves are bounded by comparisons."
  },
  {
   "property": "C74",
   "status": "partial",
   "theorems": [
    "C74_same",
    "C74_index",
    "C74_walk",
    "C74_ends",
    "C74_slice",
    "C74_split",
    "C74_extend",
    "C74_rotate",
    "C74_split_refuted",
    "C74_rotate_refuted"
   ],
   "note": "REFUTED for split and the rotations: they copy every element, so split takes exactly n steps and a rotation between n and 2n in every class, whatever the index or distance (C74_split_refuted, C74_rotate_refuted), although doubly_linked_list.py and circular_linked_list.py document O(min(k,n/2)) and O(k%n). Proved: the exact number of steps of all other calls, in every state; that the counted functions are those of the model (C74_same). A step is a round of a loop that goes from node to node. A slice walks to the last place it selects (C74_slice). Searching by value, comparison, copy, reverse and printing are not counted."
  },
  {
   "property": "C75",
   "status": "partial",
   "theorems": [
    "C75_same",
    "C75_queue",
    "C75_deque",
    "C75_priority_queue",
    "C75_constant_refuted"
   ],
   "note": "REFUTED for PriorityQueue.dequeue: with n elements it passes at least n nodes (C75_constant_refuted), although priority_queue.py documents constant time: it looks for the priority and then looks at all remaining elements. Proved: at most 2n; at most one node for every other call of the three classes after every history."
  },
  {
   "property": "C76",
   "status": "proved",
   "theorems": [
    "C76_orders",
    "C76_on_the_way",
    "C76_share",
    "C76_average",
    "C76_building",
    "C76_increasing_order"
   ],
   "note": "Exact share of each value (C76_share: 1/m for the m values between it and x), summed to 2 log2 n + 2; the work of all insertions is the sum of the final depths. No removals: after removals the distribution is different, and C76 says nothing about it."
  },
  {
   "property": "C77",
   "status": "partial",
   "theorems": [
    "C77_valid_partial",
    "C77_zigzag",
    "C77_logarithmic_refuted"
   ],
   "note": "REFUTED: after a rotation the repair goes on from the new, black, top and may rotate its red parent once more, and again and again: inserting M,0,-1,6,5 and then 6k+3,6k+2,6k+1,6k+12,6k+11,6k+4 for k=0..n-1 (M=6n+7) gives a tree of 6n+5 values in which the way to -1 goes through 4n+2 nodes, so a RedBlackTree can be as bad as a list, although red_black_tree.py (lines 3 and 209) guarantees a height of O(log(n)) (C77_zigzag, C77_logarithmic_refuted). Proved: at most 2 log2(n+1) nodes after every history of insertions and removals that the code handles (C77_valid_partial; C33_histories_iff says which these are). What is missing is only what is false."
  },
  {
   "property": "C78",
   "status": "partial",
   "theorems": [
    "C78_defined",
    "C78_bst",
    "C78_avl",
    "C78_red_black",
    "C78_linear_refuted",
    "C78_splay_orders",
    "C78_splay",
    "C78_splay_linear_refuted",
    "C78_treap_defined",
    "C78_treap_sorted",
    "C78_treap_two_runs",
    "C78_treap_average",
    "C78_treap_linear_refuted"
   ],
   "note": "REFUTED: the constructors insert one by one. A BST meets n(n-1)/2 nodes when the values come in increasing order; an AVL tree meets, for every list of n different values in every order, at least half of log2 1 + ... + log2 (n-1); a RedBlackTree as many when the values come in increasing order; all more than any constant times n (C78_linear_refuted). A Treap built from two increasing runs, the second below the first, meets on average over the draws at least n/202 nodes for each item of the second run, because only 101 priorities exist (C78_treap_two_runs, C78_treap_linear_refuted). A SplayTree tells the order of the items by the turns of its insertions, so at most 2^(2w+n) of the n! orders meet w nodes or fewer, and some order of any n values meets (log2 1 + ... + log2 n - n)/2 (C78_splay, C78_splay_linear_refuted). Proved: n(n-1)/2 is the worst case of BST; n (2 log2 n + 1) is enough for AVL in every order, n 2 log2 n for RedBlackTree in increasing order. for Treap never more than 101 nodes for an item when the values come in increasing order, and in any order at most n/101 + 2 log2 n + 2 for an item on average. SkipList, which documents the same, is left out; C72 bounds its insertions from above."
  },
  {
   "property": "C79",
   "status": "partial",
   "theorems": [
    "C79_same",
    "C79_limits",
    "C79_trie_exact",
    "C79_auto_complete",
    "C79_auto_complete_refuted"
   ],
   "note": "REFUTED for auto_complete: it visits every node below the prefix, so with the words a, aa, aaa, ... stored no a m + b bounds the work of completing \"a\" in either class (C79_auto_complete_refuted). Proved: in both classes, after every history, finding and has_prefix take at most m rounds, insertion m + 2, removal 2m + 1, completion m + len(trie) and never fewer than the words it returns, less one; in a Trie finding a stored word takes exactly m rounds, removing it at least m + 1, adding any word at least m, and completing a prefix exactly m plus the number of longer stored prefixes (C79_trie_exact). A round is an iteration of a loop or a call of the recursive helper; slicing and joining strings inside a round are not counted."
  },
  {
   "property": "C80",
   "status": "partial",
   "theorems": [
    "C80_same",
    "C80_tree",
    "C80_binary",
    "C80_depth_refuted",
    "C80_invert_refuted",
    "C80_traversal_refuted",
    "C80_red_black_height_refuted"
   ],
   "note": "REFUTED: get_depth, documented as O(1), subtracts the height of the root from itself and visits every node twice (C80_depth_refuted); invert, documented as O(log(n)), makes 2 n + 1 calls (C80_invert_refuted); the pre-, in- and postorder traversals, documented as O(n), copy the list of each subtree into that of its parent and write n plus the sum of the distances from the root items, n (n + 1) / 2 in a chain (C80_traversal_refuted); get_height of a RedBlackTree, documented as O(h), visits all n nodes (C80_red_black_height_refuted). Proved: len, get_height and count_leaf_nodes visit each node exactly once; a search visits no node twice, and all when the value is missing; is_balanced visits at most 3 n nodes, is_strict at most n (C80_tree, C80_binary)."
  },
  {
   "property": "C81",
   "status": "partial",
   "theorems": [
    "C81_same",
    "C81_build",
    "C81_ask",
    "C81_count",
    "C81_count_refuted"
   ],
   "note": "REFUTED: count_pattern_occurrences, documented as O(m), visits every leaf below the end of the pattern, so at least as many nodes as it reports occurrences: no linear function of m is a limit, even for a pattern of one character (C81_count_refuted). Proved: it takes at least r and at most m + 2 r - 1 rounds and visits when it returns r, and at most m when it raises (C81_count); building takes at least n + 1 and at most (n + 1)(n + 7) rounds (C81_build); has_substring takes at most m, get_lowest_common_ancestor(i, j) at most the lengths of the suffixes at i and j together (C81_ask). Not counted: to_suffix_array and get_longest_repeated_substring."
  },
  {
   "property": "C82",
   "status": "proved",
   "theorems": [
    "C82_same",
    "C82_whole",
    "C82_search",
    "C82_looked_at",
    "C82_compare",
    "C82_compared"
   ],
   "note": "Proved: to_list, count, copy, reverse and remove(v, all=True) look at exactly the n elements, in any state (C82_whole); in and remove(v, all=False) at exactly those up to the first occurrence of v, or at all (C82_search, C82_looked_at); the comparisons at exactly the pairs up to the one that decides, and == and != at none if the lengths differ (C82_compare), hence at no more than min(n, m) (C82_compared). The counting functions do what the functions of ListModel.v do (C82_same)."
  },
  {
   "property": "C83",
   "status": "proved",
   "theorems": [
    "C83_same",
    "C83_exact",
    "C83_levels",
    "C83_avl",
    "C83_avl_log"
   ],
   "note": "Proved: the exact number of nodes visited by contains, get_min, get_max and the insert and remove of a BST on a tree of any shape (C83_exact), hence no more than the levels, or two more (C83_levels); the exact number for the insert and remove of an AVL tree whose histories stay height-balanced, which also walk back to the root (C83_avl), hence O(log n) (C83_avl_log). AVL histories that lose balance (see C27, C28) are not covered by the last two. The counting functions do what the functions of BstModel.v and BalModel.v do (C83_same)."
  },
  {
   "property": "C84",
   "status": "partial",
   "theorems": [
    "C84_other_classes",
    "C84_same_class",
    "C84_clash",
    "C84_documented_refuted"
   ],
   "note": "Proved: between lists of one class the operators are the methods of the left one (C84_same_class) and raise TypeError exactly on a clash (C84_clash); between lists of different classes each operator raises TypeError in both orders and changes nothing (C84_other_classes). Refuted: that any two lists of the package can be compared; LinkedList([1]) == DoublyLinkedList([1]) raises TypeError because Python asks the subclass first, although LinkedList.__eq__ itself would answer True (C84_documented_refuted). Operands that are not lists of the package are not modelled."
  },
  {
   "property": "C85",
   "status": "proved",
   "theorems": [
    "C85_same",
    "C85_treap_insert",
    "C85_treap_remove",
    "C85_rb_insert",
    "C85_treap_levels",
    "C85_rb_levels",
    "C85_rb_log",
    "C85_rb_remove_same",
    "C85_rb_remove",
    "C85_rb_remove_levels",
    "C85_rb_remove_log"
   ],
   "note": "DownModel2.v counts the rounds of the loops and the recursive calls (C85_same: otherwise the same programs). Exact numbers for the treap: C85_treap_insert, C85_treap_remove; a bound for the red-black tree: C85_rb_insert; in levels only: C85_treap_levels, C85_rb_levels; in the number of elements: C85_rb_log. The calls that only read are in C83, for trees of all classes. RedBlackTree.remove on a valid tree: DownModel3.v, C85_rb_remove_same, C85_rb_remove, C85_rb_remove_levels, C85_rb_remove_log (a failing call counts too). Not covered: RedBlackTree.remove on a tree that is no longer valid, and histories on which the tree no longer is a set (C29_set_refuted, C34)."
  },
  {
   "property": "C86",
   "status": "proved",
   "theorems": [
    "C86_same",
    "C86_exact",
    "C86_levels",
    "C86_logarithmic",
    "C86_all_calls"
   ],
   "note": "DownModel4.v counts the calls of the recursive functions (C86_same: otherwise the same programs). C86_exact gives the exact number for every search, insertion and removal, C86_levels bounds it by the levels, C86_logarithmic sums the searches and insertions over a history (with C68); the removals are not logarithmic (C68_removal_work_refuted), but C86_all_calls shows that only the values moved below the replacement make the difference. Not covered: histories with a removal the code cannot do (C31)."
  }
 ]
}