# Formal model of extra-collections in Rocq (Coq 8.16.1)

## 1. Approach

* Every modelled Python function is a total, computable Gallina function that mirrors the
  Python function branch by branch and cites its file and lines.
* Pointer structures (linked lists, skip list, search trees, tries) are modelled on an explicit
  **heap**: a `list` of cells indexed by allocation order; a reference is an index, `None` is
  `None`.  Mutation through a reference is an update of the cell, so aliasing, stale `prev`/`parent`
  links and shared nodes are represented, not abstracted away.
* Code runs in a state/exception monad (Base.v): `Ok value state`, `Exc exception state` (the state
  *at the raise*, so partial effects of a failing call are visible) or `Diverge` (a pointer-chasing
  loop ran out of the fuel it was given; the fuel given is larger than the number of cells, so a
  loop that needs more visits a cell twice).  Where a theorem says a call returns, it proves that the
  fuel suffices.
* Warnings are returned as a boolean next to the result.
* The array heap, `Tree`/`BinaryTree` (read-only queries and printing) and `Stack` are modelled on
  plain Gallina lists/trees.
* Layout: `XModel.v` (model), `XSpec.v` (the small independent specification), `XThm*.v` (proofs),
  `XProps*.v` (the property theorems, each followed by `Print Assumptions`, and Examples that run
  the model on concrete histories that meet the hypotheses).

## 2. Values

* `pyval` = number | str | None | `Node` object | other `Extra` object | other opaque object.
* Numbers are `-inf`, an integer or `+inf` (`num`).  The code only compares stored numbers, so
  every finite set of ints and finite floats embeds in `Z` order-faithfully.  NaN is excluded.
  `bool`s are not distinguished from ints.
* Capacities of stacks and queues are rationals, infinities, NaN or something else; `round` is
  modelled (ties to even).
* A string is the list of its code points.
* Random draws (coin flips of SkipList, priorities of Treap and PriorityQueue) are arguments of the
  calls, so the theorems hold for every outcome. C71 and C72 average over the outcomes and take them
  as fair and independent of the history.


## 3. Properties

For each property: what is modelled, how it is proved, the theorems (file), the status and what the status leaves open.  `_refuted` theorems exhibit a history on which the modelled code violates the property; `_partial` theorems prove as much of it as holds.  Every theorem listed is followed by `Print Assumptions` in its file; all print **Closed under the global context** (no axiom).

### C01 LinkedList behaves as a Python list under every history — proved

* model: ListModel.v: heap of nodes and list objects, class tag per object.  Proof: representation invariant (disjoint chains of cells, stored length, mirrored prev links), every method simulates the method of a plain list and frames the other lists, induction on histories of programs with many lists.
* ListMixProps.v: `C01_node_arguments`
* ListProps.v: `C01_linked_list_is_python_list`, `C01_many_lists`, `C01_rejected_call_changes_nothing`
* Every history of method calls on one LinkedList (and every in-scope history over many lists) returns exactly what the list specification returns; a rejected call leaves all lists unchanged. C01_node_arguments: count and "in" given a node, for the three classes.

### C02 DoublyLinkedList behaves as a Python list and its backward links mirror its forward links — proved

* model: ListModel.v: heap of nodes and list objects, class tag per object.  Proof: representation invariant (disjoint chains of cells, stored length, mirrored prev links), every method simulates the method of a plain list and frames the other lists, induction on histories of programs with many lists.
* ListProps.v: `C02_doubly_linked_list_is_python_list`, `C02_many_lists`, `C02_backward_links_mirror`
* As C01 for DoublyLinkedList; following prev from the tail visits the same nodes backwards.

### C03 CircularLinkedList behaves as a Python list with modular indices — partial

* model: ListModel.v: heap of nodes and list objects, class tag per object.  Proof: representation invariant (disjoint chains of cells, stored length, mirrored prev links), every method simulates the method of a plain list and frames the other lists, induction on histories of programs with many lists.
* ListProps.v: `C03_circular_list_is_python_list_partial`, `C03_many_lists_partial`, `C03_last_is_followed_by_first`, `C03_setitem_refuted`
* ListProps2.v: `C03_exact`
* REFUTED for item assignment: cll[i]=x on an empty list raises AttributeError or is silently accepted, cll[i]=None raises AssertionError. Proved for all other calls, and for item assignment of storable values on non-empty lists. C03_exact gives every answer of every history of one circular list, item assignments included (when the empty list accepts: iff an element has left it since it was created, cleared or rotated).

### C04 Slicing equals Python list slicing — partial

* model: `__getitem__` slice branch with Python's `slice.indices`.  Proof: loop invariant; negative steps refuted by a witness.
* ListProps.v: `C04_slicing_partial`, `C04_slicing_refuted`
* ListProps2.v: `C04_exact`, `C04_right_iff`
* REFUTED for negative steps: ll[::-1] is [ll[0]]. Proved for all positive steps and all start/stop. C04_exact covers every history with slices of any step: a negative step yields only the last of the elements it should, so the slice is right iff the step is positive or at most one element is due (C04_right_iff).

### C05 split and rotate — proved

* model: split, rotate, copy, reverse on the heap.  Proof: method specs with a footprint, then the simulation of C01.
* ListProps.v: `C05_rotation`, `C05_split`
* Rotation by d moves every element d places, in place or as a new list, and rotating back restores the list; split returns the two parts and keeps the original.

### C06 copy, reverse and split results are independent of the original — proved

* model: split, rotate, copy, reverse on the heap.  Proof: method specs with a footprint, then the simulation of C01.
* ListProps.v: `C06_copy_reverse_split_independent`
* copy, reverse, split and out-of-place rotation return lists that share nothing observable with the original.

### C07 extend appends and keeps the two lists independent — partial

* model: extend, constructors from another list.  Proof: method specs for the result; aliasing and non-termination refuted by witnesses.
* ListMixProps.v: `C07_other_classes`
* ListProps.v: `C07_extend_concatenates`, `C07_independence_partial`, `C07_receiver_partial`, `C07_independence_refuted`
* REFUTED for LinkedList and DoublyLinkedList: extend shares the nodes of the argument. Proved: the receiver is the concatenation and the argument is unchanged right after the call; full independence for CircularLinkedList. C07_other_classes: a list of another class is taken by LinkedList and refused with TypeError, unchanged, by the other two.

### C08 Constructing a list from another list of the package copies it — partial

* model: extend, constructors from another list.  Proof: method specs for the result; aliasing and non-termination refuted by witnesses.
* ListProps.v: `C08_same_elements`, `C08_independent_copy_partial`, `C08_aliasing_refuted`, `C08_not_an_ordinary_list_refuted`
* REFUTED when the source is an instance of the target class (same class, or LinkedList from a subclass): the new list aliases the old one. Proved for all other class pairs, and that the elements are equal right after construction for all pairs.

### C09 == and != decide element-wise equality — proved

* model: `_compare`, `__eq__` ...; item normalisation.  Proof: characterisation of the loop by the lexicographic order, then algebra.
* ListProps.v: `C09_equality`
* == is exactly equality of the element sequences and != its negation.

### C10 <, <=, >, >= are a consistent order — partial

* model: `_compare`, `__eq__` ...; item normalisation.  Proof: characterisation of the loop by the lexicographic order, then algebra.
* ListOrderProps.v: `C10_mirror_iff`, `C10_transitive`
* ListProps.v: `C10_order_partial`, `C10_order_meaning_partial`, `C10_order_refuted`
* REFUTED for lists of different lengths: [1,1]<[2,2,2] but not [2,2,2]>[1,1]. Proved: exact meaning of the four operators, <= mirrors >=, < implies not >= reversed, antisymmetry, < mirrors > at equal lengths. a < b and b > a agree exactly when the lengths are equal, one list begins with the other, or a exceeds b somewhere (C10_mirror_iff); <=, < and >= are transitive (C10_transitive).

### C11 Every list operation terminates — partial

* model: extend, constructors from another list.  Proof: method specs for the result; aliasing and non-termination refuted by witnesses.
* ListProps.v: `C11_terminates_partial`, `C11_circular_self_extend_refuted`, `C11_search_after_self_extend_refuted`
* REFUTED: a.extend(a) never returns on a CircularLinkedList, and searches after it never return on the other classes. Proved: every history in the scope of the specification terminates.

### C12 Stack is LIFO and never exceeds its capacity — proved

* model: QueueModel.v on top of ListModel.v.  Proof: refinement to bounded lists (QueueSpec.v), capacities as rationals with Python's rounding.
* QueueProps.v: `C12_stack`
* For every max_capacity argument (rounded to the nearest integer, ties to even) and every history the stack answers as a bounded LIFO and stays within capacity.

### C13 Queue is FIFO, bounded, and evicts the oldest element when full — proved

* model: QueueModel.v on top of ListModel.v.  Proof: refinement to bounded lists (QueueSpec.v), capacities as rationals with Python's rounding.
* QueueProps.v: `C13_queue`
* For every max_capacity argument and every history the queue answers as a bounded FIFO that drops its oldest element when full.

### C14 Deque is a bounded double-ended queue — proved

* model: QueueModel.v on top of ListModel.v.  Proof: refinement to bounded lists (QueueSpec.v), capacities as rationals with Python's rounding.
* QueueProps.v: `C14_deque`
* For every max_capacity argument and every history the deque answers as a bounded double-ended queue.

### C15 PriorityQueue.dequeue returns an item of maximal priority — partial

* model: PriorityQueue on the doubly linked heap.  Proof: step relation of the ideal queue plus the two deviations of the code; invariant on the cached extrema.
* PQProps.v: `C15_exact`, `C15_ideal_iff`
* QueueProps.v: `C15_priority_queue_partial`, `C15_small_queue_partial`, `C15_priority_queue_refuted`
* REFUTED: removing the newest of at least three items gives its priority to the second newest one. C15_exact gives every answer of every history (any capacity, any random priorities) by a deterministic reference, and C15_ideal_iff says exactly when a dequeue is the ideal one.

### C16 PriorityQueue.dequeue on a non-empty queue never raises — partial

* model: PriorityQueue on the doubly linked heap.  Proof: step relation of the ideal queue plus the two deviations of the code; invariant on the cached extrema.
* PQProps.v: `C16_fails_iff`
* QueueProps.v: `C16_dequeue_never_fails_partial`, `C16_dequeue_never_fails_refuted`
* REFUTED: the remembered extreme priority goes stale after mixing directions or after an overflow. C16_fails_iff: after any history a dequeue fails exactly when something is held but nothing of the remembered priority. Proved never to fail for histories with one direction and no overflow warning.

### C17 SkipList is a sorted set for every outcome of the coin flips — proved

* model: SkipModel.v: levels of linked lists with down links, coin flips as an argument.  Proof: tower invariant (every level a sublist of the one below, down links to the same value), refinement to a sorted list.
* SkipProps.v: `C17_sorted_set`, `C17_set_laws`, `C17_increasing`, `C17_coins_irrelevant`
* For every history (all calls, all outcomes of the coin, all numbers including +inf, all index arguments) the answers are those of the sorted set; get_height is 1 + the largest number of heads among the present elements; coins influence nothing else.

### C18 SkipList treats -inf like any other number — partial

* model: SkipModel.v: levels of linked lists with down links, coin flips as an argument.  Proof: tower invariant (every level a sublist of the one below, down links to the same value), refinement to a sorted list.
* SkipDrawProps.v: `C18_print_disagrees`
* SkipProps.v: `C18_refuted`, `C18_remove_corrupts`, `C18_contains_partial`, `C18_insert_partial`
* SkipProps2.v: `C18_exact`, `C18_set_iff`, `C18_remove_takes_smallest`
* REFUTED: -inf is in every list, inserting it does nothing, and remove(-inf) on a list holding 5 empties it while 5 is still found. Proved for every history that never removes -inf, whatever the coins: contains(-inf) is True, insert(-inf) changes nothing, and every other answer is that of the set of the other numbers, so such a history is that of a set iff those answers coincide. The first remove(-inf) in any list returns as usual and leaves a list that counts and lists itself without its smallest number.

### C19 Tree size, leaf count, height, levels and iteration agree — partial

* model: TreeModel.v: inductive trees.  Proof: structural induction; BFS by a queue invariant.
* TreeProps.v: `C19_tree_measures_partial`, `C19_membership_partial`, `C19_binary_measures_partial`, `C19_empty_tree_refuted`
* REFUTED for the empty tree: membership raises AttributeError, and it has 0 levels but height 0. Proved for every non-empty Tree and BinaryTree.

### C20 Binary-tree traversals list every node exactly once in the right order — proved

* model: TreeModel.v: inductive trees.  Proof: structural induction; BFS by a queue invariant.
* TreeProps.v: `C20_traversals_list_in_order`, `C20_orders_are_unique`, `C20_traversals_are_permutations`, `C20_preorder_inorder_determine`, `C20_traverse_dispatch`
* Each traversal lists every node once in the order of the path order that defines it; the listing is unique.

### C21 is_perfect, is_strict and is_balanced decide what they say — partial

* model: TreeModel.v: inductive trees.  Proof: structural induction; BFS by a queue invariant.
* TreeProps.v: `C21_is_perfect`, `C21_is_strict`, `C21_is_balanced_refuted`, `C21_is_balanced_partial`
* is_perfect and is_strict proved. is_balanced REFUTED against its documentation in both directions; its exact meaning is proved.

### C22 Side views show the first/last node of every level — proved

* model: TreeModel.v: inductive trees.  Proof: structural induction; BFS by a queue invariant.
* TreeProps.v: `C22_side_views`
* For every binary tree, including the empty one.

### C23 invert mirrors the tree — proved

* model: TreeModel.v: inductive trees.  Proof: structural induction; BFS by a queue invariant.
* TreeProps.v: `C23_invert`, `C23_invert_paths`
* Also: preorder of the inverse is the reversed postorder, every level is reversed, every path is flipped.

### C24 BST insertion histories implement a set — proved

* model: BstModel.v: heap of nodes with parent links, class tag.  Proof: ghost tree plus zipper in a small separation logic (BstSep.v, BstRules.v, BstZip.v), refinement to pure tree functions (BstPure.v), these to sets.
* BstProps.v: `C24_insertions_implement_a_set`, `C24_after_inserting`
* For every history without removals, all other calls included (membership, min, max, traversals, len, rejected arguments).

### C25 BST removal deletes exactly the given value — partial

* model: BstModel.v: heap of nodes with parent links, class tag.  Proof: ghost tree plus zipper in a small separation logic (BstSep.v, BstRules.v, BstZip.v), refinement to pure tree functions (BstPure.v), these to sets.
* BstProps.v: `C25_removal_refuted`, `C25_nothing_lost_partial`, `C25_removal_partial`, `C25_histories_partial`, `C25_absent_value`
* BstProps4.v: `C25_histories_iff`
* REFUTED: removing 10 from BST([10,20,40,30]) breaks the search order. Proved: no history crashes, loses or invents a value; a removal keeps the order iff below the replacing neighbour there is only a single branch; every history of replaceable removals implements the set; removing an absent value changes nothing. Conversely, a history that behaves as a set after each call has only replaceable removals (C25_histories_iff).

### C26 AVL is height-balanced after every insertion history — proved

* model: AVL part of BalModel.v.  Proof: as C24, with exact cached heights and balance; Fibonacci bound; C27 exactly, by following along the zipper whether the subtree shrinks.
* AvlProps.v: `C26_insertions_implement_a_set`, `C26_balanced_after_insertions`, `C26_get_height`, `C26_after_inserting`
* AvlProps2.v: `C26_height_fibonacci`, `C26_height_logarithmic`
* Set behaviour, height balance and exact cached heights for every history without removals; get_height is the longest path; the number of values is at least the Fibonacci bound of the height, so the height is at most 2 log2(n+1).

### C27 AVL stays height-balanced under removals — partial

* model: AVL part of BalModel.v.  Proof: as C24, with exact cached heights and balance; Fibonacci bound; C27 exactly, by following along the zipper whether the subtree shrinks.
* AvlProps.v: `C27_balance_refuted`, `C27_balanced_partial`, `C27_minimum_removals_partial`
* AvlProps4.v: `C27_removal_keeps_balance_iff`, `C27_histories_iff`
* REFUTED: removing 70 after inserting 50,20,60,10,30,70,5,40. Proved when every removal is of the current minimum or of an absent value. Exact: on a balanced tree any removal answers right, and keeps the tree balanced if and only if nowhere on the way back to the root a right side shrinks that was already lower than a left side which is even at its root and whose right subtree is heavier on the right; whole histories stay balanced if and only if every removal is of that kind.

### C28 AVL removal deletes exactly the given value — partial

* model: AVL part of BalModel.v.  Proof: as C24, with exact cached heights and balance; Fibonacci bound; C27 exactly, by following along the zipper whether the subtree shrinks.
* AvlProps.v: `C28_removal_refuted`, `C28_removal_partial`, `C28_one_removal_partial`
* AvlProps3.v: `C28_near_removals_partial`
* BstProps2.v: `C28_insert_crashes_refuted`, `C28_duplicate_crashes_refuted`
* REFUTED: removals on a tree left unbalanced (C27) break the search order, after which insertions raise AttributeError. Proved: every history in which at most one node hangs below the neighbour replacing each removed value, in particular as long as the tree is balanced before each call every removal is exact and cached heights stay exact; in particular any single removal after any insertions.

### C29 Treap keeps search order on values and heap order on priorities — partial

* model: Treap part of BalModel.v, priorities as arguments.  Proof: as C24, with the heap order; uniqueness of the treap for given priorities.
* TreapProps.v: `C29_set_refuted`, `C29_insertions`, `C29_priorities_above_partial`, `C29_after_inserting`
* TreapProps2.v: `C29_sinkable`, `C29_one_removal`, `C29_histories_iff`
* REFUTED: with priorities of -2 and below, remove() crashes with AttributeError after inserting (2, priority 5), (1, priority -2): a missing child counts as one of priority -1, and the node sinks towards it. Proved for every history whose priorities exceed -1 (the default random ones included), and for every history without removals whatever the priorities: set behaviour, heap order, and each value keeps the priority it was added with. Exactly, whatever the priorities: a removal works iff the next smaller value below the removed one has a priority above -1 and the next larger one below it at least -1; otherwise AttributeError is raised and nothing is taken out (C29_one_removal). A history behaves as a set after each of its calls iff all its removals are of that kind (C29_histories_iff), and it then keeps the heap order (C29_sinkable).

### C30 SplayTree moves the accessed value to the root and implements a set — proved

* model: Splay part of BalModel.v.  Proof: zipper steps for zig, zig-zig, zig-zag.
* SplayProps.v: `C30_insertions_implement_a_set`, `C30_insert_moves_to_root`, `C30_search_moves_to_root`, `C30_after_inserting`
* Every history of insertions, lookups and reading calls answers as a set (looking anything up in an empty SplayTree raises AssertionError, stated in the specification); insert(x) makes x the root; a lookup makes the last node visited the root and keeps the contents.

### C31 SplayTree removal deletes exactly the given value — partial

* model: Splay part of BalModel.v.  Proof: zipper steps for zig, zig-zig, zig-zag.
* BstProps2.v: `C31_duplicated_refuted`, `C31_never_returns_refuted`
* SplayProps.v: `C31_removal_refuted`, `C31_removal_partial`, `C31_absent_value_partial`
* SplayProps3.v: `C31_one_removal`, `C31_histories_iff`
* REFUTED: removing 1 after inserting 4,9,11,5,1 breaks the search order; after such a removal, removing an absent value can store a value twice or tie nodes into a circle on which get_min never returns. Proved: every history in which each removed value is replaceable when removed (a single branch below its in-order neighbour), absent values in particular. Exactly: after such a history any removal at all answers rightly and loses nothing but the value, and the values stay in order iff it was replaceable (C31_one_removal); so a history behaves as a set after each of its calls iff all its removals are replaceable (C31_histories_iff).

### C32 RedBlackTree insertion histories implement a set with a black root — proved

* model: Red-black part of BalModel.v.  Proof: as C24; colour invariants; path lengths; witnesses for the missing fix-ups; RbInsSpec.v, RbIns.v: exactly which insertions keep a valid tree valid.
* RbProps.v: `C32_insertions_implement_a_set`, `C32_root_is_black`, `C32_after_inserting`
* For every history without removals, all other calls included.

### C33 RedBlackTree keeps the red-black balance invariants under insertion — partial

* model: Red-black part of BalModel.v.  Proof: as C24; colour invariants; path lengths; witnesses for the missing fix-ups; RbInsSpec.v, RbIns.v: exactly which insertions keep a valid tree valid.
* RbProps.v: `C33_no_red_red_refuted`, `C33_black_height_refuted`, `C33_straight_insertions_partial`, `C33_insertions_at_the_ends_partial`, `C33_increasing_insertions_partial`, `C33_one_straight_insertion_partial`
* RbProps3.v: `C33_insertion_keeps_valid_iff`, `C33_straight_is_mended`, `C33_histories_iff`
* REFUTED: inserting 50,20,80,10,30,5,35,40 gives a red node with a red child and unequal black heights (after a rotation the repair goes on from the new, black, top). Proved: every insertion whose search passes the inner red nodes without turning keeps the invariants; in particular every history inserting below the minimum or above the maximum (monotone sequences), with height at most 2 log2(n+1). Exact (C33_insertion_keeps_valid_iff): an insertion into a valid tree always stores the value, and leaves a valid tree if and only if mended (RbInsSpec.v) holds. For whole histories of insertions and removals (C33_histories_iff): all answers are right and the tree is valid after every call iff every insertion is mended and every removal removable.

### C34 RedBlackTree removal works on every valid tree — partial

* model: Red-black part of BalModel.v.  Proof: separation-logic run of every case of _remove and of the double-black loop on a valid tree; the result tree is a pure function of the tree before; colour arithmetic decides when it is valid (RbDel*.v).
* BstProps2.v: `C34_values_lost_refuted`
* RbProps.v: `C34_removal_refuted`, `C34_invariant_refuted`, `C34_red_removals_partial`, `C34_one_removal_partial`
* RbProps2.v: `C34_allowed_removals_partial`, `C34_set_partial`, `C34_removal_keeps_valid_iff`, `C34_removal_outcomes`
* REFUTED: on RedBlackTree(1..8) remove(2) raises ValueError and remove(1) leaves a red node with a red child; a second removal can raise and lose another value. Proved: removals that can spare a red node (red leaf, or red in-order neighbour below, or last value) succeed and keep set and invariants, in every history of such calls. Exact (C34_removal_keeps_valid_iff, C34_removal_outcomes): on a valid tree a removal succeeds and leaves a valid tree if and only if removable (RbSpec.v) holds; otherwise it returns with the right values in an invalid tree, or raises ValueError with the tree unchanged (red inner node), or raises AttributeError (black node). See also C33_histories_iff.

### C35 Heaps keep heap order and the exact multiset under insertion and extraction of the top — proved

* model: HeapModel.v: the Python list.  Proof: heap order with one hole, induction on the index; permutation.
* HeapProps.v: `C35_heap_histories`, `C35_answers_depend_on_the_multiset_only`, `C35_heapify_rejects`
* heapify plus every history that removes only the top: all answers are those of the multiset, the array stays heap-ordered.

### C36 Repeatedly removing the minimum of a MinHeap sorts — proved

* model: HeapModel.v: the Python list.  Proof: heap order with one hole, induction on the index; permutation.
* HeapProps.v: `C36_min_heap_sorts`, `C36_max_heap_sorts`
* For MinHeap (ascending) and MaxHeap (descending).

### C37 Removing an arbitrary value from a heap keeps heap order — partial

* model: HeapModel.v: the Python list.  Proof: heap order with one hole, induction on the index; permutation.
* HeapProps.v: `C37_arbitrary_removal_refuted`, `C37_removal_partial`, `C37_any_history_partial`
* HeapProps2.v: `C37_histories_iff`, `C37_fitting_histories`, `C37_remove_max_refuted`
* REFUTED: removal only sifts down, so the moved element may precede its new parent and get_min goes wrong later. Proved: exactly one occurrence is removed, and heap order is kept iff the last element fits the freed place; in every history the multiset, membership, len, warnings and exceptions are right. Exactly the histories in which every removal fits (the last element may take the freed place) keep the heap in order, and they give the ideal answers; removing the maximum of a MinHeap may break it as well.

### C38 Iterating a heap yields its array order — partial

* model: HeapModel.v: the Python list.  Proof: heap order with one hole, induction on the index; permutation.
* HeapProps.v: `C38_iteration_partial`, `C38_iteration_refuted`, `C38_right_iff`
* REFUTED for the empty heap (AssertionError). Proved for every non-empty heap. So list(heap) works iff the heap is not empty (C38_right_iff).

### C39 Trie implements a set of words — partial

* model: TrieModel.v, LevelModel.v: store of trie nodes with parent links and dictionaries.  Proof: flat set-of-paths invariant (TrieRep.v), refinement to sets of words.
* TrieProps.v: `C39_trie_partial`, `C39_refuted`, `C39_has_prefix_refuted`
* TrieProps3.v: `C39_exact`
* TrieProps4.v: `C39_not_strings`, `C39_blank`
* REFUTED: a string that continues a stored prefix with "}" cannot be inserted or looked up (AttributeError), and has_prefix("}") is True on an empty trie. Proved in full, including the node count, for every history and query without the character "}". C39_exact: size, emptiness and answers after any history with any strings. C39_not_strings, C39_blank: what both tries answer to other arguments.

### C40 Trie operations never fail on ordinary strings — partial

* model: TrieModel.v, LevelModel.v: store of trie nodes with parent links and dictionaries.  Proof: flat set-of-paths invariant (TrieRep.v), refinement to sets of words.
* TrieProps.v: `C40_refuted`, `C40_insert_refuted`, `C40_failures_partial`
* REFUTED: removing the only word raises AttributeError (after removing it), and so does inserting "}". Proved for every history over all strings: exactly which calls raise, and that all the others answer as the set of words.

### C41 RadixTrie implements a set of words — partial

* model: TrieModel.v, LevelModel.v: store of trie nodes with parent links and dictionaries.  Proof: flat set-of-paths invariant (TrieRep.v), refinement to sets of words.
* RadixProps.v: `C41_exact`
* TrieProps.v: `C41_radix_partial`, `C41_refuted`
* REFUTED like C39 for "}". Proved for every history and query without the character "}": answers, and which calls raise. C41_exact gives, for every history and any strings, a deterministic reference (words and the points where nodes are kept): every answer and exactly which calls raise.

### C42 SuffixTrie substring search and counting are exact — partial

* model: TrieModel.v, LevelModel.v: store of trie nodes with parent links and dictionaries.  Proof: flat set-of-paths invariant (TrieRep.v), refinement to sets of words.
* SuffixProps.v: `C42_substring_search_partial`, `C42_substring_search_plain_partial`, `C42_substring_search_refuted`, `C42_substring_missed_refuted`, `C42_empty_pattern_refuted`
* SuffixProps3.v: `C42_exact`, `C42_right_iff`
* TrieProps4.v: `C42_not_strings`
* REFUTED: "$" is found in "ab"; in "a$b", "ab" is found and "a$b" is not ("$" is dropped from the word and used as a mark); the empty pattern occurs 0 times. Proved for all words (read without their "$") and all patterns without "$" and "}". C42_exact gives every answer for every pattern ("$" and "}" included) in terms of the word alone (SuffixFindSpec.v); C42_right_iff says exactly when has_substring is right. C42_not_strings: patterns that are not strings.

### C43 to_suffix_array is the suffix array — partial

* model: TrieModel.v, LevelModel.v: store of trie nodes with parent links and dictionaries.  Proof: flat set-of-paths invariant (TrieRep.v), refinement to sets of words.
* SuffixProps.v: `C43_suffix_array_partial`, `C43_suffix_array_letters_partial`, `C43_suffix_array_refuted`
* SuffixProps3.v: `C43_exact`
* REFUTED: " " gives [0, 1], since the empty suffix is sorted as "$". Proved: always a permutation of 0..n, and the suffix array exactly when every character is above "$". C43_exact: the exact order for every word (the empty suffix is read as "$").

### C44 get_longest_repeated_substring returns the longest repeated substrings — partial

* model: SuffixModel.v on top of TrieModel.v.  Proof: the trie as the set of suffixes (flat paths); fold over the store.
* SuffixProps.v: `C44_longest_repeated_partial`, `C44_longest_repeated_refuted`
* SuffixProps2.v: `C44_exact`, `C44_right_iff`
* REFUTED: "aaaabcdefgXbcdefg" gives only "aaa", missing "bcdefg" (only the two deepest levels are looked at). Proved for all words: the results are distinct, repeated, of one length, and no repeated string continues them; they are exactly the longest repeated substrings when get_height() <= 3. C44_exact gives the result for every word in terms of the word alone (SuffixDeepSpec.v: the longest of the points where suffixes part that are nested at most one less deep than the deepest), and C44_right_iff says exactly when it is right.

### C45 get_lowest_common_ancestor(i,j) is the longest common prefix of the two suffixes — partial

* model: SuffixModel.v on top of TrieModel.v.  Proof: the trie as the set of suffixes (flat paths); fold over the store.
* SuffixProps.v: `C45_common_prefix_partial`, `C45_rejected_partial`, `C45_common_prefix_refuted`, `C45_dollar_refuted`
* SuffixProps3.v: `C45_exact`
* REFUTED: on "ab" (0, 2) is answered and (2, 0) raises ValueError; words with "$" are indexed without it. Proved for all i < n, j <= n, i != j; all other indices raise ValueError. C45_exact: the answer for all arguments; a position with itself gives the longest beginning of its suffix that occurs elsewhere.

### C46 BinaryTree.parse builds the described tree — proved

* model: SuffixModel.v on top of TrieModel.v.  Proof: the trie as the set of suffixes (flat paths); fold over the store.
* TreeProps.v: `C46_parse`, `C46_parse_errors`, `C46_parse_round_trip`
* Both directions: parse accepts exactly the described literals; errors are TypeError or ValueError only.

### C47 A Treap's shape does not depend on its history — proved

* model: Treap part of BalModel.v, priorities as arguments.  Proof: as C24, with the heap order; uniqueness of the treap for given priorities.
* TreapProps.v: `C47_history_independence`, `C47_insertions_history_independence`
* By uniqueness of heap-ordered search trees with distinct priorities.

### C48 RedBlackTree.get_black_height is the common black height — partial

* model: Red-black part of BalModel.v.  Proof: as C24; colour invariants; path lengths; witnesses for the missing fix-ups; RbInsSpec.v, RbIns.v: exactly which insertions keep a valid tree valid.
* RbProps.v: `C48_black_height_refuted`, `C48_black_height_partial`, `C48_empty_partial`
* RbProps4.v: `C48_exact`, `C48_right_iff`
* REFUTED together with C33. Proved whenever the invariants hold; an empty tree raises AttributeError. In every state (C48_exact) the answer is the number of black nodes on the way always to the left, so it is right iff all ways have equally many (C48_right_iff).

### C49 SkipList(other) is an independent copy — partial

* model: SkipModel.v: levels of linked lists with down links, coin flips as an argument.  Proof: tower invariant (every level a sublist of the one below, down links to the same value), refinement to a sorted list.
* SkipProps.v: `C49_refuted`, `C49_neither_alias`, `C49_copy_alone_partial`
* SkipProps3.v: `C49_one_set`, `C49_seen_through`
* REFUTED: SkipList(a) shares the levels with a but counts them separately: b.insert(5) shows in a, and after a.remove(5) the 5 is still found in b. Proved: used alone, the copy is the sorted set with the elements of the original; and for every sequence of calls on both, as long as no call adds or removes a level they are one set under two names, and clear() on one of them makes two independent sets of it (C49_one_set).

### C50 SuffixTrie(w) exists for every word and has one leaf per suffix — partial

* model: SuffixModel.v on top of TrieModel.v.  Proof: the trie as the set of suffixes (flat paths); fold over the store.
* SuffixProps.v: `C50_suffix_trie_construction_partial`, `C50_closing_brace_refuted`, `C50_rejected_arguments`
* REFUTED: every word with "}" raises AttributeError. Proved for all others.

### C51 Building a search tree or skip list from an iterable — proved

* model: BuildModel.v.  Proof: C17/C24/C26/C29/C30/C32 folded over the items.
* BuildProps.v: `C51_constructor`, `C51_sorts`, `C51_order_irrelevant`, `C51_rejects`, `C51_skip_list_constructor`, `C51_skip_list_rejects`
* All five trees and SkipList. -inf in a SkipList is C18.

### C52 The structural queries of Trie and RadixTrie describe the stored words — proved

* model: TrieModel.v, LevelModel.v: store of trie nodes with parent links and dictionaries.  Proof: flat set-of-paths invariant (TrieRep.v), refinement to sets of words.
* TrieProps2.v: `C52_trie`, `C52_radix`
* For every history whatever; the words are those for which "in" answers True (C39-C41 relate them to the history).

### C53 RadixTrie and SuffixTrie are compressed — partial

* model: TrieModel.v, LevelModel.v: store of trie nodes with parent links and dictionaries.  Proof: flat set-of-paths invariant (TrieRep.v), refinement to sets of words.
* RadixProps.v: `C53_exact`
* RadixProps2.v: `C53_proportional_refuted`, `C53_never_more_than`
* TrieProps2.v: `C53_radix_partial`, `C53_removal_refuted`, `C53_suffix_trie_linear`
* REFUTED for removals: a RadixTrie holding a single word can have any number of nodes (C53_proportional_refuted), against the documented O(s) space; insert "ab", insert "ac", remove "ab" leaves 3 nodes where "ac" alone has 2. Proved for every history without removals, and for every SuffixTrie. C53_exact gives the exact size and levels after any history, removals included. Whatever is removed, there are at most the root and two nodes per insertion (C53_never_more_than).

### C54 A Tree prints one line per node, and the printout determines the tree — partial

* model: PrintModel.v.  Proof: structural induction; parsing of the lines back into the tree.
* PrintProps.v: `C54_lines_in_preorder`, `C54_one_line_per_node`, `C54_print_determines_partial`, `C54_string_trees_partial`, `C54_empty_refuted`, `C54_newline_refuted`
* REFUTED only in two corners: the empty tree prints like a single node "--", and TreeNode() stores a newline and the two characters backslash n alike. Proved for every tree: the printout is exactly the lines of the nodes in preorder, and (texts without newlines, which holds of all strings) it determines shape and texts of every non-empty tree.

### C55 The structural queries of the search trees describe the current tree — partial

* model: BstModel.v/BalModel.v/TreeModel.v.  Proof: shape of the heap tree, then the queries of C19-C23.
* BstProps3.v: `C55_structural_queries_partial`, `C55_after_histories_partial`, `C55_avl_is_balanced_partial`, `C55_avl_is_balanced_refuted`
* REFUTED for is_balanced: AVL looks at the root only and says True on a tree unbalanced below after a removal; the other classes inherit the test refuted in C21 (its exact meaning is proved). All other queries proved for every class and every history that leaves a tree; AVL.is_balanced is the truth without removals.

### C56 Tree.from_path mirrors the directory — proved

* model: PathModel.v: finite directory trees, posixpath string functions.  Proof: induction on the directory tree; normalisation of paths by a stack invariant.
* PathProps.v: `C56_from_path`, `C56_spelling`, `C56_len`
* For file systems without links that stay unchanged during the call; newlines in names are stored as the two characters backslash n (TreeNode).

### C57 A linked list prints as the picture of its elements, and the printout determines them — proved

* model: DrawModel.v on top of ListModel.v/QueueModel.v.  Proof: loop lemmas over the chains of C01/C12; cancellation on run lengths of the borders; LeftSpec.v/LeftThm.v: the item left over in an emptied queue.
* DrawProps.v: `C57_lists_print`, `C57_print_determines`, `C57_rows`, `C57_aligned`, `C57_aligned_circular`
* For every history and every text; printing leaves the heap as it was. str() of stored objects is a parameter.

### C58 Stacks and queues print as the picture of what they hold — partial

* model: DrawModel.v on top of ListModel.v/QueueModel.v.  Proof: loop lemmas over the chains of C01/C12; cancellation on run lengths of the borders; LeftSpec.v/LeftThm.v: the item left over in an emptied queue.
* DrawProps.v: `C58_stack`, `C58_queue_partial`, `C58_deque_partial`, `C58_priority_queue_partial`, `C58_emptied_queue_refuted`, `C58_print_determines`, `C58_aligned`, `C58_rows`
* LeftProps.v: `C58_queue_exact`, `C58_deque_exact`, `C58_priority_queue_exact`, `C58_right_iff`
* REFUTED for emptied queues: after its last item was taken out a Queue, Deque or PriorityQueue still prints that item (the container keeps its head node). Proved: Stack always, the three queues as long as they hold something. The exact printout after every history, empty ones included, is C58_queue_exact, C58_deque_exact, C58_priority_queue_exact: an emptied container prints an unclosed frame with the item that left last, a new or cleared one prints none; so printing is right iff something is held or nothing is left over (C58_right_iff).

### C59 A binary tree prints as a drawing of its levels, and the drawing determines the tree — proved

* model: BinDrawModel.v: the boxes of `_print_subtree`, `rstrip`, `_transform` of the heaps.  Proof: invariant on the width, height and blank last row of a box; the sub-boxes read back as column ranges of the box below row 2.
* BinDrawProps.v: `C59_drawing`, `C59_print_determines`, `C59_condition_needed`, `C59_heaps`, `C59_heap_print_determines`, `C59_search_tree_states`, `C59_search_tree_histories`, `C59_red_black_print_determines`
* For texts without white space and underscores; C59_condition_needed shows that some condition is needed (a trailing space is lost). Search trees: in every state whose nodes form a tree, in particular after all histories named in C55. str() of numbers is a parameter.

### C60 A trie prints as the tree of its words, and the printout determines them — partial

* model: TriePrintModel.v: the nodes as a tree of (data, flag), printed by PrintModel.v.  Proof: the snapshot of the store against the invariant of TrieThm.v; the lines determine the tree when the texts end where they seem to.
* TriePrintProps.v: `C60_trie_drawing`, `C60_radix_drawing`, `C60_trie_print_determines`, `C60_radix_print_determines_partial`, `C60_check_mark_refuted`, `C60_newline_refuted`
* Drawing: for every history and all words. The printout determines the words of a Trie always; of a RadixTrie only if no word contains a newline or a check mark (REFUTED otherwise: "a", "ab", "ac" print like "a ✓b", "a ✓c").

### C61 A suffix trie prints and lists the compressed tree of its suffixes — partial

* model: TriePrintModel.v: `__repr__`, `__iter__`, `to_list` of SuffixTrie.  Proof: as C60; no flag is ever left set; the labels are prefix-free and part before the "$".
* TriePrintProps.v: `C61_suffix_drawing_partial`, `C61_print_determines_partial`, `C61_to_list_partial`, `C61_arrow_refuted`
* Words with "}" cannot be stored (C50). The printout determines the word for words without newlines. REFUTED for listing words that contain " ⟶ ": the strings are cut there.

### C62 A SkipList prints as its elements and towers, and the printout determines them — proved

* model: SkipDrawModel.v: the three loops that walk a level against level 0.  Proof: each pointer stands at the rest of its level (SkipThm.v) under induction on the towers; the lines split at newlines, level 0 gives the texts, level k the towers above k.
* SkipDrawProps.v: `C62_drawing`, `C62_aligned`, `C62_height`, `C62_print_determines`, `C62_str_int_good`
* For every history without -inf. str() of finite numbers is a parameter; C62_str_int_good shows that decimal notation meets the condition of C62_print_determines. After remove(-inf) the printout contradicts the list: C18_print_disagrees.

### C63 The list a heap's to_list() returns is the program's own — partial

* model: HeapAliasModel.v: the list objects in memory, the one the heap works on and those the program holds.  Proof: every step writes one list, hands out the current one or makes a new one; invariants by induction over the program.
* HeapAliasProps.v: `C63_list_follows_heap_refuted`, `C63_heap_follows_list_refuted`, `C63_shared_until_clear`, `C63_detached_by_clear`, `C63_reading_is_harmless`
* Refuted in both directions: to_list() returns the list the heap works on. C63_shared_until_clear, C63_detached_by_clear and C63_reading_is_harmless say exactly when the two are one list and when they are not.

### C64 Looping over a linked list while the program goes on — partial

* model: IterModel.v: the suspended generators of `__iter__` (their counter and node) next to the lists of ListModel.v.  Proof: the node of a generator is the one at its position in the chain, kept by every method that leaves the front of the chain alone (IterThm.v); simulation of the whole program; add_front puts the generator one node ahead of its counter, and the run to the failure is by induction.
* IterProps.v: `C64_plain_loop`, `C64_list_iterator_partial`, `C64_list_iterators_partial`, `C64_add_front_refuted`, `C64_add_front_circular_refuted`
* Proved: a loop over a list that is not changed meanwhile gives exactly its elements, for every program around it (C64_plain_loop); every iterator behaves as that of a Python list as long as no call restructures the part of the list it has passed (appends, assignments, insertions and removals at or behind its position are fine). REFUTED in general: after add_front during a loop a LinkedList or DoublyLinkedList gives the remaining items and then raises AttributeError, for every list and position; a CircularLinkedList gives the new first item at the end.

### C65 Looping over a search tree while the program goes on — partial

* model: TreeIterModel.v: the suspended generator of `Tree.__iter__` (its node, the rest of current_nodes, next_nodes) next to the trees of BalModel.v.  Proof: the node numbers a generator holds are a forest in memory; its future is the breadth-first list of that forest pruned to the nodes of the start; reads keep the memory, a BST insertion hangs one new leaf on a free side (TreeIterThm*.v); witnesses for the refutations.
* TreeIterProps.v: `C65_iterators_only_read`, `C65_plain_loop`, `C65_growing_partial`, `C65_growing_ends`, `C65_splay_lookup_refuted`, `C65_updates_refuted`
* Proved: iterators never disturb the calls (C65_iterators_only_read); in all five classes a loop over a tree whose nodes no call changes gives exactly the values, level by level (C65_plain_loop); over a BST the same holds with insertions in the loop, where some of the new values may come in between (C65_growing_partial, C65_growing_ends). REFUTED in general: for x in t: x in t over a SplayTree with the values 1 and 2 never ends; an insertion into an AVLTree, RedBlackTree or Treap and a removal from a BST can make the loop lose a value that is in the tree the whole time.

### C66 Looping over a heap while the program goes on — proved

* model: HeapIterModel.v: the suspended generator of `Heap.__iter__` with its private copy of the tree.  Proof: the generator runs on memory no call can reach; its future is the breadth-first list of the copy, which is the array.
* HeapIterProps.v: `C66_iterators_only_read`, `C66_snapshot`
* Proved for every program: a loop sees the heap of its first step and nothing of what happens afterwards.

### C67 Looping over a trie while the program goes on — partial

* model: TrieIterModel.v: the suspended generator of `Trie.__iter__` (current node, rest of the level, next level), resumed one `next` at a time between arbitrary calls.  Proof: every node of the store keeps its path or is cut off without children; the generator holds nodes with their paths, level by level, under an invariant kept by insert, remove and clear; refuted for RadixTrie by a split.
* TrieIterProps.v: `C67_iterators_only_read`, `C67_never_raises`, `C67_plain_loop`, `C67_trie_loop`, `C67_radix_refuted`
* REFUTED for RadixTrie: inserting a word during a loop can split a node the loop still holds; the loop then gives only the second half and the first letters of a word stored all the time are lost ("ab", "cd" stored, "ce" inserted after the first step: the loop gives "ab", "d"). Proved: for Trie under any updates, and for both classes while nothing is inserted or removed (clear() included); iterators never affect calls; no iterator ever raises.

### C68 The work of a SplayTree is logarithmic on average — partial

* model: SplayCostSpec.v counts the nodes on the search path in the shapes reached by BalModel.v; a theorem ties the count to the recursion of `_search`.  Proof: potential argument without logarithms: the potential is the product of the subtree sizes plus one, and every double step satisfies 4 P' x^3 <= P y^3 (SplayCost.v); quadratic family by following the exact tree after every call.
* SplayCostProps.v: `C68_finding_is_logarithmic`, `C68_search_calls_itself_per_node`, `C68_removing_minima_is_quadratic`, `C68_removal_work_refuted`
* REFUTED for removals: after inserting n, ..., 1, removing the minimum n times moves (n-1)(n-2)/2 values (BST._transplant shifts a whole branch by one node), so no constant bounds the work by c log n per call (C68_removal_work_refuted). Proved: the nodes passed to find the place, removals included, are at most 4 log2(n+1) per call on average for every history of replaceable removals (C31), in the form 2^total <= (n+1)^(4 calls); the number counted is the number of recursive calls of the search.

### C69 Several SkipLists and loops over them in one program — proved

* model: SkipIterModel.v: several SkipLists in one heap and the suspended generator of `SkipList.__iter__`, which holds an iterator (IterModel.v) over a slice of the lowest level.  Proof: the invariant of one SkipList carries a frame: lists, level lists and SkipLists that belong to others are untouched (SkipThm*.v); all frames together are an invariant of the program (SkipIterThm.v), in which the slice of a loop is one more untouched list.
* SkipIterProps.v: `C69_programs`, `C69_each_list_alone`, `C69_loop_is_a_snapshot`
* Every program without -inf and without SkipList(other): the model run equals the run of independent sets with snapshot loops (C69_programs); each SkipList answers as a single one would (C69_each_list_alone); a loop equals to_list() at its first step (C69_loop_is_a_snapshot).

### C70 Search trees within Python's recursion limit — partial

* model: DepthModel.v: the recursive methods of the five classes again, with the number of nested calls that are still possible as an argument; running out raises RecursionError at the call that does not fit.  Proof: each method with room for as many calls as the branch it follows equals the unlimited one, by induction on the branch; with less room it raises before the first write (insertion, look-up) or after swapping values down a branch (removal), whose effect is followed exactly (DepthThm5.v); AVL by the height bound of C26.
* DepthProps.v: `C70_needs`, `C70_enough_stack`, `C70_failed_calls_are_no_ops`, `C70_bst_one_depth`, `C70_avl`, `C70_avl_insertions`, `C70_sorted_insertions_refuted`, `C70_removal`, `C70_splay_removal_refuted`
* REFUTED: a BST into which more than L+1 values were inserted in increasing order refuses every further larger value, although far fewer levels would do (C70_sorted_insertions_refuted); a SplayTree of at least L+2 increasing values raises RecursionError on removing the largest one and is left out of order (C70_splay_removal_refuted). Proved: the exact depth every call other than removal needs, call by call (C70_needs); with as many levels as the tree nothing changes (C70_enough_stack); failed calls other than removals are no-ops (C70_failed_calls_are_no_ops); a BST whose calls all start at one depth never breaks, removals included (C70_bst_one_depth); AVL trees need 2 log2(n+1)+1 (C70_avl, C70_avl_insertions); C70_removal gives the exact effect of a removal that runs out of room.

### C71 A Treap is shallow on average — partial

* model: TreapAvgSpec.v enumerates the outcomes of the draws; the treap of each outcome is that of BalModel.v; the nodes on the way to x are counted by `path` of DepthSpec.v.  Proof: a node is on the way to x only if its priority is at least all those between it and x (TreapAvgThm2.v), so its share is at most 1/m + 1/101 for m values; double counting and a harmonic sum (TreapAvgThm.v); lower bound by following the left branch during increasing insertions (TreapAvgThm4.v).
* TreapAvgProps.v: `C71_draws`, `C71_average`, `C71_average_small`, `C71_sorted`, `C71_logarithmic_refuted`
* REFUTED for many values: there are only 101 priorities and a new value with the same priority is rotated above the old one, so inserting n increasing values makes the average depth of the smallest at least n/101 (C71_sorted, C71_logarithmic_refuted). Proved: for every history the average is at most n/101 + 2 log2 n + 2 (C71_average), so up to 101 values at most 2 log2 n + 3 (C71_average_small).

### C72 The work of a SkipList is logarithmic on average — proved

* model: SkipCostModel.v: `search_sorted` and `_search` of SkipModel.v with counters, proved to change nothing else; SkipCostSpec.v: towers seen from x, probabilities of coin flips as whole numbers.  Proof: the search enters each level at the last value of the level above and passes exactly the values with that many heads (SkipCostThm.v); sums over all tuples of heads with weights 2^(H-h), product formula, telescoping sum, harmonic sum (SkipCostThm3.v); which insertion a tower comes from does not depend on the coins (SkipCostThm4.v).
* SkipCostProps.v: `C72_same_search`, `C72_steps`, `C72_chances`, `C72_expected_steps`, `C72_expected_height`, `C72_expected_promotions`, `C72_unlucky`
* Proved: the exact steps of every search (C72_steps: one to the right per value up to x that no taller value hides, one down per level); expected steps at most 3 log2 n + 4 (C72_expected_steps), expected get_height at most log2 n + 3, at most n promotions expected. The expectation is over unbounded numbers of heads: every partial sum is bounded (C72_chances says how the partial sums exhaust the probability). The coins are assumed fair and independent; the history does not depend on them.

### C73 The work of the heaps is logarithmic at the root and heapify is linear — partial

* model: HeapCostModel.v: the calls of HeapModel.v with every comparison of two numbers counted, proved to change nothing else.  Proof: a round of insert halves the position plus one, a round of remove doubles it (HeapCostThm.v); histories by summing; a number before all others climbs to the root.
* HeapCostProps.v: `C73_same_calls`, `C73_limits`, `C73_priority_queue`, `C73_worst_insertion`, `C73_worst_removal`, `C73_best_insertion`, `C73_other_end`, `C73_absent`, `C73_heapify`, `C73_heapify_linear_refuted`
* REFUTED for heapify: it inserts one by one, and on n numbers each of which goes before all earlier ones it makes exactly log2 1 + ... + log2 n comparisons, more than any constant times n (C73_heapify_linear_refuted), although _heap.py, min_heap.py and max_heap.py document O(n). Proved: that sum is the worst case (at most n log2 n), n - 1 the best; the limits of all calls for arrays of any content (C73_limits), the worst and best insertions exactly, the worst removal at the root up to two comparisons (C73_worst_removal), the cost of a priority queue over whole histories. Comparisons are counted (<, >, ==, and those in list.index, in, min and max); moves are bounded by comparisons.

### C74 How far the calls on linked lists walk — partial

* model: WalkModel.v: the functions of ListModel.v with a counter in the state, a tick in each round of a loop from node to node, proved to change nothing else.  Proof: a compositional calculus `takes` for programs with a counter (WalkThm2.v); the number of rounds of each loop is fixed when it starts; for extend on circular lists, that the loop does not change the length of the argument.
* WalkProps.v: `C74_same`, `C74_index`, `C74_walk`, `C74_ends`, `C74_slice`, `C74_split`, `C74_extend`, `C74_rotate`, `C74_split_refuted`, `C74_rotate_refuted`
* REFUTED for split and the rotations: they copy every element, so split takes exactly n steps and a rotation between n and 2n in every class, whatever the index or distance (C74_split_refuted, C74_rotate_refuted), although doubly_linked_list.py and circular_linked_list.py document O(min(k,n/2)) and O(k%n). Proved: the exact number of steps of all other calls, in every state; that the counted functions are those of the model (C74_same). A step is a round of a loop that goes from node to node. A slice walks to the last place it selects (C74_slice). Searching by value, comparison, copy, reverse and printing are not counted.

### C75 Queues work in constant time — partial

* model: WalkModel.v: the functions of QueueModel.v with the same counter.  Proof: the invariant of C12 to C15 (the container is a DoublyLinkedList with the right length), the bounds of C74, and the length of the chain for the two loops of PriorityQueue.dequeue (WalkThm3.v).
* WalkProps.v: `C75_same`, `C75_queue`, `C75_deque`, `C75_priority_queue`, `C75_constant_refuted`
* REFUTED for PriorityQueue.dequeue: with n elements it passes at least n nodes (C75_constant_refuted), although priority_queue.py documents constant time: it looks for the priority and then looks at all remaining elements. Proved: at most 2n; at most one node for every other call of the three classes after every history.

### C76 A BST is shallow on average — proved

* model: BstAvgSpec.v enumerates the orders of insertion; the BST of each order is that of BalModel.v; nodes on the way are counted by `path` of DepthSpec.v.  Proof: an insertion adds a node to the way to x exactly if no value between them is there (BstAvgThm2.v); in the orders of n values, each of m chosen values comes first among them in n!/m orders, by induction (BstAvgThm.v); harmonic sum as in C71.
* BstAvgProps.v: `C76_orders`, `C76_on_the_way`, `C76_share`, `C76_average`, `C76_building`, `C76_increasing_order`
* Exact share of each value (C76_share: 1/m for the m values between it and x), summed to 2 log2 n + 2; the work of all insertions is the sum of the final depths. No removals: after removals the distribution is different, and C76 says nothing about it.

### C77 A RedBlackTree is shallow — partial

* model: BalModel.v (insertion of RedBlackTree) and `path` of DepthSpec.v.  Proof: six insertions turn a tree with black left side L, and a certain right side, into one with a left side that holds L four levels deeper and the same right side; symbolic execution of the exact effect of an insertion (RbDeepThm.v), induction on the number of rounds; the positive part from the height bound of C33.
* RbDeepProps.v: `C77_valid_partial`, `C77_zigzag`, `C77_logarithmic_refuted`
* REFUTED: after a rotation the repair goes on from the new, black, top and may rotate its red parent once more, and again and again: inserting M,0,-1,6,5 and then 6k+3,6k+2,6k+1,6k+12,6k+11,6k+4 for k=0..n-1 (M=6n+7) gives a tree of 6n+5 values in which the way to -1 goes through 4n+2 nodes, so a RedBlackTree can be as bad as a list, although red_black_tree.py (lines 3 and 209) guarantees a height of O(log(n)) (C77_zigzag, C77_logarithmic_refuted). Proved: at most 2 log2(n+1) nodes after every history of insertions and removals that the code handles (C77_valid_partial; C33_histories_iff says which these are). What is missing is only what is false.

### C78 Building a search tree takes linear time — partial

* model: BuildModel.v (the constructors), `path` of DepthSpec.v and `building_meets` of BuildCostSpec.v.  Proof: the tree before each insertion is that of the earlier ones; in a height-balanced tree every way to a free place is at least half the height, in a valid red-black tree at least the number of black levels, and the height is at least the logarithm of the size; sums over the insertions (BuildCostThm.v); for Treap the number of greater nodes above the gap between two runs is not changed by insertions that fill the gap from the left (TreapBuildThm.v); for SplayTree the tree before an insertion and the turns on the way to the new leaf determine the tree after it without the value, so the turns of all insertions determine the order, and there are few short sequences of turns (SplayBuildThm.v).
* BuildCostProps.v: `C78_defined`, `C78_bst`, `C78_avl`, `C78_red_black`, `C78_linear_refuted`
* SplayBuildProps.v: `C78_splay_orders`, `C78_splay`, `C78_splay_linear_refuted`
* TreapBuildProps.v: `C78_treap_defined`, `C78_treap_sorted`, `C78_treap_two_runs`, `C78_treap_average`, `C78_treap_linear_refuted`
* REFUTED: the constructors insert one by one. A BST meets n(n-1)/2 nodes when the values come in increasing order; an AVL tree meets, for every list of n different values in every order, at least half of log2 1 + ... + log2 (n-1); a RedBlackTree as many when the values come in increasing order; all more than any constant times n (C78_linear_refuted). A Treap built from two increasing runs, the second below the first, meets on average over the draws at least n/202 nodes for each item of the second run, because only 101 priorities exist (C78_treap_two_runs, C78_treap_linear_refuted). A SplayTree tells the order of the items by the turns of its insertions, so at most 2^(2w+n) of the n! orders meet w nodes or fewer, and some order of any n values meets (log2 1 + ... + log2 n - n)/2 (C78_splay, C78_splay_linear_refuted). Proved: n(n-1)/2 is the worst case of BST; n (2 log2 n + 1) is enough for AVL in every order, n 2 log2 n for RedBlackTree in increasing order. for Treap never more than 101 nodes for an item when the values come in increasing order, and in any order at most n/101 + 2 log2 n + 2 for an item on average. SkipList, which documents the same, is left out; C72 bounds its insertions from above.

### C79 The work of Trie and RadixTrie depends on the argument alone — partial

* model: TrieWorkModel.v: the functions of TrieModel.v, each round of a loop and each recursive call counted.  Proof: forgetting the counter gives back the model; bounds by induction on the remaining string, for removal on the way up to the root; visits of the completion by counting distinct prefixes of the stored words (TrieWorkThm.v).
* TrieWorkProps.v: `C79_same`, `C79_limits`, `C79_trie_exact`, `C79_auto_complete`, `C79_auto_complete_refuted`
* REFUTED for auto_complete: it visits every node below the prefix, so with the words a, aa, aaa, ... stored no a m + b bounds the work of completing "a" in either class (C79_auto_complete_refuted). Proved: in both classes, after every history, finding and has_prefix take at most m rounds, insertion m + 2, removal 2m + 1, completion m + len(trie) and never fewer than the words it returns, less one; in a Trie finding a stored word takes exactly m rounds, removing it at least m + 1, adding any word at least m, and completing a prefix exactly m plus the number of longer stored prefixes (C79_trie_exact). A round is an iteration of a loop or a call of the recursive helper; slicing and joining strings inside a round are not counted.

### C80 The work of looking at a whole tree is as documented — partial

* model: LookModel.v: the functions of TreeModel.v, each call of a recursive helper, each node taken from the queue and each item written into a list counted.  Proof: the first components are the functions of TreeModel.v; structural induction against `subtrees` and `bin_nodes` of TreeSpec.v and `distances` of LookSpec.v; for the red-black tree the height bound of C33 for increasing values (LookThm.v, LookRbProps.v).
* LookProps.v: `C80_same`, `C80_tree`, `C80_binary`, `C80_depth_refuted`, `C80_invert_refuted`, `C80_traversal_refuted`
* LookRbProps.v: `C80_red_black_height_refuted`
* REFUTED: get_depth, documented as O(1), subtracts the height of the root from itself and visits every node twice (C80_depth_refuted); invert, documented as O(log(n)), makes 2 n + 1 calls (C80_invert_refuted); the pre-, in- and postorder traversals, documented as O(n), copy the list of each subtree into that of its parent and write n plus the sum of the distances from the root items, n (n + 1) / 2 in a chain (C80_traversal_refuted); get_height of a RedBlackTree, documented as O(h), visits all n nodes (C80_red_black_height_refuted). Proved: len, get_height and count_leaf_nodes visit each node exactly once; a search visits no node twice, and all when the value is missing; is_balanced visits at most 3 n nodes, is_strict at most n (C80_tree, C80_binary).

### C81 The work of a SuffixTrie is as documented — partial

* model: SuffixWorkModel.v: the functions of SuffixModel.v with a counter in the state.  Proof: `counts`-style simulation of the uncounted functions; a node below the root of a suffix trie has no child or two, so a subtree with r leaves has at most 2 r - 1 nodes; the label of a suffix has at most n + 5 characters; the path to an inner node repeats in the word (SuffixWorkThm.v).
* SuffixWorkProps.v: `C81_same`, `C81_build`, `C81_ask`, `C81_count`, `C81_count_refuted`
* REFUTED: count_pattern_occurrences, documented as O(m), visits every leaf below the end of the pattern, so at least as many nodes as it reports occurrences: no linear function of m is a limit, even for a pattern of one character (C81_count_refuted). Proved: it takes at least r and at most m + 2 r - 1 rounds and visits when it returns r, and at most m when it raises (C81_count); building takes at least n + 1 and at most (n + 1)(n + 7) rounds (C81_build); has_substring takes at most m, get_lowest_common_ancestor(i, j) at most the lengths of the suffixes at i and j together (C81_ask). Not counted: to_suffix_array and get_longest_repeated_substring.

### C82 Scanning a linked list looks at no more elements than documented — proved

* model: ScanModel.v: the scanning functions of ListModel.v with a counter in the state.  Proof: `counts`-style simulation of the uncounted functions; exact counts by induction on the length or on the chain of nodes, against the list functions looked_at and compared of ScanSpec.v (ScanThm.v).
* ScanProps.v: `C82_same`, `C82_whole`, `C82_search`, `C82_looked_at`, `C82_compare`, `C82_compared`
* Proved: to_list, count, copy, reverse and remove(v, all=True) look at exactly the n elements, in any state (C82_whole); in and remove(v, all=False) at exactly those up to the first occurrence of v, or at all (C82_search, C82_looked_at); the comparisons at exactly the pairs up to the one that decides, and == and != at none if the lengths differ (C82_compare), hence at no more than min(n, m) (C82_compared). The counting functions do what the functions of ListModel.v do (C82_same).

### C83 The calls on a BST or AVL tree that follow one branch visit no more nodes than documented — proved

* model: DownModel.v: the calls of BstModel.v and BalModel.v that follow one branch, with a counter in the state.  Proof: `counts`-style simulation; exact counts by induction on the tree held (DownThm.v); for AVL the loop back up is shown, in the separation logic of BstSep.v, to end within as many rounds as there are levels (DownThm2.v, DownThm3.v).
* DownProps.v: `C83_same`, `C83_exact`, `C83_levels`, `C83_avl`, `C83_avl_log`
* Proved: the exact number of nodes visited by contains, get_min, get_max and the insert and remove of a BST on a tree of any shape (C83_exact), hence no more than the levels, or two more (C83_levels); the exact number for the insert and remove of an AVL tree whose histories stay height-balanced, which also walk back to the root (C83_avl), hence O(log n) (C83_avl_log). AVL histories that lose balance (see C27, C28) are not covered by the last two. The counting functions do what the functions of BstModel.v and BalModel.v do (C83_same).

### C84 Which comparisons of lists raise TypeError — partial

* model: ListCmpModel.v: the dispatch of the six operators (the mirrored method of a proper subclass on the right comes first) over the methods of ListModel.v.  Proof: the check of the classes at the start of each method; induction over the pairs of elements for the clash (ListCmpProps.v).
* ListCmpProps.v: `C84_other_classes`, `C84_same_class`, `C84_clash`, `C84_documented_refuted`
* Proved: between lists of one class the operators are the methods of the left one (C84_same_class) and raise TypeError exactly on a clash (C84_clash); between lists of different classes each operator raises TypeError in both orders and changes nothing (C84_other_classes). Refuted: that any two lists of the package can be compared; LinkedList([1]) == DoublyLinkedList([1]) raises TypeError because Python asks the subclass first, although LinkedList.__eq__ itself would answer True (C84_documented_refuted). Operands that are not lists of the package are not modelled.

### C85 Insertions into and removals from a treap or red-black tree visit O(h) nodes — proved

* model: DownModel2.v: the loops of Treap.insert, Treap.remove and RedBlackTree.insert with a counter; DownModel3.v: RedBlackTree.remove.  Proof: separation logic shows that the loops end within a number of rounds given by the shape of the tree (DownThm4.v), and a loop that ends within n rounds counts at most n (DownThm5.v); for RedBlackTree.remove, every removal from a valid tree ends its mending loop within two rounds (DownThm6.v), and the replacement has at most one red leaf below it (DownThm7.v).
* DownProps2.v: `C85_same`, `C85_treap_insert`, `C85_treap_remove`, `C85_rb_insert`, `C85_treap_levels`, `C85_rb_levels`, `C85_rb_log`
* DownProps3.v: `C85_rb_remove_same`, `C85_rb_remove`, `C85_rb_remove_levels`, `C85_rb_remove_log`
* DownModel2.v counts the rounds of the loops and the recursive calls (C85_same: otherwise the same programs). Exact numbers for the treap: C85_treap_insert, C85_treap_remove; a bound for the red-black tree: C85_rb_insert; in levels only: C85_treap_levels, C85_rb_levels; in the number of elements: C85_rb_log. The calls that only read are in C83, for trees of all classes. RedBlackTree.remove on a valid tree: DownModel3.v, C85_rb_remove_same, C85_rb_remove, C85_rb_remove_levels, C85_rb_remove_log (a failing call counts too). Not covered: RedBlackTree.remove on a tree that is no longer valid, and histories on which the tree no longer is a set (C29_set_refuted, C34).

### C86 Calls on a splay tree visit at most twice the number of levels, searches and insertions O(log n) on average — proved

* model: DownModel4.v: SplayTree.__splaying, __contains__, insert and remove with a counter.  Proof: separation logic gives the number of calls of the splaying recursion from the depth of the node (DownThm8.v, by induction on the context of the node); the sum over a history follows from C68.
* DownProps4.v: `C86_same`, `C86_exact`, `C86_levels`, `C86_logarithmic`, `C86_all_calls`
* DownModel4.v counts the calls of the recursive functions (C86_same: otherwise the same programs). C86_exact gives the exact number for every search, insertion and removal, C86_levels bounds it by the levels, C86_logarithmic sums the searches and insertions over a history (with C68); the removals are not logarithmic (C68_removal_work_refuted), but C86_all_calls shows that only the values moved below the replacement make the difference. Not covered: histories with a removal the code cannot do (C31).

## 4. What is modelled

| source | model | not modelled |
|---|---|---|
| lists/linked_list.py | ListModel.v, IterModel.v (suspended iterators), DrawModel.v (printing) | `Node.__repr__`; user code subclassing or assigning private fields |
| lists/doubly_linked_list.py | ListModel.v, DrawModel.v | `DoublyNode.__repr__`; methods that only call `super()` are the method of the superclass |
| lists/circular_linked_list.py | ListModel.v, DrawModel.v | same |
| lists/stack.py, queue.py, deque.py, priority_queue.py | QueueModel.v, DrawModel.v | `PriorityNode.__repr__`, `set_priority` on a node taken out of the container |
| lists/skip_list.py | SkipModel.v, SkipIterModel.v (suspended iterators), BuildModel.v, SkipDrawModel.v | `SkipNode.__repr__` |
| trees/_heap.py, min_heap.py, max_heap.py | HeapModel.v, HeapAliasModel.v (the array as an object), HeapIterModel.v (suspended iterators), BinDrawModel.v (printing) | |
| trees/tree.py | TreeModel.v, PrintModel.v, PathModel.v, TreeIterModel.v (suspended iterators) | node identity (a node object reached twice), `TreeNode.__repr__`, links and permissions in the file system |
| trees/binary_tree.py | TreeModel.v, BinDrawModel.v | node identity, see above |
| trees/bst.py | BstModel.v, BuildModel.v, BinDrawModel.v | the `isinstance` tests on nodes, which always hold |
| trees/avl.py, splay_tree.py, treap.py, red_black_tree.py | BalModel.v, BuildModel.v, BinDrawModel.v | `set_priority`, `_get_unbalanced_node` (never called), methods that only call `super()` |
| trees/trie.py, radix_trie.py | TrieModel.v, LevelModel.v, TriePrintModel.v, TrieIterModel.v (suspended iterators) | node `__repr__` |
| trees/suffix_trie.py | SuffixModel.v, TriePrintModel.v | the private `__get_longest_palindrome` (never called) |
| work done by calls | DepthModel.v (recursion depth), SkipCostModel.v, HeapCostModel.v (comparisons), WalkModel.v (nodes passed) | time and memory in any other sense |
| interface.py, `__init__.py` | | nothing to model |

Documentation strings, warnings' texts and exception messages are not modelled; the class of the
exception is.

## 5. Trusted base

* Coq's kernel (8.16.1, with `vm_compute` for the concrete witnesses and Examples).  No axiom: `Print
  Assumptions` prints "Closed under the global context" for every property theorem.  The library
  "axioms" a global search finds (`Coq.ssr.ssrunder.Under_rel.*`) are fields of a module type of
  the ssreflect `under` tactic in Coq's own library, loaded but not used.
* Libraries: Coq's standard library, std++ (data structures and tactics) and Iris's base logic and proof
  mode (a model of separation logic inside Coq, without axioms), for the search trees.
* The reading of the Python source, cited at each definition, and of the Python primitives the code
  uses:
  * `list`: indexing, `append`, `pop`, slicing, `slice.indices`, `sorted` (a stable sort);
  * `dict`: iteration in insertion order, replacing a value keeps its place;
  * `set` of strings: iteration order is a parameter where it matters (the longest repeated
    substring of SuffixTrie);
  * `str`: code points, slicing, `replace("\n", "\\n")`, `join`, `str(int)`;
  * comparison of numbers and strings, `TypeError` for other pairs;
  * `round` on floats (nearest, ties to even), exact for the rationals that floats are;
  * unbounded recursion, except in C70: Python's recursion limit is modelled for the search trees (DepthModel.v) and for nothing else;
  * `os.path` functions of posixpath and `os.listdir` on a file system that does not change.
* Concurrency: the package has none; a call runs to its end before the next one.

## 6. What the code gets wrong

The `_refuted` theorems, each with a concrete history:

* C03: for item assignment: cll[i]=x on an empty list raises AttributeError or is silently accepted, cll[i]=None raises AssertionError.
* C04: for negative steps: ll[::-1] is [ll[0]].
* C07: for LinkedList and DoublyLinkedList: extend shares the nodes of the argument.
* C08: when the source is an instance of the target class (same class, or LinkedList from a subclass): the new list aliases the old one.
* C10: for lists of different lengths: [1,1]<[2,2,2] but not [2,2,2]>[1,1].
* C11: a.extend(a) never returns on a CircularLinkedList, and searches after it never return on the other classes.
* C15: removing the newest of at least three items gives its priority to the second newest one. C15_exact gives every answer of every history (any capacity, any random priorities) by a deterministic reference, and C15_ideal_iff says exactly when a dequeue is the ideal one.
* C16: the remembered extreme priority goes stale after mixing directions or after an overflow. C16_fails_iff: after any history a dequeue fails exactly when something is held but nothing of the remembered priority.
* C18: -inf is in every list, inserting it does nothing, and remove(-inf) on a list holding 5 empties it while 5 is still found.
* C19: for the empty tree: membership raises AttributeError, and it has 0 levels but height 0.
* C21: against its documentation in both directions; its exact meaning is proved.
* C25: removing 10 from BST([10,20,40,30]) breaks the search order.
* C27: removing 70 after inserting 50,20,60,10,30,70,5,40.
* C28: removals on a tree left unbalanced (C27) break the search order, after which insertions raise AttributeError.
* C29: with priorities of -2 and below, remove() crashes with AttributeError after inserting (2, priority 5), (1, priority -2): a missing child counts as one of priority -1, and the node sinks towards it.
* C31: removing 1 after inserting 4,9,11,5,1 breaks the search order; after such a removal, removing an absent value can store a value twice or tie nodes into a circle on which get_min never returns.
* C33: inserting 50,20,80,10,30,5,35,40 gives a red node with a red child and unequal black heights (after a rotation the repair goes on from the new, black, top).
* C34: on RedBlackTree(1..8) remove(2) raises ValueError and remove(1) leaves a red node with a red child; a second removal can raise and lose another value.
* C37: removal only sifts down, so the moved element may precede its new parent and get_min goes wrong later.
* C38: for the empty heap (AssertionError).
* C39: a string that continues a stored prefix with "}" cannot be inserted or looked up (AttributeError), and has_prefix("}") is True on an empty trie.
* C40: removing the only word raises AttributeError (after removing it), and so does inserting "}".
* C41: like C39 for "}".
* C42: "$" is found in "ab"; in "a$b", "ab" is found and "a$b" is not ("$" is dropped from the word and used as a mark); the empty pattern occurs 0 times.
* C43: " " gives [0, 1], since the empty suffix is sorted as "$".
* C44: "aaaabcdefgXbcdefg" gives only "aaa", missing "bcdefg" (only the two deepest levels are looked at).
* C45: on "ab" (0, 2) is answered and (2, 0) raises ValueError; words with "$" are indexed without it.
* C48: together with C33.
* C49: SkipList(a) shares the levels with a but counts them separately: b.insert(5) shows in a, and after a.remove(5) the 5 is still found in b.
* C50: every word with "}" raises AttributeError.
* C53: for removals: a RadixTrie holding a single word can have any number of nodes (C53_proportional_refuted), against the documented O(s) space; insert "ab", insert "ac", remove "ab" leaves 3 nodes where "ac" alone has 2.
* C54: only in two corners: the empty tree prints like a single node "--", and TreeNode() stores a newline and the two characters backslash n alike.
* C55: for is_balanced: AVL looks at the root only and says True on a tree unbalanced below after a removal; the other classes inherit the test refuted in C21 (its exact meaning is proved). All other queries proved for every class and every history that leaves a tree; AVL.is_balanced is the truth without removals.
* C58: for emptied queues: after its last item was taken out a Queue, Deque or PriorityQueue still prints that item (the container keeps its head node).
* C60: otherwise: "a", "ab", "ac" print like "a ✓b", "a ✓c").
* C61: for listing words that contain " ⟶ ": the strings are cut there.
* C64: in general: after add_front during a loop a LinkedList or DoublyLinkedList gives the remaining items and then raises AttributeError, for every list and position; a CircularLinkedList gives the new first item at the end.
* C65: in general: for x in t: x in t over a SplayTree with the values 1 and 2 never ends; an insertion into an AVLTree, RedBlackTree or Treap and a removal from a BST can make the loop lose a value that is in the tree the whole time.
* C67: for RadixTrie: inserting a word during a loop can split a node the loop still holds; the loop then gives only the second half and the first letters of a word stored all the time are lost ("ab", "cd" stored, "ce" inserted after the first step: the loop gives "ab", "d").
* C68: for removals: after inserting n, ..., 1, removing the minimum n times moves (n-1)(n-2)/2 values (BST._transplant shifts a whole branch by one node), so no constant bounds the work by c log n per call (C68_removal_work_refuted).
* C70: a BST into which more than L+1 values were inserted in increasing order refuses every further larger value, although far fewer levels would do (C70_sorted_insertions_refuted); a SplayTree of at least L+2 increasing values raises RecursionError on removing the largest one and is left out of order (C70_splay_removal_refuted).
* C71: for many values: there are only 101 priorities and a new value with the same priority is rotated above the old one, so inserting n increasing values makes the average depth of the smallest at least n/101 (C71_sorted, C71_logarithmic_refuted).
* C73: for heapify: it inserts one by one, and on n numbers each of which goes before all earlier ones it makes exactly log2 1 + ... + log2 n comparisons, more than any constant times n (C73_heapify_linear_refuted), although _heap.py, min_heap.py and max_heap.py document O(n).
* C74: for split and the rotations: they copy every element, so split takes exactly n steps and a rotation between n and 2n in every class, whatever the index or distance (C74_split_refuted, C74_rotate_refuted), although doubly_linked_list.py and circular_linked_list.py document O(min(k,n/2)) and O(k%n).
* C75: for PriorityQueue.dequeue: with n elements it passes at least n nodes (C75_constant_refuted), although priority_queue.py documents constant time: it looks for the priority and then looks at all remaining elements.
* C77: after a rotation the repair goes on from the new, black, top and may rotate its red parent once more, and again and again: inserting M,0,-1,6,5 and then 6k+3,6k+2,6k+1,6k+12,6k+11,6k+4 for k=0..n-1 (M=6n+7) gives a tree of 6n+5 values in which the way to -1 goes through 4n+2 nodes, so a RedBlackTree can be as bad as a list, although red_black_tree.py (lines 3 and 209) guarantees a height of O(log(n)) (C77_zigzag, C77_logarithmic_refuted).
* C78: the constructors insert one by one. A BST meets n(n-1)/2 nodes when the values come in increasing order; an AVL tree meets, for every list of n different values in every order, at least half of log2 1 + ... + log2 (n-1); a RedBlackTree as many when the values come in increasing order; all more than any constant times n (C78_linear_refuted). A Treap built from two increasing runs, the second below the first, meets on average over the draws at least n/202 nodes for each item of the second run, because only 101 priorities exist (C78_treap_two_runs, C78_treap_linear_refuted). A SplayTree tells the order of the items by the turns of its insertions, so at most 2^(2w+n) of the n! orders meet w nodes or fewer, and some order of any n values meets (log2 1 + ... + log2 n - n)/2 (C78_splay, C78_splay_linear_refuted).
* C79: for auto_complete: it visits every node below the prefix, so with the words a, aa, aaa, ... stored no a m + b bounds the work of completing "a" in either class (C79_auto_complete_refuted).
* C80: get_depth, documented as O(1), subtracts the height of the root from itself and visits every node twice (C80_depth_refuted); invert, documented as O(log(n)), makes 2 n + 1 calls (C80_invert_refuted); the pre-, in- and postorder traversals, documented as O(n), copy the list of each subtree into that of its parent and write n plus the sum of the distances from the root items, n (n + 1) / 2 in a chain (C80_traversal_refuted); get_height of a RedBlackTree, documented as O(h), visits all n nodes (C80_red_black_height_refuted).
* C81: count_pattern_occurrences, documented as O(m), visits every leaf below the end of the pattern, so at least as many nodes as it reports occurrences: no linear function of m is a limit, even for a pattern of one character (C81_count_refuted).

## 7. Machinery

* Lists: `rep k s o g` (ListRep.v) says that object `o` of class `k` is the chain of ghost nodes `g`
  in the heap; `modifies`/`grows` are footprints; `Rel` (ListSim.v) relates a whole program state to a
  world of plain lists with pairwise disjoint chains.
* Search trees: `BstSep.v` is a shallow separation logic over node stores (`tree`, tree segments with
  a hole), `BstRules.v` its rules for the node operations, `BstZip.v` zippers; the heap code refines
  pure functions on trees (BstPure.v), about which the set and balance properties are proved.
* Tries: the store is described by the finite set of (path, node) pairs (TrieRep.v); inserting and
  removing words edits the set.

## 8. Tests of the theorems

`seeded/LOG.jsonl` records edits of the model that mimic realistic bugs, the claim each breaks, the
theorems that fail then, and the theorems tightened where one did not.
