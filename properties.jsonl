{"id": "C01", "title": "LinkedList behaves as a Python list under every history", "statement": "Starting from LinkedList(), any sequence of add_front, add_end, insert, __setitem__, __delitem__, remove_front, remove_end, remove(value, all), clear, in-place rotations, int __getitem__, __contains__, count, len, is_empty and to_list (with valid or invalid arguments) returns exactly the results and raises exactly the exception classes that the same sequence gives on an ordinary Python list with the documented index/None/Extra checks, and a rejected call changes nothing.", "quantifier": "all finite histories of calls, all items (ints, strings, None, Extra instances, opaque objects), all integer and non-integer indices", "why_tests_cant": "The claim ranges over unboundedly many histories; a unit test samples a handful of short ones and pointer bugs only show at particular lengths/positions.", "anchors": ["extra/lists/linked_list.py:LinkedList"]}
{"id": "C02", "title": "DoublyLinkedList behaves as a Python list and its backward links mirror its forward links", "statement": "Same as C01 for DoublyLinkedList, and additionally after every history walking the list from the tail along prev gives the reverse of walking it from the head along next.", "quantifier": "all finite histories of calls, all items and indices", "why_tests_cant": "The claim ranges over unboundedly many histories; a unit test samples a handful of short ones and pointer bugs only show at particular lengths/positions.", "anchors": ["extra/lists/doubly_linked_list.py:DoublyLinkedList"]}
{"id": "C03", "title": "CircularLinkedList behaves as a Python list with modular indices", "statement": "Same as C01 for CircularLinkedList where insert uses idx mod (len+1) and getitem/setitem/delitem use idx mod len; after every history the node after the last one is the first one.", "quantifier": "all finite histories of calls, all items and non-negative indices of any size", "why_tests_cant": "The claim ranges over unboundedly many histories; a unit test samples a handful of short ones and pointer bugs only show at particular lengths/positions.", "anchors": ["extra/lists/circular_linked_list.py:CircularLinkedList"]}
{"id": "C04", "title": "Slicing equals Python list slicing", "statement": "ll[start:stop:step].to_list() == ll.to_list()[start:stop:step] for LinkedList and DoublyLinkedList.", "quantifier": "all lists, all start/stop (including None, negative and out of range) and all non-zero steps", "why_tests_cant": "infinitely many (list, slice) combinations; negative steps are untested in the suite.", "anchors": ["extra/lists/linked_list.py:LinkedList.__getitem__"]}
{"id": "C05", "title": "split and rotate", "statement": "split(i) returns fresh lists holding the first i and the remaining elements and leaves the original unchanged; rotate_left(d)/rotate_right(d) produce the list cyclically shifted by d modulo its length, for every d >= 0, in place or not; rotating left then right by the same distance restores the list.", "quantifier": "all three list classes, all contents, all split indices and rotation distances", "why_tests_cant": "The claim ranges over unboundedly many histories; a unit test samples a handful of short ones and pointer bugs only show at particular lengths/positions.", "anchors": ["extra/lists/linked_list.py:LinkedList.split", "extra/lists/linked_list.py:LinkedList._rotate", "extra/lists/circular_linked_list.py:CircularLinkedList.split"]}
{"id": "C06", "title": "copy, reverse and split results are independent of the original", "statement": "copy() equals the original, reverse() is its reversal, and no later history of mutations on one of the two objects changes what the other one returns.", "quantifier": "all three list classes, all contents, all later histories on either object", "why_tests_cant": "aliasing only shows for particular later mutations; needs all histories.", "anchors": ["extra/lists/linked_list.py:LinkedList.copy", "extra/lists/linked_list.py:LinkedList.reverse"]}
{"id": "C07", "title": "extend appends and keeps the two lists independent", "statement": "a.extend(b) makes a.to_list() the concatenation and leaves b unchanged; afterwards mutating one of the two does not change the other.", "quantifier": "all lists a, b of the same class (also a is b) and all later mutations", "why_tests_cant": "aliasing bugs need a specific later mutation", "anchors": ["extra/lists/linked_list.py:LinkedList.extend", "extra/lists/doubly_linked_list.py:DoublyLinkedList.extend", "extra/lists/circular_linked_list.py:CircularLinkedList.extend"]}
{"id": "C08", "title": "Constructing a list from another list of the package copies it", "statement": "X(other) for X in LinkedList/DoublyLinkedList/CircularLinkedList and other any list object of the package has the same elements as other, behaves like any other X afterwards and is not affected by later mutations of other.", "quantifier": "all source lists, all target classes, all later operations", "why_tests_cant": "aliasing bugs need a specific later mutation", "anchors": ["extra/lists/linked_list.py:LinkedList.__init__", "extra/lists/doubly_linked_list.py:DoublyLinkedList.__init__"]}
{"id": "C09", "title": "== and != decide element-wise equality", "statement": "a == b iff a.to_list() == b.to_list(), and a != b is its negation; in particular == is an equivalence.", "quantifier": "all pairs of lists of one class, any lengths and items", "why_tests_cant": "infinitely many pairs", "anchors": ["extra/lists/linked_list.py:LinkedList.__eq__", "extra/lists/linked_list.py:LinkedList.__ne__", "extra/lists/linked_list.py:LinkedList._compare"]}
{"id": "C10", "title": "<, <=, >, >= are a consistent order", "statement": "a < b iff b > a, a <= b iff b >= a, and a < b implies not b <= a; the comparisons follow the documented element-wise rule.", "quantifier": "all pairs of integer lists", "why_tests_cant": "infinitely many pairs; mixed-length pairs are the delicate case", "anchors": ["extra/lists/linked_list.py:LinkedList.__lt__", "extra/lists/linked_list.py:LinkedList.__gt__", "extra/lists/linked_list.py:LinkedList.__le__", "extra/lists/linked_list.py:LinkedList.__ge__"]}
{"id": "C11", "title": "Every list operation terminates", "statement": "No sequence of public list calls makes a call loop forever; in particular extending a list with itself terminates and membership tests afterwards terminate.", "quantifier": "all histories including self-extension", "why_tests_cant": "non-termination cannot be observed by a finite test", "anchors": ["extra/lists/linked_list.py:LinkedList._search", "extra/lists/circular_linked_list.py:CircularLinkedList.extend"]}
{"id": "C12", "title": "Stack is LIFO and never exceeds its capacity", "statement": "For every history of push/pop/peek/clear/len/is_empty/is_full the stack returns what an ideal bounded LIFO returns: push on a full stack raises OverflowError and changes nothing, pop of an empty one warns and returns None, and len never exceeds max_capacity.", "quantifier": "all capacities (finite or infinite), all histories, all items", "why_tests_cant": "The claim ranges over unboundedly many histories; a unit test samples a handful of short ones and pointer bugs only show at particular lengths/positions.", "anchors": ["extra/lists/stack.py:Stack"]}
{"id": "C13", "title": "Queue is FIFO, bounded, and evicts the oldest element when full", "statement": "For every history of enqueue/dequeue/top/clear/len/is_empty/is_full the queue returns what an ideal bounded FIFO returns; enqueue on a full queue warns and drops exactly the oldest item; len never exceeds max_capacity.", "quantifier": "all capacities including 0 and inf, all histories, all items", "why_tests_cant": "The claim ranges over unboundedly many histories; a unit test samples a handful of short ones and pointer bugs only show at particular lengths/positions.", "anchors": ["extra/lists/queue.py:Queue"]}
{"id": "C14", "title": "Deque is a bounded double-ended queue", "statement": "For every history of append_left/append_right/pop_left/pop_right/get_left/get_right/clear the deque returns what an ideal bounded double-ended queue returns, dropping the element at the opposite end when full.", "quantifier": "all capacities, all histories, all items", "why_tests_cant": "The claim ranges over unboundedly many histories; a unit test samples a handful of short ones and pointer bugs only show at particular lengths/positions.", "anchors": ["extra/lists/deque.py:Deque"]}
{"id": "C15", "title": "PriorityQueue.dequeue returns an item of maximal priority", "statement": "dequeue() on a non-empty queue returns an item whose priority is maximal among the items in the queue, removes exactly that item and leaves every other item with the priority it was enqueued with; dequeue(lowest_priority=True) does the same for the minimum.", "quantifier": "all histories of enqueue/dequeue, all priorities, all capacities", "why_tests_cant": "the order of priorities within the history matters; the tests only use monotone priorities", "anchors": ["extra/lists/priority_queue.py:PriorityQueue.dequeue", "extra/lists/doubly_linked_list.py:DoublyLinkedList._remove_node"]}
{"id": "C16", "title": "PriorityQueue.dequeue on a non-empty queue never raises", "statement": "For every history, dequeue on a non-empty queue returns an item.", "quantifier": "all histories and capacities", "why_tests_cant": "depends on stale cached extrema, only reachable by mixed histories", "anchors": ["extra/lists/priority_queue.py:PriorityQueue.dequeue", "extra/lists/priority_queue.py:PriorityQueue.enqueue"]}
{"id": "C17", "title": "SkipList is a sorted set for every outcome of the coin flips", "statement": "For every history of insert/remove/__contains__/__getitem__/__delitem__/len/clear and every outcome of the random coin, the list returns what a strictly sorted set of numbers returns: to_list is strictly increasing, x in sl iff x was inserted and not removed since, sl[i] is the i-th smallest element.", "quantifier": "all histories, all coin sequences, all finite numbers", "why_tests_cant": "the coin makes the state random; tests see one outcome per run", "anchors": ["extra/lists/skip_list.py:SkipList"]}
{"id": "C18", "title": "SkipList treats -inf like any other number", "statement": "Inserting, testing and removing float('-inf') behaves as for any other number and never corrupts the list.", "quantifier": "all skip lists", "why_tests_cant": "edge value used as sentinel", "anchors": ["extra/lists/skip_list.py:SkipList.remove", "extra/lists/skip_list.py:SkipList.insert"]}
{"id": "C19", "title": "Tree size, leaf count, height, levels and iteration agree", "statement": "len(t) is the number of items iterated, concatenating get_nodes_per_level() gives exactly to_list(), the number of levels is get_height()+1, count_leaf_nodes is the number of childless nodes, get_depth() is 0, and x in t iff x occurs in to_list().", "quantifier": "all finite trees (Tree and BinaryTree), including the empty one", "why_tests_cant": "holds for every shape; tests use a few", "anchors": ["extra/trees/tree.py:Tree"]}
{"id": "C20", "title": "Binary-tree traversals list every node exactly once in the right order", "statement": "preorder, inorder, postorder and breadth-first traversals are permutations of each other listing each node once, in the order given by their textbook recursive definition; traverse(method) dispatches to them (case-insensitively) and rejects any other string with ValueError.", "quantifier": "all binary trees, all method strings", "why_tests_cant": "all shapes", "anchors": ["extra/trees/binary_tree.py:BinaryTree.traverse"]}
{"id": "C21", "title": "is_perfect, is_strict and is_balanced decide what they say", "statement": "is_perfect() iff every level is completely filled; is_strict() iff every node has zero or two children; is_balanced() iff, as documented, the depths of any two leaves differ by at most one.", "quantifier": "all non-empty binary trees", "why_tests_cant": "all shapes", "anchors": ["extra/trees/binary_tree.py:BinaryTree.is_perfect", "extra/trees/binary_tree.py:BinaryTree.is_strict", "extra/trees/binary_tree.py:BinaryTree.is_balanced"]}
{"id": "C22", "title": "Side views show the first/last node of every level", "statement": "get_leftside_view() is the list of the first elements of get_nodes_per_level(); get_rightside_view() the list of the last ones.", "quantifier": "all binary trees", "why_tests_cant": "all shapes", "anchors": ["extra/trees/binary_tree.py:BinaryTree.get_leftside_view", "extra/trees/binary_tree.py:BinaryTree.get_rightside_view"]}
{"id": "C23", "title": "invert mirrors the tree", "statement": "Inverting twice gives the original tree; inverting reverses the inorder traversal, preserves len/height/leaf count and swaps the side views.", "quantifier": "all binary trees", "why_tests_cant": "all shapes", "anchors": ["extra/trees/binary_tree.py:BinaryTree.invert"]}
{"id": "C24", "title": "BST insertion histories implement a set", "statement": "After inserting any sequence of numbers, inorder traversal is the strictly increasing list of distinct inserted values, x in bst iff x was inserted, len is the number of distinct values, get_min/get_max are the extrema, and a duplicate insertion warns and changes nothing.", "quantifier": "all insertion sequences", "why_tests_cant": "The claim ranges over unboundedly many histories; a unit test samples a handful of short ones and pointer bugs only show at particular lengths/positions.", "anchors": ["extra/trees/bst.py:BST.insert", "extra/trees/bst.py:BST._insert_node", "extra/trees/bst.py:BST.__contains__"]}
{"id": "C25", "title": "BST removal deletes exactly the given value", "statement": "After any history of insert/remove, x in bst iff x was inserted and not removed since; inorder stays strictly increasing; removing an absent value warns and changes nothing.", "quantifier": "all histories of insert and remove", "why_tests_cant": "needs specific subtree shapes below the replacement node", "anchors": ["extra/trees/bst.py:BST.remove", "extra/trees/bst.py:BST._transplant"]}
{"id": "C26", "title": "AVL is height-balanced after every insertion history", "statement": "After any sequence of insertions every node's subtrees differ in height by at most one, cached heights are exact, the tree implements the set of inserted values, and its height is at most 2 log2(n+1) for n values.", "quantifier": "all insertion sequences", "why_tests_cant": "The claim ranges over unboundedly many histories; a unit test samples a handful of short ones and pointer bugs only show at particular lengths/positions.", "anchors": ["extra/trees/avl.py:AVL._insert", "extra/trees/avl.py:AVL._rebalance"]}
{"id": "C27", "title": "AVL stays height-balanced under removals", "statement": "After any history of insertions and removals every node's subtrees differ in height by at most one.", "quantifier": "all histories of insert and remove", "why_tests_cant": "needs specific shapes", "anchors": ["extra/trees/avl.py:AVL._remove", "extra/trees/avl.py:AVL._rebalance"]}
{"id": "C28", "title": "AVL removal deletes exactly the given value", "statement": "Removing a value from an AVL tree removes exactly that value from the set and keeps inorder strictly increasing and the cached heights exact.", "quantifier": "all AVL-balanced trees and all values", "why_tests_cant": "The claim ranges over unboundedly many histories; a unit test samples a handful of short ones and pointer bugs only show at particular lengths/positions.", "anchors": ["extra/trees/avl.py:AVL._remove"]}
{"id": "C29", "title": "Treap keeps search order on values and heap order on priorities", "statement": "After any history of insert(value, priority)/remove(value), inorder is strictly increasing, every node's priority is at most its parent's, and the treap implements the set of values, for every outcome of the random priorities.", "quantifier": "all histories, all priorities (given or drawn from 0..100)", "why_tests_cant": "random priorities; all histories", "anchors": ["extra/trees/treap.py:Treap.insert", "extra/trees/treap.py:Treap.remove"]}
{"id": "C30", "title": "SplayTree moves the accessed value to the root and implements a set", "statement": "After insert(x) or a successful x in t the root is x; an unsuccessful lookup moves the last accessed node to the root; neither changes the stored set (apart from x) nor the sorted inorder; x in t iff x is stored.", "quantifier": "all histories of insert and membership tests", "why_tests_cant": "The claim ranges over unboundedly many histories; a unit test samples a handful of short ones and pointer bugs only show at particular lengths/positions.", "anchors": ["extra/trees/splay_tree.py:SplayTree"]}
{"id": "C31", "title": "SplayTree removal deletes exactly the given value", "statement": "After any history with removals the tree implements the set of values.", "quantifier": "all histories", "why_tests_cant": "needs specific shapes", "anchors": ["extra/trees/splay_tree.py:SplayTree.remove", "extra/trees/bst.py:BST._transplant"]}
{"id": "C32", "title": "RedBlackTree insertion histories implement a set with a black root", "statement": "After any sequence of insertions inorder is the strictly increasing list of distinct inserted values, x in t iff inserted, len counts them, and the root is black.", "quantifier": "all insertion sequences", "why_tests_cant": "The claim ranges over unboundedly many histories; a unit test samples a handful of short ones and pointer bugs only show at particular lengths/positions.", "anchors": ["extra/trees/red_black_tree.py:RedBlackTree.insert"]}
{"id": "C33", "title": "RedBlackTree keeps the red-black balance invariants under insertion", "statement": "After any sequence of insertions no red node has a red child and all root-to-leaf paths have the same number of black nodes.", "quantifier": "all insertion sequences", "why_tests_cant": "needs specific sequences of at least eight insertions", "anchors": ["extra/trees/red_black_tree.py:RedBlackTree.__recolor"]}
{"id": "C34", "title": "RedBlackTree removal works on every valid tree", "statement": "Removing a stored value from a tree built by insertions succeeds and keeps the red-black invariants.", "quantifier": "all trees built by insertion, all stored values", "why_tests_cant": "needs specific shapes", "anchors": ["extra/trees/red_black_tree.py:RedBlackTree.remove", "extra/trees/red_black_tree.py:RedBlackTree.__handle_double_black"]}
{"id": "C35", "title": "Heaps keep heap order and the exact multiset under insertion and extraction of the top", "statement": "For every history of insert/heapify/remove_min (MinHeap) or remove_max (MaxHeap) the array is heap-ordered, holds exactly the inserted minus the extracted values, get_min is the minimum and get_max the maximum.", "quantifier": "all histories, all numbers", "why_tests_cant": "The claim ranges over unboundedly many histories; a unit test samples a handful of short ones and pointer bugs only show at particular lengths/positions.", "anchors": ["extra/trees/_heap.py:Heap.insert", "extra/trees/_heap.py:Heap.remove", "extra/trees/min_heap.py:MinHeap", "extra/trees/max_heap.py:MaxHeap"]}
{"id": "C36", "title": "Repeatedly removing the minimum of a MinHeap sorts", "statement": "Reading get_min and calling remove_min until empty yields the sorted list of the inserted values.", "quantifier": "all input lists", "why_tests_cant": "all permutations of all sizes", "anchors": ["extra/trees/min_heap.py:MinHeap.remove_min"]}
{"id": "C37", "title": "Removing an arbitrary value from a heap keeps heap order", "statement": "remove(x) removes one occurrence of x and keeps the heap-order property, so get_min/get_max stay correct.", "quantifier": "all heaps, all values", "why_tests_cant": "needs the last leaf to be in another branch", "anchors": ["extra/trees/_heap.py:Heap.remove", "extra/trees/_heap.py:Heap.__rebalance"]}
{"id": "C38", "title": "Iterating a heap yields its array order", "statement": "list(heap) equals heap.to_list() for every heap, including the empty one.", "quantifier": "all heaps", "why_tests_cant": "all sizes", "anchors": ["extra/trees/_heap.py:Heap.__iter__", "extra/trees/_heap.py:Heap._transform"]}
{"id": "C39", "title": "Trie implements a set of words", "statement": "For every history of insert/remove, w in t iff w was inserted and not removed since, has_prefix(p) iff p is empty or a prefix of a stored word, auto_complete(p) lists exactly the stored words starting with p, each once, and len counts the root plus the distinct non-empty prefixes.", "quantifier": "all histories, all strings", "why_tests_cant": "all words and histories", "anchors": ["extra/trees/trie.py:Trie"]}
{"id": "C40", "title": "Trie operations never fail on ordinary strings", "statement": "No history of insert/remove/in/has_prefix/auto_complete with non-blank strings raises.", "quantifier": "all histories, all strings", "why_tests_cant": "depends on a particular character and on removing the last word", "anchors": ["extra/trees/trie.py:Trie._follow_path", "extra/trees/trie.py:Trie.remove"]}
{"id": "C41", "title": "RadixTrie implements a set of words", "statement": "Same as C39 (without the node count) for RadixTrie.", "quantifier": "all histories, all strings", "why_tests_cant": "edge splitting depends on the overlap of words", "anchors": ["extra/trees/radix_trie.py:RadixTrie"]}
{"id": "C42", "title": "SuffixTrie substring search and counting are exact", "statement": "has_substring(p) iff p occurs in the word; count_pattern_occurrences(p) is the number of positions where p occurs (overlaps included).", "quantifier": "all words, all patterns", "why_tests_cant": "all (word, pattern) pairs", "anchors": ["extra/trees/suffix_trie.py:SuffixTrie.has_substring", "extra/trees/suffix_trie.py:SuffixTrie.count_pattern_occurrences"]}
{"id": "C43", "title": "to_suffix_array is the suffix array", "statement": "to_suffix_array() is the permutation of 0..n ordering the suffixes (including the empty one) lexicographically.", "quantifier": "all words", "why_tests_cant": "all words", "anchors": ["extra/trees/suffix_trie.py:SuffixTrie.to_suffix_array"]}
{"id": "C44", "title": "get_longest_repeated_substring returns the longest repeated substrings", "statement": "Every returned string occurs at least twice and no longer substring does; all such strings are returned.", "quantifier": "all words", "why_tests_cant": "all words", "anchors": ["extra/trees/suffix_trie.py:SuffixTrie.get_longest_common_substring"]}
{"id": "C45", "title": "get_lowest_common_ancestor(i,j) is the longest common prefix of the two suffixes", "statement": "For i != j the result is the longest common prefix of the suffixes starting at i and j.", "quantifier": "all words, all index pairs in range", "why_tests_cant": "all (word,i,j)", "anchors": ["extra/trees/suffix_trie.py:SuffixTrie.get_lowest_common_ancestor"]}
{"id": "C46", "title": "BinaryTree.parse builds the described tree", "statement": "parse(lst) returns exactly the tree the nested list/tuple [value, left, right] describes (missing parts are missing children, a bare value is a leaf) and rejects every other literal with TypeError or ValueError; every tree in which no node has only a right child is the parse of some literal.", "quantifier": "all nested lists and tuples, all values", "why_tests_cant": "infinitely many nested shapes", "anchors": ["extra/trees/binary_tree.py:BinaryTree.parse", "extra/trees/binary_tree.py:BinaryTree.__create_subtree"]}
{"id": "C47", "title": "A Treap's shape does not depend on its history", "statement": "Two treaps whose values carry the same, pairwise different priorities are the same tree, whatever insertions and removals (in whatever order) led to them.", "quantifier": "all pairs of histories of insert/remove with priorities above -1 (any priorities when there are no removals)", "why_tests_cant": "relates every pair of histories", "anchors": ["extra/trees/treap.py:Treap.insert", "extra/trees/treap.py:Treap.remove"]}
{"id": "C48", "title": "RedBlackTree.get_black_height is the common black height", "statement": "get_black_height() is the number of black nodes on every way from the root down to a missing child, not counting the root and counting the missing child.", "quantifier": "all histories of insertions, all non-empty trees", "why_tests_cant": "every path of every tree", "anchors": ["extra/trees/red_black_tree.py:RedBlackTree.get_black_height"]}
{"id": "C49", "title": "SkipList(other) is an independent copy", "statement": "SkipList(other) starts with the elements of other, and afterwards neither list is affected by calls on the other one.", "quantifier": "all histories before the copy, all interleavings of calls on the two lists afterwards", "why_tests_cant": "every interleaving", "anchors": ["extra/lists/skip_list.py:SkipList.__init__"]}
{"id": "C50", "title": "SuffixTrie(w) exists for every word and has one leaf per suffix", "statement": "SuffixTrie(w) succeeds for every non-empty string, every other argument is refused with TypeError or ValueError, and count_leaf_nodes() is then len(w)+1.", "quantifier": "all arguments, all words", "why_tests_cant": "every word", "anchors": ["extra/trees/suffix_trie.py:SuffixTrie.__init__", "extra/trees/suffix_trie.py:SuffixTrie.count_leaf_nodes"]}
{"id": "C51", "title": "Building a search tree or skip list from an iterable", "statement": "BST, AVL, SplayTree, Treap and RedBlackTree built from an iterable of numbers (SkipList: numbers other than -inf, see C18) hold exactly the set of those numbers: iteration in order sorts and removes duplicates, the result does not depend on the order of the items, the class or the random draws, and later calls answer as that set. The first item that is not a number raises ValueError (None) or TypeError.", "quantifier": "all iterables, all draws, all later histories without removals", "why_tests_cant": "every permutation and every outcome of the draws", "anchors": ["extra/trees/bst.py:BST.__init__", "extra/trees/avl.py:AVL.__init__", "extra/trees/splay_tree.py:SplayTree.__init__", "extra/trees/treap.py:Treap.__init__", "extra/trees/red_black_tree.py:RedBlackTree.__init__", "extra/lists/skip_list.py:SkipList.__init__"]}
{"id": "C52", "title": "The structural queries of Trie and RadixTrie describe the stored words", "statement": "count_leaf_nodes() is the number of stored words that begin no other stored word; get_depth() is 0; in a Trie get_height() is the length of the longest word and level d of get_nodes_per_level() lists the last characters of the prefixes of length d+1, once per prefix; in a RadixTrie the nodes spell, level by level, different prefixes of words, all the words among them; to_list() is the levels one after the other and get_height() their number.", "quantifier": "all histories of insert, remove and clear", "why_tests_cant": "every history", "anchors": ["extra/trees/trie.py:Trie.count_leaf_nodes", "extra/trees/trie.py:Trie.get_height", "extra/trees/trie.py:Trie.get_depth", "extra/trees/trie.py:Trie.get_nodes_per_level", "extra/trees/trie.py:Trie.to_list", "extra/trees/radix_trie.py:RadixTrie"]}
{"id": "C53", "title": "RadixTrie and SuffixTrie are compressed", "statement": "The nodes of a RadixTrie, apart from the root, are exactly the stored words and the points where two stored words part, so there are fewer than twice as many as words; a SuffixTrie of a word of n characters has at most 2n+2 nodes.", "quantifier": "all histories, all words", "why_tests_cant": "a bound on every trie", "anchors": ["extra/trees/radix_trie.py:RadixTrie.insert", "extra/trees/radix_trie.py:RadixTrie.remove", "extra/trees/suffix_trie.py:SuffixTrie.__init__"]}
{"id": "C54", "title": "A Tree prints one line per node, and the printout determines the tree", "statement": "The printed form of a Tree is the lines of its nodes in preorder; each line shows, for every ancestor, whether younger siblings are still to come, whether the node is its parent's last child, whether it has children, and its text. Two trees that print alike have the same shape and the same texts.", "quantifier": "all trees of all shapes and all texts", "why_tests_cant": "every pair of trees", "anchors": ["extra/trees/tree.py:Tree.__repr__", "extra/trees/tree.py:Tree._Tree__print_subtree", "extra/trees/tree.py:TreeNode.__init__"]}
{"id": "C55", "title": "The structural queries of the search trees describe the current tree", "statement": "On BST, AVL, SplayTree, Treap and RedBlackTree get_nodes_per_level(), count_leaf_nodes(), get_height(), is_perfect(), is_strict(), is_balanced() and the traversals describe the one tree the calls so far have built: levels from left to right, leaves, longest path, every level filled, every node with no or two children, depths of subtrees within one, the four visiting orders.", "quantifier": "all histories that leave a tree (all without removals, all of BST), all five classes", "why_tests_cant": "every history", "anchors": ["extra/trees/bst.py:BST", "extra/trees/avl.py:AVL.is_balanced", "extra/trees/avl.py:AVL.get_height", "extra/trees/binary_tree.py:BinaryTree"]}
{"id": "C56", "title": "Tree.from_path mirrors the directory", "statement": "For a path that exists, in whatever way it is written, from_path(path) returns a tree with one node for every file and directory below: the root carries the last name of the absolute path, a directory has one child per entry, ordered by name, a file is a leaf. Other paths raise ValueError, other objects TypeError.", "quantifier": "all directory trees, all current directories, all path strings", "why_tests_cant": "every directory tree and every spelling of a path", "anchors": ["extra/trees/tree.py:Tree.from_path", "extra/trees/tree.py:Tree._Tree__form_tree_from_path"]}
{"id": "C57", "title": "A linked list prints as the picture of its elements, and the printout determines them", "statement": "In every program the printout of a LinkedList, DoublyLinkedList or CircularLinkedList is one box per element, in order, around the element's text (with the arrow back to the first element for circular lists). The lines of the picture are equally long, and two lists of a class that print alike have the same number of elements and the same texts, whatever characters these contain.", "quantifier": "all histories of list calls, all texts", "why_tests_cant": "every history and every pair of printouts", "anchors": ["extra/lists/linked_list.py:LinkedList.__repr__", "extra/lists/linked_list.py:LinkedList._print_linked_list", "extra/lists/doubly_linked_list.py:DoublyLinkedList._print_node", "extra/lists/circular_linked_list.py:CircularLinkedList.__repr__"]}
{"id": "C58", "title": "Stacks and queues print as the picture of what they hold", "statement": "After every history the printout of a Stack, Queue, Deque or PriorityQueue shows one box per held element, in order, around its text (with its priority under SHOW_PRIORITY), the three lines are equally long, and the printout determines the texts.", "quantifier": "all capacities, all histories of calls, all texts", "why_tests_cant": "every history", "anchors": ["extra/lists/stack.py:Stack.__repr__", "extra/lists/queue.py:Queue._print_queue", "extra/lists/deque.py:Deque.__repr__", "extra/lists/priority_queue.py:PriorityQueue.__repr__"]}
{"id": "C59", "title": "A binary tree prints as a drawing of its levels, and the drawing determines the tree", "statement": "Printing a BinaryTree, a heap or a search tree whose values have texts without white space and underscores (such as numbers): the rows of the drawing show, level by level, the texts of the nodes from left to right; every node stands to the right of all nodes before it in order, with a column between; and two trees that print alike have the same shape and texts (red-black trees also the same colours, heaps the same array).", "quantifier": "all binary trees, all heaps, all five search trees after every history that leaves a tree, all such texts", "why_tests_cant": "every pair of trees", "anchors": ["extra/trees/binary_tree.py:BinaryTree.__repr__", "extra/trees/binary_tree.py:BinaryTree._print_subtree", "extra/trees/_heap.py:Heap.__repr__", "extra/trees/red_black_tree.py:RedBlackNode._represent", "extra/trees/treap.py:TreapNode._represent"]}
{"id": "C60", "title": "A trie prints as the tree of its words, and the printout determines them", "statement": "After every history the printout of a Trie or RadixTrie is '--' if it holds no word, and otherwise one line per node, in preorder, of a tree under ROOT in which the nodes with a check mark spell exactly the words of the trie, every leaf has a check mark, and no two siblings begin alike. Two tries of a class that print alike hold the same words.", "quantifier": "all histories of insert, remove and clear with arbitrary arguments", "why_tests_cant": "every history and every pair of printouts", "anchors": ["extra/trees/trie.py:TrieNode._represent", "extra/trees/trie.py:Trie.__repr__", "extra/trees/radix_trie.py:RadixTrie.__repr__", "extra/trees/tree.py:Tree.__repr__", "extra/trees/tree.py:Tree._print_subtree"]}
{"id": "C61", "title": "A suffix trie prints and lists the compressed tree of its suffixes", "statement": "The printout of SuffixTrie(word) is the compressed tree whose leaves spell 'suffix$ \u27f6 position' for every suffix, and it determines the word; iterating over the trie gives, level by level, the data of the compressed tree of the suffixes, each followed by '$'.", "quantifier": "all words", "why_tests_cant": "every word", "anchors": ["extra/trees/suffix_trie.py:SuffixTrie.__repr__", "extra/trees/suffix_trie.py:SuffixTrie.__iter__", "extra/trees/suffix_trie.py:SuffixTrie.to_list"]}
{"id": "C62", "title": "A SkipList prints as its elements and towers, and the printout determines them", "statement": "After every history that does not mention -inf (see C18), whatever the coins, the printout of a SkipList shows a column for the start of the list (marked -\u221e) and one per element in increasing order; a column has a box with the element's text on each of its levels, arrows pass above it, and all lines are equally long. Printing changes nothing, and two skip lists that print alike hold the same numbers in the same towers.", "quantifier": "all histories of calls without -inf and all coin flips; all texts without newline and box lines for the last part", "why_tests_cant": "every history and every pair of printouts", "anchors": ["extra/lists/skip_list.py:SkipList.__repr__", "extra/lists/skip_list.py:SkipNode._represent"]}
{"id": "C63", "title": "The list a heap's to_list() returns is the program's own", "statement": "The list returned by to_list() of a MinHeap or MaxHeap is a snapshot: later calls on the heap do not change it, and changing the list does not change the heap.", "quantifier": "all programs that mix calls on a heap with reads, appends and item assignments on the lists it returned", "why_tests_cant": "every interleaving of calls on the heap and operations on any number of returned lists", "anchors": ["extra/trees/_heap.py:Heap.to_list", "extra/trees/_heap.py:Heap.clear"]}
{"id": "C64", "title": "Looping over a linked list while the program goes on", "statement": "for v in l (or iter/next) on a LinkedList, DoublyLinkedList or CircularLinkedList gives the elements in order, each once, and then stops, whatever else happens between two steps (nested loops, reads, changes to other lists); if the list itself is changed during the loop, the loop goes on as over a Python list with the same content.", "quantifier": "all programs that interleave calls on any number of lists, iter() and next() on any number of iterators", "why_tests_cant": "every interleaving of iterators and updates", "anchors": ["extra/lists/linked_list.py:LinkedList.__iter__"]}
{"id": "C65", "title": "Looping over a search tree while the program goes on", "statement": "for v in t (or iter/next) on a BST, AVLTree, SplayTree, Treap or RedBlackTree gives the values level by level from left to right, each once, and then stops, whatever else happens between two steps (nested loops, lookups, other reads, clear); if values are inserted or removed during the loop, every value that is in the tree the whole time is still given exactly once and the loop ends.", "quantifier": "all programs that interleave calls on a tree, iter() and next() on any number of iterators, and all trees at the start of the loop", "why_tests_cant": "every interleaving of iterators, lookups and updates", "anchors": ["extra/trees/tree.py:Tree.__iter__", "extra/trees/splay_tree.py:SplayTree.__contains__"]}
{"id": "C66", "title": "Looping over a heap while the program goes on", "statement": "for v in h (or iter/next) on a MinHeap or MaxHeap gives exactly what to_list() would have given at the first step of the loop, and then stops, whatever is done to the heap between two steps (insertions, removals and clear included); the iterators never disturb the calls. (On a heap that is empty at the first step the loop raises AssertionError, see C38.)", "quantifier": "all programs that interleave calls on a heap, iter() and next() on any number of iterators", "why_tests_cant": "every interleaving of iterators and updates", "anchors": ["extra/trees/_heap.py:Heap.__iter__", "extra/trees/_heap.py:Heap._transform"]}
{"id": "C67", "title": "Looping over a trie while the program goes on", "statement": "For any program that interleaves insertions, removals, clear(), look-ups and any number of iterators over one Trie or RadixTrie: iterators change nothing a call observes; while nothing is inserted or removed, a loop gives exactly what to_list() gave at its first step; and when words come and go during a loop, it does not raise, repeats no path, goes from short to long paths, gives only paths that began a stored word at some time during the loop, and before it stops gives every path that began a stored word all the time (RadixTrie: at least every word stored all the time begins with a given string).", "quantifier": "every program over one trie (any calls, any number of suspended iterators, any interleaving)", "why_tests_cant": "An update may fall between any two steps of a loop and touch any node that the loop holds, so the schedules cannot be enumerated.", "anchors": ["extra/trees/trie.py:Trie.__iter__", "extra/trees/radix_trie.py:RadixTrie.__iter__"]}
{"id": "C68", "title": "The work of a SplayTree is logarithmic on average", "statement": "Over any history of insertions, look-ups and removals on a SplayTree that never holds more than n elements, the number of nodes the calls go through is at most a constant times log2(n+1) per call on average, however unbalanced the tree gets in between and whatever the order of the calls.", "quantifier": "every history of calls (any length, any values), every bound n on the number of elements", "why_tests_cant": "The bound is about sums over arbitrarily long histories; single calls may cost n, and only a potential argument over all histories shows that they cannot do so often.", "anchors": ["extra/trees/splay_tree.py:SplayTree.__contains__", "extra/trees/splay_tree.py:SplayTree.insert", "extra/trees/splay_tree.py:SplayTree.remove", "extra/trees/bst.py:BST._search", "extra/trees/bst.py:BST._transplant"]}
{"id": "C69", "title": "Several SkipLists and loops over them in one program", "statement": "In any program that makes SkipLists, calls anything on them, and starts and resumes any number of loops over them in any order: each SkipList answers as if it were the only one and nobody looped over it, and a loop (for v in s, or iter/next) gives exactly what to_list() would have given at its first step, in increasing order, and then stops, whatever is inserted, removed or cleared between two steps. Nothing raises that should not. (-inf apart, see C18; SkipList(other) apart, see C49.)", "quantifier": "all programs that interleave SkipList(), calls on any SkipList with any coins, iter() and next() on any number of iterators", "why_tests_cant": "every interleaving of updates, coin flips and loop steps", "anchors": ["extra/lists/skip_list.py:SkipList.__iter__", "extra/lists/skip_list.py:SkipList.insert", "extra/lists/skip_list.py:SkipList.remove", "extra/lists/skip_list.py:SkipList.clear", "extra/lists/linked_list.py:LinkedList.__getitem__", "extra/lists/linked_list.py:LinkedList.__iter__"]}
{"id": "C70", "title": "Search trees within Python's recursion limit", "statement": "The search trees look values up, insert and walk recursively, so every call needs as many nested Python calls as the branch it follows (or the whole tree) is deep. Called with room for at least as many nested calls as the tree has levels, every method answers exactly as with an unlimited stack; an AVL tree of n values needs room for only about 2 log2 n; and a call that runs out of room raises RecursionError and leaves the tree as it was, so that the tree is still a correct set afterwards.", "quantifier": "every class of search tree, every history, every limit on the depth of the stack (the limit may differ from call to call)", "why_tests_cant": "The limit may strike at any depth of any recursion, in any tree; which depths are reached depends on the whole history.", "anchors": ["extra/trees/bst.py:BST._search", "extra/trees/bst.py:BST._insert_node", "extra/trees/bst.py:BST._transplant", "extra/trees/bst.py:BST._remove_node", "extra/trees/splay_tree.py:SplayTree.remove", "extra/trees/avl.py:AVL.insert", "extra/trees/binary_tree.py:BinaryTree.inorder_traverse"]}
{"id": "C71", "title": "A Treap is shallow on average", "statement": "A Treap whose values are inserted without priorities draws random.randint(0, 100) for each. Whatever values are inserted and removed in whatever order, the number of nodes that x in t (or insert, or remove) goes through is, averaged over all outcomes of the draws, at most a constant times log2 n, where n is the number of values in the treap.", "quantifier": "every history of calls without given priorities (any length, any values), every x, averaged over all 101^k equally likely outcomes of the k draws", "why_tests_cant": "The claim is an average over exponentially many outcomes, for histories of any length.", "anchors": ["extra/trees/treap.py:TreapNode.__init__", "extra/trees/treap.py:Treap.insert", "extra/trees/treap.py:Treap.remove", "extra/trees/bst.py:BST._search"]}
{"id": "C72", "title": "The work of a SkipList is logarithmic on average", "statement": "With fair coins, x in s, s.insert(x) and s.remove(x) search through an expected number of nodes that is at most a constant times log2 n, where n is the number of elements, whatever was inserted and removed before in whatever order; the expected height is log2 n up to a constant, and there is one promotion per element on average.", "quantifier": "every history of calls (any length, any numbers except -inf), every x; expected values over all coin flips (unboundedly many heads are possible)", "why_tests_cant": "The claim is about expected values over infinitely many outcomes, for histories of any length.", "anchors": ["extra/lists/skip_list.py:search_sorted", "extra/lists/skip_list.py:SkipList._search", "extra/lists/skip_list.py:SkipList.insert", "extra/lists/skip_list.py:SkipList.remove", "extra/lists/skip_list.py:flip_coin"]}
{"id": "C73", "title": "The work of the heaps is logarithmic at the root and heapify is linear", "statement": "On a MinHeap or MaxHeap of n numbers, insert compares at most log2(n+1) pairs of numbers and removing the minimum of a MinHeap (the maximum of a MaxHeap) at most 1 + 2 log2 n, so a priority queue with n insertions needs a constant times log2 n comparisons per call whatever the order of the calls; get_min of a MinHeap, get_max of a MaxHeap, len and is_empty compare nothing; in, remove(value) and the calls for the other end are linear. heapify needs a constant times n comparisons, as its documentation says.", "quantifier": "every heap content (any length, in heap order or not), every call, every history, every iterable of numbers", "why_tests_cant": "The bounds are about heaps of every size and histories of every length; a test measures a few sizes.", "anchors": ["extra/trees/_heap.py:Heap.insert", "extra/trees/_heap.py:Heap.remove", "extra/trees/_heap.py:Heap.heapify", "extra/trees/min_heap.py:MinHeap.remove_min", "extra/trees/max_heap.py:MaxHeap.remove_max", "extra/trees/min_heap.py:MinHeap.get_max"]}
{"id": "C74", "title": "How far the calls on linked lists walk", "statement": "On a LinkedList, DoublyLinkedList or CircularLinkedList of n elements, reading, replacing, removing or inserting at index k goes from node to node exactly as often as documented: k times in a LinkedList, k mod n times in a circular list (k mod (n+1) for insert), and in a DoublyLinkedList k or n-k times, whichever end is nearer; adding and removing at the front goes nowhere, at the end of a DoublyLinkedList at most one step; extend takes n steps (LinkedList), none (DoublyLinkedList), n-1+m (circular list); a slice goes from the head to the last place that it selects. split and the rotations of DoublyLinkedList and CircularLinkedList take O(min(k, n/2)) or O(k mod n) steps, as their documentation says.", "quantifier": "every list state of every class and length, every index, every value", "why_tests_cant": "The bounds are about lists of every length and indices of every size; a test measures a few.", "anchors": ["extra/lists/linked_list.py:LinkedList._get_node", "extra/lists/doubly_linked_list.py:DoublyLinkedList._get_node", "extra/lists/linked_list.py:LinkedList.split", "extra/lists/doubly_linked_list.py:DoublyLinkedList.split", "extra/lists/doubly_linked_list.py:DoublyLinkedList.rotate_left", "extra/lists/circular_linked_list.py:CircularLinkedList.split", "extra/lists/circular_linked_list.py:CircularLinkedList.extend"]}
{"id": "C75", "title": "Queues work in constant time", "statement": "After any history of calls, enqueue, dequeue, top, clear, len, is_empty and is_full of a Queue, and the corresponding calls at both ends of a Deque, pass at most one node however many elements there are, also when a full object drops an element; so do those of a PriorityQueue, whose dequeue is documented to take constant time too.", "quantifier": "every history of calls on one object, every capacity, every call after it", "why_tests_cant": "The claim is that no history makes a call slow.", "anchors": ["extra/lists/queue.py:Queue.enqueue", "extra/lists/queue.py:Queue.dequeue", "extra/lists/deque.py:Deque.append_right", "extra/lists/deque.py:Deque.pop_left", "extra/lists/priority_queue.py:PriorityQueue.dequeue", "extra/lists/priority_queue.py:PriorityQueue.enqueue"]}
{"id": "C76", "title": "A BST is shallow on average", "statement": "Insert n distinct numbers into a new BST. Averaged over all n! orders of insertion, the number of nodes that x in t goes through is at most 2 log2 n + 2 for every x, and all the insertions together go through at most n (2 log2 n + 1) nodes; a node is on the way to x exactly when its value was inserted before all other values between it and x. In increasing order they go through n (n-1) / 2.", "quantifier": "every set of distinct numbers (infinities included) of every size, every x, averaged over all orders of insertion", "why_tests_cant": "The claim is an average over n! orders, for every n.", "anchors": ["extra/trees/bst.py:BST.insert", "extra/trees/bst.py:BST._insert_node", "extra/trees/bst.py:BST._insert_value", "extra/trees/bst.py:BST._search"]}
{"id": "C77", "title": "A RedBlackTree is shallow", "statement": "A RedBlackTree of n values has, as its documentation guarantees, a height of O(log n): x in t and t.insert(x) go through at most a constant times log2(n+1) nodes, whatever values were inserted in whatever order.", "quantifier": "every history of insertions of every length, every x", "why_tests_cant": "The claim is asymptotic: no finite set of trees settles it, and the trees that break it come from long, special orders of insertion.", "anchors": ["extra/trees/red_black_tree.py:RedBlackTree.insert", "extra/trees/red_black_tree.py:RedBlackTree.__recolor", "extra/trees/red_black_tree.py:RedBlackTree.__recolor_case3", "extra/trees/bst.py:BST._search"]}
{"id": "C78", "title": "Building a search tree takes linear time", "statement": "BST(iterable), AVL(iterable), RedBlackTree(iterable), SplayTree(iterable) and Treap(iterable) take time O(n) for n values, as documented: while the tree is built, the insertions together meet at most a constant times n nodes (for Treap at least on average over the random priorities).", "quantifier": "every iterable of every length, for five classes, and all outcomes of the random priorities", "why_tests_cant": "The claim is asymptotic: no finite set of iterables settles it.", "anchors": ["extra/trees/bst.py:BST.__init__", "extra/trees/avl.py:AVL.__init__", "extra/trees/red_black_tree.py:RedBlackTree.__init__", "extra/trees/treap.py:Treap.__init__", "extra/trees/splay_tree.py:SplayTree.__init__"]}
{"id": "C79", "title": "The work of Trie and RadixTrie depends on the argument alone", "statement": "For an argument of m characters, w in t, has_prefix(w), insert(w), remove(w) and auto_complete(w) of a Trie and of a RadixTrie go through O(m) rounds of their loops, as documented, whatever the trie holds.", "quantifier": "every trie of both classes reached by any history and every string", "why_tests_cant": "The claim is asymptotic and ranges over all histories: no finite set of tries settles it.", "anchors": ["extra/trees/trie.py:Trie._follow_path", "extra/trees/trie.py:Trie.insert", "extra/trees/trie.py:Trie.remove", "extra/trees/trie.py:Trie.auto_complete", "extra/trees/trie.py:Trie._get_candidates", "extra/trees/radix_trie.py:RadixTrie._insert", "extra/trees/radix_trie.py:RadixTrie.auto_complete", "docs/source/_files/trees/trie.csv", "docs/source/_files/trees/radix_trie.csv"]}
{"id": "C80", "title": "The work of looking at a whole tree is as documented", "statement": "For a Tree or BinaryTree with n nodes, len(t), get_height(), count_leaf_nodes(), is_balanced(), is_strict(), v in t and the recursive traversals do O(n) work, get_depth() does O(1), invert() does O(log(n)), and get_height() of a RedBlackTree of height h does O(h), as documented.", "quantifier": "every tree of every size and shape", "why_tests_cant": "The claims are asymptotic and range over all shapes: no finite set of trees settles them.", "anchors": ["extra/trees/tree.py:Tree.get_height", "extra/trees/tree.py:Tree.get_depth", "extra/trees/tree.py:Tree.__contains__", "extra/trees/tree.py:Tree.count_leaf_nodes", "extra/trees/binary_tree.py:BinaryTree.invert", "extra/trees/binary_tree.py:BinaryTree.preorder_traverse", "extra/trees/binary_tree.py:BinaryTree.is_balanced", "extra/trees/binary_tree.py:BinaryTree.is_strict", "docs/source/_files/trees/tree.csv", "docs/source/_files/trees/binary_tree.csv", "docs/source/_files/trees/red_black_tree.csv"]}
{"id": "C81", "title": "The work of a SuffixTrie is as documented", "statement": "Building a SuffixTrie of n characters takes O(n^2) rounds of its loops, has_substring and count_pattern_occurrences take O(m) for a pattern of m characters, and get_lowest_common_ancestor no more than the two suffixes are long.", "quantifier": "every word, every pattern, every pair of positions", "why_tests_cant": "a limit must hold for words and patterns of every length; running times vary between machines and runs", "anchors": ["extra/trees/suffix_trie.py: SuffixTrie.__init__, has_substring, count_pattern_occurrences, get_lowest_common_ancestor", "extra/trees/tree.py: Tree._count_leaf_nodes", "docs/source/_files/trees/suffix_trie.csv"]}
{"id": "C82", "title": "Scanning a linked list looks at no more elements than documented", "statement": "to_list, count, copy, reverse and remove(value) look at each of the n elements of a linked list once, `in` and remove(value, all=False) at those up to the first occurrence of the value, and the six comparisons of lists of n and m elements at no more than min(n, m) pairs.", "quantifier": "every list of each of the three classes, every value, every pair of lists", "why_tests_cant": "a limit must hold for lists of every length; running times vary between machines and runs", "anchors": ["extra/lists/linked_list.py: LinkedList.to_list, count, copy, reverse, remove, __contains__, _compare, __eq__, __ne__, __lt__, __le__, __gt__, __ge__", "extra/lists/circular_linked_list.py: CircularLinkedList.__contains__", "docs/source/_files/lists/linked_list.csv", "docs/source/_files/lists/doubly_linked_list.csv", "docs/source/_files/lists/circular_linked_list.csv"]}
{"id": "C83", "title": "The calls on a BST or AVL tree that follow one branch visit no more nodes than documented", "statement": "contains, get_min, get_max, insert and remove are documented as O(h). On a tree with h levels, of any shape, contains, get_min, get_max and the insert of a BST visit no more than h nodes, and the remove of a BST no more than h + 2. The insert and remove of an AVL tree that was height-balanced before every call, which also walk back up, visit no more than 2h and 2h + 2, so that every call is within 4 log2(n+1) + 4 nodes for n elements.", "quantifier": "every tree state, every number, every history of calls on an AVL tree that was height-balanced before each call", "why_tests_cant": "a limit must hold for trees of every size and shape; running times vary between machines and runs", "anchors": ["extra/trees/bst.py: BST.__contains__, get_min, get_max, insert, remove, _search, _insert_node, _find_replacement, _transplant", "extra/trees/avl.py: AVL._insert, AVL._remove", "docs/source/_files/trees/bst.csv", "docs/source/_files/trees/avl.csv"]}
{"id": "C84", "title": "Which comparisons of lists raise TypeError", "statement": "The documentation says that a comparison raises TypeError if the other operand is not a LinkedList or if elements do not match in type, and answers otherwise. For lists of one class, <, <=, > and >= raise TypeError exactly when two different elements without an order are met before the comparison is decided, and nothing is changed by any comparison; lists of different classes, a LinkedList and its subclasses included, should compare by their elements.", "quantifier": "every pair of lists of the three classes after any history, each of the six operators, both orders of the operands", "why_tests_cant": "pairs of lists of every length and content, in each pair of classes", "anchors": ["extra/lists/linked_list.py: LinkedList._compare, __eq__, __ne__, __lt__, __le__, __gt__, __ge__", "extra/lists/doubly_linked_list.py: DoublyLinkedList.__eq__, __ne__, __lt__, __le__, __gt__, __ge__", "extra/lists/circular_linked_list.py: CircularLinkedList.__eq__, __ne__, __lt__, __le__, __gt__, __ge__"]}
{"id": "C85", "title": "Insertions into and removals from a treap or red-black tree visit O(h) nodes", "statement": "Inserting into a treap visits the nodes from the root to the place of the value and then, upwards, the nodes whose priority is not greater and the one that stops it; removing from a treap visits the nodes from the root to the value and then as many as there are on the right branch of its left subtree and the left branch of its right subtree. Inserting into a red-black tree visits the nodes down to the place and takes at most one round of recoloring for every level and one more. Removing from a valid red-black tree, whether it succeeds or raises an exception, visits the nodes down to the value and, if it is there, those on the two branches that end at the values next to it, and takes at most five more rounds. So each call takes at most twice the number of levels, plus 1 for an insertion into and 5 for a removal from a red-black tree, and both are O(log n) on a valid red-black tree of n elements.", "quantifier": "every value and priority; treaps after any insertions, or after any history with priorities above -1 (the removals only these); red-black trees after any insertions and removals made on a valid tree at a place the code can handle", "why_tests_cant": "trees of every size and shape that can be reached; a cost is a bound over all of them", "anchors": ["extra/trees/treap.py: Treap.insert, remove", "extra/trees/red_black_tree.py: RedBlackTree.insert, __recolor, __recolor_case3, _find_replacement, __handle_double_black, remove", "docs/source/_files/trees/treap.csv", "docs/source/_files/trees/red_black_tree.csv"]}
{"id": "C86", "title": "Calls on a splay tree visit at most twice the number of levels, searches and insertions O(log n) on average", "statement": "A search of a splay tree visits the nodes from the root to the value (or to the last node on the way to it), then moves that node to the root two levels at a time; an insertion does the same with the node of the value. The number of calls is exactly the number of nodes on the way plus half the nodes above the moved node, rounded up, and at least one; nothing is visited in an empty tree. A removal takes as many steps as in a plain search tree (C83) and then moves the node above the emptied place to the root in the same way. So a call takes at most twice the number of levels, plus 2 for a removal, and the searches and insertions in a history of m calls that never holds more than n elements take at most 8 m (log2(n + 1) + 1) together. All its calls together, removals included, take at most 2 m more and one more for each value that a removal moves up below the replacement.", "quantifier": "every value; every history of insertions, searches and other calls in which every removed value is one the code can replace", "why_tests_cant": "histories of every length and trees of every size and shape; a cost and an average over all of them", "anchors": ["extra/trees/splay_tree.py: SplayTree.__splaying, _splay, __contains__, insert, remove", "docs/source/_files/trees/splay_tree.csv"]}
