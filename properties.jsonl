{"id": "C01", "title": "Vector behaves as a list", "statement": "Starting from a new vector, any sequence of push, pop, insert, remove, reserve, clear, index assignment, swap, append, assign and the read accessors (len, capacity, is_empty, is_full, as_slice) returns exactly what the same sequence returns on a plain list with a capacity counter; nothing is lost, duplicated or reordered.", "quantifier": "every element type, every finite sequence of calls with every argument", "why_tests_cant": "tests fix short call sequences; reallocation can interact with any earlier history", "anchors": ["src/vector/mod.rs: Vector::{push,pop,insert,remove,reserve,clear,append,assign,as_slice,len,capacity,is_empty,is_full}"]}
{"id": "C02", "title": "Vector capacity law", "statement": "len() never exceeds capacity(); a push or insert on a full vector doubles the capacity (0 becomes 1); reserve(n) raises the capacity by exactly n; append/assign raise it exactly to the needed length when it is too small; clear resets it to 0; no other call changes it.", "quantifier": "every reachable vector and every call", "why_tests_cant": "a test sees a few capacities; the law is about all reachable ones", "anchors": ["src/vector/mod.rs: Vector::{reserve,calculate_grow_capacity,grow,append,assign,clear}"]}
{"id": "C03", "title": "Vector never touches memory it does not own", "statement": "With overflow checks on, or if no call names more than isize::MAX bytes, no sequence of calls on a vector of elements without destructors, and no sequence avoiding append/assign/clone for elements with destructors, ever reads uninitialised memory, accesses out of bounds, uses freed memory, frees twice or frees with a layout different from the allocation; each call either completes or panics.", "quantifier": "every element size and alignment, every call sequence, every heap around the vector", "why_tests_cant": "undefined behaviour is not observable by assertions; must hold on every path", "anchors": ["src/vector/mod.rs: Vector::*", "src/allocator.rs: Allocator::{allocate,deallocate}, DefaultAllocator"]}
{"id": "C04", "title": "Every element is owned exactly once", "statement": "At every moment the multiset of elements handed to a vector equals the elements it still holds plus those it returned plus those it dropped; after the vector is dropped nothing is held, and each element was returned or dropped exactly once.", "quantifier": "every call sequence of moving operations (push, pop, insert, remove, index assignment, reserve, clear) followed by drop", "why_tests_cant": "counting drops in one test says nothing about other histories", "anchors": ["src/vector/mod.rs: Vector::{push,pop,insert,remove,clear}, Drop for Vector"]}
{"id": "C05", "title": "Dropping a vector returns all its memory and disturbs nothing else", "statement": "No call on a vector changes any heap block other than its own buffer, and after drop the heap holds exactly the blocks it held before the vector existed.", "quantifier": "every heap, every call sequence", "why_tests_cant": "leaks and stray writes elsewhere are invisible to functional tests", "anchors": ["src/vector/mod.rs: Vector::{reserve,clear}, Drop for Vector"]}
{"id": "C06", "title": "Out-of-range insert and remove leave the vector unchanged", "statement": "insert(i, x) with i > len panics without changing contents, length, capacity or memory; remove(i) with i >= len returns None and changes nothing; pop on an empty vector returns None and changes nothing.", "quantifier": "every vector and every index", "why_tests_cant": "needs every length and every out-of-range index", "anchors": ["src/vector/mod.rs: Vector::{insert,remove,pop}"]}
{"id": "C07", "title": "Copying a vector gives an equal, independent vector", "statement": "clone / from a slice yields a vector holding the clones of the elements in order with capacity equal to the length, and no later call on one vector changes what the other returns.", "quantifier": "every slice, every vector, every later call sequence on either copy (elements without destructors)", "why_tests_cant": "independence ranges over all later histories", "anchors": ["src/vector/mod.rs: Clone for Vector, Vector::from_in, From<&[T]>"]}
{"id": "C08", "title": "append, assign and clone are safe for elements with destructors", "statement": "append, assign, clone and From<&[T]> never run a destructor on memory that does not hold a live element.", "quantifier": "every element type, vector and slice", "why_tests_cant": "the destructor runs on uninitialised memory, which usually looks harmless in a test", "anchors": ["src/vector/mod.rs: Vector::{append,assign}, Clone for Vector"]}
{"id": "C09", "title": "assign disposes of every replaced element", "statement": "After assign(buf) each element previously held has been dropped exactly once.", "quantifier": "every vector and slice", "why_tests_cant": "a leak of the old tail is not observable through the API", "anchors": ["src/vector/mod.rs: Vector::assign"]}
{"id": "C10", "title": "A consuming iterator hands out each element once, from either end", "statement": "Any interleaving of next and next_back on into_iter yields the elements in list order from the front and reverse order from the back, len() is always the number left, and dropping the iterator at any point drops exactly the elements not yet yielded and frees the buffer once with its full capacity.", "quantifier": "every vector, every interleaving, every stopping point", "why_tests_cant": "interleavings and stopping points are unbounded", "anchors": ["src/vector/into_iter.rs: IntoIter", "src/vector/mod.rs: IntoIterator for Vector"]}
{"id": "C11", "title": "The reported capacity is backed by allocated memory", "statement": "After any reserve/with_capacity that returns, the buffer really holds capacity() elements, for every requested amount (also near usize::MAX, also without overflow checks).", "quantifier": "every requested amount, every element size, both overflow-check modes", "why_tests_cant": "requests near the integer limits are not reachable in a test without allocating", "anchors": ["src/vector/mod.rs: Vector::reserve", "src/allocator.rs: Allocator::allocate"]}
{"id": "C12", "title": "append keeps the vector valid if cloning an element panics", "statement": "If the k-th clone inside append/assign panics, the vector that is later dropped by unwinding holds only initialised elements.", "quantifier": "every vector, slice, and every panic point k", "why_tests_cant": "crash points inside the clone loop", "anchors": ["src/vector/mod.rs: Vector::{append,assign}"]}
{"id": "C13", "title": "Collecting from arrays and iterators keeps every element in order", "statement": "Building a vector from an owned array or an iterator holds exactly the produced elements in order, whatever size_hint says, and its capacity is the hint when that is at least the count.", "quantifier": "every sequence of elements, every lower bound reported by size_hint", "why_tests_cant": "size hints may be wrong in unboundedly many ways", "anchors": ["src/vector/mod.rs: From<[T; N]>, FromIterator"]}
{"id": "C14", "title": "String edits act on the byte sequence", "statement": "push/insert put the low byte of the char at the position, pop/remove take out the byte at the position and return it as a char, out-of-range remove returns None, out-of-range insert panics, reserve does not change the contents.", "quantifier": "every string and every call sequence", "why_tests_cant": "unbounded histories", "anchors": ["src/string/mod.rs: String::{push,pop,insert,remove,reserve,assign,len,is_empty}"]}
{"id": "C15", "title": "Writers leave the string NUL-terminated", "statement": "After from, from_in, assign, push, insert, pop on an allocated string, and clone of a non-empty string, the byte after the last character is 0, so the buffer can be read as a C string.", "quantifier": "every prior string state (also one whose terminator was lost) and every argument", "why_tests_cant": "the byte past the end is not visible through the API", "anchors": ["src/string/mod.rs: String::{from_in,assign,push,insert,pop,null_terminate}", "src/string/null_terminator_allocator.rs"]}
{"id": "C16", "title": "A string is always NUL-terminated", "statement": "After every public operation (including remove, reserve and with_capacity) the byte after the last character is 0.", "quantifier": "every call sequence", "why_tests_cant": "the byte past the end is not visible through the API", "anchors": ["src/string/mod.rs: String::{remove,reserve,with_capacity}"]}
{"id": "C17", "title": "Writing the terminator stays inside the allocation", "statement": "No sequence of string calls, including the terminator writes, accesses memory out of bounds, and each buffer is freed with the size it was allocated with (one byte more than the capacity).", "quantifier": "every call sequence", "why_tests_cant": "off-by-one heap writes usually go unnoticed", "anchors": ["src/string/mod.rs: String::null_terminate", "src/string/null_terminator_allocator.rs: NullTerminatorAllocator"]}
{"id": "C18", "title": "assign replaces the contents", "statement": "After s.assign(t), s.as_str() equals t.", "quantifier": "every s and t", "why_tests_cant": "tests only assign into empty strings", "anchors": ["src/string/mod.rs: String::assign"]}
{"id": "C19", "title": "A pushed char comes back from pop", "statement": "push(c) followed by pop() returns Some(c) and restores the contents.", "quantifier": "every char and every string", "why_tests_cant": "there are 1.1M chars and unbounded strings", "anchors": ["src/string/mod.rs: String::{push,pop,insert}"]}
{"id": "C20", "title": "Contents are always valid UTF-8", "statement": "as_str() always exposes valid UTF-8.", "quantifier": "every call sequence with every char", "why_tests_cant": "invalid contents need specific chars or split code points", "anchors": ["src/string/mod.rs: String::{push,insert,pop,remove}, Deref for String"]}
{"id": "C21", "title": "Equal strings hash equally, and the hash is FNV-1 of the bytes", "statement": "Two strings compare equal exactly when their bytes are equal, then their hashes agree, and the hash is the 32-bit FNV-1 hash of the bytes regardless of capacity or history.", "quantifier": "all pairs of strings", "why_tests_cant": "all pairs of strings", "anchors": ["src/string/mod.rs: PartialEq, Hash<String>", "src/hash.rs: fnv1"]}
{"id": "C22", "title": "Integer hashing is total, injective and agrees with equality", "statement": "For each integer type of at most 64 bits the default hash equals the value taken modulo 2^64, so distinct values of one type have distinct hashes.", "quantifier": "every value of every integer type", "why_tests_cant": "2^64 values", "anchors": ["src/hash.rs: DefaultHash"]}
{"id": "C23", "title": "FNV-1 hashing is a 32-bit fold over the bytes", "statement": "The string hash is always below 2^32, depends only on the bytes, extends byte by byte, and appending different last bytes to the same string gives different hashes.", "quantifier": "every byte string", "why_tests_cant": "unbounded strings", "anchors": ["src/hash.rs: fnv1"]}
{"id": "C24", "title": "Float hashing agrees with float equality", "statement": "Two floats that compare equal (including +0 and -0) have the same hash.", "quantifier": "every pair of f32 / f64 values", "why_tests_cant": "2^128 pairs", "anchors": ["src/hash.rs: Hash<f32>, Hash<f64>"]}
{"id": "C25", "title": "VectorMap behaves as a map", "statement": "With a comparator that is a strict weak order agreeing with key equality, any sequence of insert, get, get_mut, contains, remove, remove_entry, entry, len, is_empty returns what a finite map returns.", "quantifier": "every key order, every call sequence", "why_tests_cant": "unbounded histories", "anchors": ["src/vector_map/mod.rs: VectorMap::{insert,get,get_mut,remove,remove_entry,entry,contains_key}"]}
{"id": "C26", "title": "VectorMap contents are always strictly sorted", "statement": "The exposed slice is strictly increasing in the comparator, hence without duplicate keys, after every call.", "quantifier": "every call sequence", "why_tests_cant": "an invariant of all reachable states", "anchors": ["src/vector_map/mod.rs: VectorMap::insert, VacantEntry::insert"]}
{"id": "C27", "title": "Binary search finds the partition point", "statement": "The search used by lookups returns the number of leading elements that compare less, for every sorted slice, in at most ceil(log2(n))+1 comparisons; it never reads outside the slice, sorted or not.", "quantifier": "every sorted slice, every key", "why_tests_cant": "unbounded slices", "anchors": ["src/vector_map/mod.rs: VectorMap::lower_bound", "superslice::lower_bound_by (external)"]}
{"id": "C28", "title": "VectorMap lookups need only a comparator", "statement": "Lookups, inserts and uniqueness work for any strict-weak-order comparator even when it is coarser than ==.", "quantifier": "every comparator", "why_tests_cant": "needs comparators disagreeing with ==", "anchors": ["src/vector_map/mod.rs: VectorMap::{get,insert}"]}
{"id": "C29", "title": "VectorMap entry API equals insert/get", "statement": "entry(k) is occupied, showing the stored key and value, exactly when get(k) is Some, and otherwise hands the key back; writing through the occupied entry or inserting through the vacant one leaves the same contents as insert(k, v).", "quantifier": "every map and key", "why_tests_cant": "unbounded maps", "anchors": ["src/vector_map/entry.rs", "src/vector_map/mod.rs: VectorMap::entry"]}
{"id": "C30", "title": "Building a VectorMap keeps the last value of each key", "statement": "From/collect over a list of pairs gives, for each key, the value of its last occurrence.", "quantifier": "every list of pairs", "why_tests_cant": "unbounded lists", "anchors": ["src/vector_map/mod.rs: From, FromIterator"]}
{"id": "C31", "title": "Deque behaves as a double-ended list", "statement": "Any sequence of push_back, push_front, pop_back, pop_front, front, back, len, is_empty, remove, clear-by-pop returns what a list returns.", "quantifier": "every element size class, every call sequence", "why_tests_cant": "pointer-array reallocation depends on the whole history", "anchors": ["src/deque/mod.rs: Deque::*"]}
{"id": "C32", "title": "Deque iteration visits every element in order from both ends", "statement": "iter/iter_mut yield exactly the elements in order; next_back yields reverse order; any interleaving meets in the middle without repeats.", "quantifier": "every deque, every interleaving", "why_tests_cant": "subarray boundaries vary", "anchors": ["src/deque/iter.rs: Iter, IterMut, RawIter"]}
{"id": "C33", "title": "Deque remove takes out exactly one element", "statement": "remove(i) for i < len returns the i-th element and keeps the order of the others; for i >= len it returns None and changes nothing.", "quantifier": "every deque and index", "why_tests_cant": "rotation crosses subarray boundaries", "anchors": ["src/deque/mod.rs: Deque::remove", "src/util.rs: rotate"]}
{"id": "C34", "title": "Deque never touches memory it does not own", "statement": "No call sequence causes out-of-bounds, uninitialised, dangling or mismatched-layout access, and pointer-array growth keeps every element at its address.", "quantifier": "every call sequence", "why_tests_cant": "UB is invisible to tests", "anchors": ["src/deque/mod.rs: Deque::{realloc_ptr_array,push_back,push_front,pop_back,pop_front}"]}
{"id": "C35", "title": "Dropping a deque drops each element once", "statement": "Each element pushed was returned or dropped exactly once.", "quantifier": "every history", "why_tests_cant": "unbounded histories", "anchors": ["src/deque/mod.rs: Drop for Deque"]}
{"id": "C36", "title": "Dropping a deque returns all its memory", "statement": "After drop the heap holds exactly the blocks it held before the deque was created.", "quantifier": "every history", "why_tests_cant": "leaks are invisible", "anchors": ["src/deque/mod.rs: Drop for Deque"]}
{"id": "C37", "title": "Deque iterators survive conversion to the C++ form", "statement": "from_compat(into_compat(it)) iterates over the same remaining elements.", "quantifier": "every iterator position", "why_tests_cant": "unbounded positions", "anchors": ["src/deque/iter.rs: into_compat, from_compat"]}
{"id": "C38", "title": "Queue is first-in first-out", "statement": "pop returns the elements in push order; top is the next to be popped; len counts those remaining.", "quantifier": "every call sequence", "why_tests_cant": "unbounded histories", "anchors": ["src/queue.rs: Queue"]}
{"id": "C39", "title": "HashMap behaves as a map", "statement": "With an equality that is an equivalence and a hash agreeing with it, any sequence of insert, get, get_mut, contains, remove, remove_entry, clear, len, is_empty returns what a finite map returns.", "quantifier": "every key type, hash function (also constant), call sequence", "why_tests_cant": "collisions, rehashes and histories are unbounded", "anchors": ["src/internal/hash_table/mod.rs: HashTable::*", "src/hash_map/mod.rs"]}
{"id": "C40", "title": "Hash iteration yields each entry exactly once", "statement": "iter, iter_mut, keys, values yield exactly the stored entries, each once.", "quantifier": "every reachable table", "why_tests_cant": "bucket shapes are unbounded", "anchors": ["src/internal/hash_table/iter.rs"]}
{"id": "C41", "title": "Rehashing preserves the entries", "statement": "When an insert grows the table no entry is lost, duplicated or changed, and each is found afterwards.", "quantifier": "every table state", "why_tests_cant": "depends on all collisions", "anchors": ["src/internal/hash_table/mod.rs: HashTable::rehash"]}
{"id": "C42", "title": "The bucket array always ends in the sentinel and the shared empty array is never written", "statement": "Every bucket array has bucket_count()+1 slots whose last is the all-ones sentinel that C++ iteration stops at, and the process-wide empty array is never modified.", "quantifier": "every reachable table", "why_tests_cant": "not observable via the API", "anchors": ["src/internal/hash_table/mod.rs: HashTable::{rehash,insert_impl}, EMPTY_BUCKET_ARR"]}
{"id": "C43", "title": "Entry API equals insert/get", "statement": "entry(k) is occupied exactly when the key is present; or_insert/or_insert_with/and_modify match the get/insert combination, including when inserting triggers a rehash.", "quantifier": "every table and key", "why_tests_cant": "rehash between lookup and insertion", "anchors": ["src/internal/hash_table/entry.rs"]}
{"id": "C44", "title": "At most one entry per bucket on average", "statement": "After every insert the number of entries is at most the number of buckets.", "quantifier": "every history", "why_tests_cant": "large counts hit f32 rounding", "anchors": ["src/internal/hash_table/rehash_policy.rs"]}
{"id": "C45", "title": "Bucket counts are primes", "statement": "Every bucket count chosen by the policy is a prime number from the table, and the table is sorted.", "quantifier": "every request", "why_tests_cant": "needs primality of 256 numbers and all requests", "anchors": ["src/internal/hash_table/rehash_policy.rs: PRIMES"]}
{"id": "C46", "title": "Growth is geometric", "statement": "Each rehash at least doubles the bucket count, so n inserts rehash at most log2(n)+1 times.", "quantifier": "every history", "why_tests_cant": "asymptotic", "anchors": ["src/internal/hash_table/rehash_policy.rs"]}
{"id": "C47", "title": "Growth never panics", "statement": "Inserting never panics because of the growth policy.", "quantifier": "every element count up to the u32 limit", "why_tests_cant": "billions of elements", "anchors": ["src/internal/hash_table/rehash_policy.rs"]}
{"id": "C48", "title": "Dropping a hash table drops each key and value once", "statement": "Keys and values inserted are returned or dropped exactly once; each node is freed once with its layout.", "quantifier": "every history", "why_tests_cant": "unbounded histories", "anchors": ["src/internal/hash_table/mod.rs: free_buckets, Drop"]}
{"id": "C49", "title": "Dropping a hash table returns all its memory", "statement": "After drop the heap holds exactly the blocks it held before the table.", "quantifier": "every history", "why_tests_cant": "leaks are invisible", "anchors": ["src/internal/hash_table/mod.rs: free_buckets, rehash"]}
{"id": "C50", "title": "HashSet::insert reports whether the key was added", "statement": "insert returns true exactly when the key was not present before.", "quantifier": "every set and key", "why_tests_cant": "documented contract vs all states", "anchors": ["src/hash_set/mod.rs: HashSet::insert"]}
{"id": "C51", "title": "HashSet behaves as a set", "statement": "contains, remove, len, is_empty, clear and iteration match a mathematical set under any call sequence.", "quantifier": "every history", "why_tests_cant": "unbounded", "anchors": ["src/hash_set/mod.rs"]}
{"id": "C52", "title": "Hash iterators survive conversion to the C++ form", "statement": "from_compat(into_compat(it)) yields the same remaining entries.", "quantifier": "every position in every table", "why_tests_cant": "unbounded", "anchors": ["src/internal/hash_table/iter.rs: into_compat, from_compat"]}
{"id": "C53", "title": "List behaves as a double-ended list", "statement": "Any sequence of push_back/front, pop_back/front, front, back, clear, len, is_empty, extend returns what a list returns.", "quantifier": "every history", "why_tests_cant": "unbounded", "anchors": ["src/list/mod.rs: List::*", "src/list/node.rs"]}
{"id": "C54", "title": "The list ring stays consistent", "statement": "Following next from the sentinel visits all elements in order and returns to the sentinel; following prev visits them in reverse; every next/prev pair is mutually inverse.", "quantifier": "every reachable list", "why_tests_cant": "invariant", "anchors": ["src/list/node.rs: ListNodeBase"]}
{"id": "C55", "title": "List iteration reports its exact size", "statement": "iter/iter_mut yield every element in order and size_hint is always the exact number left.", "quantifier": "every list and position", "why_tests_cant": "unbounded", "anchors": ["src/list/iter.rs"]}
{"id": "C56", "title": "List frees each node with the layout it was allocated with", "statement": "Every deallocation request passes the size and alignment of the allocation.", "quantifier": "every element type and list", "why_tests_cant": "allocators usually ignore the size", "anchors": ["src/list/mod.rs: List::{remove_node,clear}"]}
{"id": "C57", "title": "Dropping a list drops each element once and frees each node once", "statement": "Elements are returned or dropped exactly once; with an allocator that ignores sizes all nodes are returned.", "quantifier": "every history", "why_tests_cant": "unbounded", "anchors": ["src/list/mod.rs: Drop, clear"]}
{"id": "C58", "title": "Pool nodes are aligned, inside the buffer and never shared", "statement": "Every node handed out is aligned, lies entirely in the given memory and does not overlap any other live node.", "quantifier": "every memory region, node size, alignment, and every allocate/free history", "why_tests_cant": "addresses and histories unbounded", "anchors": ["src/fixed_pool/mod.rs: FixedPool::{init,allocate,deallocate}"]}
{"id": "C59", "title": "A pool hands out exactly its capacity and recycles freed nodes", "statement": "From a fresh pool exactly floor(usable/size) allocations succeed before null; a freed node is the next one handed out; can_allocate says whether the next allocation succeeds.", "quantifier": "every history", "why_tests_cant": "unbounded", "anchors": ["src/fixed_pool/mod.rs: FixedPool"]}
{"id": "C60", "title": "Overflowing pools return each block to where it came from", "statement": "A freed block goes back to the pool exactly when it came from the pool, otherwise to the overflow allocator.", "quantifier": "every placement of overflow blocks", "why_tests_cant": "depends on heap addresses", "anchors": ["src/fixed_pool/with_overflow.rs"]}
{"id": "C61", "title": "FixedList behaves as a list and uses its buffer first", "statement": "FixedList returns what a list returns; its nodes come from the inline buffer while a slot is free, so up to NODE_COUNT elements never touch the overflow allocator.", "quantifier": "every history", "why_tests_cant": "unbounded", "anchors": ["src/fixed_list/mod.rs"]}
{"id": "C62", "title": "FixedVector behaves as a vector", "statement": "A FixedVector returns what a list returns under any sequence of vector calls, never frees its inline buffer, and frees each overflow buffer once.", "quantifier": "every history", "why_tests_cant": "unbounded", "anchors": ["src/fixed_vector/mod.rs", "src/fixed_vector/allocator.rs"]}
{"id": "C63", "title": "has_overflowed tells whether elements live outside the buffer", "statement": "has_overflowed() is true exactly when the elements are stored in overflow memory.", "quantifier": "every history", "why_tests_cant": "unbounded", "anchors": ["src/fixed_vector/mod.rs: has_overflowed"]}
{"id": "C64", "title": "A cleared FixedVector reuses its inline buffer", "statement": "After clear, up to NODE_COUNT pushes need no allocation.", "quantifier": "every history", "why_tests_cant": "unbounded", "anchors": ["src/fixed_vector/mod.rs", "src/vector/mod.rs: Vector::clear"]}
{"id": "C65", "title": "Moving a FixedVector preserves its contents", "statement": "move_new gives a vector with the same elements, length and overflow status, owning the memory exactly once.", "quantifier": "every state", "why_tests_cant": "unbounded", "anchors": ["src/fixed_vector/mod.rs: move_new"]}
{"id": "C66", "title": "Map lookup finds exactly the stored keys", "statement": "On a well-formed tree get(k) returns the entry with an equivalent key if there is one and None otherwise; contains_key agrees.", "quantifier": "every well-formed tree and key", "why_tests_cant": "all tree shapes", "anchors": ["src/internal/rb_tree/mod.rs: find_in_tree", "src/map/mod.rs", "src/set/mod.rs"]}
{"id": "C67", "title": "Map iteration is in ascending key order and complete", "statement": "On a well-formed tree iteration yields every entry exactly once in order and then stops.", "quantifier": "every tree shape", "why_tests_cant": "all shapes incl. degenerate", "anchors": ["src/internal/rb_tree/iter.rs", "src/internal/rb_tree/node.rs: next"]}
{"id": "C68", "title": "Colour packing is lossless", "statement": "Setting colour or parent never disturbs the other, for every even address.", "quantifier": "every address", "why_tests_cant": "2^64 values", "anchors": ["src/internal/rb_tree/node.rs: ParentColor"]}
{"id": "C69", "title": "clear empties a map", "statement": "After clear() the map is empty and usable.", "quantifier": "every tree", "why_tests_cant": "dangling pointers invisible", "anchors": ["src/internal/rb_tree/mod.rs: clear"]}
{"id": "C70", "title": "Freeing a tree frees each node once and drops each entry", "statement": "Drop frees each node exactly once and drops its key and value.", "quantifier": "every tree shape", "why_tests_cant": "leaks invisible", "anchors": ["src/internal/rb_tree/mod.rs: free_tree"]}
{"id": "C71", "title": "Lookup cost is logarithmic", "statement": "On a tree with red-black colouring a lookup visits at most 2*log2(n+1) nodes.", "quantifier": "every valid tree", "why_tests_cant": "asymptotic", "anchors": ["src/internal/rb_tree/mod.rs: find_in_tree"]}
{"id": "C72", "title": "Layouts match the C++ header order for every parameter", "statement": "Field offsets of the repr(C) containers do not depend on the element type and put the allocator after the pointers.", "quantifier": "every allocator size/alignment", "why_tests_cant": "infinitely many instantiations", "anchors": ["src/vector/mod.rs", "src/list/node.rs", "src/internal/rb_tree/mod.rs"]}
{"id": "C73", "title": "Allocation requests pair up", "statement": "allocate::<T>(n) and deallocate::<T>(p, n) request the same size and alignment; a zero-byte request panics instead of allocating.", "quantifier": "every n, size, alignment", "why_tests_cant": "all sizes", "anchors": ["src/allocator.rs"]}
{"id": "C74", "title": "Comparators Less and Greater are strict weak orders, mirror images of each other", "statement": "For a total order on keys, Less and Greater are irreflexive, transitive, with transitive incomparability, and Greater(a,b) = Less(b,a).", "quantifier": "all keys", "why_tests_cant": "all triples", "anchors": ["src/compare.rs"]}
{"id": "C75", "title": "Vectors of zero-sized elements fail loudly", "statement": "For a zero-sized element type every length-dependent vector call panics instead of giving a wrong answer or touching memory.", "quantifier": "every call, argument and vector state", "why_tests_cant": "the tests never instantiate a zero-sized type", "anchors": ["src/vector/mod.rs: Vector::{len,capacity}"]}
{"id": "C76", "title": "A terminated string can be read as a C string", "statement": "Whenever the byte behind a string is zero and the string contains no zero byte, reading from its begin pointer up to the first zero byte gives exactly its bytes.", "quantifier": "every history of string calls and every string in it", "why_tests_cant": "unbounded histories and lengths", "anchors": ["src/string/mod.rs: null_terminate", "src/hash.rs: Hash<*const c_char>"]}
{"id": "C77", "title": "FNV-1 detects every single-byte change", "statement": "Two byte strings of the same length that differ in exactly one byte have different hashes.", "quantifier": "all byte strings, positions and byte values", "why_tests_cant": "infinitely many strings", "anchors": ["src/hash.rs: fnv1"]}
{"id": "C78", "title": "VectorMap owns every key and value exactly once", "statement": "After any history of calls every key and value handed to a map is held by it, was handed out, or was dropped, each exactly once; memory that is not the map's is untouched and clear gives all of its memory back.", "quantifier": "every call sequence, every heap", "why_tests_cant": "double drops and leaks are invisible to assertions", "anchors": ["src/vector_map/mod.rs: insert, remove, remove_entry, entry, clear"]}
{"id": "C79", "title": "The memory of a deque follows its largest content, not its age", "statement": "However many elements pass through a deque, the array of pointers it keeps stays below eight slots or about twice the number of element arrays its largest content needs.", "quantifier": "every call sequence", "why_tests_cant": "needs arbitrarily long histories", "anchors": ["src/deque/mod.rs: realloc_ptr_array, push_back, push_front"]}
{"id": "C80", "title": "A deque iterator stays valid while it can be used", "statement": "Wherever the types allow an iterator of a deque to be used, using it is defined.", "quantifier": "every history between taking an iterator and using it", "why_tests_cant": "freed memory usually still reads as before", "anchors": ["src/deque/mod.rs: iter, iter_mut"]}
{"id": "C81", "title": "A mutable iterator over a list has exclusive access", "statement": "Two mutable references to one element of a list never coexist in safe code.", "quantifier": "every non-empty list", "why_tests_cant": "aliased references usually behave as intended in a test", "anchors": ["src/list/mod.rs: iter_mut", "src/list/iter.rs: IterMut"]}
{"id": "C82", "title": "A fixed map owns its nodes", "statement": "A new fixed map of n nodes is empty and its allocator hands out exactly the n nodes of the map's own buffer; when the map is dropped, every node C++ put into it goes back exactly once, buffer nodes to the pool and overflow nodes to the overflow allocator.", "quantifier": "every n, node layout, address, sequence of allocations and frees by C++, and resulting tree", "why_tests_cant": "the tree is built by C++; allocation histories are unbounded", "anchors": ["src/fixed_map/mod.rs: FixedMapImpl::new", "src/internal/rb_tree/mod.rs: free_nodes", "src/fixed_pool/mod.rs", "src/fixed_pool/with_overflow.rs"]}
{"id": "C83", "title": "C++ can iterate a hash table filled in Rust", "statement": "The begin/end loop of EASTL's hashtable over a table that was filled by Rust calls visits exactly the entries Rust's iterator yields, in the same order, and terminates.", "quantifier": "every call sequence, hash function and heap", "why_tests_cant": "needs the C++ side; all histories", "anchors": ["src/internal/hash_table/mod.rs: EMPTY_BUCKET_ARR, realloc", "src/internal/hash_table/iter.rs"]}
{"id": "C84", "title": "Hash table iterators can be handed across the language border", "statement": "A pair of C++ iterators made into a Rust iterator yields the entries of its range, and the C++ loop over the pair made from a Rust iterator visits the entries it had left.", "quantifier": "every table and every position of the iterator", "why_tests_cant": "needs the C++ side", "anchors": ["src/internal/hash_table/iter.rs: into_compat, from_compat"]}
{"id": "C85", "title": "A mutable iterator over a hash map has exclusive access", "statement": "Two mutable references to one value of a hash map never coexist in safe code.", "quantifier": "every table and every position of the iterator", "why_tests_cant": "aliased references usually behave as intended in a test", "anchors": ["src/internal/hash_table/iter.rs: IterMut"]}
{"id": "C86", "title": "A panicking destructor does not make an element be dropped twice", "statement": "When the destructor of an element (or of a key or value) panics while a vector, list or hash table is cleared or dropped, no destructor runs twice: neither within that call nor when the container is dropped afterwards by unwinding.", "quantifier": "every vector, list and hash table built by any calls, and every set of elements whose destructors panic", "why_tests_cant": "tests rarely have destructors that panic, and the second drop of freed memory often goes unnoticed", "anchors": ["src/vector/mod.rs: Vector::clear, Drop", "src/list/mod.rs: List::clear, Drop", "src/internal/hash_table/mod.rs: clear, free_bucket, free_buckets, Drop"]}
{"id": "C87", "title": "Running out of memory is reported, not undefined behaviour", "statement": "When the allocator has no memory left and returns null, a call that needs a new block panics and leaves the container as it was; a call that needs none is not affected.", "quantifier": "every vector, string, hash table, deque and list, every call, and every state in which the allocator refuses", "why_tests_cant": "tests never exhaust memory, and a write through null in release builds need not crash where it happens", "anchors": ["src/allocator.rs: DefaultAllocator", "src/vector/mod.rs: grow paths", "src/internal/hash_table/mod.rs: insert_impl, rehash", "src/deque/mod.rs: init, push_back, push_front, realloc_ptr_array", "src/list/mod.rs: create_node"]}
{"id": "C88", "title": "Hash containers are memory safe for any hash function and equality", "statement": "Whatever the user's hash function and equality answer (also inconsistent answers, or different answers for the same arguments) and whenever they panic, no call on a hash table is undefined, the table can be iterated and dropped afterwards, memory of others is untouched, and no key or value is dropped twice or handed out after being dropped. If the hash function never panics, nothing is lost and len is the number of entries iteration yields.", "quantifier": "every sequence of answers and panics of the two functions, every program of calls, both build modes", "why_tests_cant": "tests use lawful hash functions that do not panic; the answers form an infinite space", "anchors": ["src/internal/hash_table/mod.rs: HashTable", "src/hash.rs: Hash", "src/equals.rs: Equals", "src/hash_map/mod.rs: HashMap"]}
{"id": "C89", "title": "A panic of the hash function loses no entries", "statement": "When the hash function panics during an insertion and the caller catches the panic, the table holds the entries it held before.", "quantifier": "every table built by any program, every evaluation of the hash function at which it panics", "why_tests_cant": "the panic has to hit one of the evaluations made while the table grows, which tests with ordinary keys never do", "anchors": ["src/internal/hash_table/mod.rs: insert_impl, rehash"]}
{"id": "C90", "title": "C++ can iterate a deque filled in Rust", "statement": "EASTL's iterators, run from the begin to the end a Rust deque stores, forwards or backwards, yield exactly the elements Rust's iterator yields and terminate; EASTL's size() is the number of elements; and the blocks holding the elements have the size and alignment EASTL itself would give them, so that either side can free them.", "quantifier": "every element size and alignment, every call sequence and heap", "why_tests_cant": "needs the C++ side, which the repository does not have; all histories and all element sizes", "anchors": ["src/deque/mod.rs: Deque, calculate_subarray_size, push_back, push_front, init", "src/deque/iter.rs: CompatIter"]}
{"id": "C91", "title": "C++ can index a deque filled in Rust", "statement": "Moving an EASTL iterator over a Rust deque by any signed distance within it leads to the element that many places away, and subtracting two iterators gives their distance.", "quantifier": "every element size, call sequence, start and target position up to 16777216 elements backwards", "why_tests_cant": "needs the C++ side; pairs of positions and block boundaries are unbounded", "anchors": ["src/deque/mod.rs: Deque, calculate_subarray_size", "src/deque/iter.rs: CompatIter"]}
{"id": "C92", "title": "Ordered vector maps are memory safe for any comparator and equality", "statement": "Whatever the comparator and the key equality of a VectorMap answer (also different answers for the same keys) and whenever they panic, no call is undefined, every key and value is held, handed out or dropped exactly once, other memory is untouched and dropping the map frees its memory. Each call still does one of the things it may do, and a call that panics changes no pair (extend keeps the pairs put in before).", "quantifier": "every sequence of answers and panics of the two functions, every program of calls, every element size", "why_tests_cant": "tests use lawful orders that do not panic; the answers form an infinite space", "anchors": ["src/vector_map/mod.rs: VectorMap, lower_bound, insert, entry, remove_entry", "src/vector_map/entry.rs", "src/compare.rs: Compare"]}
{"id": "C93", "title": "Tree lookups are memory safe and short for any comparator", "statement": "Whatever the comparator of a map or set over a red-black tree answers and whenever it panics, lookups and writes through get_mut are not undefined and terminate, also on trees that are not sorted; nodes, links and keys are unchanged, an answer is an entry of the tree, a panic changes no entry, and a lookup evaluates the comparator at most 4 log2(n+1) times.", "quantifier": "every sequence of answers and panics, every tree in memory, every program of calls", "why_tests_cant": "tests use lawful orders and sorted trees; trees and answers are unbounded", "anchors": ["src/internal/rb_tree/mod.rs: find_in_tree, get, get_mut, contains_key", "src/map/mod.rs", "src/set/mod.rs", "src/compare.rs: Compare"]}
{"id": "C94", "title": "Rust and C++ can share a list", "statement": "A list (or fixed list) created in Rust and then changed from both languages, in any order, behaves as one list: after inserts and erases anywhere, assignments and reversals by EASTL's code mixed with any Rust calls, both sides see the same elements in the same order forwards and backwards; when Rust drops the list, every element handed over by either side has been handed out or destroyed exactly once and all nodes are given back.", "quantifier": "every mixed program with C++ iterators in range, every element type, allocator placement and inline capacity", "why_tests_cant": "needs the C++ side, which the repository does not have; interleavings of the two languages are unbounded", "anchors": ["src/list/mod.rs: List", "src/list/node.rs: ListNodeBase::insert, remove", "src/fixed_list/mod.rs: FixedList"]}
{"id": "C95", "title": "Readers do not disturb each other", "statement": "Any number of threads may read one container through shared references at once (the Sync promises): in whatever order their lookups, lengths, iterations and comparisons happen, no call is undefined, nothing changes, and each thread gets exactly the answers it would get alone.", "quantifier": "every container state reachable by any program, every number of threads, every list of shared-reference calls per thread, every order in which the calls take turns", "why_tests_cant": "interleavings are unbounded, and the promise is an unsafe impl the compiler does not check", "anchors": ["src/vector/mod.rs: unsafe impl Sync for Vector", "src/string/mod.rs: unsafe impl Sync for String", "src/deque/mod.rs: unsafe impl Sync for Deque", "src/queue.rs: unsafe impl Sync for Queue", "src/hash_map/mod.rs: unsafe impl Sync for HashMap", "src/hash_set/mod.rs: unsafe impl Sync for HashSet", "src/map/mod.rs: unsafe impl Sync for Map", "src/vector_map/mod.rs: unsafe impl Sync for VectorMap"]}
{"id": "C96", "title": "Float arithmetic does not change how hash tables grow", "statement": "The growth policy computes with single-precision floats. Up to 2^24 elements the bucket counts it chooses and when it chooses them are those of exact arithmetic (the first prime of the table that holds all elements and at least doubles the buckets); beyond, they are those of integer arithmetic on counts rounded to 24 bits. No NaN, infinity or inexact product or quotient ever occurs.", "quantifier": "every bucket count, element count and pending limit a u32 can hold", "why_tests_cant": "rounding shows only beyond 16 million entries, and 2^32 x 2^32 count pairs cannot be enumerated", "anchors": ["src/internal/hash_table/rehash_policy.rs: PrimeRehashPolicy, get_rehash_required, default"]}
{"id": "C97", "title": "A container filled by C++ works when handed to Rust", "statement": "Given a vector, vector map, deque, hash map or list that lies in memory as EASTL's classes lay it out, with any capacity, any spare room and any placement, every sequence of Rust calls answers as the ideal container with that contents, touches no memory of others, and leaves a container laid out the same way, so that it can be handed back. Dropping it in Rust destroys the elements and frees what the C++ side allocated, but for the blocks that Rust's own containers leak too.", "quantifier": "every memory image that lays out such a container, every contents and every sequence of calls", "why_tests_cant": "tests build their containers through the Rust API and so see only the images it produces; a C++ image may start anywhere in its arrays and have any capacity", "anchors": ["src/vector/mod.rs: Vector", "src/vector_map/mod.rs: VectorMap", "src/deque/mod.rs: Deque", "src/internal/hash_table/mod.rs: HashTable", "src/list/mod.rs: List"]}
{"id": "C98", "title": "Elements stay where they are while they stay in the container", "statement": "A reference or pointer to an element stays good, for Rust and for C++ code that kept it, while calls are made that do not take the element out: list nodes and hash map entries never move, not even when the table grows; deque elements do not move when others are pushed or popped at either end; vector elements keep their buffer until the capacity changes or the vector is cleared.", "quantifier": "all containers lying in memory, all programs of calls, all elements not removed by them; deques without remove by index; vectors while the capacity stays", "why_tests_cant": "whether an address is still good after some call sequence shows only in undefined behaviour, and it has to hold after every sequence, including those that cross a growth step", "anchors": ["src/vector/mod.rs: Vector::push, insert, reserve", "src/deque/mod.rs: Deque::push_front, push_back, pop_front, pop_back", "src/internal/hash_table/mod.rs: HashTable::insert, rehash", "src/list/mod.rs: List"]}
{"id": "C99", "title": "Dropping a container needs little stack", "statement": "Dropping or clearing a container does not nest calls deeply, however many elements it holds: maps and sets nest at most twice the logarithm of their size, and hash tables a number of calls that does not grow with the number of entries.", "quantifier": "all tables built by any program of calls with any key type and hash, all red-black trees of any size", "why_tests_cant": "a test of some size passes unless it happens to overflow the stack of the machine it runs on; the depth over all key sets and sizes is not observable", "anchors": ["src/internal/hash_table/mod.rs: HashTable::free_bucket, free_buckets, clear, drop", "src/internal/rb_tree/mod.rs: RBTree::free_tree, free_nodes, clear, drop"]}
{"id": "C100", "title": "A panic in the caller's code loses nothing", "statement": "Some calls run code of the caller: the iterator a container is collected from or extended by, and the closures given to an entry. If that code panics, nothing is undefined behaviour, no element is lost and none is dropped twice: a container that was being collected drops what it was given so far and gives its memory back, and one that was being extended or whose entry was used stays usable and holds what it was given.", "quantifier": "all iterators that yield any elements and then panic or end, all size hints, all closures, after any program of calls for extend and entry; vectors, vector maps, deques and queues, hash maps and sets, lists", "why_tests_cant": "a test panics at one place in one container state; every place and every state has to keep the memory in order", "anchors": ["src/vector/mod.rs: Vector::from_iter", "src/vector_map/mod.rs: VectorMap::from_iter", "src/deque/mod.rs: Deque::from_iter", "src/queue.rs: Queue::from_iter", "src/internal/hash_table/mod.rs: HashTable::from_iter", "src/internal/hash_table/entry.rs: Entry::and_modify, or_insert_with", "src/list/mod.rs: List::extend"]}
{"id": "C101", "title": "Filling a container costs a constant per element", "statement": "The copying that growth causes is at most a constant for every element added: over any sequence of calls, the elements a vector moves to other buffers, and the entries a hash table puts into new buckets, number at most twice the elements added (and what a vector held at first), whichever calls add them; and the pointers to element arrays a deque moves number at most three for each array filled.", "quantifier": "every call sequence, every element type, every starting vector", "why_tests_cant": "a total over unbounded histories; tests time a few sizes", "anchors": ["src/vector/mod.rs: Vector::push, insert, append, reserve, grow, calculate_grow_capacity", "src/internal/hash_table/mod.rs: HashTable::insert, rehash", "src/internal/hash_table/rehash_policy.rs", "src/deque/mod.rs: Deque::push_back, pop_front, realloc_ptr_array"]}
{"id": "C102", "title": "What a container prints is what it holds", "statement": "The debug form of a container shows every element once, in the container's order, and can be read back: whoever knows the brackets and the separator gets the printed forms of the elements from it, so two containers that print alike hold elements that print alike. A string displays as its bytes.", "quantifier": "every container, every program of calls before printing, every way elements print", "why_tests_cant": "tests compare a handful of printed values; that no two contents print alike is a statement about all pairs of contents", "anchors": ["src/vector/mod.rs: Debug for Vector", "src/string/mod.rs: Debug for String, Display for String", "src/deque/mod.rs: Debug for Deque", "src/queue.rs: Debug for Queue", "src/list/mod.rs: Debug for List", "src/hash_map/mod.rs: Debug for HashMap", "src/hash_set/mod.rs: Debug for HashSet", "src/map/mod.rs: Debug for Map", "src/vector_map/mod.rs: Debug for VectorMap"]}
{"id": "C103", "title": "A deque can be created", "statement": "Creating an empty deque succeeds, whatever its element type; and if its allocator has nothing to give and panics, the panic reaches the caller and nothing else happens.", "quantifier": "every element size and alignment, every heap, every allocator that panics instead of allocating", "why_tests_cant": "tests create deques of a few types with the default allocator; the sizes and the refusals are unbounded, and what goes wrong is undefined behaviour or an abort", "anchors": ["src/deque/mod.rs: Deque::new_in, init, allocate_ptr_array, allocate_subarray, Drop for Deque", "src/allocator.rs: Allocator::allocate, deallocate"]}
{"id": "C104", "title": "A refusal by the allocator loses nothing", "statement": "If an allocator of the caller's panics because it has nothing to give, the call that needed the memory panics and drops what it was given, the container holds what it held before (or, for a call that adds several elements, what it had taken so far), and it can be used further as if the call had not been made; when it is dropped, it drops just what it holds.", "quantifier": "every program of calls, each with a different choice of refusals, on vectors, deques, lists, fixed lists and hash tables; for hash tables that never held an entry one call after any program, and any calls after that which bring no new keys in", "why_tests_cant": "a refusal can come at every allocation of every call in every state; tests run with an allocator that never refuses", "anchors": ["src/allocator.rs: Allocator::allocate", "src/vector/mod.rs: Vector::push, insert, append, assign, reserve", "src/deque/mod.rs: Deque::push_back, push_front, realloc_ptr_array", "src/internal/hash_table/mod.rs: HashTable::insert, insert_impl, rehash", "src/internal/hash_table/rehash_policy.rs: get_rehash_required"]}
{"id": "C105", "title": "A panicking destructor does not keep the others from running", "statement": "When a container is dropped and the destructor of one of its elements panics, the other elements are still destroyed, each once, as when a standard vector is dropped; no memory of others is touched.", "quantifier": "every deque, list, hash table and vector iterator that calls can build, every choice of the destructors that panic, every use of the iterator from both ends before", "why_tests_cant": "which destructors run after a panic depends on the position of the panicking element and on the state; tests have no panicking destructors at all", "anchors": ["src/deque/mod.rs: Drop for Deque", "src/vector/into_iter.rs: Drop for IntoIter", "src/list/mod.rs: List::clear, Drop for List", "src/internal/hash_table/mod.rs: free_buckets, Drop for HashTable"]}
{"id": "C106", "title": "A moved fixed vector frees its overflow memory", "statement": "A FixedVector that has overflowed and is then moved with MoveNew still gives its overflow memory back to the allocator when it is dropped, wherever the overflow allocator places its blocks, including where the old object used to be.", "quantifier": "every program that creates, uses, moves and drops fixed vectors, and every placement of blocks by the allocator", "why_tests_cant": "A test would have to make the allocator reuse the old object's address; with ordinary placement nothing goes wrong.", "anchors": ["src/fixed_vector/mod.rs: MoveNew for FixedVector", "src/fixed_vector/allocator.rs: deallocate_raw_aligned"]}
{"id": "C107", "title": "Fixed vectors can be swapped", "statement": "std::mem::swap through the mutable dereference of two fixed vectors exchanges their contents, and each stays valid when the other is dropped.", "quantifier": "every two fixed vectors that a program can reach", "why_tests_cant": "A test that keeps both vectors alive passes; the failure needs one of them to be dropped and is undefined behaviour, which a test may not notice.", "anchors": ["src/fixed_vector/mod.rs: DerefMut for FixedVector, FixedVector::has_overflowed"]}
{"id": "C108", "title": "Lists that share an allocator do not disturb each other", "statement": "Any number of lists in one memory, created, used in any order and dropped, each behave as if they were alone: a call changes and answers for its own list only, no step is undefined, and the heap holds one node for each element of the lists present.", "quantifier": "every number of lists, every interleaving of creations, calls and drops, every placement of the lists and of the blocks", "why_tests_cant": "A test interleaves a few lists at addresses the allocator happens to give; a node shared by two lists, or a write beside a node, shows only for other placements.", "anchors": ["src/list/mod.rs: List::new_in, push_back, push_front, pop_back, pop_front, clear, iter, iter_mut, Drop", "src/list/node.rs: ListNodeBase::insert, remove", "src/allocator.rs: DefaultAllocator"]}
{"id": "C109", "title": "Two lists can be swapped", "statement": "std::mem::swap on two lists exchanges their contents, and both can then be used and dropped.", "quantifier": "every two lists that a program can reach, empty or not", "why_tests_cant": "A test that swaps two lists and looks at their first elements passes; the failure is undefined behaviour when one of them is cleared or dropped, which a test may not notice.", "anchors": ["src/list/mod.rs: List, List::new_in, init_sentinel_node, clear, Drop", "src/fixed_list/mod.rs: DerefMut for FixedList"]}
{"id": "C110", "title": "Only what may go to another thread goes there", "statement": "If a container, iterator or entry can be sent to another thread or shared between threads, so can every type of the caller's inside it, however deep: elements, keys, values, allocators and comparators. For vectors, strings, fixed vectors, vector maps, deques, queues, hash maps, hash sets and maps nothing more is needed.", "quantifier": "every type built from the types of the crate and the caller's, in any nesting; every choice of which of the caller's types are Send and Sync", "why_tests_cant": "A test that compiles shows that allowed programs are allowed; that forbidden ones are rejected for all type arguments cannot be run, since they must not compile.", "anchors": ["src/vector/mod.rs: unsafe impl Send, Sync for Vector", "src/string/mod.rs: unsafe impl Send, Sync for String", "src/deque/mod.rs: unsafe impl Send, Sync for Deque", "src/queue.rs: unsafe impl Send, Sync for Queue", "src/hash_map/mod.rs, src/hash_set/mod.rs, src/internal/hash_table/mod.rs: unsafe impl Send, Sync", "src/map/mod.rs, src/vector_map/mod.rs, src/fixed_vector/allocator.rs: unsafe impl Send, Sync"]}
{"id": "C111", "title": "Every container can be sent where its contents can", "statement": "A container whose element, allocator and comparator types are Send is Send itself, and the same for Sync.", "quantifier": "every container type and iterator of the crate", "why_tests_cant": "The negative answer is a compile error, which no test that runs can show.", "anchors": ["src/list/mod.rs: List", "src/fixed_list/mod.rs: FixedList", "src/set/mod.rs: Set", "src/fixed_map/mod.rs: FixedMapImpl", "src/vector/into_iter.rs: IntoIter"]}
{"id": "C112", "title": "Each allocator given to a vector is dropped exactly once, after all its memory came back", "statement": "When a vector is given an allocator, or clones one, that allocator stays with the vector, goes into the consuming iterator if the vector is turned into one, and is dropped exactly once, with the vector or iterator that has it last (or at once, if the vector cannot be built). By then it has got back every block of memory that it handed out, and no block is ever given to another allocator.", "quantifier": "every program over any number of vectors and consuming iterators with an allocator each: construction, collection, cloning, every vector call, into_iter, iteration from both ends, drops in any order; every element size and alignment", "why_tests_cant": "Tests use the default allocator, which has no state and no destructor, so handing memory to the wrong allocator or dropping an allocator twice goes unseen", "anchors": ["src/vector/mod.rs: Vector::into_iter, Vector::clone, Vector::from_in, FromIterator, Drop for Vector", "src/vector/into_iter.rs: Drop for IntoIter"]}
{"id": "C113", "title": "A fixed vector can be moved whatever its overflow allocator is", "statement": "Moving a fixed vector moves its overflow allocator along: afterwards the new vector has the allocator of the old one, and the old one's destruction does not touch any allocator.", "quantifier": "every program that makes, uses and moves any number of fixed vectors, with overflow allocators with and without a destructor", "why_tests_cant": "Tests move fixed vectors with the default allocator only, whose destruction does nothing", "anchors": ["src/fixed_vector/mod.rs: MoveNew for FixedVector", "src/fixed_vector/allocator.rs: FixedVectorAllocator"]}
{"id": "C114", "title": "A map or set can be moved", "statement": "Moving a map or set that holds entries (an ordinary move, as any Rust value allows) changes nothing that its user can see: lookups, changes of values, the count, iteration in order, and the freeing of every node on drop are as if it had stayed where it was.", "quantifier": "every tree of any shape and size, every old and new place, and every program of calls between the move and the drop", "why_tests_cant": "A test that moves a map usually reads memory that still holds the old bytes, so a pointer left to the old place goes unseen; and the crate cannot fill a map itself", "anchors": ["src/internal/rb_tree/mod.rs: RBTree, RBTree::iter, RBTree::iter_mut, Drop for RBTree", "src/internal/rb_tree/iter.rs: Iter::next, IterMut::next", "src/internal/rb_tree/node.rs: Node::next", "src/map/mod.rs: Map", "src/set/mod.rs: Set"]}
{"id": "C115", "title": "Finding a key takes as few evaluations as its structure allows", "statement": "A call that looks up a key in a vector map of n pairs evaluates the comparator and the equality at most log2(n) + 2 times, rounded up, whatever they answer and even if they panic. A call that looks up a key in a hash map or set evaluates the hash function once and the equality once for each entry of the key's bucket up to the key, plus, when the call makes the table grow, one hash for each entry and one for the key.", "quantifier": "every program that built the container, every key, call, comparator, hash function and equality; for hash maps the functions are pure and consistent", "why_tests_cant": "A test compares answers; a linear search or an extra pass over a bucket gives the same ones. How the work grows with n cannot be read off any single n", "anchors": ["src/vector_map/mod.rs: VectorMap::lower_bound, get, get_mut, insert, remove_entry, entry", "src/internal/hash_table/mod.rs: bucket_for_key, find_in_bucket, insert, insert_impl, rehash, remove_entry"]}
{"id": "C116", "title": "Hash tables and deques in one memory do not disturb each other and can be exchanged", "statement": "Any number of hash tables (or deques) with the same element types, created, used in any order, exchanged with std::mem::swap (which is how Rust moves them about) and dropped, behave as so many separate maps (or sequences): no step is undefined, a call changes only the container it is made on, a swap exchanges the two contents, and memory that does not belong to the containers is left as it was.", "quantifier": "every number of containers and every program that creates, uses, swaps and drops them; every element type, hash function and equality of the keys; debug and release builds", "why_tests_cant": "A test uses one container at a time; a pointer kept to the place of the object, or an array shared by two containers, shows up only after some particular interleaving of calls and moves", "anchors": ["src/internal/hash_table/mod.rs: HashTable, EMPTY_BUCKET_ARR, HashTable::default, insert, rehash, remove_entry, clear, Drop for HashTable", "src/deque/mod.rs: Deque, Drop for Deque"]}
{"id": "C117", "title": "A reference is only made to memory that is there", "statement": "Whenever a vector or the iterator that consumes it turns one of its pointers into a reference or a slice, even one that is never read, there is memory for the elements referred to. For vectors this holds whatever is called. For the iterator it is false: looping over a vector that is full (length equal to capacity) by value and letting the iterator go makes a reference past the end of the allocation, and so does reading the rest of it as a slice.", "quantifier": "every program of vector calls; every full or partly filled vector so reached and every sequence of calls on its consuming iterator; every element type of non-zero size; debug and release builds", "why_tests_cant": "A dangling reference that is not used changes nothing that a test can observe; the compiler may still assume that it does not exist", "anchors": ["src/vector/mod.rs: Vector::as_slice, as_slice_mut, clear, append, assign, Deref, DerefMut", "src/vector/into_iter.rs: IntoIter::as_slice, as_slice_mut, Drop for IntoIter"]}
{"id": "C118", "title": "A slice of a vector only covers initialised elements", "statement": "When a vector makes references to its elements, these are initialised. This holds when the slice of a vector with elements, or of one without memory, is read. It is false of a vector with memory and no elements (with_capacity, then as_slice or clear or drop), and of append and assign into new memory.", "quantifier": "every program of vector calls; every capacity and every buffer that fits; every element type of non-zero size; debug and release builds", "why_tests_cant": "The references are not read before the elements are written, so every test passes; whether the program is defined is a matter of the contracts of as_ref and from_raw_parts", "anchors": ["src/vector/mod.rs: Vector::as_slice, as_slice_mut, with_capacity_in, append, assign, clear"]}
{"id": "C119", "title": "A slice stays within the reference it is made from", "statement": "The slice that a vector gives to its elements covers no more than the reference that it is made from (the rule of Stacked Borrows). It does for vectors of at most one element, and never for longer ones: the slice is made from a reference to the first element.", "quantifier": "every vector reached by any program of calls; every element type of non-zero size; debug and release builds", "why_tests_cant": "Compiled code does not check the rule; only an interpreter such as Miri would, for the inputs it is run on", "anchors": ["src/vector/mod.rs: Vector::as_slice, as_slice_mut"]}
{"id": "C120", "title": "References from a container that is only read stay good", "statement": "A shared reference to an element handed out by a deque or a hash table stays good while the container is only read, as Rust's shared references do. It is false: the shared iterators make a mutable reference to each element they pass, which ends all references to that element handed out before (front twice; get, then iterate). Exactly those: a reference stays good if and only if no iterator passes its element afterwards; those of a single iterator, or of calls of get alone, all stay good.", "quantifier": "every deque and hash table reached by any program of calls; every number of shared iterators stepped in any order at either end, with calls of get in between; every element, key and value type; debug and release builds", "why_tests_cant": "Compiled code does not check the rule (Stacked Borrows); the reads still find the right values; only an interpreter such as Miri would see it, for the inputs it is run on", "anchors": ["src/deque/iter.rs: Iter::next, Iter::next_back, RawIter", "src/deque/mod.rs: Deque::iter, front, back", "src/internal/hash_table/iter.rs: Iter::next, RawIter", "src/internal/hash_table/mod.rs: HashTable::get, iter"]}
{"id": "C121", "title": "Hash tables only make references that Rust allows", "statement": "A hash table makes no reference that breaks a rule of Rust: no mutable one to read-only memory, no slice longer than the reference it is made from, and none that is still in force as a function argument when its node is freed. All three are false: the first insertion into every table and every vacant entry of a new table make a mutable reference to the read-only array that all empty tables share; iterating over a table that a key was put into makes too long a slice; clearing or dropping a table with elements frees nodes behind references in force. Programs that do none of this keep the rule.", "quantifier": "every program of calls on a new table; every key and value type, hash function and equality that agree; debug and release builds", "why_tests_cant": "Nothing is written through the references, so every test passes; only an interpreter such as Miri checks the rules, for the inputs it is run on", "anchors": ["src/internal/hash_table/mod.rs: EMPTY_BUCKET_ARR, HashTable::buckets_mut, buckets_imut, free_bucket, free_buckets, rehash, insert_impl, entry, clear", "src/internal/hash_table/entry.rs: VacantEntry"]}
{"id": "C122", "title": "Maps only make references to nodes that are there", "statement": "Looking up, assigning, inserting and iterating in a map or set makes references to nodes only where there is the memory of a whole node, at its alignment. It is false: taking the last entry from an iterator makes a mutable reference to the end marker inside the map object as if it were a node, and with entries of more than eight bytes that reference reaches beyond the map object. In a fixed map the buffer behind the map makes up for that, unless nodes need more than the alignment of a pointer. Exactly that: all other references are to nodes, and an iterator may be advanced freely short of the last entry.", "quantifier": "every tree that memory holds, of any shape; every program of calls; every key and value type, and comparator that is an order; every size of the map object", "why_tests_cant": "Only the first three words of the reference are read, so every test passes; only an interpreter such as Miri checks the extent, for the inputs it is run on", "anchors": ["src/internal/rb_tree/node.rs: Node::next, next_mut", "src/internal/rb_tree/iter.rs: Iter::next, IterMut::next", "src/internal/rb_tree/mod.rs: RBTree::iter, iter_mut, find_in_tree, parent"]}
{"id": "C123", "title": "Maps free no node behind a reference in force", "statement": "Dropping or clearing a map or set frees no node while a running function still holds a reference to that node as its argument. It is false of every map or set with entries, whose nodes are each freed by a function that was given a mutable reference to the node; it is true of every one without.", "quantifier": "every tree that memory holds, of any shape; every key and value type; the default allocator, wherever it puts blocks, and the pools of fixed maps, with and without overflow, however C++ filled the map; debug and release builds", "why_tests_cant": "The reference is not used after the node is freed, so every test passes; only an interpreter such as Miri checks the rule, for the inputs it is run on", "anchors": ["src/internal/rb_tree/mod.rs: RBTree::free_tree, free_nodes, clear, drop"]}
{"id": "C124", "title": "A list writes its object only through the reference it is given", "statement": "While a method of a list runs on a mutable reference to it, the list object is written only through that reference, as Rust's aliasing rules demand. It is false: the links that the object and the nodes store to the object were made by earlier calls, and adding an element at the front, adding a first element and taking an element out write the object through such a link. So every program that adds an element to a new list breaks the rule; adding further elements at the back, changing elements, iterating and clearing keep it.", "quantifier": "every program of calls after every other on a new list or fixed list; every element type; the default allocator, wherever it finds room and when it refuses; debug and release builds", "why_tests_cant": "The write goes to the right place, so every test passes; only an interpreter such as Miri checks the rule, for the inputs it is run on", "anchors": ["src/list/node.rs: ListNodeBase::insert, remove", "src/list/mod.rs: List::push_back, push_front, pop_back, pop_front, init_sentinel_node, extend"]}
{"id": "C125", "title": "A list reaches its elements only through references that cover them", "statement": "An element of a list is reached through a pointer that was made from a reference covering it. It is false under Stacked Borrows: the links between nodes are made from references to the two link fields of a node, and the element lies beyond. Exactly the calls that read, change, move out or drop an element in its node break the rule, unless the node has no more bytes than its links; adding elements and asking for the length keep it.", "quantifier": "every program of calls after every other on a new list or fixed list, and dropping it after; every element size; the default allocator, wherever it finds room and when it refuses; debug and release builds", "why_tests_cant": "The bytes reached are those of the element, so every test passes; only an interpreter such as Miri checks the rule, for the inputs it is run on", "anchors": ["src/list/node.rs: ListNodeBase::insert, ListNode::value, value_mut", "src/list/mod.rs: List::front, back, front_mut, back_mut, remove_node, clear", "src/list/iter.rs: Iter::next, IterMut::next"]}
{"id": "C126", "title": "A list makes references only to nodes that are initialised", "statement": "When a list turns a pointer into a reference to a node, the node holds a value, as the documentation of as_mut demands. It is false: the memory of a new node is turned into a reference before anything is written to it, so every call that adds an element breaks the rule. All other calls keep it, and so does a call that the allocator refuses its first node.", "quantifier": "every program of calls after every other on a new list, and every program on a new fixed list; every element type; the default allocator, wherever it finds room and when it refuses; debug and release builds", "why_tests_cant": "The reference is only used to write the element, so every test passes; whether the program is defined is a matter of the contract of as_mut", "anchors": ["src/list/mod.rs: List::create_node, push_back, push_front, extend"]}
{"id": "C127", "title": "A deque makes slices only of pointers that are initialised", "statement": "When a deque makes a slice of the pointers in its array, every one of them holds a value, as the documentation of from_raw_parts_mut demands. It is false. A new array is made a slice before anything is written to it, so every creation and every call that takes a larger array breaks the rule. A call that moves the pointers within the array keeps the rule exactly when the whole array has been written, and after the first growth it need not have been. All other calls make no slice. So, once created, a deque keeps the rule exactly as long as its first array is not replaced.", "quantifier": "every creation, in every memory; every program of calls on a new deque that all answer; every push at either end that answers, in every state whose array is shorter than half of what a u32 can hold; every element type; debug and release builds", "why_tests_cant": "Only pointers that were written are read, so every test passes; whether the program is defined is a matter of the contract of from_raw_parts_mut", "anchors": ["src/deque/mod.rs: Deque::allocate_ptr_array, init, realloc_ptr_array, push_back, push_front"]}
{"id": "C128", "title": "A hash table makes slices only of buckets that are initialised", "statement": "When a hash table makes a slice of buckets, every one of them holds a value, as the documentation of from_raw_parts_mut demands. It is false: a new array of buckets is made a slice before anything is written to it, so every call for which the table grows breaks the rule, and the first key put into any table is such a call. All other calls make no slice of a new array.", "quantifier": "every program of calls that all answer, on a new table and on a table after any other program; every key and value type, hash function and equality that agree; debug and release builds", "why_tests_cant": "The buckets are filled before they are read, so every test passes; whether the program is defined is a matter of the contract of from_raw_parts_mut", "anchors": ["src/internal/hash_table/mod.rs: HashTable::rehash, insert_impl, insert, entry", "src/internal/hash_table/entry.rs: Entry::or_insert, or_insert_with"]}
