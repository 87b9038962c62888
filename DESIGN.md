# Formal model of EASTL-rs in Rocq (Coq 8.16.1)

The source in /repo was read as text; it was not built or run.  This file says
what is modelled, how each property is proved, and what has to be trusted.
Properties are in `properties.jsonl`, the theorems for each in `MANIFEST.json`,
the wrong programs the theorems were tried against in `seeded/LOG.jsonl`.

## 1. Modelling approach

* **Outcomes.** Every modelled method is a total Gallina function in a state
  monad whose results are `Ok a s`, `Panic s` (Rust panic; the state at the
  panic point is kept because unwinding later drops the containers) or `UB`
  (undefined behaviour: out-of-bounds or null access, reading or dropping
  uninitialised memory, use after free, double free, deallocation with a layout
  that differs from the allocation, writing read-only memory).
* **Memory.** Two memory models.
  * *Block heap* (`Heap.v`): a finite map from block ids to blocks with byte
    size, alignment and a list of cells (`None` = uninitialised). Pointers are
    `Null` or (block, offset in cells). Block ids are never reused, so every
    use after free is caught. Used for Vector, String, VectorMap, FixedVector,
    Deque, Queue, HashTable/HashMap/HashSet.
  * *Byte addresses* (`AddrMem.v`): live regions, 8-byte words at integer
    addresses, and elements under the address of their node. Allocated addresses
    are chosen by an arbitrary function (`pick`), constrained only to be free
    and aligned, so freed addresses may come back. Used where the code does
    arithmetic on addresses or overlays a free list on node memory: FixedPool,
    List, FixedList, RBTree/Map/Set, FixedMap.
* **Destructors** are recorded in a log of dropped elements, so "each element is
  owned once" is a statement about multisets (held + returned + dropped).
* **Integers.** `usize`/`u32` arithmetic that can overflow has an explicit
  switch (`chk`): overflow checks on (panic) or off (wrap). f32 arithmetic in the
  rehash policy only ever produces integers; it is modelled as rounding of
  integers to 24 significant bits, ties to even. C96 proves this the same as the
  code run in IEEE binary32.
* **Loops** are structural recursions, or take fuel. Running out counts as `UB`
  where the theorems say a run is not `UB`. Where a theorem says a run *is* `UB`
  (refutations) the fuel has its own result, or the theorem names the undefined step.
* **Specifications** (`*Spec.v`) are small list/association-list programs that
  share no code with the models. Theorems say that the observable outputs of a
  model run equal those of the specification for *every* list of calls.
* **Refutations.** Several properties a user relies on are false of the code.
  They stay in the list; the theorem is called `..._refuted`, proves the
  negation (where possible for every state, not for one witness), and what does
  hold is proved beside it.

## 2. Files

For each part: `X.v` (model, no proofs), `XSpec.v` (independent specification),
`XProofs.v` and others (lemmas), `XDerived.v` (the theorem proofs), `XProps.v`
(only the property theorems, each closed by `exact L_...`, with concrete
instances beside them and `Print Assumptions` below).

| files | code in /repo/src |
|---|---|
| Base, Heap, HeapLemmas, AddrMem | outcomes, integers, memory |
| Alloc, AllocContract | allocator.rs |
| Vector, VectorSpec, IterSpec, VectorProofs, VectorMore, VectorIter, VectorFindings, VectorDerived, VectorProps | vector/ |
| String* | string/ |
| VectorMap* | vector_map/ |
| FixedVector* | fixed_vector/ |
| Hash, HashDerived, HashProps | hash.rs |
| RehashPolicy*, HashTable*, HashCpp* | internal/hash_table/, hash_map/, hash_set/ |
| Deque* | deque/, queue.rs, util.rs |
| FixedPool* | fixed_pool/ |
| LinkedList* | list/, fixed_list/ |
| RBTree*, FixedMap* | internal/rb_tree/, map/, set/, fixed_map/ |
| Layout* | the repr(C) structs of all containers |
| Compare, CompareSpec, Traits*, Equal* | compare.rs, equals.rs, allocator.rs |
| Source* | panics of caller code: `from_iter` and `extend` of the containers, the closures of hash_table/entry.rs |
| Print* | what containers print, and reading it back |
| Refusal*, HashLooseProofs | allocators of the caller that panic, and what they leave behind |
| Growth* | how many elements growing moves, over whole programs (vectors, hash tables, deques) |
| HashDepth*, TreeDepth* | nested calls of the freeing functions: internal/hash_table/, internal/rb_tree/ |
| HashAny*, VectorMapAny*, TreeAny* | the same containers with key functions that may answer anything or panic |
| FloatPolicy* | internal/hash_table/rehash_policy.rs in IEEE binary32 |
| DequeCpp*, ListCpp*, Handover*, Stay*, VectorStill, Readers* | the containers of above shared with C++ or among readers |
| OutOfMemory* | the allocating functions when memory runs out |
| PanicDrop* | destructors that panic: vector/, list/, internal/hash_table/ |
| Threads* | which types are Send and Sync: the struct declarations and unsafe impls of all containers |
| Owned* | vectors and consuming iterators with an allocator value each: which object holds it, when it is dropped, whose memory is whose |
| FixedOwned* | the overflow allocator of fixed vectors under moves, with and without a destructor |
| MapMove* | moving a map or set: the copy of the object and what its nodes still point to |
| LookupMap*, LookupHash* | how often finding a key evaluates the functions of the user |
| HashWorld*, DequeWorld* | several hash tables, or several deques, in one memory, used in turn and swapped |
| References* | the references that vectors and their consuming iterators make, checked when they are made (C117-C119) |
| SharedRefs*, SharedDeque*, SharedHash* | which shared references handed out by deques and hash tables are still good (C120) |
| HashRefs* | the references that hash tables make to their buckets and nodes, checked against three rules (C121) |
| TreeRefs* | the references to nodes that maps and sets make, checked when they are made (C122) and when nodes are freed (C123) |
| FixedMapRefs* | the same for fixed maps, with and without overflow (C122, C123) |
| ListRefs* | the links that lists store, checked when the object is written (C124) and elements are reached (C125) |
| ListFresh* | the reference that lists make to a new node, checked for contents (C126) |
| DequeFresh* | the slices of pointers that deques make, checked for contents (C127) |
| HashFresh* | the slice that a hash table makes of new buckets, checked for contents (C128) |
| PanicRest* | the same for deque/ and vector/into_iter.rs |

## 3. Properties

| id | property | model and proof | result |
|----|----------|-------|----|
| C01 | Vector behaves as a list | Vector on the block heap; representation predicate, one lemma per method, induction on the calls against a list specification | proved |
| C02 | Vector capacity law | the same refinement; the specification carries the capacity | proved |
| C03 | Vector never touches memory it does not own | no run of calls has the outcome `UB` | proved |
| C04 | Every element is owned exactly once | log of dropped elements; permutation law per call, induction on the calls | proved |
| C05 | Dropping a vector returns all its memory and disturbs nothing else | the heap outside the own block is equal before and after each call; after the drop it is the heap from before | proved |
| C06 | Out-of-range insert and remove leave the vector unchanged | case lemmas: out-of-range calls answer none or panic and change nothing | proved |
| C07 | Copying a vector gives an equal, independent vector | worlds of several vectors; clone refines copying a list, the rest of the world is framed | proved |
| C08 | append, assign and clone are safe for elements with destructors | `clone_from_slice` drops the places it writes; UB for every non-empty uninitialised target | false as stated; refuted, and the true part proved |
| C09 | assign disposes of every replaced element | exact account of drops of `assign` | false of the code, refuted |
| C10 | A consuming iterator hands out each element once, from either end | IntoIter simulated by a list with two ends, any interleaving | proved |
| C100 | A panic in the caller's code loses nothing | Source.v: iterators that yield some elements and then panic; filling is shown to be a program of single insertions, so the refinement theorems apply to where it stopped | proved |
| C101 | Filling a container costs a constant per element | GrowthSpec.v: counts of moved elements over a run; a potential argument over the refinement of C01 for vectors, the table of growth stages (C46) for hash tables; the quadratic count by induction; GrowthDeque.v: where a deque lies in its pointer array after each push and pop | false as stated; refuted, and the true part proved |
| C102 | What a container prints is what it holds | Print.v: the Debug and Display impls over the modelled iterators; PrintSpec.v: a reader that splits at brackets and separators; reading what is printed, by induction, and the refinement theorems of the containers | false as stated; refuted, and the true part proved |
| C103 | A deque can be created | Refusal.v: construction with any allocator, the unwinding destructor included; by computation for any heap and size; witnesses for the refutations | false as stated; refuted, and the true part proved |
| C104 | A refusal by the allocator loses nothing | Refusal.v: an allocator that panics at will; the allocating functions of the model either do as with the default allocator or panic at the allocation, so the refinement invariants say what is left; for hash tables the calls that bring no keys in are shown not to look at the size at which to grow, and the others to keep an invariant that leaves that size open (HashLooseProofs.v); a list is shown to do the same whether the allocator panics or returns null, which C53 and C57 cover (RefusalList.v) | false as stated; refuted, and the true part proved |
| C105 | A panicking destructor does not keep the others from running | PanicRest.v: the destructors of the deque and of IntoIter with elements whose destructors panic; an induction over the loop gives the prefix that is destroyed; the list and table parts follow from C86 and a witness | false as stated; refuted, and the true part proved |
| C106 | A moved fixed vector frees its overflow memory | FixedReuse.v: the same objects over an allocator that places blocks at given addresses; a program and a placement are given for every element type and NODE_COUNT | false as stated; refuted, and the true part proved |
| C107 | Fixed vectors can be swapped | FixedSwap.v: swap and drop on top of FixedVector.v; the refinement invariant of C62 gives the state before the swap | false as stated; refuted, and the true part proved |
| C108 | Lists that share an allocator do not disturb each other | ListWorld.v: several lists of LinkedList.v in one memory; the call theorems of C06 are used for each list with an invariant that also keeps the nodes and sentinels of all the others | proved |
| C109 | Two lists can be swapped | ListWorld.v: swap exchanges the words of the two sentinels; the loop of clear, by induction on the nodes, reaches the other sentinel | false of the code, refuted |
| C11 | The reported capacity is backed by allocated memory | overflow switch: on, proved; off, wrapping witness | false as stated; refuted, and the true part proved |
| C110 | Only what may go to another thread goes there | Threads.v: the types of the crate as a syntax with their fields and unsafe impls, and the rule by which Rust derives the traits; induction over the nesting | proved |
| C111 | Every container can be sent where its contents can | Threads.v: the types without an impl hold raw pointers; by following their fields | false as stated; refuted, and the true part proved |
| C112 | Each allocator given to a vector is dropped exactly once, after all its memory came back | Owned.v: a heap whose blocks know their allocator, several vectors and iterators; invariant over programs: each object represents its list by its own block from its own allocator, and allocators in use and dropped are those made | proved |
| C113 | A fixed vector can be moved whatever its overflow allocator is | FixedOwned.v: the programs of FixedVector.v with a field per vector for its allocator; induction over programs | false as stated; refuted, and the true part proved |
| C114 | A map or set can be moved | MapMove.v: the move copies the pointers of the object and ends the life of the old storage; lookups only go down, so they follow by induction over the tree; iteration climbs from the last node to the old place | false as stated; refuted, and the true part proved |
| C115 | Finding a key takes as few evaluations as its structure allows | LookupMapDerived.v and LookupHashProofs.v: the counter of evaluations in the models with arbitrary functions; halving of the interval by induction on its length, chains of a bucket by induction on the chain, growth by induction over buckets and chains | proved |
| C116 | Hash tables and deques in one memory do not disturb each other and can be exchanged | HashWorld.v and DequeWorld.v: several tables or deques in one heap; a container does not depend on the heap outside the blocks it owns, so the call theorems of C39 and C31 hold for each while the others keep theirs; induction over programs | proved |
| C117 | A reference is only made to memory that is there | References.v: the calls of Vector.v with each reference checked when it is made; equal runs by the representation invariant, and the distance of the front of the iterator by induction over its calls | false as stated; refuted, and the true part proved |
| C118 | A slice of a vector only covers initialised elements | References.v with the rule that the element is initialised; the invariant for the cases that hold, fresh blocks for those that do not | false as stated; refuted, and the true part proved |
| C119 | A slice stays within the reference it is made from | References.v with the rule that a pointer made from a reference reaches one element | false as stated; refuted, and the true part proved |
| C12 | append keeps the vector valid if cloning an element panics | clones that panic at any position; outcome `Panic` keeps the state | false as stated; refuted, and the true part proved |
| C120 | References from a container that is only read stay good | SharedRefs.v: shared iterators and get with the references they hand out and which are still good; an induction over the steps against positions (SharedRefsSpec.v), with the iterator steps of C32 and the lookups of C39; distinct places for distinct positions | false as stated; refuted, and the true part proved |
| C121 | Hash tables only make references that Rust allows | HashRefs.v: the calls of HashTable.v with the references checked against each rule; a checked run equals the unchecked one or ends in undefined behaviour, and the invariant of C39 says which, by induction over programs | false as stated; refuted, and the true part proved |
| C122 | Maps only make references to nodes that are there | TreeRefs.v: the calls of RBTree.v with each reference to a node checked when it is made; induction over the tree as in C66 and C67, where climbing from the last node reaches the anchor; fixed maps from the layout of C82 | false as stated; refuted, and the true part proved |
| C123 | Maps free no node behind a reference in force | TreeRefs.v: free_tree with the rule checked where a node is freed; induction over the tree as in C70, for each allocator by the invariant of C82 | false as stated; refuted, and the true part proved |
| C124 | A list writes its object only through the reference it is given | ListRefs.v: the calls of LinkedList.v with each write through a stored link checked; the ring of C54 says where the links lead; induction over programs | false as stated; refuted, and the true part proved |
| C125 | A list reaches its elements only through references that cover them | ListRefs.v: the same with each reference into a node checked | false as stated; refuted, and the true part proved |
| C126 | A list makes references only to nodes that are initialised | ListFresh.v: the calls of LinkedList.v with the reference that create_node makes checked; a new block has no contents, nor has a buffer that was never used; induction over programs | false as stated; refuted, and the true part proved |
| C127 | A deque makes slices only of pointers that are initialised | DequeFresh.v: creating and growing a deque as in Deque.v with each slice of pointers checked for values; inversion of the calls, then cases on whether the array is kept, its pointers moved, or a larger one taken; for programs the invariant that the first array stays initialised | false as stated; refuted, and the true part proved |
| C128 | A hash table makes slices only of buckets that are initialised | HashFresh.v: the calls of HashTable.v with the slice that rehash makes checked for values; a simulation in which the checked call does the same as long as the array stays; block numbers are never used again, so a table that grew has another array; sets by their own simulation | false as stated; refuted, and the true part proved |
| C13 | Collecting from arrays and iterators keeps every element in order | induction over pushes for any size hint | proved |
| C14 | String edits act on the byte sequence | String over Vector over the terminator allocator; refinement to byte lists | proved |
| C15 | Writers leave the string NUL-terminated | the byte behind the contents is zero after each writing call | proved |
| C16 | A string is always NUL-terminated | invariant over call lists; refuted for three calls | false as stated; refuted, and the true part proved |
| C17 | Writing the terminator stays inside the allocation | UB excluded for every history of strings; the terminator lies in the extra byte the allocator asks for | proved |
| C18 | assign replaces the contents | refuted for every non-empty string | false as stated; refuted, and the true part proved |
| C19 | A pushed char comes back from pop | exact for chars below 256 | false as stated; refuted, and the true part proved |
| C20 | Contents are always valid UTF-8 | UTF-8 as a predicate on bytes; ASCII edits keep it | false as stated; refuted, and the true part proved |
| C21 | Equal strings hash equally, and the hash is FNV-1 of the bytes | both hash the byte list with the same fold; the C string variant reads up to the zero byte | proved |
| C22 | Integer hashing is total, injective and agrees with equality | casts as arithmetic modulo 2^64, injectivity by cases | proved |
| C23 | FNV-1 hashing is a 32-bit fold over the bytes | the loop equals a fold; result below 2^32 | proved |
| C24 | Float hashing agrees with float equality | floats as IEEE data of the Coq standard library; truncation as the mathematical one | proved |
| C25 | VectorMap behaves as a map | VectorMap over Vector; refinement to sorted association lists, superslice binary search proved | proved |
| C26 | VectorMap contents are always strictly sorted | invariant over calls | proved |
| C27 | Binary search finds the partition point | loop invariant of the binary search; number of comparator calls | proved |
| C28 | VectorMap lookups need only a comparator | witness comparator; C25 and C26 give the condition | false as stated; refuted, and the true part proved |
| C29 | VectorMap entry API equals insert/get | refinement of entries | proved |
| C30 | Building a VectorMap keeps the last value of each key | refinement of building from any list of pairs | proved |
| C31 | Deque behaves as a double-ended list | Deque on the block heap with its pointer array; flat view of all arrays, refinement to lists | proved |
| C32 | Deque iteration visits every element in order from both ends | iterator steps on the flat view | proved |
| C33 | Deque remove takes out exactly one element | refinement of `remove` at any index, moving either the front or the back part | proved |
| C34 | Deque never touches memory it does not own | `UB` excluded for every call list, frame around the deque | proved |
| C35 | Dropping a deque drops each element once | drop log, permutation | proved |
| C36 | Dropping a deque returns all its memory | exact set of blocks left after the drop | false as stated; refuted, and the true part proved |
| C37 | Deque iterators survive conversion to the C++ form | into_compat and from_compat are inverse on every reachable iterator, and the remaining elements agree | proved |
| C38 | Queue is first-in first-out | Queue as a wrapper | proved |
| C39 | HashMap behaves as a map | HashTable on the block heap; chains as lists of node blocks, refinement to finite maps | proved |
| C40 | Hash iteration yields each entry exactly once | iteration is a permutation of the specification map, keys without duplicates | proved |
| C41 | Rehashing preserves the entries | rehash loop invariant: the nodes of both arrays partition the nodes of before | proved |
| C42 | The bucket array always ends in the sentinel and the shared empty array is never written | predicate on the bucket array after every history; the static array is in the frame | proved |
| C43 | Entry API equals insert/get | entry calls are part of the refinement | proved |
| C44 | At most one entry per bucket on average | policy arithmetic with f32 rounding over all reachable stages | false as stated; refuted, and the true part proved |
| C45 | Bucket counts are primes | trial division lifted to `Znumtheory.prime` | proved |
| C46 | Growth is geometric | every growth at least doubles; sum of the copying work | proved |
| C47 | Growth never panics | exact largest size | false as stated; refuted, and the true part proved |
| C48 | Dropping a hash table drops each key and value once | drop log, permutation; node blocks freed once | proved |
| C49 | Dropping a hash table returns all its memory | exact set of blocks left after the drop | false as stated; refuted, and the true part proved |
| C50 | HashSet::insert reports whether the key was added | exact answer | false as stated; refuted, and the true part proved |
| C51 | HashSet behaves as a set | HashSet refinement to lists of keys | proved |
| C52 | Hash iterators survive conversion to the C++ form | compat conversions are inverse | proved |
| C53 | List behaves as a double-ended list | List on byte-addressed memory, any allocator behaviour; ring predicate, refinement to lists | proved |
| C54 | The list ring stays consistent | ring invariant | proved |
| C55 | List iteration reports its exact size | the iterator counts down the list it stands before | proved |
| C56 | List frees each node with the layout it was allocated with | the layout passed to free differs, for every list | false as stated; refuted, and the true part proved |
| C57 | Dropping a list drops each element once and frees each node once | drop log, permutation; live memory after the drop equals that of before | proved |
| C58 | Pool nodes are aligned, inside the buffer and never shared | FixedPool at byte addresses; partition of the slots | false as stated; refuted, and the true part proved |
| C59 | A pool hands out exactly its capacity and recycles freed nodes | free list and live nodes partition the slots | proved |
| C60 | Overflowing pools return each block to where it came from | address test against the memory | false as stated; refuted, and the true part proved |
| C61 | FixedList behaves as a list and uses its buffer first | List over the pool with overflow | proved |
| C62 | FixedVector behaves as a vector | FixedVector over Vector with the pool-aware allocator | proved |
| C63 | has_overflowed tells whether elements live outside the buffer | where the elements are | false as stated; refuted, and the true part proved |
| C64 | A cleared FixedVector reuses its inline buffer | after clear the inline buffer is never used | false as stated; refuted, and the true part proved |
| C65 | Moving a FixedVector preserves its contents | the world after a move equals the specification that keeps the contents | proved |
| C66 | Map lookup finds exactly the stored keys | RBTree on byte-addressed memory; tree predicate, lookup against the in-order list | proved |
| C67 | Map iteration is in ascending key order and complete | in-order successor walk | proved |
| C68 | Colour packing is lossless | arithmetic on words aligned to at least 2 | proved |
| C69 | clear empties a map | state after clear | false of the code, refuted |
| C70 | Freeing a tree frees each node once and drops each entry | nodes freed, drop log | false as stated; refuted, and the true part proved |
| C71 | Lookup cost is logarithmic | height of red-black trees against log2 | proved |
| C72 | Layouts match the C++ header order for every parameter | the repr(C) algorithm on lists of field layouts | false as stated; refuted, and the true part proved |
| C73 | Allocation requests pair up | arithmetic of requests | false as stated; refuted, and the true part proved |
| C74 | Comparators Less and Greater are strict weak orders, mirror images of each other | order lemmas | proved |
| C75 | Vectors of zero-sized elements fail loudly | every call with element size 0 | proved |
| C76 | A terminated string can be read as a C string | reading up to the first zero byte | proved |
| C77 | FNV-1 detects every single-byte change | FNV-1 is injective in each byte | proved |
| C78 | VectorMap owns every key and value exactly once | drop log and frame of VectorMap worlds | proved |
| C79 | The memory of a deque follows its largest content, not its age | invariant on the length of the pointer array | proved |
| C80 | A deque iterator stays valid while it can be used | for every non-empty deque: iterator taken, change made, use is UB | false as stated; refuted, and the true part proved |
| C81 | A mutable iterator over a list has exclusive access | two iterators of one list | false of the code, refuted |
| C82 | A fixed map owns its nodes | fixed map object in memory, pool over its buffer, any filling by C++ | proved |
| C83 | C++ can iterate a hash table filled in Rust | EASTL iterator on the same memory, induction over the buckets | proved |
| C84 | Hash table iterators can be handed across the language border | both conversions followed by the loop of the other side | false as stated; refuted, and the true part proved |
| C85 | A mutable iterator over a hash map has exclusive access | iteration nodes have no duplicates; clone yields the same | false as stated; refuted, and the true part proved |
| C86 | A panicking destructor does not make an element be dropped twice | PanicDrop.v: clear with destructors that may panic; induction over slice, chain and buckets; second run reads an uninitialised element | false as stated; refuted, and the true part proved |
| C87 | Running out of memory is reported, not undefined behaviour | OutOfMemory.v: the allocating functions over an allocator that returns null; simulation between a run with memory and one without, by composition over the monad | false as stated; refuted, and the true part proved |
| C88 | Hash containers are memory safe for any hash function and equality | HashAny.v: the table over two oracles indexed by the number of evaluations so far; an invariant without any law on keys, kept by Ok and Panic outcomes alike, and an accounting of keys and values; a simulation with HashTable.v for pure functions | proved |
| C89 | A panic of the hash function loses no entries | HashAny.v: a witness where growing is interrupted; the invariant of C88 for the true part | false as stated; refuted, and the true part proved |
| C90 | C++ can iterate a deque filled in Rust | DequeCpp.v: operators of EASTL DequeIterator on the memory of Deque.v, with the block size as EASTL defines it; induction over the elements using the invariant of Deque.v | proved |
| C91 | C++ can index a deque filled in Rust | DequeCpp.v: operator+= and operator- on the same invariant; arithmetic of quotient and remainder | proved |
| C92 | Ordered vector maps are memory safe for any comparator and equality | VectorMapAny.v: the map of VectorMap.v over oracles for both functions; search stays in range for all answers, then accounting per call and induction over programs | proved |
| C93 | Tree lookups are memory safe and short for any comparator | TreeAny.v: the lookups of RBTree.v over an oracle; induction over the tree, then over programs | proved |
| C94 | Rust and C++ can share a list | ListCpp.v: EASTL list operations over the same nodes; ring invariant with insert, erase and reverse at any position, induction over mixed programs | proved |
| C95 | Readers do not disturb each other | ReadersSpec.v, ReadersProofs.v: a call by shared reference returns the state it got (compositional lemma per call); definedness from the refinement theorems; induction over orders of turns | proved |
| C96 | Float arithmetic does not change how hash tables grow | FloatPolicy.v: the policy over SpecFloat binary32; shifting and rounding lemmas, then equality with the integer policy for all counts | proved |
| C97 | A container filled by C++ works when handed to Rust | HandoverSpec.v: memory images; each image meets the invariant of the refinement proof over the heap without its blocks, and the invariant gives an image back | proved |
| C98 | Elements stay where they are while they stay in the container | the refinement invariants track where each element lies; program induction over the places; vectors by showing that only reallocation sets the begin pointer (VectorStill.v) | proved |
| C99 | Dropping a container needs little stack | HashDepth.v, TreeDepth.v: the freeing functions with a count of nested calls, shown to do what the originals do; exact depth by induction on chains and trees | false as stated; refuted, and the true part proved |

## 4. Trusted base

* The Coq 8.16.1 kernel, and what `Print Assumptions` lists (section 5).
* That the model follows the Rust code. Each definition cites file and lines.
* Code outside the repository, modelled from its documentation or from memory:
  `superslice` (lower bound), `slice::clone_from_slice`, `ptr::{copy, read,
  write, offset_from, drop_in_place}`, the global allocator and
  `Layout::array`/`align_to`, float casts, the `repr(C)` layout algorithm of the
  Rust reference, and the EASTL headers (iterators of the hash table and deque, list operations, layout of
  nodes and containers, what C++ may do to a fixed map).
* A 64-bit target.

### 4.1 What is modelled, and simplifications

* **Allocators.** `DefaultAllocator`, the terminator allocator of strings, the
  allocator of FixedVector, both pools. A zero-byte or oversized request panics as
  in the code. In the address memory (pools, lists) the allocator may return null;
  in the block heap it does not, except in OutOfMemory.v, which runs the allocating
  functions over an allocator that always returns null (C87).
* **Vector.** All methods and trait impls with behaviour (clone, index, iterators,
  from array/slice/iterator, IntoIter). Element clones may panic (C12).
* **String.** All methods that change or read bytes. A char is its code point.
* **VectorMap.** All methods and the entry API over any comparator. Comparator and
  equality are pure, except in VectorMapAny.v, where each evaluation may answer
  anything or panic (C92).
* **FixedVector.** Objects in a world that can be created, called, moved and
  dropped. The stale `pool_begin` after moving an overflowed vector is part of
  the model; in the block heap its old address is never reused, so an accidental
  equality with a later heap block is not covered there but in FixedReuse.v (C106).
  FixedSwap.v adds `mem::swap` through `DerefMut` (C107).
* **Several lists.** ListWorld.v puts any number of lists of one element type in one
  memory and uses them in turn; two can be exchanged with `mem::swap` (C108, C109).
* **Deque, Queue.** All methods. Not modelled: a panic of `init`
  (it would need a subarray layout that the theorems exclude); Rust's aliasing rules (`remove` builds two
  mutable iterators); `isize` products in `len` are exact.
* **HashTable, HashMap, HashSet.** All methods, entries, iterators, compat
  iterators. The allocator is `DefaultAllocator`. Nested calls of
  `free_bucket` are counted in HashDepth.v (C99), stack bytes are not. Hash and equality functions are pure, except in
  HashAny.v, where each evaluation may answer anything or panic (C88, C89); they do
  not call back into the table.
* **FixedPool.** Byte addresses, free list overlaid on the nodes; the memory given
  to `init` and the requests obey the unsafe contract stated in the theorems.
* **List, FixedList.** The sentinel at the address of the list object, which does
  not move (demanded by the unsafe constructors). An element is kept under the
  address of its node. Provenance is not modelled.
* **RBTree, Map, Set, FixedMap.** Lookup, iteration, clear and drop; the tree
  object's pointers overlay a node (the anchor). The crate has no insert or remove,
  so trees with entries come from C++: theorems quantify over every
  well-formed tree in memory (C66-C71) or over everything C++ may do with the
  pool and the nodes it holds (C82). The comparator is pure, except in TreeAny.v (C93).
  Reads of the anchor are of single words; TreeRefs.v (C122) requires that each
  reference made covers a whole node.
* **Layout.** Offsets, sizes and alignments of every repr(C) struct for all
  element and allocator layouts.
* **Panicking destructors.** PanicDrop.v runs `clear` of Vector, List and
  HashTable with destructors that may panic, PanicRest.v the destructors of Deque
  and IntoIter; elsewhere destructors do not panic.

### 4.2 What is not modelled

The test modules, the formatting machinery of `core::fmt` (what the crate's own
`Debug`/`Display` impls feed to it is, C102), lifetimes and borrow rules except where a property is about them (C80, C81, C85), stacked or
tree borrows (except one rule of the former for vector slices, C119, one for shared iterators, C120, two for hash tables, C121, one for maps, C123, and two for lists, C124 and C125), references made and never used (except by vectors, C117 and C118, hash tables, C121 and C128, lists, C126, and deques, C127), other pointer widths. Threads only as readers that take turns call
by call (C95); there is no weak memory. Constructors and
accessors that only forward to a modelled method are not repeated
(`new`, `default`, `with_allocator`, the delegating methods of the fixed lists,
`map` and `set` wrappers); the models of the forwarded methods stand for them.
Constructors of empty marker structs (compare.rs, equals.rs, hash.rs) and functions
that only return a field (such as `key` of an entry) have no definition of their own.

### 4.3 Hypotheses that occur often

* `Setup` (hash tables): positive node size, layout accepted by the allocator,
  equality is an equivalence that the hash respects, the static bucket array is in
  memory.
* `ListSetup`, `PoolSetup`, `FixedMapSetup`: where the object lies, that it is
  live memory at its alignment; `honest pick`: the allocator returns free, aligned
  memory; `short prog`: fewer than 2^64 calls, so that counters do not overflow.
* `needs_drop`, `chk`: booleans the theorems either quantify over or fix, as the
  statement says.

Each has a concrete instance in an example next to a theorem.

## 5. Print Assumptions

`Print Assumptions` under every property theorem prints "Closed under the global
context": no axiom is used. (`coqchk` also lists axioms that occur in loaded library
files; no theorem depends on them.) No functor, module type, plugin or
`Declare Module` is used; nothing is admitted.

## 6. Wrong programs

`seeded/LOG.jsonl` has one line per deliberate bug put into a scratch copy of a
model: what was edited, which claim it breaks, which theorems then failed, which
were tightened because of it. Edits that turn out not to change behaviour, and
edits that repair a refuted property, are marked in the note.
