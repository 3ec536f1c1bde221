{"id": "C01", "title": "Map refines an abstract dictionary", "statement": "For every history of Map.empty/add/remove/change/filter/partition/map/of_seq/of_block calls with arbitrary keys, values and callbacks, the results of try_find/find/contains_key/len/is_empty/bool()/items/to_list/iteration on the resulting Map are exactly those of an abstract dictionary (finite function from keys to values) that went through the same history.", "quantifier": "all key types with a total order, all values, all finite operation histories, all lookup keys", "why_tests_cant": "The tree can take unboundedly many shapes (leaf/node, rotated, spliced); a test visits a handful of histories and keys.", "anchors": [{"file": "expression/collections/map.py", "symbols": ["Map.add", "Map.remove", "Map.change", "Map.try_find", "Map.__len__"]}, {"file": "expression/collections/maptree.py", "symbols": ["add", "remove", "change", "try_find", "size"]}]}
{"id": "C02", "title": "add changes exactly one key", "statement": "For every Map m, m.add(k, v) succeeds, its try_find(k) is Some(v), and every key different from k is looked up exactly as in m. The stored key object becomes the k just given.", "quantifier": "all reachable maps, all keys k and k', all values", "why_tests_cant": "A wrong rotation or boundary loses a binding only for particular tree shapes.", "anchors": [{"file": "expression/collections/map.py", "symbols": ["Map.add", "add"]}, {"file": "expression/collections/maptree.py", "symbols": ["add", "rebalance", "mk"]}]}
{"id": "C03", "title": "remove deletes exactly one key", "statement": "For every Map m, m.remove(k) succeeds, k is absent from the result, all other bindings are unchanged, and removing an absent key leaves the bindings unchanged.", "quantifier": "all reachable maps, all keys", "why_tests_cant": "Deletion splices a successor from a subtree; loss of a binding depends on the shape of both subtrees.", "anchors": [{"file": "expression/collections/map.py", "symbols": ["Map.remove", "remove"]}, {"file": "expression/collections/maptree.py", "symbols": ["remove", "splice_out_successor", "rebalance"]}]}
{"id": "C04", "title": "change updates, inserts or removes exactly one key", "statement": "m.change(k, f) calls f once with try_find(k); if f returns Some(v) the result binds k to v, if f returns Nothing the result does not contain k; all other bindings are unchanged.", "quantifier": "all reachable maps, keys, and functions (possibly raising or stateful)", "why_tests_cant": "Whether f's Nothing is reached at a leaf, a node or an empty subtree depends on the shape of the tree.", "anchors": [{"file": "expression/collections/map.py", "symbols": ["Map.change", "change"]}, {"file": "expression/collections/maptree.py", "symbols": ["change"]}]}
{"id": "C05", "title": "Iteration is sorted and duplicate free", "statement": "to_list, to_seq, iteration and items() of every Map enumerate each binding exactly once, in strictly increasing key order, and agree with one another and with try_find.", "quantifier": "all reachable maps", "why_tests_cant": "Order must hold for every tree shape produced by every history, including an explicit-stack iterator whose state depends on the shape.", "anchors": [{"file": "expression/collections/map.py", "symbols": ["Map.to_list", "Map.to_seq", "Map.__iter__", "Map.items"]}, {"file": "expression/collections/maptree.py", "symbols": ["to_list", "to_seq", "MkIterator", "collapseLHS", "iter"]}]}
{"id": "C06", "title": "Map operations never raise internal errors", "statement": "No history of Map operations makes add/remove/change/filter/partition/iteration raise 'internal error', 'Map.rebalance', 'splice_out_successor' or a ValueError from an empty subtree.", "quantifier": "all reachable maps and all operations", "why_tests_cant": "The error branches guard shapes believed impossible; only an invariant over all histories shows they are.", "anchors": [{"file": "expression/collections/maptree.py", "symbols": ["rebalance", "splice_out_successor", "remove", "not_started", "already_finished"]}]}
{"id": "C07", "title": "Cached heights are exact and lookups are logarithmic for add-only maps", "statement": "In every Map the height used for balancing is the true height of the tree; and a Map built by any sequence of adds (also of_seq, of_block, filter, partition) has height at most 2*log2(n+1)+1, so try_find makes at most that many comparisons.", "quantifier": "all histories", "why_tests_cant": "A complexity bound for every n cannot be settled by sampling n.", "anchors": [{"file": "expression/collections/maptree.py", "symbols": ["height", "mk", "rebalance", "add", "of_seq", "filter", "partition"]}]}
{"id": "C08", "title": "Removal keeps the tree balanced", "statement": "After any history that includes remove or change, the two subtrees of every node still differ in height by at most 2 (the tolerance add maintains).", "quantifier": "all histories with remove/change", "why_tests_cant": "Needs a search over histories; an unbalanced shape appears only after particular removals.", "anchors": [{"file": "expression/collections/maptree.py", "symbols": ["remove", "change", "mk", "TOLERANCE"]}]}
{"id": "C09", "title": "find, [] and contains agree with try_find", "statement": "m.find(k) and m[k] return v exactly when try_find(k) is Some(v) and raise KeyError exactly when it is Nothing; contains_key(k)/`k in m` is true exactly when it is Some; try_get_value(k, values) appends v to the caller's list and returns True exactly then, and otherwise leaves the list alone and returns False.", "quantifier": "all reachable maps and keys", "why_tests_cant": "Separate recursive searches must agree on every shape and key.", "anchors": [{"file": "expression/collections/map.py", "symbols": ["Map.__getitem__", "Map.__contains__", "find", "contains_key"]}, {"file": "expression/collections/maptree.py", "symbols": ["find", "try_find", "mem"]}]}
{"id": "C10", "title": "filter and partition split the bindings exactly", "statement": "m.filter(p) contains exactly the bindings p accepts; m.partition(p) returns two maps whose bindings are those p accepts and those it rejects; p is called exactly once per binding and exceptions of p propagate.", "quantifier": "all maps and all predicates, including stateful and raising ones", "why_tests_cant": "Order of calls and the rebuilt trees depend on shape.", "anchors": [{"file": "expression/collections/map.py", "symbols": ["Map.filter", "Map.partition"]}, {"file": "expression/collections/maptree.py", "symbols": ["filter", "partition"]}]}
{"id": "C11", "title": "map preserves keys and shape and calls the mapper in key order", "statement": "m.map(f) has the keys of m in the same order; the value at k is f(k, v); f is called exactly once per binding in ascending key order; the first exception propagates and stops further calls.", "quantifier": "all maps and mappers (stateful, raising)", "why_tests_cant": "Evaluation order over arbitrary trees.", "anchors": [{"file": "expression/collections/map.py", "symbols": ["Map.map"]}, {"file": "expression/collections/maptree.py", "symbols": ["map"]}]}
{"id": "C12", "title": "fold, fold_back and iterate visit in key order", "statement": "m.fold(f, s) is the left fold over the bindings in ascending key order, fold_back the right fold (visiting in descending order), iterate visits ascending; each binding is visited exactly once.", "quantifier": "all maps, folders, states", "why_tests_cant": "Holds for all shapes only by induction.", "anchors": [{"file": "expression/collections/map.py", "symbols": ["Map.fold", "Map.fold_back", "Map.iterate"]}, {"file": "expression/collections/maptree.py", "symbols": ["fold", "fold_back", "iter"]}]}
{"id": "C13", "title": "try_pick, exists and for_all search in key order and stop early", "statement": "try_pick returns the chooser's first Some in ascending key order and makes no further call; exists stops at the first true, for_all at the first false, in ascending key order.", "quantifier": "all maps and callbacks (stateful, raising)", "why_tests_cant": "Call order/short circuit on arbitrary shapes.", "anchors": [{"file": "expression/collections/map.py", "symbols": ["Map.try_pick", "Map.exists", "Map.for_all"]}, {"file": "expression/collections/maptree.py", "symbols": ["try_pick", "exists", "forall"]}]}
{"id": "C14", "title": "pick raises KeyError when nothing matches", "statement": "pick(chooser) returns the first picked value, and raises KeyError when the chooser returns Nothing for all bindings.", "quantifier": "all maps and choosers", "why_tests_cant": "Documented failure mode for every map.", "anchors": [{"file": "expression/collections/map.py", "symbols": ["pick"]}, {"file": "expression/core/option.py", "symbols": ["Option.__iter__"]}]}
{"id": "C15", "title": "Map equality is equality of bindings", "statement": "m1 == m2 holds exactly when both maps have the same bindings; it is reflexive, symmetric and transitive, and equal maps have equal hashes.", "quantifier": "all pairs (and triples) of reachable maps", "why_tests_cant": "Quantifies over all pairs of maps of different sizes.", "anchors": [{"file": "expression/collections/map.py", "symbols": ["Map.__eq__", "Map.__hash__"]}]}
{"id": "C16", "title": "Equality and hash do not depend on the history", "statement": "Two maps with the same bindings compare equal in both directions and have the same hash and string form, however they were built (insertion order, removals, rotations).", "quantifier": "all pairs of histories with the same resulting bindings", "why_tests_cant": "Different histories give different internal trees.", "anchors": [{"file": "expression/collections/map.py", "symbols": ["Map.__eq__", "Map.__hash__", "Map.__str__"]}]}
{"id": "C17", "title": "of_seq/of_block/of_list: last binding wins and round trip", "statement": "Map.of_seq(xs) and Map.of_block(xs) bind each key to the last value given for it in xs; Map.of_list(m.to_list()) has the same bindings as m; of_seq and of_block agree.", "quantifier": "all finite sequences of pairs", "why_tests_cant": "All sequences with arbitrary repetition of keys.", "anchors": [{"file": "expression/collections/map.py", "symbols": ["Map.of_seq", "Map.of_block", "Map.of_list", "Map.of"]}, {"file": "expression/collections/maptree.py", "symbols": ["of_seq", "of_list", "mk_from_iterator"]}]}
{"id": "C18", "title": "Building a map from a long sequence does not exhaust the stack", "statement": "Map.of_seq(xs) works for sequences of any length with a call stack that does not grow with the length of xs (as Map.of_block does).", "quantifier": "all lengths and all recursion limits", "why_tests_cant": "Depends on an arbitrary recursion limit and arbitrary length.", "anchors": [{"file": "expression/collections/maptree.py", "symbols": ["mk_from_iterator", "of_seq", "of_list"]}]}
{"id": "C19", "title": "Block is a persistent sequence: list semantics of the core operations", "statement": "append/+ is concatenation (associative, with Block.empty as identity); cons/head/tail/item/len/in/reversed iteration agree with the list of elements; head, tail, reduce of an empty block raise ValueError; out-of-range item raises IndexError and negative indices count from the end.", "quantifier": "all blocks, elements and integer indices", "why_tests_cant": "All integers as index, all lengths.", "anchors": [{"file": "expression/collections/block.py", "symbols": ["Block.append", "Block.cons", "Block.head", "Block.tail", "Block.item", "Block.__add__", "Block.reduce"]}]}
{"id": "C20", "title": "take and skip split a block", "statement": "For every integer n, xs.take(n) + xs.skip(n) == xs; for n >= 0 take(n) has the first min(n, len) elements.", "quantifier": "all blocks, all integers n (also negative or past the end)", "why_tests_cant": "All integers n.", "anchors": [{"file": "expression/collections/block.py", "symbols": ["Block.take", "Block.skip"]}]}
{"id": "C21", "title": "take_last and skip_last split a block", "statement": "For every n >= 0, take_last(n) is the last min(n, len(xs)) elements, skip_last(n) the others, and xs.skip_last(n) + xs.take_last(n) == xs.", "quantifier": "all blocks, all n >= 0", "why_tests_cant": "Boundary n = 0 and n > len for every block.", "anchors": [{"file": "expression/collections/block.py", "symbols": ["Block.take_last", "Block.skip_last"]}, {"file": "expression/collections/array.py", "symbols": ["TypedArray.take_last", "TypedArray.skip_last"]}]}
{"id": "C22", "title": "map, filter, choose, collect, partition and fold of Block agree with list comprehension", "statement": "Each calls its function exactly once per element from first to last; results keep order; partition's two results interleave to the original; choose keeps exactly the Some values; an exception of the callback stops at the first failing element and propagates.", "quantifier": "all blocks and callbacks (stateful, raising)", "why_tests_cant": "All callbacks with side effects.", "anchors": [{"file": "expression/collections/block.py", "symbols": ["Block.map", "Block.filter", "Block.choose", "Block.collect", "Block.partition", "Block.fold", "Block.forall", "Block.mapi", "Block.starmap", "concat"]}]}
{"id": "C23", "title": "indexed numbers from the given start", "statement": "xs.indexed(start) pairs the i-th element with start + i.", "quantifier": "all blocks/arrays and all starts", "why_tests_cant": "All starts.", "anchors": [{"file": "expression/collections/block.py", "symbols": ["Block.indexed"]}, {"file": "expression/collections/array.py", "symbols": ["TypedArray.indexed", "indexed"]}]}
{"id": "C24", "title": "zip, unfold, reduce of Block", "statement": "xs.zip(ys) pairs elements by position up to the shorter length; unfold(f)(s) is exactly the list of values generated until f returns Nothing, calling f once per element plus once; reduce is the left fold from the first element.", "quantifier": "all blocks, generators and states", "why_tests_cant": "All generator functions.", "anchors": [{"file": "expression/collections/block.py", "symbols": ["Block.zip", "Block.unfold", "unfold", "Block.reduce"]}]}
{"id": "C25", "title": "sort and sort_with are stable permutations", "statement": "sort/sort_with return a permutation of the elements ordered by (key of) the element; equal elements keep their relative order, also with reverse=True; the original block is unchanged.", "quantifier": "all blocks, key functions and total preorders", "why_tests_cant": "All permutations and ties.", "anchors": [{"file": "expression/collections/block.py", "symbols": ["Block.sort", "Block.sort_with"]}]}
{"id": "C26", "title": "Block equality", "statement": "Block equality is elementwise equality: reflexive, symmetric, transitive; equal blocks have equal length and elements; a block never equals a longer or shorter block.", "quantifier": "all pairs of blocks", "why_tests_cant": "All pairs.", "anchors": [{"file": "expression/collections/block.py", "symbols": ["Block.__eq__"]}]}
{"id": "C27", "title": "Lazy Seq operations agree with list operations", "statement": "Iterating map/filter/choose/collect/concat/append/skip/take/pairwise/scan/zip/mapi/tail of a sequence yields exactly the elements of the corresponding list function applied to the elements of the source.", "quantifier": "all finite sources, callbacks, counts", "why_tests_cant": "All sources and all compositions.", "anchors": [{"file": "expression/collections/seq.py", "symbols": ["map", "filter", "choose", "collect", "concat", "append", "skip", "take", "pairwise", "scan", "zip", "mapi", "tail"]}]}
{"id": "C28", "title": "Seq results can be iterated more than once", "statement": "If a source can be iterated repeatedly with the same elements, so can the result of every Seq transformation of it.", "quantifier": "all re-iterable sources, all transformations, any number of iterations", "why_tests_cant": "Every composition of transformations and every number of passes.", "anchors": [{"file": "expression/collections/seq.py", "symbols": ["SeqGen", "map", "filter", "scan", "zip", "unfold", "take", "skip", "pairwise"]}]}
{"id": "C29", "title": "take consumes no more than count elements", "statement": "Iterating seq.take(n) to the end requests exactly min(n, length) elements from the source and never asks for an element it does not yield, so taking n elements of a source that would block or fail at element n+1 is safe; it also terminates on infinite sources.", "quantifier": "all sources (finite, infinite, effectful), all n", "why_tests_cant": "Infinite sources and the exact number of pulls.", "anchors": [{"file": "expression/collections/seq.py", "symbols": ["take", "Seq.take"]}, {"file": "expression/collections/asyncseq.py", "symbols": ["AsyncSeq.take"]}]}
{"id": "C30", "title": "Transformations are lazy", "statement": "Building a pipeline of Seq transformations pulls nothing from the source and calls no callback; each element pulled from the pipeline pulls only what is needed.", "quantifier": "all pipelines and sources, including infinite ones", "why_tests_cant": "Infinite sources; observation of all effects.", "anchors": [{"file": "expression/collections/seq.py", "symbols": ["map", "collect", "mapi", "concat", "Seq.collect", "Seq.mapi"]}]}
{"id": "C31", "title": "head, try_find_index, try_pick, exists-style searches stop at the first hit", "statement": "try_pick and try_find_index return the first match, call the callback exactly up to it and pull nothing after it; head pulls one element and raises ValueError for an empty sequence.", "quantifier": "all sources including infinite ones, all callbacks", "why_tests_cant": "Infinite sources.", "anchors": [{"file": "expression/collections/seq.py", "symbols": ["head", "try_pick", "try_find_index"]}]}
{"id": "C32", "title": "fold, fold_back, scan, length, sum, min, max of Seq", "statement": "fold is the left fold, fold_back the right fold, the last element of scan equals fold and scan yields length+1 prefixes' folds; length/sum/min/max agree with the list.", "quantifier": "all sources, folders, states", "why_tests_cant": "All folders.", "anchors": [{"file": "expression/collections/seq.py", "symbols": ["fold", "fold_back", "scan", "length", "sum", "max", "min", "max_by", "min_by"]}]}
{"id": "C33", "title": "unfold and init_infinite", "statement": "seq.unfold yields exactly the generated values on demand, calling the generator once per requested element; init_infinite(f) yields f(0), f(1), ... from the start on every iteration.", "quantifier": "all generators, states, number of elements requested", "why_tests_cant": "Infinite streams.", "anchors": [{"file": "expression/collections/seq.py", "symbols": ["unfold", "init_infinite", "init"]}]}
{"id": "C34", "title": "TypedArray operations agree with list semantics", "statement": "take/skip/tail/head/map/filter/choose/collect/partition-style operations, indexing, insertion, deletion and slicing return the same elements as on a list, for every integer argument, and raise IndexError/ValueError exactly when list/head would.", "quantifier": "all arrays, integers, callbacks", "why_tests_cant": "All integers.", "anchors": [{"file": "expression/collections/array.py", "symbols": ["TypedArray.take", "TypedArray.skip", "TypedArray.head", "TypedArray.filter", "TypedArray.map", "TypedArray.insert", "TypedArray.__getitem__", "TypedArray.__setitem__", "TypedArray.__delitem__"]}]}
{"id": "C35", "title": "A fixed-width TypedArray only ever holds values of its type", "statement": "After any history of construction, item assignment and insertion, every element of an array with an integer typecode lies in that type's range; an out-of-range value raises OverflowError (ValueError for byte arrays) and leaves the array unchanged.", "quantifier": "all typecodes, values and mutation histories", "why_tests_cant": "All histories and values.", "anchors": [{"file": "expression/collections/array.py", "symbols": ["array_from_typecode", "array_from_initializer", "TypedArray.__setitem__", "TypedArray.insert", "TypeCode"]}]}
{"id": "C36", "title": "A TypedArray owns its storage", "statement": "Mutating a TypedArray never changes the object it was built from, nor vice versa.", "quantifier": "all initializers and mutation histories", "why_tests_cant": "Aliasing depends on the kind of initializer and the history.", "anchors": [{"file": "expression/collections/array.py", "symbols": ["array_from_initializer"]}]}
{"id": "C37", "title": "Option laws", "statement": "Option is a functor and monad with filter/or_else: map identity/composition, bind left/right unit and associativity, or_else associativity with Nothing as unit, filter composition; map2/apply are determined by both being Some; callbacks are called exactly when there is a value.", "quantifier": "all values, functions (stateful or raising)", "why_tests_cant": "Laws over all functions.", "anchors": [{"file": "expression/core/option.py", "symbols": ["Option.map", "Option.bind", "Option.or_else", "Option.or_else_with", "Option.filter", "Option.map2", "Option.apply", "Option.default_value", "Option.default_with"]}]}
{"id": "C38", "title": "Result laws and error precedence", "statement": "Result is a functor/monad in its ok value, map_error in its error; swap is an involution; an Error is passed through map/bind/filter unchanged; in map2/apply/bind chains the first (leftmost) error is the one reported; or_else keeps the first Ok.", "quantifier": "all values, errors, functions", "why_tests_cant": "Laws over all functions.", "anchors": [{"file": "expression/core/result.py", "symbols": ["Result.map", "Result.bind", "Result.map_error", "Result.swap", "Result.map2", "Result.apply", "Result.or_else", "Result.or_else_with", "Result.filter", "Result.filter_with", "Result.merge"]}]}
{"id": "C39", "title": "Option/Result/Optional conversions round trip", "statement": "of_optional(o.to_optional()) == o, Result.of_option(o, e).to_option() == o, option.of_result(r).is_some() iff r.is_ok(), to_result then to_option is the identity, of_option_with computes the error only when it is needed.", "quantifier": "all options and results, all contained values including None", "why_tests_cant": "All contained values.", "anchors": [{"file": "expression/core/option.py", "symbols": ["of_optional", "Option.to_optional", "Option.to_result", "of_result"]}, {"file": "expression/core/result.py", "symbols": ["Result.to_option", "Result.of_option"]}]}
{"id": "C40", "title": "Option/Result ordering and equality", "statement": "Equality and < of options/results (and any ordered tagged union) form a strict total order on cases then payload: Nothing < Some(x), Ok < Error, same case compares payloads; == is an equivalence consistent with hash and <.", "quantifier": "all unions with any number of cases, all payloads from a totally ordered type", "why_tests_cant": "All triples for transitivity.", "anchors": [{"file": "expression/core/tagged_union.py", "symbols": ["tagged_union", "__lt__", "__eq__", "__hash__"]}, {"file": "expression/core/option.py", "symbols": ["Option"]}, {"file": "expression/core/result.py", "symbols": ["Result"]}]}
{"id": "C41", "title": "Tagged union construction accepts exactly one case", "statement": "Constructing a tagged union with keyword arguments succeeds exactly when exactly one declared case is given (with a matching tag, if tag is given); the resulting value has that tag and payload and no other case attribute; otherwise TypeError is raised.", "quantifier": "all union declarations, all keyword argument sets", "why_tests_cant": "All keyword combinations.", "anchors": [{"file": "expression/core/tagged_union.py", "symbols": ["tagged_union", "__init__"]}]}
{"id": "C42", "title": "Tagged unions survive copying and pickling", "statement": "copy, deepcopy and pickle/unpickle of any tagged union value give an equal value with the same tag; for frozen unions assigning or deleting a case attribute or the tag raises TypeError and leaves the value unchanged.", "quantifier": "all declarations, values and attribute names", "why_tests_cant": "All declarations.", "anchors": [{"file": "expression/core/tagged_union.py", "symbols": ["__copy__", "__deepcopy__", "__getstate__", "__setstate__", "__setattr__", "__delattr__"]}]}
{"id": "C43", "title": "curry: any staging equals the direct call", "statement": "For a function decorated with curry(n), n+1 successive calls whose arguments concatenate to args (with keyword arguments) give f(*args, **kwargs); partial applications can be reused without interfering.", "quantifier": "all n, all splits of positional and keyword arguments over the calls", "why_tests_cant": "All splits.", "anchors": [{"file": "expression/core/curry.py", "symbols": ["_curry", "curry"]}]}
{"id": "C44", "title": "curry_flip puts the last arguments first", "statement": "f decorated with curry_flip(n) called with (*args, **kw) and then n single-argument groups c1..cn equals f(c1.., *args, **kw); curry_flip(0) is f; pipeable(f, *args, **kw)(x) == f(x, *args, **kw).", "quantifier": "all n, argument lists, keyword arguments", "why_tests_cant": "All n.", "anchors": [{"file": "expression/core/curry.py", "symbols": ["curry_flip", "pipeable"]}]}
{"id": "C45", "title": "compose and pipe", "statement": "pipe(x, f1..fn) == fn(...f1(x)); compose() is identity, compose is associative under nesting; pipe2/pipe3/starpipe/starcompose apply the first function to all arguments and each next to the unpacked result; evaluation is left to right and stops at the first exception.", "quantifier": "all function lists and values", "why_tests_cant": "All lengths of function lists.", "anchors": [{"file": "expression/core/compose.py", "symbols": ["compose"]}, {"file": "expression/core/pipe.py", "symbols": ["pipe", "pipe2", "pipe3", "starpipe"]}, {"file": "expression/core/misc.py", "symbols": ["starid", "identity"]}]}
{"id": "C46", "title": "tailrec computes the recursive function in constant stack", "statement": "A @tailrec function returns exactly what the corresponding recursive definition returns, for every number of tail calls, and the trampoline never nests calls; if the recursion does not terminate neither does the trampoline.", "quantifier": "all step functions, arguments, iteration counts", "why_tests_cant": "All iteration counts, including those beyond the recursion limit.", "anchors": [{"file": "expression/core/fn.py", "symbols": ["tailrec", "tailrec_async", "TailCall"]}]}
{"id": "C47", "title": "option/result computation expressions are monadic do-notation", "statement": "Calling a generator function decorated with effect.option()/effect.result() returns what the corresponding chain of binds returns: each `yield from m` binds m, each `yield v` binds return v, and `return v` (v not None) gives Some(v)/Ok(v).", "quantifier": "all bodies (any number of yields, any control flow depending on received values, any effects)", "why_tests_cant": "All generator bodies.", "anchors": [{"file": "expression/core/builder.py", "symbols": ["Builder._send", "Builder.__call__"]}, {"file": "expression/effect/option.py", "symbols": ["OptionBuilder"]}, {"file": "expression/effect/result.py", "symbols": ["ResultBuilder"]}]}
{"id": "C48", "title": "Builders short circuit", "statement": "When a body does `yield from Nothing` or `yield from Error(e)` (uncaught), no later statement of the body runs and the result is Nothing / exactly that Error(e); other exceptions propagate unchanged to the caller.", "quantifier": "all bodies, all positions of the failure, all errors", "why_tests_cant": "All bodies and positions.", "anchors": [{"file": "expression/core/builder.py", "symbols": ["Builder._send"]}, {"file": "expression/core/option.py", "symbols": ["Option.__iter__"]}, {"file": "expression/core/result.py", "symbols": ["Result.__iter__"]}]}
{"id": "C49", "title": "A body without a return value yields zero", "statement": "A decorated body that ends without returning a value (falls off the end or returns None) gives the builder's zero().", "quantifier": "all bodies", "why_tests_cant": "All bodies; depends on the yields made before the end.", "anchors": [{"file": "expression/core/builder.py", "symbols": ["Builder.zero", "Builder.__call__"]}]}
{"id": "C50", "title": "seq computation expressions concatenate what is yielded", "statement": "A body decorated with effect.seq() gives the sequence of all values it yields (yield and yield from) in order, followed by its return value if not None; all statements run exactly once, eagerly; the sequence can be iterated however many values were yielded, with work in proportion to their number. Its bind concatenates the results of the function for the elements, called in order.", "quantifier": "all bodies", "why_tests_cant": "All bodies.", "anchors": [{"file": "expression/effect/seq.py", "symbols": ["SeqBuilder"]}, {"file": "expression/core/builder.py", "symbols": ["Builder.__call__"]}]}
{"id": "C51", "title": "Async builders agree with the synchronous ones", "statement": "effect.async_option()/async_result() give, for every body, the value the synchronous builder gives for the same body without a return value; short circuits and exceptions likewise.", "quantifier": "all async bodies", "why_tests_cant": "All bodies.", "anchors": [{"file": "expression/core/async_builder.py", "symbols": ["AsyncBuilder._send", "AsyncBuilder.__call__"]}, {"file": "expression/effect/async_option.py", "symbols": ["AsyncOptionBuilder"]}, {"file": "expression/effect/async_result.py", "symbols": ["AsyncResultBuilder"]}]}
{"id": "C52", "title": "traverse and sequence of Results", "statement": "traverse(f, xs) is Ok of the block of all results in order when every f(x) is Ok, otherwise the Error of the leftmost failing element; sequence = traverse(identity). f is called from left to right and not after the first error.", "quantifier": "all blocks, all functions", "why_tests_cant": "All blocks and effectful functions.", "anchors": [{"file": "expression/extra/result/traversable.py", "symbols": ["traverse", "sequence"]}]}
{"id": "C53", "title": "Result/Option pipelines are Kleisli composition", "statement": "pipeline(f1..fn)(x) equals Ok(x).bind(f1)...bind(fn): it is associative, pipeline() is Ok/Some, stops at the first Error/Nothing without calling the later functions.", "quantifier": "all function lists and inputs", "why_tests_cant": "All lengths.", "anchors": [{"file": "expression/extra/result/pipeline.py", "symbols": ["pipeline"]}, {"file": "expression/extra/option/pipeline.py", "symbols": ["pipeline"]}]}
{"id": "C54", "title": "catch converts exactly the named exceptions", "statement": "A function decorated with catch(exception=E) returns Ok(v) when it returns a plain v, the Result itself when it returns a Result, Error(ex) when it raises an instance of E, and lets every other exception propagate.", "quantifier": "all functions, arguments, exception class hierarchies", "why_tests_cant": "All functions.", "anchors": [{"file": "expression/extra/result/catch.py", "symbols": ["catch"]}]}
{"id": "C55", "title": "Parsers never move backwards or past the end and never change the input", "statement": "For every parser built from the module's combinators, a successful run leaves the remaining input equal to the original string with a position between the start position and the length of the string.", "quantifier": "all combinator expressions, inputs, positions", "why_tests_cant": "All compositions.", "anchors": [{"file": "expression/extra/parser.py", "symbols": ["Parser", "pchar", "and_then", "or_else", "many", "bind", "opt"]}]}
{"id": "C56", "title": "or_else backtracks fully and choice is ordered", "statement": "p.or_else(q) gives p's result if p succeeds and otherwise q run from the same position as p; choice(ps) is the first success in order; any_of(chars) consumes one character exactly when it is in chars; choice/any_of of nothing raise ValueError.", "quantifier": "all parsers and inputs", "why_tests_cant": "All parsers.", "anchors": [{"file": "expression/extra/parser.py", "symbols": ["or_else", "choice", "any_of"]}]}
{"id": "C57", "title": "Parser is a monad and applicative", "statement": "preturn/bind satisfy the monad laws, map the functor laws, and_then is associative up to regrouping of pairs, sequence runs parsers in order and fails with the first failure.", "quantifier": "all parsers and functions", "why_tests_cant": "All parsers.", "anchors": [{"file": "expression/extra/parser.py", "symbols": ["bind", "map", "and_then", "preturn", "apply", "lift2", "sequence", "then_ignore", "ignore_then", "between"]}]}
{"id": "C58", "title": "pstring matches exactly its string", "statement": "pstring(s) succeeds exactly when the remaining input starts with s, returns s and consumes exactly len(s) characters.", "quantifier": "all strings s, inputs and positions", "why_tests_cant": "All strings.", "anchors": [{"file": "expression/extra/parser.py", "symbols": ["pstring", "pchar"]}]}
{"id": "C59", "title": "many is greedy, total and never fails", "statement": "many(p) always terminates with Ok, returning the results of the longest run of successes of p; many1 needs at least one; sep_by parses exactly separated lists.", "quantifier": "all parsers p and inputs", "why_tests_cant": "Termination for every parser and input.", "anchors": [{"file": "expression/extra/parser.py", "symbols": ["many", "many1", "parse_zero_or_more", "sep_by", "sep_by1", "opt"]}]}
{"id": "C60", "title": "pint parses what is printed", "statement": "For every integer n and every following text that does not start with a digit, pint on str(n)+rest returns n and leaves rest; it fails when no digit follows the optional minus sign.", "quantifier": "all integers, all following texts, all positions", "why_tests_cant": "All integers.", "anchors": [{"file": "expression/extra/parser.py", "symbols": ["pint", "digits", "parse_digit"]}]}
{"id": "C61", "title": "A Disposable runs its action at most once", "statement": "Whatever threads call dispose() (or leave a with block) in whatever interleaving, the action of Disposable.create(action) runs at most once, and exactly once when dispose() was called and all calls have returned; no call waits for ever, and a with block cannot be entered after a dispose() returned or the action ran. The same holds for AsyncDisposable.create on one event loop.", "quantifier": "all numbers of threads and all interleavings", "why_tests_cant": "All schedules.", "anchors": [{"file": "expression/system/disposable.py", "symbols": ["AnonymousDisposable.dispose", "Disposable.create", "AsyncAnonymousDisposable.dispose_async"]}]}
{"id": "C62", "title": "Cancellation calls every registered listener exactly once", "statement": "cancel() calls each listener that is registered and not unregistered exactly once, in registration order, even when a listener raises or calls cancel again; a second cancel calls nothing; unregistered listeners are not called.", "quantifier": "all histories of register/unregister/cancel, all listeners (raising, reentrant)", "why_tests_cant": "All histories.", "anchors": [{"file": "expression/system/cancellation.py", "symbols": ["CancellationTokenSource.cancel", "CancellationTokenSource.dispose", "CancellationTokenSource.register_internal", "CancellationToken.register"]}]}
{"id": "C63", "title": "No registration is lost in a race with cancel", "statement": "If a call to token.register(listener) returns normally and the source is cancelled (concurrently or later) by any thread, the listener is called.", "quantifier": "all interleavings of register and cancel on different threads", "why_tests_cant": "All schedules.", "anchors": [{"file": "expression/system/cancellation.py", "symbols": ["CancellationTokenSource.register_internal", "CancellationTokenSource.dispose"]}]}
{"id": "C64", "title": "Cancellation is monotone", "statement": "is_cancellation_requested never goes back from True to False, is True for every token of the source exactly when cancel/dispose was called; register after cancel raises ObjectDisposedException; CancellationToken.none() is never cancelled, and throw_if_cancellation_requested raises exactly when requested.", "quantifier": "all histories", "why_tests_cant": "All histories.", "anchors": [{"file": "expression/system/cancellation.py", "symbols": ["CancellationToken", "CancellationTokenSource"]}]}
{"id": "C65", "title": "AsyncDisposable.composite disposes all its members", "statement": "Disposing a composite disposes each member exactly once in order.", "quantifier": "all lists of members, any of which may raise", "why_tests_cant": "All lists and failures.", "anchors": [{"file": "expression/system/disposable.py", "symbols": ["AsyncCompositeDisposable", "AsyncAnonymousDisposable", "AsyncDisposable"]}]}
{"id": "C66", "title": "Mailbox delivers every message exactly once in order", "statement": "Under every schedule of posts, receives and event loop turns, the messages returned by receive() are a prefix of the posted messages in post order; when the body keeps receiving and the loop runs to quiescence all posted messages are received.", "quantifier": "all schedules and message sequences", "why_tests_cant": "All schedules.", "anchors": [{"file": "expression/core/mailbox.py", "symbols": ["MailboxProcessor.post", "MailboxProcessor.receive", "MailboxProcessor.__process_events"]}]}
{"id": "C67", "title": "Mailbox loses no message when posts and processing race", "statement": "Also when post_and_async_reply and the event loop run event processing on different threads, no message is lost.", "quantifier": "all interleavings of threads", "why_tests_cant": "All schedules.", "anchors": [{"file": "expression/core/mailbox.py", "symbols": ["MailboxProcessor.__process_events", "MailboxProcessor.post_and_async_reply"]}]}
{"id": "C68", "title": "An abandoned receive loses nothing", "statement": "If a receive() is abandoned (its future is cancelled, e.g. by a timeout), the next message is delivered to the next receive().", "quantifier": "all schedules with abandonment", "why_tests_cant": "All schedules.", "anchors": [{"file": "expression/core/mailbox.py", "symbols": ["MailboxProcessor.receive", "MailboxProcessor.__process_events"]}, {"file": "expression/core/aiotools.py", "symbols": ["from_continuations"]}]}
{"id": "C69", "title": "Every reply completes the request", "statement": "await post_and_async_reply(build) completes with the value the agent passes to reply, whatever the value and whether the reply comes before or after the caller waits; a second reply is ignored.", "quantifier": "all reply values and schedules", "why_tests_cant": "All values (None) and schedules.", "anchors": [{"file": "expression/core/mailbox.py", "symbols": ["MailboxProcessor.post_and_async_reply", "AsyncReplyChannel"]}, {"file": "expression/core/aiotools.py", "symbols": ["from_continuations"]}]}
{"id": "C70", "title": "A cancelled mailbox stops delivering", "statement": "After its token is cancelled a mailbox delivers no further message: a pending receive is cancelled and later posts are not delivered.", "quantifier": "all schedules", "why_tests_cant": "All schedules.", "anchors": [{"file": "expression/core/mailbox.py", "symbols": ["MailboxProcessor.__process_events"]}]}
{"id": "C71", "title": "from_continuations settles once with the first continuation", "statement": "Whatever sequence of done/error/cancel continuations the callback triggers, immediately or later, the awaiting code sees exactly the first; later calls have no effect and raise nothing.", "quantifier": "all sequences of continuation calls", "why_tests_cant": "All sequences and timings.", "anchors": [{"file": "expression/core/aiotools.py", "symbols": ["from_continuations"]}]}
{"id": "C72", "title": "AsyncSeq operations agree with list operations", "statement": "For every async source, map/choose/filter/collect/concat/append/scan/take/skip/fold/fold_back/head/length/sum/max/min give the list results on the awaited elements, awaiting each source element once and in order.", "quantifier": "all sources, callbacks", "why_tests_cant": "All sources.", "anchors": [{"file": "expression/collections/asyncseq.py", "symbols": ["AsyncSeq.map", "AsyncSeq.filter", "AsyncSeq.choose", "AsyncSeq.collect", "AsyncSeq.concat", "AsyncSeq.fold", "AsyncSeq.fold_back", "AsyncSeq.scan", "AsyncSeq.skip", "append", "range", "repeat"]}]}
{"id": "C73", "title": "Block.range is an arithmetic progression", "statement": "Block.range(start, stop, step) holds exactly the numbers start + i*step, i >= 0, that lie before stop (after stop for a negative step), in that order; step 0 raises ValueError.", "quantifier": "all integers start, stop and step", "why_tests_cant": "All integers, including negative steps and empty ranges.", "anchors": [{"file": "expression/collections/block.py", "symbols": ["range", "Block.range"]}]}
{"id": "C74", "title": "dict() determines the Option or Result", "statement": "Result.dict() is a dictionary with exactly the keys tag and the case name, from which the result can be told; Option.dict() is the payload or None, from which the option can be told; the payload's own model_dump()/dict() is called once when it has one.", "quantifier": "all options, results and payloads", "why_tests_cant": "All payloads, including nested options and None.", "anchors": [{"file": "expression/core/option.py", "symbols": ["Option.dict"]}, {"file": "expression/core/result.py", "symbols": ["Result.dict"]}]}
{"id": "C75", "title": "pfloat takes the longest decimal numeral", "statement": "pfloat reads an optional minus sign, digits and, only when digits follow the point, a fraction; it consumes exactly that text, returns float(text) with the sign applied, and leaves a point that no digit follows unread.", "quantifier": "all numerals, all following texts, all positions, any float function", "why_tests_cant": "Tests try a few numerals; the claim covers every numeral and every continuation, where the point handling matters.", "anchors": [{"file": "expression/extra/parser.py", "symbols": ["pfloat", "digits", "opt"]}]}
{"id": "C76", "title": "A with block always disposes", "statement": "with d: body runs body and then disposes d exactly once, whether body returns or raises and also when body disposes d itself; the result or the exception of body comes out unless the action raises; entering a disposed object raises ObjectDisposedException and runs nothing.", "quantifier": "all disposables (also nested composites), all bodies and actions", "why_tests_cant": "All bodies, exceptions and nestings.", "anchors": [{"file": "expression/system/disposable.py", "symbols": ["Disposable.__enter__", "Disposable.__exit__", "AnonymousDisposable.__enter__", "AsyncDisposable.__aexit__", "AsyncAnonymousDisposable.__aenter__"]}]}
{"id": "C77", "title": "dispose() returns only after the resource was released", "statement": "When a call of dispose() returns, the action has run.", "quantifier": "all numbers of threads and all interleavings", "why_tests_cant": "Needs a particular interleaving of two threads.", "anchors": [{"file": "expression/system/disposable.py", "symbols": ["AnonymousDisposable.dispose"]}]}
{"id": "C78", "title": "Started computations are kept while they run", "statement": "start and start_immediate keep the task of a computation until the computation ends, and drop it then, however it ends; the source of the token they were given does not keep it either.", "quantifier": "all sequences of starts, endings and cancellations", "why_tests_cant": "All sequences; a leak is not visible in a result.", "anchors": [{"file": "expression/core/aiotools.py", "symbols": ["start", "start_immediate"]}]}
{"id": "C79", "title": "start follows its token", "statement": "start(computation, token) either raises and starts nothing, or starts the computation, which is then cancelled when the token's source is cancelled.", "quantifier": "all sequences of starts and cancellations, all tokens", "why_tests_cant": "All sequences and all kinds of tokens.", "anchors": [{"file": "expression/core/aiotools.py", "symbols": ["start", "start_immediate"]}, {"file": "expression/system/cancellation.py", "symbols": ["CancellationToken.register", "CancellationToken.none"]}]}
{"id": "C80", "title": "AsyncSeq transformations await only what they hand out", "statement": "When a transformation of an async sequence has handed out an element, it has awaited the source only up to the element this one comes from; take(n) ends without awaiting more than n elements.", "quantifier": "all sources, including infinite and shared ones, all callbacks", "why_tests_cant": "Infinite sources; an element lost from a shared source is not visible in the result.", "anchors": [{"file": "expression/collections/asyncseq.py", "symbols": ["AsyncSeq.map", "AsyncSeq.filter", "AsyncSeq.choose", "AsyncSeq.collect", "AsyncSeq.concat", "AsyncSeq.scan", "AsyncSeq.skip", "AsyncSeq.take", "append"]}]}
{"id": "C81", "title": "AsyncSeq results can be iterated more than once", "statement": "If an async source can be iterated repeatedly with the same elements, so can the result of every AsyncSeq transformation of it.", "quantifier": "all re-iterable sources, all transformations, any number of iterations", "why_tests_cant": "Every source and every number of passes.", "anchors": [{"file": "expression/collections/asyncseq.py", "symbols": ["AsyncSeq.map", "AsyncSeq.range", "map", "range"]}]}
{"id": "C82", "title": "asyncseq.repeat repeats", "statement": "repeat(value, n) yields value n times; repeat(value) yields it without end.", "quantifier": "all values and counts", "why_tests_cant": "An endless sequence cannot be tested to its end.", "anchors": [{"file": "expression/collections/asyncseq.py", "symbols": ["repeat"]}]}
{"id": "C83", "title": "Exceptions of Seq callbacks reach the consumer unchanged", "statement": "When a callback given to a Seq operation raises, the consumer gets the elements made before it and then exactly that exception; the callback is not called again.", "quantifier": "all callbacks, all exceptions, all sources", "why_tests_cant": "Every exception class, including StopIteration, and every position of the failing element.", "anchors": [{"file": "expression/collections/seq.py", "symbols": ["map", "filter", "choose", "collect", "scan", "mapi", "fold", "iter", "try_pick", "sum_by", "max_by", "min_by"]}]}
{"id": "C84", "title": "Piped parser combinators agree with the methods", "statement": "pipe(p, op(q)) is p.op(q) for and_then, then_ignore, ignore_then and or_else: p is tried first.", "quantifier": "all parsers, inputs and effects", "why_tests_cant": "All parsers; the order shows only when both parsers succeed.", "anchors": [{"file": "expression/extra/parser.py", "symbols": ["and_then", "or_else", "then_ignore", "ignore_then", "Parser.or_else", "Parser.and_then"]}]}
{"id": "C85", "title": "Printing a Seq", "statement": "str(seq) shows the first 100 elements in order, marks that there are more, ends also for infinite sequences, and leaves the sequence as it was.", "quantifier": "all sources, including infinite, raising and one-shot ones", "why_tests_cant": "Every length and kind of source.", "anchors": [{"file": "expression/collections/seq.py", "symbols": ["Seq.__repr__", "Seq.__str__", "Seq.__iter__"]}]}
{"id": "C86", "title": "Slices with any bounds and step", "statement": "Slicing a Block or a TypedArray, and deleting from or assigning to a slice of a TypedArray, select the positions Python's slices select and treat them as a list does; a step of zero is a ValueError and a failed assignment changes nothing.", "quantifier": "all sequences, all start, stop and step values including negative, missing and out of range ones, all assigned values", "why_tests_cant": "All bounds, signs and lengths together.", "anchors": [{"file": "expression/collections/block.py", "symbols": ["Block.__getitem__"]}, {"file": "expression/collections/array.py", "symbols": ["TypedArray.__getitem__", "TypedArray.__setitem__", "TypedArray.__delitem__"]}]}
{"id": "C87", "title": "Pydantic round trip", "statement": "Serialising an Option, Result or Block with dict() and validating the data with the same type, as Python data or as JSON, gives back an equal value.", "quantifier": "all nestings of Option, Result, Block and other types, all values", "why_tests_cant": "Every nesting of types and every value.", "anchors": [{"file": "expression/core/option.py", "symbols": ["Option.dict", "Option.__get_pydantic_core_schema__"]}, {"file": "expression/core/result.py", "symbols": ["Result.dict", "Result.__get_pydantic_core_schema__"]}, {"file": "expression/collections/block.py", "symbols": ["Block.dict", "Block.__get_pydantic_core_schema__"]}]}
{"id": "C88", "title": "Pydantic validation checks the items", "statement": "A value that validation as Option[T], Result[T, E] or Block[T] accepts holds items of the declared types.", "quantifier": "all types and all inputs, Python and JSON", "why_tests_cant": "Every type and every malformed input.", "anchors": [{"file": "expression/core/option.py", "symbols": ["Option.__get_pydantic_core_schema__"]}, {"file": "expression/core/result.py", "symbols": ["Result.__get_pydantic_core_schema__"]}, {"file": "expression/collections/block.py", "symbols": ["Block.__get_pydantic_core_schema__"]}]}
{"id": "C89", "title": "Pydantic validation reports bad input as a validation error", "statement": "When input does not fit Option[T], Result[T, E] or Block[T], validation raises a ValidationError and no other exception.", "quantifier": "all types and all inputs", "why_tests_cant": "Every malformed input.", "anchors": [{"file": "expression/core/option.py", "symbols": ["Option.__get_pydantic_core_schema__"]}, {"file": "expression/core/result.py", "symbols": ["Result.__get_pydantic_core_schema__"]}, {"file": "expression/collections/block.py", "symbols": ["Block.__get_pydantic_core_schema__"]}]}
{"id": "C90", "title": "Nothing is one object", "statement": "x is Nothing holds of an option exactly when it is empty, whatever operations made it.", "quantifier": "all programs of Option operations, callbacks with effects", "why_tests_cant": "All compositions of operations.", "anchors": [{"file": "expression/core/option.py", "symbols": ["Nothing", "Option.map", "Option.map2", "Option.bind", "Option.or_else", "Option.filter", "of_optional", "default_arg"]}]}
{"id": "C91", "title": "Text of options, results and tries", "statement": "str() names the case (Some/Nothing, Ok/Error, Success/Failure) followed by str() of the payload, repr() is the same text, different values have different texts, and a copy prints like the original.", "quantifier": "all payloads and their str/repr with effects and exceptions", "why_tests_cant": "All payloads and all ways of copying.", "anchors": [{"file": "expression/core/option.py", "symbols": ["Option.__str__", "Option.__repr__"]}, {"file": "expression/core/result.py", "symbols": ["Result.__str__", "Result.__repr__"]}, {"file": "expression/core/try_.py", "symbols": ["Try.__str__"]}, {"file": "expression/core/tagged_union.py", "symbols": ["tagged_union"]}]}
{"id": "C92", "title": "Text of blocks, arrays and maps", "statement": "str() of a Block, TypedArray or Map shows every element in order, each once, and different collections whose elements have different texts have different texts.", "quantifier": "all collections and element texts", "why_tests_cant": "All collections and all texts of elements, including those containing separators.", "anchors": [{"file": "expression/collections/block.py", "symbols": ["Block.__str__", "Block.__repr__"]}, {"file": "expression/collections/array.py", "symbols": ["TypedArray.__str__", "TypedArray.__repr__"]}, {"file": "expression/collections/map.py", "symbols": ["Map.__str__", "Map.__repr__"]}]}
{"id": "C93", "title": "Hash and comparison operators of tagged unions", "statement": "Equal tagged-union values have equal hashes whatever options the decorator was given, and order=True gives all four comparison operators.", "quantifier": "all declarations, decorator options and payloads", "why_tests_cant": "All declarations and options together.", "anchors": [{"file": "expression/core/tagged_union.py", "symbols": ["tagged_union"]}]}
{"id": "C94", "title": "Assigning to a tagged union that is not frozen", "statement": "After assigning to a case of a non-frozen union the value is the one a constructor call with that case makes.", "quantifier": "all declarations, all cases and payloads", "why_tests_cant": "All declarations and sequences of assignments.", "anchors": [{"file": "expression/core/tagged_union.py", "symbols": ["tagged_union"]}]}
{"id": "C95", "title": "Downcasts check the type", "statement": "downcast(T, x) and try_downcast(T, x) return x itself when x belongs to the type T, type arguments included; otherwise downcast raises AssertionError and try_downcast returns None. upcast returns its argument.", "quantifier": "all classes, tuples of classes, generic types and unions, all objects", "why_tests_cant": "Every type expression and object; a cast that lets a wrong object pass shows up elsewhere.", "anchors": [{"file": "expression/core/typing.py", "symbols": ["upcast", "downcast", "try_downcast"]}]}
{"id": "C96", "title": "Module functions and methods agree", "statement": "pipe(x, module.f(a, b)) and x.f(a, b) are the same call: the same method runs once on x with the same arguments whether given by position, by name or by default, and arguments the function does not take raise TypeError before any method runs.", "quantifier": "all forwarding functions of block, map, option, result and array, the forwarding methods of Seq, Block, TypedArray and Parser, all argument lists", "why_tests_cant": "Tests call each function in one way; positions, names and defaults combine with the reversed parameter order of curry_flip.", "anchors": [{"file": "expression/collections/block.py", "symbols": ["append", "fold", "sort_with"]}, {"file": "expression/collections/map.py", "symbols": ["add", "find", "fold_back", "iterate"]}, {"file": "expression/core/option.py", "symbols": ["map2", "or_else"]}, {"file": "expression/core/result.py", "symbols": ["map2", "default_with"]}, {"file": "expression/collections/array.py", "symbols": ["indexed"]}, {"file": "expression/collections/seq.py", "symbols": ["Seq.map"]}, {"file": "expression/extra/parser.py", "symbols": ["Parser.or_else", "Parser.between"]}, {"file": "expression/core/curry.py", "symbols": ["curry_flip"]}]}
{"id": "C97", "title": "An agent handles its messages one after another in the order they were posted", "statement": "MailboxProcessor.start(body) with a body that loops over receive behaves like the body run alone on the list of posted messages: an agent that keeps a state ends up with the fold of all messages, one that answers gives each request the answer computed after all earlier messages.", "quantifier": "all bodies, any number of threads, all interleavings", "why_tests_cant": "Interleavings of posting threads, loop callbacks and the body's task.", "anchors": [{"file": "expression/core/mailbox.py", "symbols": ["MailboxProcessor.start", "MailboxProcessor.receive", "MailboxProcessor.post", "MailboxProcessor.post_and_async_reply"]}, {"file": "expression/core/aiotools.py", "symbols": ["start_immediate"]}]}
{"id": "C98", "title": "A cancelled agent stops", "statement": "Cancelling the token given to MailboxProcessor.start ends the agent: once nothing goes on any more its task has ended, and after the cancellation it handles no further message.", "quantifier": "all bodies, any number of threads, all interleavings of posting, cancelling, loop callbacks and the body's task", "why_tests_cant": "The outcome depends on where in process_events the loop was when another thread cancelled.", "anchors": [{"file": "expression/core/mailbox.py", "symbols": ["MailboxProcessor.start", "MailboxProcessor.receive"]}, {"file": "expression/core/aiotools.py", "symbols": ["start_immediate"]}, {"file": "expression/system/cancellation.py", "symbols": ["CancellationTokenSource.dispose"]}]}
{"id": "C99", "title": "A request to an agent gets its own answer", "statement": "When an agent answers each message on its reply channel, awaiting post_and_async_reply gives the answer to that very request, computed from the state after all earlier messages; when nothing goes on any more every request has been answered.", "quantifier": "all agents that answer, any number of requests and of posting threads, all interleavings of callers, replies, loop callbacks and the agent's task", "why_tests_cant": "Interleavings of requests, replies and the agent; the order in which requests are handled.", "anchors": [{"file": "expression/core/mailbox.py", "symbols": ["MailboxProcessor.start", "MailboxProcessor.post_and_async_reply", "MailboxProcessor.receive", "AsyncReplyChannel.reply"]}, {"file": "expression/core/aiotools.py", "symbols": ["from_continuations", "start_immediate"]}]}
{"id": "C100", "title": "Sums over a TypedArray are the sums of the values", "statement": "sum of an array is the sum of its elements; sum_by(f) calls f once for each element in order and gives the sum of the results, raising only what f or the addition raises; singleton(x) and of_option hold exactly the value given.", "quantifier": "all arrays and projections", "why_tests_cant": "Which storage the projected values go through depends on the class of the first result.", "anchors": [{"file": "expression/collections/array.py", "symbols": ["sum", "sum_by", "singleton", "of_option", "TypedArray.sum", "TypedArray.sum_by"]}]}
{"id": "C101", "title": "Map operations need a stack logarithmic in the number of keys", "statement": "A lookup, insertion, removal, count, traversal, filter or partition of a Map with n keys never raises RecursionError as long as the interpreter's recursion limit allows a number of nested calls logarithmic in n; with too small a limit a lookup raises RecursionError and never gives a wrong answer.", "quantifier": "all maps built by any history, all keys, callbacks and recursion limits", "why_tests_cant": "The recursion limit is only hit by maps larger or more lopsided than test data; the worst shape after removals is not obvious.", "anchors": [{"file": "expression/collections/maptree.py", "symbols": ["add", "try_find", "mem", "remove", "change", "size", "iter", "fold", "fold_back", "filter", "partition", "to_list", "of_list"]}]}
{"id": "C102", "title": "Sums over a Block", "statement": "sum adds the elements from the left starting with 0, so that the sum of xs + ys continues the sum of xs with ys, and for a commutative and associative addition does not depend on the order of the elements; sum_by(f) calls f once for each element in order before the first addition and gives the sum of the results, raising only what f or the addition raises; singleton(x) and of_option(o) hold exactly the value given.", "quantifier": "all blocks, additions and projections, with effects and exceptions", "why_tests_cant": "All lengths, all additions and the interleaving of projections and additions.", "anchors": [{"file": "expression/collections/block.py", "symbols": ["Block.sum", "Block.sum_by", "sum", "sum_by", "singleton", "of_option"]}]}
{"id": "C103", "title": "run_synchronously runs a computation once to its end", "statement": "Outside of an event loop run_synchronously(c) runs the coroutine c exactly once to its end and returns its value or raises its exception, running the coroutines it awaits on the way; doing so again raises RuntimeError without any effect, and inside of a running loop it raises RuntimeError and leaves c unstarted. singleton(x), from_result(x) and empty() give x, x and None without effect, sleep gives None.", "quantifier": "all coroutines that await each other in any way, all effects and exceptions", "why_tests_cant": "Any number of coroutines awaiting each other, shared coroutine objects, exceptions in between.", "anchors": [{"file": "expression/core/aiotools.py", "symbols": ["run_synchronously", "singleton", "sleep", "empty", "from_result"]}]}
{"id": "C104", "title": "The same chain on Block, Seq and AsyncSeq", "statement": "map, filter, choose, collect, append, skip, take and tail mean the same on a Block, a Seq and an AsyncSeq: the same chain of calls with the same callbacks gives the same elements in the same order, the same effects and the same exception on all three.", "quantifier": "all chains, callbacks (with effects, raising), lists and counts", "why_tests_cant": "All chains of transformations over all lists, with all callbacks; the three collections are implemented separately and evaluate at different times.", "anchors": [{"file": "expression/collections/block.py", "symbols": ["Block.map", "Block.filter", "Block.choose", "Block.collect", "Block.append", "Block.skip", "Block.take", "Block.tail"]}, {"file": "expression/collections/seq.py", "symbols": ["map", "filter", "choose", "collect", "append", "skip", "take", "tail"]}, {"file": "expression/collections/asyncseq.py", "symbols": ["AsyncSeq.map", "AsyncSeq.filter", "AsyncSeq.choose", "AsyncSeq.collect", "AsyncSeq.append", "AsyncSeq.skip", "AsyncSeq.take", "AsyncSeq.tail"]}]}
{"id": "C105", "title": "A custom Builder computes with its own methods", "statement": "For a user-defined subclass of Builder or AsyncBuilder, calling a decorated function runs its body exactly once, sending every yielded value back to it, and gives run of the left-to-right combine of return_(v) for every yielded v and of return_ of the returned value or return_from of the failure (zero() if there is none of these); it comes to an end exactly when the body does, with the exception of the body if it raises.", "quantifier": "all builder classes, bodies (with effects, raising, not ending) and worlds", "why_tests_cant": "All user-defined builders and all bodies; tests only cover the builders that come with the library.", "anchors": [{"file": "expression/core/builder.py", "symbols": ["Builder._send", "Builder.__call__", "Builder.bind", "Builder.combine", "Builder.zero", "Builder.delay", "Builder.run"]}, {"file": "expression/core/async_builder.py", "symbols": ["AsyncBuilder._send", "AsyncBuilder.__call__"]}]}
{"id": "C106", "title": "A Map whose keys compare strangely stays whole", "statement": "The keys of a Map may be any objects: NaN, frozensets (whose < is the proper subset), values of mixed types whose < raises, or objects whose __lt__ and __eq__ have effects, answer differently each time or raise. add puts one item more into the map or replaces one item whose key answered that it is equal, and leaves all the others as they were and in their order; remove leaves the map as it is or drops one item whose key answered that it is equal; change calls its callback after all comparisons, with the value of an item whose key answered that it is equal or with Nothing, and does one of the two as the answer says. A lookup gives only a value that is stored with a key that answered that it is equal. An exception out of these calls was raised by a comparison of the key with a key of the map (or by the callback of change, or is find's KeyError or the EffectError of change when the map is empty where the key belongs and the callback answers Nothing); the tree code itself never fails. filter keeps only items of the map that passed. The stored heights are the real ones, len is the number of items, a map made without remove and change has depth at most 2*log2(len+1)+1, no call compares more than twice per level, and building a map of n items, filter and partition compare at most n*(4*log2(n+1)+2) times. In such a map a key that equals itself, and is never both less than and equal to another, is found right after it is added. With an order all this is what the other properties say. No more is promised: a NaN is never found, adding {2} can lose {1}, and after a remove even a key just added may not be found.", "quantifier": "for all types of keys and values, all comparison methods (effects, exceptions, no laws), all maps built by any sequence of calls with comparisons that may differ from call to call, all keys, values, callbacks and worlds", "why_tests_cant": "tests use ordered keys; the space of comparison methods and histories is infinite and the rotations a strange order can reach depend on the whole history", "anchors": [{"file": "expression/collections/maptree.py", "symbols": ["add", "try_find", "find", "mem", "remove", "change", "filter", "partition", "rebalance", "mk", "of_list"]}]}
{"id": "C107", "title": "Iterations of one collection at the same time do not disturb each other", "statement": "When several iterators of one Block, Map or Seq are read in any interleaving (nested loops, or iterators passed around), each of them hands out all the elements in order and then ends for good, as if it were alone. In particular nested loops over one collection see all pairs.", "quantifier": "for all collections and pipelines, all numbers of iterators opened at any time, all interleavings of next() calls and of other code that keeps the source stable", "why_tests_cant": "the interleavings are unboundedly many; unit tests iterate one collection at a time", "anchors": [{"file": "expression/collections/map.py", "symbols": ["Map.__iter__", "Map.to_seq"]}, {"file": "expression/collections/maptree.py", "symbols": ["MkIterator", "mk_iterator", "to_seq"]}, {"file": "expression/collections/seq.py", "symbols": ["SeqGen", "Seq.__iter__", "filter", "unfold"]}]}
{"id": "C108", "title": "Options and Results may be mixed in one computation expression", "statement": "A body decorated with effect.option(), effect.result(), effect.async_option(), effect.async_result() or effect.seq() may take the value of an Option and of a Result alike (yield from, or await): the value of a Some or Ok is handed to the body, the first Nothing or Error ends it, and the call gives a value of the builder's own kind. No EffectError leaves the call.", "quantifier": "all bodies (control flow depending on everything, effects, raising, not ending), all mixes of Options and Results, all worlds", "why_tests_cant": "the types let any generator through; all mixes of the two kinds at all places of all bodies, tests use one kind", "anchors": [{"file": "expression/core/builder.py", "symbols": ["Builder._send", "Builder.__call__"]}, {"file": "expression/core/async_builder.py", "symbols": ["AsyncBuilder._send", "AsyncBuilder.__call__"]}, {"file": "expression/core/option.py", "symbols": ["Option.__iter__", "Option.__await__"]}, {"file": "expression/core/result.py", "symbols": ["Result.__iter__", "Result.__await__"]}, {"file": "expression/effect/seq.py", "symbols": ["SeqBuilder.bind"]}]}
{"id": "C109", "title": "Match statements take values apart as the constructors put them together", "statement": "For every tagged union (Option, Result and Try among them) a case pattern for a case, with the tag and the case by name or by position, matches exactly the values of that case and binds the payload; a match statement with a branch for every case takes exactly the branch of the value's case. Block, Seq and TypedArray values are taken apart by their class patterns and by sequence patterns: [head, *tail] gives the first element and the rest, [] only an empty collection.", "quantifier": "all declarations, all values, all payloads and sub-patterns (also with effects or raising), all lists of branches and guards, all blocks", "why_tests_cant": "all declarations and all patterns, including the ones that look right and never match; tests use the patterns of the documentation", "anchors": [{"file": "expression/core/tagged_union.py", "symbols": ["tagged_union"]}, {"file": "expression/core/option.py", "symbols": ["Option.default_value", "Option.filter"]}, {"file": "expression/core/result.py", "symbols": ["Result.map", "Result.default_value"]}, {"file": "expression/collections/block.py", "symbols": ["Block.__init__"]}, {"file": "expression/collections/seq.py", "symbols": ["Seq.__init__"]}, {"file": "expression/collections/array.py", "symbols": ["TypedArray.__init__"]}]}
{"id": "C110", "title": "A Try stays a Try", "statement": "A value made with Success or Failure is a Try: it prints as Success or Failure, matches case Try(...), and the operations it inherits from Result (map, map2, apply, bind, map_error, filter, filter_with, swap, or_else, or_else_with), pipeline, catch and effect.try_ give Trys again. Apart from the class they do exactly what they do for Results.", "quantifier": "all payloads and errors, all callbacks (raising, with effects), all mixes of Try and Result operands, all bodies of effect.try_", "why_tests_cant": "the class of the outcome of every operation, for operands of both classes; equality does not see the difference, so tests that compare do not", "anchors": [{"file": "expression/core/try_.py", "symbols": ["Try", "Success", "Failure"]}, {"file": "expression/core/result.py", "symbols": ["Result.map", "Result.map2", "Result.apply", "Result.map_error", "Result.bind", "Result.filter", "Result.filter_with", "Result.swap", "Result.or_else", "Result.or_else_with"]}, {"file": "expression/effect/result.py", "symbols": ["TryBuilder"]}, {"file": "expression/extra/result/pipeline.py", "symbols": ["pipeline"]}, {"file": "expression/extra/result/catch.py", "symbols": ["catch"]}]}
{"id": "C111", "title": "Methods of a TypedArray see it as it was when they were called", "statement": "map, collect, choose, filter, fold, forall and sum_by of a TypedArray call their callbacks with the elements that the array had when the method was called, in order, each once, also when the callbacks change that array.", "quantifier": "all arrays of all kinds of storage, all callbacks with any effect on the array and elsewhere, raising or not", "why_tests_cant": "the effects of callbacks on the array being traversed, at all moments of the traversal; tests use pure callbacks", "anchors": [{"file": "expression/collections/array.py", "symbols": ["TypedArray.map", "TypedArray.collect", "TypedArray.choose", "TypedArray.filter", "TypedArray.fold", "TypedArray.forall", "TypedArray.sum_by", "TypedArray.__iter__"]}]}
{"id": "C112", "title": "Parsers need a stack for the nesting of the grammar only", "statement": "Running a parser nests calls as deeply as the grammar nests its combinators: long literals (pstring), long lists of alternatives (choice, any_of) and many repetitions (many, many1) need no deeper stack than short ones, so a parser never raises RecursionError on them.", "quantifier": "all recursion limits, all parsers built from the combinators, all literals, lists of alternatives, numbers of repetitions and inputs", "why_tests_cant": "the failure starts at a size that depends on the recursion limit and on the stack in use; tests parse short inputs with small grammars", "anchors": [{"file": "expression/extra/parser.py", "symbols": ["Parser.run", "Parser.__call__", "pchar", "and_then", "or_else", "choice", "any_of", "map", "apply", "lift2", "sequence", "pstring", "parse_zero_or_more", "many", "many1", "bind"]}]}
{"id": "C113", "title": "The name of a parser tells how it was built and costs no more than that", "statement": "str() and repr() of a parser name the combinators and characters it was built from, well bracketed, so that parsers that differ in a combinator have different names; building a parser takes space in proportion to the number of combinators called and runs no code of the values in it.", "quantifier": "all parsers built from the combinators, with parsers used any number of times; all values given to preturn", "why_tests_cant": "names grow with the shape of the grammar: the effect of using a parser twice at every level shows only in deep grammars", "anchors": [{"file": "expression/extra/parser.py", "symbols": ["Parser.__init__", "Parser.__repr__", "Parser.__str__", "pchar", "and_then", "or_else", "map", "preturn", "fail", "many", "many1", "bind", "sep_by1", "choice", "pstring"]}]}
{"id": "C114", "title": "Equality between values of the library is an equivalence that never raises, and equal values have equal hashes", "statement": "x == y is True or False for any two values built from Blocks, TypedArrays, Maps, Options, Results, Seqs and builtin numbers, None, tuples and lists, and raises nothing; it is reflexive, symmetric and transitive; hash(x) == hash(y) if x == y, so that equal values can replace each other as keys and as members; v in block tells whether an element equals v.", "quantifier": "all values nested to any depth, of all kinds on either side", "why_tests_cant": "the other operand and the elements are of any kind, and Python asks the right operand where the left one gives up; tests compare values of one kind", "anchors": [{"file": "expression/collections/block.py", "symbols": ["Block.__eq__", "Block.__contains__"]}, {"file": "expression/collections/array.py", "symbols": ["TypedArray.__eq__"]}, {"file": "expression/collections/map.py", "symbols": ["Map.__eq__", "Map.__hash__"]}, {"file": "expression/core/tagged_union.py", "symbols": ["tagged_union"]}, {"file": "expression/core/option.py", "symbols": ["Option.__eq__"]}]}
{"id": "C115", "title": "Options and Results are iterables of their value", "statement": "Iterating an Option or a Result gives its value once and then ends, and gives nothing for Nothing and Error, every time: list(), for, in, unpacking, seq.collect, seq.concat and Block.collect take Options and Results for sequences of at most one element.", "quantifier": "all values, all functions giving Options (raising, with effects), all sources", "why_tests_cant": "the iterators of Options and Results are made for computation expressions; what other code sees depends on every consumer of iterables", "anchors": [{"file": "expression/core/option.py", "symbols": ["Option.__iter__"]}, {"file": "expression/core/result.py", "symbols": ["Result.__iter__"]}, {"file": "expression/collections/seq.py", "symbols": ["collect", "concat"]}, {"file": "expression/collections/block.py", "symbols": ["Block.collect"]}]}
{"id": "C116", "title": "What TypedArray inherits from MutableSequence agrees with lists", "statement": "v in a, a.index(v, start, stop), a.count(v), reversed(a), a.extend(it) and a += it give for a TypedArray what they give for the list of its elements, for all bounds, also when it is the array itself or shares its storage with it; index and in stop at the first equal element; reversed(block) gives the elements from the last to the first.", "quantifier": "all arrays, all bounds, all comparisons (with effects, raising), all iterables given to extend", "why_tests_cant": "the inherited methods are Python code running over the library's own __getitem__, __len__, __iter__ and insert; what they do depends on all of those for every bound and every kind of storage", "anchors": [{"file": "expression/collections/array.py", "symbols": ["TypedArray", "TypedArray.__getitem__", "TypedArray.__iter__", "TypedArray.__len__", "TypedArray.insert"]}, {"file": "expression/collections/block.py", "symbols": ["Block.__getitem__", "Block.__len__"]}]}
{"id": "C117", "title": "A Map is a Mapping: get, keys, values, items and dict(m) agree", "statement": "m.get(k, d) is the value at k, or d; m.keys() and m.values() list the keys and the values in key order, know their size and members, and m.keys() compares and combines with sets as the set of the keys does (<=, <, >=, >, ==, isdisjoint, &, |, -, ^); dict(m) and m.items() hold exactly the bindings of m, for every map.", "quantifier": "all reachable maps, all keys and defaults, all sets", "why_tests_cant": "the views are Python code over the library's own lookup, iteration and size; agreement of sizes, membership and set comparison holds for all maps only if all of those agree", "anchors": [{"file": "expression/collections/map.py", "symbols": ["Map", "Map.__getitem__", "Map.__iter__", "Map.__len__", "Map.__contains__", "Map.items"]}]}
{"id": "C118", "title": "Prepending to a Block and taking it apart is cheap", "statement": "As the documentation of Block says ('faster than list for prepending'), prepending an element (cons), head and tail copy a number of references that does not depend on the length of the Block, so building a Block element by element with cons and walking down a Block with head and tail cost time in proportion to its length. The other operations copy in proportion to what they read and return, concat and traverse of Results included, and give the same results as before.", "quantifier": "all blocks of all lengths, all elements and (pure) callbacks, all lists of blocks given to concat", "why_tests_cant": "the cost as a function of the length: tests use short blocks and do not count", "anchors": [{"file": "expression/collections/block.py", "symbols": ["Block", "Block.cons", "Block.head", "Block.tail", "Block.append", "Block.choose", "Block.collect", "Block.filter", "Block.map", "Block.partition", "Block.reduce", "Block.zip", "concat", "Block.skip", "Block.take"]}]}
{"id": "C119", "title": "An exception ends the iterator of a sequence for good", "statement": "When a callback or a source raises while the result of a Seq function is iterated, that iterator is finished: every later next() on it raises StopIteration, and no callback is called and no source is asked any more. Iterating a result again starts over, or finds it empty; it does not go on behind the element that failed. Up to the exception the elements, calls and effects are those of C27 to C33.", "quantifier": "all functions of seq.py that give iterators or iterables, all sources (also ones that go on after they raised) and callbacks, all exceptions, all numbers of calls of next() before and after the exception", "why_tests_cant": "which iterators are generators and which are builtin objects decides what happens after an exception; tests stop at the exception", "anchors": [{"file": "expression/collections/seq.py", "symbols": ["Seq.__iter__", "SeqGen.__iter__", "map", "collect", "choose", "concat", "append", "delay", "skip", "take", "pairwise", "unfold", "filter", "scan", "zip", "init_infinite", "Seq.dict"]}]}
{"id": "C120", "title": "Giving up an iteration releases what it opened and leaves alone what the user holds", "statement": "When the iteration of a result of a Seq function is given up before its end (break, return, an exception in the loop, head, try_head, is_empty), every generator that the iteration has entered, among its sources and among the sequences its callbacks gave, is closed, so that its finally block has run exactly once, and none that was not entered is touched; when the iteration ends or raises, this holds at once. An iterator that the user passed in and still holds is left alone: it goes on behind the last element that was pulled from it.", "quantifier": "all functions of seq.py that give iterators or iterables, nested in any way, all sources (generators with finally blocks, iterators held by the user), all callbacks, all numbers of calls of next() before the iteration is given up", "why_tests_cant": "which frames hold which iterators, and which of them close what they delegate to, is invisible in the elements; tests iterate to the end, and over lists", "anchors": [{"file": "expression/collections/seq.py", "symbols": ["Seq.__iter__", "SeqGen.__iter__", "map", "collect", "choose", "concat", "append", "delay", "skip", "take", "pairwise", "unfold", "filter", "scan", "zip", "Seq.dict"]}]}
{"id": "C121", "title": "Long chains do not exhaust the stack", "statement": "The stack that is needed to apply n functions with compose or pipe, to run an option or result pipeline of n functions, or to iterate a sequence or an asynchronous sequence that was made by n operations in a row (map, choose, collect, append, skip, take, filter, tail; for instance by appending in a loop) does not grow with n, so that such a chain gives its result for every n and never raises RecursionError.", "quantifier": "all numbers and kinds of links, all callbacks, all recursion limits", "why_tests_cant": "tests chain a handful of operations; whether the nesting grows with the chain is not visible in the results", "anchors": [{"file": "expression/core/compose.py", "symbols": ["compose"]}, {"file": "expression/core/pipe.py", "symbols": ["pipe"]}, {"file": "expression/extra/result/pipeline.py", "symbols": ["pipeline"]}, {"file": "expression/extra/option/pipeline.py", "symbols": ["pipeline"]}, {"file": "expression/collections/seq.py", "symbols": ["SeqGen.__iter__", "map", "choose", "collect", "append", "concat", "skip", "take", "filter"]}, {"file": "expression/collections/asyncseq.py", "symbols": ["AsyncSeq.map", "AsyncSeq.filter", "AsyncSeq.choose", "AsyncSeq.collect", "AsyncSeq.take", "AsyncSeq.skip", "AsyncSeq.tail", "append", "map", "filter", "choose", "collect"]}]}
{"id": "C122", "title": "Giving up an asynchronous iteration", "statement": "When a consumer of an AsyncSeq pipeline stops early (break, head, an exception, await result.aclose()), or the pipeline ends or raises, every async generator it opened is closed, each once, and nothing else; the finally blocks of the sources have run when the consumer goes on. A pipeline that has ended or raised has ended for good: asked again it ends and calls nothing.", "quantifier": "all pipelines of operations, sources with any effects and exceptions, any number of elements taken, any turns of the event loop in between", "why_tests_cant": "Tests finish their loops, or end the event loop right away; what is still open after a break, in which order and how many turns later it is closed depends on the depth of the pipeline and cannot be sampled.", "anchors": [{"file": "expression/collections/asyncseq.py", "symbols": ["AsyncSeq.map", "AsyncSeq.choose", "AsyncSeq.collect", "AsyncSeq.concat", "AsyncSeq.filter", "AsyncSeq.fold", "AsyncSeq.scan", "AsyncSeq.take", "AsyncSeq.skip", "AsyncSeq.head", "AsyncSeq.tail", "append", "empty", "repeat", "range", "filter", "map", "choose", "collect"]}]}
{"id": "C123", "title": "Updated maps share their tree with the original", "statement": "add, remove and change of a map create at most three tree objects for every level of the tree and one more, logarithmically many in the number of keys when the map was built by insertion; every other object of the new tree is an object of the old one, so that keeping both maps takes hardly more memory than one. filter, partition and map share nothing with the original. In a program that keeps all maps it ever makes, an object that two of them contain is the same subtree in both, and j insertions make O(j log j) objects. Removing an absent key copies the path to where it would be.", "quantifier": "all maps, keys, values and callbacks with effects; all histories of operations on any map made so far", "why_tests_cant": "Tests compare contents. A copy of the whole tree has the same contents; the number of objects an update makes and which ones are shared depends on the shape of the tree and the rotations on the path.", "anchors": [{"file": "expression/collections/maptree.py", "symbols": ["mk", "rebalance", "add", "splice_out_successor", "remove", "change", "filter1", "filter_aux", "filter", "partition1", "partition_aux", "partition", "map"]}]}
{"id": "C124", "title": "Parsing takes time in proportion to the text", "statement": "Counting how often a parser looks at a character of the input (pchar is the only one that does): a literal (pstring) is compared up to the first difference and any_of tries its characters from left to right up to the one that is there; any_of, digits, pint and pfloat look at most a fixed number of times per character, whatever the text; parsers whose alternatives are told apart by their first character, and sequences, maps, binds and repetitions (many, many1) of them, take time in proportion to the text; a grammar without recursion takes at most (number of pchars written out) x (length + 2)^(nesting of many/many1), and without repetitions runs each pchar at most once. In general parsing is not linear, since or_else goes back and nothing is remembered: a repetition in an alternative that fails late is quadratic, and a parser that calls itself in two alternatives that begin alike takes at least 2^k looks for k pairs of parentheses.", "quantifier": "for all parsers built from the combinators, all texts and positions in them, all user functions (which do not parse themselves), all recursion limits", "why_tests_cant": "a cost bound is a statement about all texts; a test measures a few of them, and those that make a grammar exponential are not the ones a test has", "anchors": [{"file": "expression/extra/parser.py", "symbols": ["pchar", "and_then", "or_else", "choice", "any_of", "many", "many1", "parse_zero_or_more", "pstring", "sequence", "pint", "pfloat", "bind", "map", "lift2"]}]}
{"id": "C125", "title": "Sharing an async sequence, and requests that time out", "statement": "An AsyncSeq over an async generator gives every consumer the same generator. Any number of tasks may ask it in any order: the source and the world see what one reader alone would do, every element goes to exactly one task, and who asks while another task's request is suspended gets a RuntimeError that changes nothing; a pipeline of its own over the busy generator is over then. An exception thrown into a suspended request (the task is cancelled, asyncio.wait_for times out) comes out of the request, and costs no more than that wait: asking again gives the next element.", "quantifier": "for all operations, all sources, any number of tasks, all schedules of requests, resumptions, thrown exceptions and other code in between", "why_tests_cant": "the schedules of several tasks and the points at which a task can be cancelled are unbounded; a test runs one of them, and tests of pipelines never cancel", "anchors": [{"file": "expression/collections/asyncseq.py", "symbols": ["AsyncSeq.__aiter__", "AsyncSeq.map", "AsyncSeq.choose", "AsyncSeq.collect", "AsyncSeq.filter", "AsyncSeq.scan", "AsyncSeq.take", "AsyncSeq.skip", "AsyncSeq.tail", "append", "empty", "repeat", "range", "filter", "map", "choose", "collect"]}]}
{"id": "C126", "title": "The error of a failed parse is about the place where the text goes wrong", "statement": "When a parser made of pchar, pstring, any_of, choice, sequence, and_then, or_else, map, bind, many and the like fails on a text, the error is either a message that the grammar gave to fail, or names a character of the grammar together with the different character that the text has at some place, or says that there is no more input when a character of the grammar was wanted at the end; and the place it speaks of is the furthest one: no text that the parser accepts is the same as the given text for longer than up to that place.", "quantifier": "for all parsers made of the functions of the module, with all characters and messages, all functions given to map and bind, all texts", "why_tests_cant": "tests compare the messages of a few grammars and texts; that the message is true of every text that a grammar of any size refuses, and that nothing acceptable agrees with the text any longer, quantifies over grammars and over all the texts they accept", "anchors": [{"file": "expression/extra/parser.py", "symbols": ["pchar", "and_then", "or_else", "any_of", "choice", "sequence", "pstring", "fail", "many1", "bind"]}]}
{"id": "C127", "title": "Decorators can be stacked in any order", "statement": "A function decorated with several of curry, catch, tailrec, tailrec_async, effect.result and effect.async_result has what each of them promises, in whatever order they are written and for plain, async and generator functions alike: it takes its arguments in groups, tail calls are calls, the named exceptions of every round come back as Error, other exceptions propagate, and the value is lifted into Ok once.", "quantifier": "for all functions of the user (plain, async, generators) with all effects, results, tail calls and exceptions, any number of decorators, all groups of arguments", "why_tests_cant": "each decorator is tested alone on a few functions; that they can be combined is a claim about every stack of decorators over every function, including functions that call themselves by TailCall for any number of rounds", "anchors": [{"file": "expression/extra/result/catch.py", "symbols": ["catch"]}, {"file": "expression/core/fn.py", "symbols": ["tailrec", "tailrec_async", "TailCall"]}, {"file": "expression/core/curry.py", "symbols": ["curry"]}, {"file": "expression/core/builder.py", "symbols": ["Builder.__call__"]}, {"file": "expression/core/async_builder.py", "symbols": ["AsyncBuilder.__call__"]}]}
{"id": "C128", "title": "try, except, finally and with work in the bodies of computation expressions", "statement": "The body of a function decorated with effect.option, effect.result, effect.async_option or effect.async_result may use try, except, finally, with and for loops, nested in any way, with yields and awaits inside them: the call does what the body means when it is read as a program in which yield v gives v, yield from (await) of Some(v) or Ok(v) gives v, and yield from (await) of Nothing or Error raises. The values, the result, the exception and the effects are those; a finally block and the __exit__ of a with run exactly once before the call returns, however the body ends, be it by a short circuit, an exception or cancellation while it awaits, and change nothing else; and except clauses see the exceptions of the body's own statements, not the short circuits.", "quantifier": "for all bodies made of effects, yields, yield from, await, return, raise, try/except/finally, with, and for loops over lists with break and continue, nested to any depth, all handlers and context managers with all effects, all states", "why_tests_cant": "tests of computation expressions have no handlers in their bodies; that cleanup runs exactly once on every way out, and what a handler around a short circuit sees, is a claim about all bodies and all points at which they can be left", "anchors": [{"file": "expression/core/builder.py", "symbols": ["Builder._send", "Builder.__call__"]}, {"file": "expression/core/async_builder.py", "symbols": ["AsyncBuilder.__call__"]}, {"file": "expression/core/option.py", "symbols": ["Option.__iter__", "Option.__await__"]}, {"file": "expression/core/result.py", "symbols": ["Result.__iter__", "Result.__await__"]}]}
{"id": "C129", "title": "Exceptions of calls inside computation expressions are not taken for short circuits", "statement": "Only yield from (await) of Nothing or Error ends a computation expression early. When any other call in the body raises, that exception leaves the decorated function (a StopIteration as RuntimeError): also when it is a lookup of the library that fails, such as Map.pick without a match or Map.change, and also for the function given to traverse, which is such an expression itself.", "quantifier": "for all bodies of effect.option, effect.result, effect.async_option and effect.async_result as in C128, all calls in them and all exceptions; for traverse, all functions with all effects and all blocks", "why_tests_cant": "tests raise exceptions of their own in a body; that a failure signalled by another part of the library, with the exception class the builders use for themselves, is told apart from a short circuit is a claim about all bodies and all calls", "anchors": [{"file": "expression/core/builder.py", "symbols": ["Builder._send"]}, {"file": "expression/core/async_builder.py", "symbols": ["AsyncBuilder._send"]}, {"file": "expression/collections/map.py", "symbols": ["pick", "Map.change"]}, {"file": "expression/collections/maptree.py", "symbols": ["change"]}, {"file": "expression/extra/result/traversable.py", "symbols": ["traverse"]}]}
{"id": "C130", "title": "A helper of a computation expression may be decorated or not", "statement": "A part of a computation expression can be moved into a function of its own, and x = yield from helper() gives the same result, exception and effects whether helper is left a plain generator function or is decorated with effect.option or effect.result itself, wherever the call stands: in loops, try, except, finally and with, and in other helpers.", "quantifier": "for all bodies and helpers as in C128, any number of helpers decorated, all effects, handlers and states", "why_tests_cant": "tests decorate every function they use; that decorating is neutral is a claim about all pairs of bodies and helpers and all places of the call", "anchors": [{"file": "expression/core/builder.py", "symbols": ["Builder._send", "Builder.__call__"]}, {"file": "expression/core/option.py", "symbols": ["Option.__iter__"]}, {"file": "expression/core/result.py", "symbols": ["Result.__iter__"]}, {"file": "expression/effect/option.py", "symbols": ["OptionBuilder.zero"]}, {"file": "expression/effect/result.py", "symbols": ["ResultBuilder.zero"]}]}
{"id": "C131", "title": "The work of iterating a pipeline of sequence operations", "statement": "Iterating a sequence, or an async sequence, made by map, filter, choose, collect, append, skip, take and tail does no work twice: the result of each operation is asked once for each of its elements and once for its end, and less often when a take behind it ends first. The work of iterating a sequence is proportional to the number of elements and operations it was made of, also when it was put together piece by piece with append.", "quantifier": "for all chains of operations of any length, all callbacks with all effects (that answer without raising, for the exact count), all lists as sources", "why_tests_cant": "tests compare the elements of short sequences and do not count calls; a quadratic cost shows only as the number of operations grows, and is a claim about pipelines of every length", "anchors": [{"file": "expression/collections/seq.py", "symbols": ["map", "append", "concat", "collect", "choose", "filter", "skip", "take", "tail", "Seq.__iter__", "SeqGen.__iter__"]}, {"file": "expression/collections/asyncseq.py", "symbols": ["map", "append", "collect", "choose", "filter", "AsyncSeq.skip", "AsyncSeq.take", "AsyncSeq.tail"]}]}
{"id": "C132", "title": "Reading a Map takes time in proportion to its size", "statement": "len, iterating a Map (its keys, to_seq, items), to_list, comparing two Maps and hash cost time in proportion to the number of bindings, up to a logarithmic factor, and no single step of an iteration is expensive: counting is proportional to n, and so, up to log n, are iterating, to_list, == and hash, whatever operations the Map was built by.", "quantifier": "for all maps of all sizes, with all keys and values, built by any history", "why_tests_cant": "tests read maps of a few bindings and do not measure; a quadratic cost shows only as the map grows, and for some histories only, so the claim is about maps of every size and history", "anchors": [{"file": "expression/collections/maptree.py", "symbols": ["size", "size_aux", "to_list", "collapseLHS", "MkIterator", "mk_iterator", "to_seq"]}, {"file": "expression/collections/map.py", "symbols": ["Map.to_list", "Map.to_seq", "Map.__iter__", "Map.__len__", "Map.__eq__", "Map.__hash__"]}, {"file": "expression/collections/block.py", "symbols": ["Block.cons", "Block.head", "Block.tail"]}]}
{"id": "C133", "title": "Several tasks may dispose a composite at the same time", "statement": "Whatever tasks of one event loop call dispose_async() of a composite, of composites inside it, of its members or of other composites with the same members, in whatever order, the action of each member is started at most once; a call starts the actions in the order of the members; no call waits for another one for ever. When a call returns, the actions of all its members have run to their ends, and an action that raised or was cancelled is run again by the next call.", "quantifier": "for all nested composites, also with shared and repeated members, any number of calls, all interleavings at the awaits of the actions, all actions that return, raise or are cancelled", "why_tests_cant": "tests dispose a composite once from one task; a second call in the middle of an action, or after a failed one, is one of unboundedly many interleavings", "anchors": [{"file": "expression/system/disposable.py", "symbols": ["AsyncAnonymousDisposable.dispose_async", "AsyncCompositeDisposable.dispose_async", "AsyncDisposable.composite"]}]}
{"id": "C134", "title": "A builder's methods are called as its body runs, and only those that the body uses", "statement": "The methods of a user-defined Builder or AsyncBuilder may have effects (write a log, count, ask) and raise. A decorated body runs between their calls: return_ is called with every yielded value when it is yielded, bind with the previous value before the body goes on, combine with the result so far and the new value, return_ or return_from for the end of the body, and run once at the end with the combined result; no method is called twice for one statement, and none after the body has raised. zero is called only if the body yields and returns nothing, and delay decides when the part of the body that it is given is run. So a class needs only the methods that its bodies use: a method that is missing or raises makes the call raise its exception exactly when the body comes to it, and no method is called after that.", "quantifier": "all builder classes whose methods log, raise or have other effects, all bodies that end, all worlds", "why_tests_cant": "The order of the calls matters for every builder with effects; tests look only at the values that the builders of the library give.", "anchors": [{"file": "expression/core/builder.py", "symbols": ["Builder._send", "Builder.__call__", "Builder.bind", "Builder.return_", "Builder.return_from", "Builder.combine", "Builder.zero", "Builder.delay", "Builder.run"]}, {"file": "expression/core/async_builder.py", "symbols": ["AsyncBuilder._send", "AsyncBuilder.__call__", "AsyncBuilder.zero", "AsyncBuilder.delay"]}]}
{"id": "C135", "title": "Iterators of Seq are generators that handle send, throw and close", "statement": "The iterator of a Seq, and of the results of map, collect, concat, append, choose, skip, take, pairwise and delay, can be used as a generator. Whatever is sent to it after its start, it goes on with the next element as next() does (a value sent before that is a TypeError without any effect). An exception thrown into it is given to the generator that it iterates, which may handle it, and otherwise raised; close() closes it and raises what the finally blocks of the sources raise. After throw, close or the end, every generator that the iteration has entered has been left exactly once, and the iterator stays ended: next() and send() say StopIteration, throw raises its exception and close returns, without any effect.", "quantifier": "all sources and pipelines (with effects and finally blocks), all sequences of next, send, throw and close with all values and exceptions", "why_tests_cant": "The comment in the code promises a proper generator that can handle send, throw and close; tests call next only, and sequences of the four operations are infinitely many.", "anchors": [{"file": "expression/collections/seq.py", "symbols": ["Seq.__iter__", "SeqGen.__iter__", "map", "collect", "concat", "append", "choose", "skip", "take", "pairwise", "delay"]}]}
{"id": "C136", "title": "An agent that has ended does not leave its callers waiting", "statement": "When the body of an agent has ended (it returned, raised or was cancelled), the callers of post_and_async_reply that it answered have their answer; those that it did not answer, and those that ask later, get an exception instead of waiting for ever; and post does not accept messages that nobody will handle.", "quantifier": "all bodies, all ways to end, any number of requests before and after the end, any number of threads, all interleavings", "why_tests_cant": "Tests look at agents that run. What becomes of a request depends on when the body ends relative to posting, taking and answering it; that something never completes cannot be tested.", "anchors": [{"file": "expression/core/mailbox.py", "symbols": ["MailboxProcessor.post", "MailboxProcessor.post_and_async_reply", "MailboxProcessor.start", "MailboxProcessor.__process_events"]}, {"file": "expression/core/aiotools.py", "symbols": ["start_immediate", "from_continuations"]}]}
{"id": "C137", "title": "Agents that post to one another", "statement": "Several agents on one event loop may post messages to one another and to themselves from their bodies, in any pattern, while any threads post to them from outside. Each agent behaves as it does alone on the messages it gets; between any two agents messages arrive in the order in which they were sent, none lost, none twice; when nothing was cancelled and nothing goes on any more, every agent has ended or has handled all messages to it. A chain of agents, each handing on what it computes, delivers at its end exactly what the functions of the stages make of the messages posted to the first agent, in order, and an initial part of it at any time before.", "quantifier": "any number of agents, all bodies, all patterns of posting, any number of threads, all interleavings", "why_tests_cant": "Tests run one agent; the interleavings of several agents and threads are unboundedly many, and a reordered or lost message shows in few of them.", "anchors": [{"file": "expression/core/mailbox.py", "symbols": ["MailboxProcessor.post", "MailboxProcessor.receive", "MailboxProcessor.start", "MailboxProcessor.__process_events"]}]}
{"id": "C138", "title": "Mailboxes, agents and chains of agents come to rest", "statement": "A mailbox makes a bounded number of steps of its own for each call of post, post_and_async_reply and receive; so nothing in it spins, and no order in which the loop and the threads are run keeps it going for ever; no thread is ever stuck in a call. An agent whose body always comes to its next receive or to its end comes to rest whatever has happened before, needs no help from outside for it, and has then, unless somebody cancelled, ended or handled all messages posted so far. Nets of agents that post forward only (chains, trees) come to rest in the same way, and a chain has then brought everything posted so far through all its stages. Nobody who has asked an agent that answers each message waits for ever.", "quantifier": "all executions up to now, all ways to go on, all prompt bodies, any number of agents and threads", "why_tests_cant": "That a schedule without end does not exist, and that every way to go on ends in the same deliveries, is a statement about all infinite and all maximal runs; tests see one finite run.", "anchors": [{"file": "expression/core/mailbox.py", "symbols": ["MailboxProcessor.post", "MailboxProcessor.post_and_async_reply", "MailboxProcessor.receive", "MailboxProcessor.start", "MailboxProcessor.__process_events"]}]}
{"id": "C139", "title": "Agents that ask one another answer, unless they wait in a circle", "statement": "Agents started on one event loop may ask one another with post_and_async_reply inside their bodies. If each agent answers every request before it receives again, and on the way only asks agents that come later in some fixed order, then they come to rest (if their bodies always get to their next receive), and once nothing goes on any more every agent is back in receive, has handled all its messages, and every request has got its answer; an answer that rests on the answers of other agents is the one a plain function call would give. Two agents that ask each other wait for ever, and so does everyone who asked them.", "quantifier": "for all bodies, all numbers of agents and requests, all messages and all interleavings of the agents, the mailboxes and the requests", "why_tests_cant": "A test asks a few times under the one interleaving that asyncio happens to choose; it cannot show that no interleaving loses an answer, and it cannot wait for ever to see a deadlock.", "anchors": [{"file": "expression/core/mailbox.py", "symbols": ["MailboxProcessor.post_and_async_reply", "MailboxProcessor.receive", "MailboxProcessor.start", "AsyncReplyChannel.reply"]}, {"file": "expression/core/aiotools.py", "symbols": ["from_continuations"]}]}
{"id": "C140", "title": "An agent that keeps reply channels answers when it replies, and can be used as a lock", "statement": "An agent may keep the reply channels of requests and reply later, while it handles other messages. A caller of post_and_async_reply sees no value but one that was replied to its own request; once nothing goes on any more, exactly the requests that were replied to have been answered and the others wait. So an agent that answers a request to acquire when it is free, and otherwise keeps the channel until a message releases it, is a lock: the callers that have seen it granted are never more than one more than the releases, it is granted in the order asked, and each release hands it to the next that waits. In the same way an agent hands out any number of permits: exactly the first that asked have one, as many as there were and were given back.", "quantifier": "for all bodies, all numbers of requests and releases, all interleavings of callers, posting threads, replies, loop callbacks and the agent's task", "why_tests_cant": "A test tries a few orders of acquiring and releasing; that two holders never overlap and that no waiting caller is forgotten is about every interleaving of threads and callbacks.", "anchors": [{"file": "expression/core/mailbox.py", "symbols": ["MailboxProcessor.post_and_async_reply", "MailboxProcessor.post", "MailboxProcessor.receive", "AsyncReplyChannel.reply"]}, {"file": "expression/core/aiotools.py", "symbols": ["from_continuations"]}]}
{"id": "C141", "title": "A recursive grammar made of the combinators reads what belongs to it and nothing else", "statement": "A grammar of integers and nested lists, written with pint, pchar, many, then_ignore, sep_by, between, map, or_else and a function that calls itself, is read exactly: what the parser returns is a tree whose text begins where it started, and it stands right behind that text; every text of a tree is read whole, so what str prints for a nested list is parsed to that list again; and on a text within the limits the parser always returns, with an error only if no text of any tree begins there.", "quantifier": "for all trees, all texts, all positions and all limits of the interpreter", "why_tests_cant": "Tests of the combinators one at a time do not show that they backtrack rightly together; the trees and the wrong texts are infinitely many and the nesting is unbounded.", "anchors": [{"file": "expression/extra/parser.py", "symbols": ["pint", "pchar", "many", "then_ignore", "sep_by", "between", "or_else", "map", "Parser.__call__"]}]}
{"id": "C142", "title": "Counting, grouping and merging with Map.change and a fold", "statement": "Folding a Block into a Map with m.change(key(x), lambda o: Some(step(o, x))) makes the table a user expects: each key is bound to the steps over its own elements in their order and to nothing of other elements, the functions are called for one element after the other, and the first exception ends the fold. So counts are the numbers of occurrences and add up to the length, groups keep the order of their elements and hold every element once; folding one Map into another in the same way merges the two, commutatively or associatively if the function is, and counts of parts merged by + are the counts of the whole.", "quantifier": "for all key types with a total order, all blocks, all key and step functions with any effects and exceptions, all starting maps", "why_tests_cant": "A test counts a few words; that the tree of the map never loses or mixes up a key under any sequence of changes is about all sequences.", "anchors": [{"file": "expression/collections/map.py", "symbols": ["Map.change", "Map.fold", "Map.try_find", "Map.empty"]}, {"file": "expression/collections/block.py", "symbols": ["Block.fold", "Block.append"]}, {"file": "expression/core/option.py", "symbols": ["Option.default_value"]}]}
{"id": "C143", "title": "Parsers made of the combinators are parsing expression grammars", "statement": "Any parser that a user builds from pchar, pstring, any_of, choice, preturn, fail, and_then, then_ignore, ignore_then, or_else, map, bind, many, many1, opt, sep_by, between and functions that call one another does what the grammar read as a parsing expression grammar says: ordered choice, greedy repetition, one outcome for each text, the user's functions called in that order with the first exception passed on, the position always at an end of the text given. The interpreter's recursion limit decides only whether there is an answer, not which. Grammars in which what is repeated reads something and no rule comes back to itself before something is read have an answer for every text. If none of the user's functions raises or has effects, no parser does, apart from the recursion limit. (Left recursion, direct or through other rules, and many of what may match without reading meet the recursion limit on every text, whatever it is, so not every grammar has an answer; and choices may not be swapped.)", "quantifier": "for all grammars, all recursive rules, all functions with any effects and exceptions, all texts and positions, all recursion limits", "why_tests_cant": "Tests try single combinators on single texts; that every way to put them together, recursion included, has one meaning is about all grammars and all texts.", "anchors": [{"file": "expression/extra/parser.py", "symbols": ["pchar", "pstring", "any_of", "choice", "preturn", "fail", "and_then", "then_ignore", "ignore_then", "or_else", "map", "bind", "many", "many1", "opt", "sep_by", "between"]}]}
{"id": "C144", "title": "A breadth-first search written with tailrec, Block and Map finds shortest paths", "statement": "A search in which a @tailrec function takes keys with their distances from a Block, skips those that a Map already contains, adds the others and appends their neighbours to the Block, returns a Map that binds a key to a number exactly if this is the length of a shortest path to it. The user's function is called once for each key that a path leads to, and its first exception is passed on. The search ends if and only if finitely many keys can be reached (or the function raises), cycles or not, and the stack does not grow.", "quantifier": "for all key types with a total order, all graphs, finite or infinite, all starting keys, all neighbour functions with any effects and exceptions", "why_tests_cant": "The graphs are infinitely many; a test on a few of them does not show that trampoline, block and tree work together for all, and cannot show that a search on an infinite graph never ends and never overflows.", "anchors": [{"file": "expression/core/fn.py", "symbols": ["tailrec", "TailCall"]}, {"file": "expression/collections/block.py", "symbols": ["Block.is_empty", "Block.head", "Block.tail", "Block.append", "Block.map"]}, {"file": "expression/collections/map.py", "symbols": ["Map.__contains__", "Map.add", "Map.empty", "Map.try_find"]}]}
{"id": "C145", "title": "Grammars made of parser combinators may be rewritten by laws", "statement": "Parsers may be rewritten anywhere inside of a grammar without a change to values, positions, effects or exceptions (only the recursion they need may change): or_else is associative and fail is its unit, ignore_then is associative, preturn before ignore_then or behind then_ignore may be dropped, many, opt and between are what they are made of. If the functions have no effects, a common beginning of two choices may be taken out, a choice between the same is no choice, and choices of which at most one matches may be swapped. Rewriting the bodies of rules gives no other answers, but may lose them (a rule rewritten to itself); a common end may not be taken out, choices that may both match may not be swapped, and with effects a common beginning may not be taken out.", "quantifier": "for all grammars, recursive rules, functions, texts, positions and limits", "why_tests_cant": "That two parsers do the same is a statement about all texts; tests compare them on a few.", "anchors": [{"file": "expression/extra/parser.py", "symbols": ["or_else", "fail", "and_then", "then_ignore", "ignore_then", "preturn", "many", "many1", "opt", "sep_by", "between", "map", "bind"]}]}
{"id": "C146", "title": "A calculator made of parser combinators keeps precedence and associativity", "statement": "A parser for sums and differences of products of numbers and bracketed expressions (three rules that call one another, made of any_of, many, many1, and_then, or_else, between, pchar and map, with the operations folded from the left) returns the value of every expression that stands in the text and is not continued by what comes next, with products before sums, differences from the left and any number of brackets, and stands behind it. Whatever it returns on any text is the value of an expression that stands there; a text at which no expression begins gives an Error; every text is answered, if the recursion limit leaves room. No text has two values.", "quantifier": "for all expressions of any depth, all ways to put brackets, all texts, positions and limits", "why_tests_cant": "Tests calculate a few expressions; that precedence and associativity hold for all depths and that nothing else is accepted are statements about infinitely many texts.", "anchors": [{"file": "expression/extra/parser.py", "symbols": ["pchar", "any_of", "and_then", "or_else", "many", "many1", "between", "then_ignore", "ignore_then", "map"]}]}
{"id": "C147", "title": "sequence runs parsers one behind the other, and starmap hands their values to a function", "statement": "parser.sequence of any list of parsers runs each where the one before ended and returns the Block of their values in order, with the effects in order; the first Error or exception ends it and is passed on, and the parsers behind it do not run. A sequence of two lists put together is the two sequences in turn. starmap over it calls the function exactly once, with as many arguments as there are parsers, if all of them match, and not at all otherwise; a value that is not iterable is a TypeError. False for long lists: the call of sequence itself meets the recursion limit.", "quantifier": "for all lists of parsers with any effects and exceptions, all functions, inputs and limits", "why_tests_cant": "Tests use short lists of parsers without effects; order, single calls and early ends are about all lists and all failures at any place.", "anchors": [{"file": "expression/extra/parser.py", "symbols": ["sequence", "starmap", "lift2", "apply", "preturn", "map"]}]}
