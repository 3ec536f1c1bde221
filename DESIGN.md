# Design of the Rocq model of dbrattli/Expression

147 properties, 937 theorems named in `MANIFEST.json`.

## 1. What is trusted

* Coq 8.16.1's kernel. Only the Coq standard library is used.
* No axioms: `Print Assumptions` beneath every property theorem in `theories/Props`
  prints "Closed under the global context". In particular neither functional
  extensionality nor excluded middle is used; computations are compared pointwise (`==m`).
* The reading of the Python source: each model definition cites file and lines in
  `/repo` and says what it simplifies. Nothing was executed.
* The semantics given to what the code calls but does not contain: list, tuple, bytearray
  and array.array operations and slicing (`PyList.v`, `Array.v`), `for` loops, generators
  and the itertools functions (`Gen.v`, `Seq.v`), `functools.reduce`, dataclass-generated
  methods and `copy` (`TaggedUnion.v`), `threading.RLock` (`Thread.v`), `queue.SimpleQueue`,
  futures and call_soon_threadsafe (`Mailbox.v`, `Reply.v`, `Aiotools.v`), `int()` of a
  digit string (`Parser.v`). `float()`, `hash()`, `str()` of user values are parameters.

## 2. Conventions

* Exceptions are values: `res A := Ret a | Raise e` (`Model/Base.v`). Messages are not
  modelled (except error texts of parsers, which are values).
* User callbacks may raise and have effects: `A -> M W B` with `M W B := W -> res B * W`
  for an arbitrary world type `W`. A statement about such a computation fixes results,
  order and number of the calls, and what happens when one of them raises.
* Keys of maps are an arbitrary type with boolean `<` and `==` forming a strict weak
  order; `==` need not be Leibniz equality (`1 == 1.0 == True`).
* Iterators are coinductive (`Gen.v`): a step may have effects, raise, hand out an element,
  do silent work or end. A step that raises StopIteration is an end; StopIteration that
  leaves a generator becomes RuntimeError (`in_generator`). What an iterator does is
  described by inductive relations (`Spec/SeqSpec.v`), never with a bound.
* Python recursion or loops that may not end take fuel and return a distinguished
  `OutOfFuel`; theorems exclude it or prove that enough fuel exists.
* The recursion limit of the interpreter is modelled where a property depends on it: C18,
  C46, C50, C58, C59, C60, C75, C101, C103, C112, C121 (a `limit` parameter, theorems for every value of it).
* Threads (`Thread.v`) are transition systems: one step is one access to shared state, any
  thread may run next, theorems quantify over all schedules.
* Not modelled anywhere: type annotations, memory exhaustion, KeyboardInterrupt, weak
  memory, object identity (`is`) except where a property is about aliasing (C36) or copies.

## 3. Layout

* `theories/Model/*.v`  – definitions only, function by function.
* `theories/Spec/*.v`   – small specifications that do not use the model's helpers.
* `theories/Proofs/*.v` – lemmas.
* `theories/Props/*.v`  – the property theorems, each with a concrete case beside it and
  `Print Assumptions` beneath it.
* `seeded/LOG.jsonl`    – the mutations of the model tried so far, one per line, with the
  theorems that failed for each.

## 4. What is modelled, file by file

| file | modelled | not modelled |
|------|----------|--------------|
| collections/maptree.py | every function; with a stack limit: of_seq (C18) and the recursive functions (C101, Model/MapDepth.v); with arbitrary comparisons of keys: add, remove, change, lookups, filter, partition, of_list (C106, Model/MapCmp.v); with the identity of the objects: add, remove, change, filter, partition, map, of_list (C123, Model/MapShare.v) | frames of Python other than the recursive calls |
| collections/map.py | every method and function, the methods inherited from Mapping | – |
| collections/block.py | every method | – |
| collections/seq.py | every function; methods are the functions | the generator wrapper of `__iter__` (it only hands elements on; modelled in Resume.v and Abandon.v); references that tracebacks keep |
| collections/array.py | construction, inference of the typecode, item and slice access, assignment and deletion, insertion, extension, the methods inherited from MutableSequence, all functional operations | numbers with user-defined `__index__`/`__float__`; values of 'f'/'d' arrays are abstract floats with an abstract rounding |
| collections/asyncseq.py | every function; what closing and dropping async generators does (C122, Model/AsyncAbandon.v); several tasks and exceptions thrown into awaits (C125, Model/AsyncShare.v) | callbacks raising StopAsyncIteration, `finally` blocks that await or raise |
| core/option.py, core/result.py | every method and function, the pydantic schemas (with pydantic's side as described in Model/Pydantic.v) | – |
| core/try_.py | constructors (a Try is a Result), `__str__` | – |
| core/tagged_union.py | the decorator and its instances: construction, tag access, equality, ordering, hashing, copying, `__match_args__` | `dataclass` options outside eq/order/frozen; class creation errors of Python itself |
| core/curry.py, compose.py, pipe.py, misc.py, fn.py | every function | metadata copied by functools.wraps |
| core/builder.py, async_builder.py, effect/*.py | every method | bodies that run forever between two suspensions |
| core/aiotools.py | every function | asyncio itself: futures, tasks and running a coroutine are described in Model/Aiotools.v and Model/Await.v and that description is trusted |
| core/mailbox.py | post, post_and_async_reply, receive, start, event processing, reply channels | debug mode of asyncio |
| core/error.py, core/typing.py | EffectError as an exception value, `upcast`, `downcast`, `try_downcast` | protocols (static types) |
| extra/option, extra/result | traverse, sequence, pipeline, catch | – |
| extra/parser.py | every parser and combinator, the names of parsers | – |
| system/disposable.py, system/cancellation.py | every method | – |
| system/error.py | the exception as a value | – |

## 5. Property by property

"Partial, refuted in full" means: the full statement is false of the faithful model, a
`..._refuted` theorem proves it with a witness, and the remaining theorems prove the
strongest true part.

| id | property | model | proof | status |
|----|----------|-------|-------|--------|
| C01 | Map refines an abstract dictionary | MapTree, Map | refinement to a finite function, induction over every history of operations | proved |
| C02 | add changes exactly one key | MapTree | structural induction with the search-tree invariant | proved |
| C03 | remove deletes exactly one key | MapTree | structural induction with the search-tree invariant | proved |
| C04 | change updates, inserts or removes exactly one key | MapTree | induction; the branch that raises is refuted by a witness and characterised exactly | partial, refuted in full |
| C05 | Iteration is sorted and duplicate free | MapTree | invariant of the iterator stack (what is still to come) | proved |
| C06 | Map operations never raise internal errors | MapTree | invariant: stored heights are exact, tolerance 2; minimal-size recurrence; refutation by a reachable tree | proved |
| C07 | Cached heights are exact and lookups are logarithmic for add-only maps | MapTree | invariant: stored heights are exact, tolerance 2; minimal-size recurrence; refutation by a reachable tree | proved |
| C08 | Removal keeps the tree balanced | MapTree | invariant: stored heights are exact, tolerance 2; minimal-size recurrence; refutation by a reachable tree | partial, refuted in full |
| C09 | find, [] and contains agree with try_find | MapTree | structural induction with the search-tree invariant | proved |
| C10 | filter and partition split the bindings exactly | MapTree, Map | equality with monadic list functions over the bindings in visiting order | proved |
| C11 | map preserves keys and shape and calls the mapper in key order | MapTree, Map | equality with monadic list functions over the bindings in visiting order | proved |
| C12 | fold, fold_back and iterate visit in key order | MapTree, Map | equality with monadic list functions over the bindings in visiting order | proved |
| C13 | try_pick, exists and for_all search in key order and stop early | MapTree, Map | equality with monadic list functions over the bindings in visiting order | proved |
| C14 | pick raises KeyError when nothing matches | Map | canonical form of sorted bindings; exact description of ==; witnesses | partial, refuted in full |
| C15 | Map equality is equality of bindings | Map | canonical form of sorted bindings; exact description of ==; witnesses | partial, refuted in full |
| C16 | Equality and hash do not depend on the history | Map | canonical form of sorted bindings; exact description of ==; witnesses | proved |
| C17 | of_seq/of_block/of_list: last binding wins and round trip | Map | canonical form of sorted bindings; exact description of ==; witnesses | proved |
| C18 | Building a map from a long sequence does not exhaust the stack | MapTree (recursion limit explicit) | exact threshold for every limit | partial, refuted in full |
| C19 | Block is a persistent sequence: list semantics of the core operations | Block, PyList | induction on lists, case analysis on integers | proved |
| C20 | take and skip split a block | Block, PyList | induction on lists, case analysis on integers | proved |
| C21 | take_last and skip_last split a block | Block, PyList | induction on lists, case analysis on integers | partial, refuted in full |
| C22 | map, filter, choose, collect, partition and fold of Block agree with list comprehension | Block, PyList | induction on lists, case analysis on integers | partial, refuted in full |
| C23 | indexed numbers from the given start | Block, PyList | induction on lists, case analysis on integers | partial, refuted in full |
| C24 | zip, unfold, reduce of Block | Block, PyList | induction on lists, case analysis on integers | proved |
| C25 | sort and sort_with are stable permutations | Block, PyList | induction on lists, case analysis on integers | proved |
| C26 | Block equality | Block, PyList | induction on lists, case analysis on integers | proved |
| C27 | Lazy Seq operations agree with list operations | Seq, Gen | simulation between coinductive iterators and lists (inductive relation `produces`); with effects on both sides, equivalence with loops described step by step (Spec/RunSpec.v) | partial, refuted in full |
| C28 | Seq results can be iterated more than once | Seq, Gen | simulation between coinductive iterators and lists (inductive relation `produces`); with effects on both sides, equivalence with loops described step by step (Spec/RunSpec.v) | partial, refuted in full |
| C29 | take consumes no more than count elements | Seq, Gen | simulation between coinductive iterators and lists (inductive relation `produces`); with effects on both sides, equivalence with loops described step by step (Spec/RunSpec.v) | proved |
| C30 | Transformations are lazy | Seq, Gen | simulation between coinductive iterators and lists (inductive relation `produces`); with effects on both sides, equivalence with loops described step by step (Spec/RunSpec.v) | partial, refuted in full |
| C31 | head, try_find_index, try_pick, exists-style searches stop at the first hit | Seq, Gen | simulation between coinductive iterators and lists (inductive relation `produces`); with effects on both sides, equivalence with loops described step by step (Spec/RunSpec.v) | proved |
| C32 | fold, fold_back, scan, length, sum, min, max of Seq | Seq, Gen | simulation between coinductive iterators and lists (inductive relation `produces`); with effects on both sides, equivalence with loops described step by step (Spec/RunSpec.v) | partial, refuted in full |
| C33 | unfold and init_infinite | Seq, Gen | simulation between coinductive iterators and lists (inductive relation `produces`); with effects on both sides, equivalence with loops described step by step (Spec/RunSpec.v) | proved |
| C34 | TypedArray operations agree with list semantics | Array, PyList | refinement to lists; invariant over histories; heap of storage objects for aliasing | partial, refuted in full |
| C35 | A fixed-width TypedArray only ever holds values of its type | Array, PyList | refinement to lists; invariant over histories; heap of storage objects for aliasing | partial, refuted in full |
| C36 | A TypedArray owns its storage | Array, PyList | refinement to lists; invariant over histories; heap of storage objects for aliasing | partial, refuted in full |
| C37 | Option laws | OptionResult | case analysis for every effectful callback | proved |
| C38 | Result laws and error precedence | OptionResult | case analysis for every effectful callback | proved |
| C39 | Option/Result/Optional conversions round trip | OptionResult | case analysis for every effectful callback | partial, refuted in full |
| C40 | Option/Result ordering and equality | TaggedUnion | case analysis over arbitrary declarations | proved |
| C41 | Tagged union construction accepts exactly one case | TaggedUnion | case analysis over arbitrary declarations | proved |
| C42 | Tagged unions survive copying and pickling | TaggedUnion | case analysis over arbitrary declarations | proved |
| C43 | curry: any staging equals the direct call | Functions | induction on the argument list | partial, refuted in full |
| C44 | curry_flip puts the last arguments first | Functions | induction on the argument list | proved |
| C45 | compose and pipe | Functions | induction on the argument list | proved |
| C46 | tailrec computes the recursive function in constant stack | Functions | fuel loop against an inductive evaluation relation, both directions | proved |
| C47 | option/result computation expressions are monadic do-notation | Builder | bodies as state machines with effects; induction on the run; monadic denotation as the specification | proved |
| C48 | Builders short circuit | Builder | bodies as state machines with effects; induction on the run; monadic denotation as the specification | proved |
| C49 | A body without a return value yields zero | Builder | bodies as state machines with effects; induction on the run; monadic denotation as the specification | partial, refuted in full |
| C50 | seq computation expressions concatenate what is yielded | Builder | bodies as state machines with effects; induction on the run; monadic denotation as the specification | partial, refuted in full |
| C51 | Async builders agree with the synchronous ones | Builder | bodies as state machines with effects; induction on the run; monadic denotation as the specification | partial, refuted in full |
| C52 | traverse and sequence of Results | Extra | induction on lists | partial, refuted in full |
| C53 | Result/Option pipelines are Kleisli composition | Extra | induction on lists | proved |
| C54 | catch converts exactly the named exceptions | Extra | induction on lists | proved |
| C55 | Parsers never move backwards or past the end and never change the input | Parser | induction over combinator terms, texts and numerals; explicit recursion limit | proved |
| C56 | or_else backtracks fully and choice is ordered | Parser | induction over combinator terms, texts and numerals; explicit recursion limit | proved |
| C57 | Parser is a monad and applicative | Parser | induction over combinator terms, texts and numerals; explicit recursion limit | proved |
| C58 | pstring matches exactly its string | Parser | induction over combinator terms, texts and numerals; explicit recursion limit | partial, refuted in full |
| C59 | many is greedy, total and never fails | Parser | induction over combinator terms, texts and numerals; explicit recursion limit | partial, refuted in full |
| C60 | pint parses what is printed | Parser | induction over combinator terms, texts and numerals; explicit recursion limit | partial, refuted in full |
| C61 | A Disposable runs its action at most once | Disposable, Thread | invariants over all interleavings; nested composites by induction | proved |
| C62 | Cancellation calls every registered listener exactly once | Cancellation, Thread | invariants over all interleavings of threads and reentrant listeners; witnesses are schedules | partial, refuted in full |
| C63 | No registration is lost in a race with cancel | Cancellation, Thread | invariants over all interleavings of threads and reentrant listeners; witnesses are schedules | partial, refuted in full |
| C64 | Cancellation is monotone | Disposable, Thread | invariants over all interleavings; nested composites by induction | proved |
| C65 | AsyncDisposable.composite disposes all its members | Disposable, Thread | invariants over all interleavings; nested composites by induction | partial, refuted in full |
| C66 | Mailbox delivers every message exactly once in order | Mailbox, Thread | invariants over all interleavings; witnesses are schedules | proved |
| C67 | Mailbox loses no message when posts and processing race | Mailbox, Thread | invariants over all interleavings; witnesses are schedules | partial, refuted in full |
| C68 | An abandoned receive loses nothing | Mailbox, Thread | invariants over all interleavings; witnesses are schedules | partial, refuted in full |
| C69 | Every reply completes the request | Reply, Thread | invariants over all interleavings | partial, refuted in full |
| C70 | A cancelled mailbox stops delivering | Mailbox, Thread | invariants over all interleavings; witnesses are schedules | partial, refuted in full |
| C71 | from_continuations settles once with the first continuation | Aiotools | invariants over all sequences of events | partial, refuted in full |
| C72 | AsyncSeq operations agree with list operations | AsyncSeq, Gen | as for Seq | proved |
| C73 | Block.range is an arithmetic progression | OptionResult | case analysis | proved |
| C74 | dict() determines the Option or Result | OptionResult | case analysis | partial, refuted in full |
| C75 | pfloat takes the longest decimal numeral | Parser | induction on numerals | partial, refuted in full |
| C76 | A with block always disposes | Disposable, Thread | invariants over all interleavings; nested composites by induction | proved |
| C77 | dispose() returns only after the resource was released | Disposable, Thread | invariants over all interleavings; nested composites by induction | partial, refuted in full |
| C78 | Started computations are kept while they run | Aiotools | invariants over all sequences of events | partial, refuted in full |
| C79 | start follows its token | Aiotools | invariants over all sequences of events | partial, refuted in full |
| C80 | AsyncSeq transformations await only what they hand out | AsyncSeq, Gen | as for Seq | partial, refuted in full |
| C81 | AsyncSeq results can be iterated more than once | AsyncSeq, Gen | as for Seq | partial, refuted in full |
| C82 | asyncseq.repeat repeats | AsyncSeq, Gen | as for Seq | partial, refuted in full |
| C83 | Exceptions of Seq callbacks reach the consumer unchanged | Seq, Gen | induction on the run of the callback; for any source from the exact description of loops (Spec/RunSpec.v) | partial, refuted in full |
| C84 | Piped parser combinators agree with the methods | Parser | case analysis | partial, refuted in full |
| C85 | Printing a Seq | SeqRepr, Gen | induction on what the source produces | partial, refuted in full |
| C86 | Slices with any bounds and step | PyList, Block, Array | arithmetic on the selected positions; induction on the list for deletion and assignment | partial, refuted in full |
| C87 | Pydantic round trip | Pydantic | mutual induction on typed values | partial, refuted in full |
| C88 | Pydantic validation checks the items | Pydantic | induction on the type and the items | partial, refuted in full |
| C89 | Pydantic validation reports bad input as a validation error | Pydantic | induction on the type and the items | partial, refuted in full |
| C90 | Nothing is one object | Identity | induction on the program of operations | partial, refuted in full |
| C91 | Text of options, results and tries | UnionClass, TaggedUnion | case analysis on the values of the declarations | partial, refuted in full |
| C92 | Text of blocks, arrays and maps | Show, Map | induction on the list; first occurrence of the separator | partial, refuted in full |
| C93 | Hash and comparison operators of tagged unions | UnionClass, TaggedUnion | case analysis on the declaration and its values | partial, refuted in full |
| C94 | Assigning to a tagged union that is not frozen | UnionClass, TaggedUnion | case analysis on the assigned name | partial, refuted in full |
| C95 | Downcasts check the type | Typing | case analysis on the type expression | partial, refuted in full |
| C96 | Module functions and methods agree | Modules, Functions | binding of arguments equals the relation supplied (induction on parameters), then one lemma for each of the three shapes a forwarding function has; the tables have these shapes by computation | partial, refuted in full |
| C97 | An agent handles its messages one after another in the order they were posted | Agent, Mailbox, Aiotools | invariant over schedules of the mailbox and the task of the body: the trace of the body is sequential, and the executions project to mailbox executions with one receiver, to which the lemmas of C66 and C68 apply; then induction on the sequential trace | partial, refuted in full |
| C98 | A cancelled agent stops | Agent, Mailbox, Aiotools | lock and thread invariants of all schedules give that a quiet loop is idle, so a waiting or new task can be cancelled; on the loop, the bounds of C70 with the logs of one receiver give at most one more message; refuted by schedules | partial, refuted in full |
| C99 | A request to an agent gets its own answer | Request, Agent, Reply, Mailbox | invariant over schedules of the whole system: its agent is an execution of Agent, each request one of Reply, and the replies called in request n are the outputs (n, v) of the body; then the theorems of C97 and C69 apply | partial, refuted in full |
| C100 | Sums over a TypedArray are the sums of the values | Array | sum_by is reduced to mapM, the constructor and builtins.sum (a parameter); the facts of C34 about what the constructor keeps then apply; refuted by witnesses | partial, refuted in full |
| C101 | Map operations need a stack logarithmic in the number of keys | MapDepth, MapTree | stack-limited copies of the recursive functions; induction on the tree that they agree with the unlimited ones when the depth fits, and raise RecursionError when it does not; accumulators of filter/partition/of_list stay balanced, so their depth is logarithmic; refuted by the linear maps of C08 | partial, refuted in full |
| C102 | Sums over a Block | Block | sum and sum_by are reduced to foldM and mapM of the specification (C22); permutation by induction; refuted by the StopIteration lemma of C22 | partial, refuted in full |
| C103 | run_synchronously runs a computation once to its end | Await | big-step relation of awaiting without a stack limit; induction on the limit (nested awaits) and the code of the coroutine: the driver agrees with it while unawaited objects fit the limit; objects taken stay taken; refuted by a chain of coroutines | partial, refuted in full |
| C104 | The same chain on Block, Seq and AsyncSeq | Chain.v (Block.v, Seq.v, AsyncSeq.v) | induction over the chain with the invariant that the lazy source steadily hands out the list the Block holds; one transformation by induction over the list, comparing runs of the generator with the eager loop; counterexamples run | partial, refuted in full |
| C105 | A custom Builder computes with its own methods | Builder.v | the generic loop lemmas of C47-C50 instantiated at an arbitrary builder satisfying the left unit law: induction on the body in one direction, on the fuel in the other; the asynchronous loop is simulated by the synchronous one | partial, refuted in full |
| C106 | A Map whose keys compare strangely stays whole | MapTree.v, MapCmp.v | Induction over the tree for each operation with the items of the tree as a list; the balance invariant of C07 does not need an order; for the key just added an invariant says that the side holding the key is the higher one whenever a subtree grew, so that every rotation keeps it on its search path. | proved |
| C107 | Iterations of one collection at the same time do not disturb each other | Interleave.v (Gen.v, Seq.v, MapTree.v) | invariant over the schedule: each iterator in the table still hands out its own rest; nested loops by induction over the elements; the iterator of a Map by induction over the fringe of its stack | partial, refuted in full |
| C108 | Options and Results may be mixed in one computation expression | Mixed.v, Builder.v | the loop of Builder.v with builders over a type of both kinds: the theorem about user-defined builders (C105) gives option and result; seq by induction over what the body yields, because its bind iterates the outcome | partial, refuted in full |
| C109 | Match statements take values apart as the constructors put them together | Match.v, TaggedUnion.v, UnionClass.v | the algorithm of class and sequence patterns of the language reference run on the instance dictionary of TaggedUnion.v; exhaustiveness by induction over the branches; sequence patterns against a relation that tries sub-patterns from left to right; the failing patterns by computation for all sub-patterns | partial, refuted in full |
| C110 | A Try stays a Try | TryClass.v (OptionResult.v, Builder.v) | results paired with their class, every method written again with the class it gives; case analysis on the operands; forgetting the class is shown to give the model of OptionResult.v; the builder by the theorem about user-defined builders (C105) | partial, refuted in full |
| C111 | Methods of a TypedArray see it as it was when they were called | LiveArray.v (Array.v) | the storage is part of the world and the loops read position 0, 1, 2, ... of it; equality with the loops of Array.v by induction on the fuel under an invariant on the part not yet visited; endless and skipping loops by induction for all arrays | partial, refuted in full |
| C112 | Parsers need a stack for the nesting of the grammar only | ParserDepth.v (Parser.v) | every combinator takes the number of frames that are left; an inductive predicate pairs each parser with its form without a stack and gives the depth of nesting; sufficiency and agreement by induction on it, the exact needs of literals, alternatives and repetitions by induction on the literal, the list and the repetitions | partial, refuted in full |
| C113 | The name of a parser tells how it was built and costs no more than that | ParserName.v | the names alone, as functions of the names of the parts; induction over a syntax tree of combinators for length and parentheses, induction over the levels for the exponential growth | partial, refuted in full |
| C114 | Equality between values of the library is an equivalence that never raises, and equal values have equal hashes | ValueEq.v (Block.v, Array.v, Map.v, TaggedUnion.v) | one type of nested values, == with the dispatch of Python to either operand; strong induction on the depth of nesting against the normal form with tuples for Blocks | partial, refuted in full |
| C115 | Options and Results are iterables of their value | OptIter.v (Gen.v, Seq.v, Block.v) | the iterators as generators of Gen.v; the theorems about collect and concat of arbitrary iterables (C27) instantiated; induction on the Block | partial, refuted in full |
| C116 | What TypedArray inherits from MutableSequence agrees with lists | Inherited.v (Array.v, Block.v) | the bodies of collections.abc over the model of the library methods; index by induction on the fuel against a search in the slice, then against the first position within the bounds; own storage by induction on the fuel: the array grows as fast as it is read | partial, refuted in full |
| C117 | A Map is a Mapping: get, keys, values, items and dict(m) agree | Inherited.v (Map.v, MapTree.v) | the bodies of collections.abc over the model of Map; from C05; set comparison by a pigeonhole lemma for lists without equal elements | partial, refuted in full |
| C118 | Prepending to a Block and taking it apart is cheap | BlockCost.v (Block.v) | a counter as the world; exact costs by composition of costs, sums by induction on the list; bounds refuted by exhibiting for every constant a block or list of blocks that exceeds it | partial, refuted in full |
| C119 | An exception ends the iterator of a sequence for good | Resume.v | iterators that leave an iterator behind in every outcome; a coinductive simulation with the iterators of Seq.v; a coinductive invariant for the ones that are closed by an exception; induction on the source for the ones that go on | partial, refuted in full |
| C120 | Giving up an iteration releases what it opened and leaves alone what the user holds | Abandon.v (Resume.v) | iterators with two more operations, being dropped and being closed from yield from; a coinductive simulation with Resume.v in which both do nothing; a coinductive invariant that the open generators of the world are those the iterator owes, kept by every function; for the functions that end as generators, that they have dropped everything at the end | partial, refuted in full |
| C121 | Long chains do not exhaust the stack | ChainDepth.v, AsyncDepth.v (Functions.v, Extra.v, Seq.v, AsyncSeq.v, Chain.v) | functions and iterators that know how many frames are left; induction on the list of functions; a coinductive simulation with Seq.v and AsyncSeq.v when enough frames are left, stage by stage; below that, induction on the chain that the first next() raises | partial, refuted in full |
| C122 | Giving up an asynchronous iteration | AsyncAbandon, AsyncSeq | coinductive invariants of the operations: the closing an iterator asks for undoes what it has opened, and its depth is one more than that of its sources; a turn of the loop keeps what will be open in the end and brings every closing one turn nearer; refuted by pipelines of n maps | partial, refuted in full |
| C123 | Updated maps share their tree with the original | MapShare.v (MapTree.v) | the tree functions with a counter that numbers the objects they create; induction on the tree, three objects for each rebalance on the path; histories: invariant that all objects of all trees are in one list of objects created in order | proved |
| C124 | Parsing takes time in proportion to the text | ParserCost.v (with Parser.v) | The combinators of Parser.v run in a world with a counter that pchar increments; [counts] congruences show that nothing else changes. Bounds are triples (success, failure, exception) as functions of the text left; one lemma per combinator adds them up, the grammar theorem is an induction over the inductive class of grammars, the repetition over the recursion limit. The slow grammars are evaluated by induction over the text. | partial, refuted in full |
| C125 | Sharing an async sequence, and requests that time out | AsyncShare.v (with AsyncSeq.v) | Async iterators as coinductive generators with visible suspensions, into which a value or an exception is sent; an async generator object shared by tasks keeps its state in the world. Agreement with AsyncSeq.v and death by thrown exceptions by coinduction, one lemma per loop; the schedules by induction over the events with the invariant that at most one task is suspended in the object. | partial, refuted in full |
| C126 | The error of a failed parse is about the place where the text goes wrong | Parser.v | Spec/ParserErrorSpec.v: [says text q c e] (the message is true at place q), [made char own] (grammars with their characters and fail messages), [straight k] (no alternatives). Induction over the grammar that errors are true and positions stay inside the text; for straight grammars, that a text agreeing beyond the place fails too. Refuted by an or_else whose first alternative got further. | partial, refuted in full |
| C127 | Decorators can be stacked in any order | Decorate.v | functions as closures of the decorators over an arbitrary user function (an oracle for its body, its kind and its computation expression); calls and awaits with fuel, shown monotone. Spec/DecorateSpec.v: tail calls as an inductive relation, [promised] outcome of a stack. Induction over the rounds of the trampoline and over the stack; refuted by tailrec over catch of a function that counts down. | partial, refuted in full |
| C128 | try, except, finally and with work in the bodies of computation expressions | Model/Handlers.v, Model/Builder.v | the generator that Python makes of a body with handlers is a continuation machine; Spec/HandlersSpec.v gives the body a direct meaning without generators or continuations; induction over the body shows that sending to the machine yields the values of the meaning and ends alike, composed with the loop of the builder (C47, C51); cleanup once by running the body beside a counter it cannot touch | partial, refuted in full |
| C129 | Exceptions of calls inside computation expressions are not taken for short circuits | Model/Mixed.v (call_raises), Model/Handlers.v, Model/Extra.v | a call that raises leaves the body as an exception, which the builder takes for a short circuit exactly when it is an EffectError; composed with C128 for arbitrary bodies, with C04 and C14 for the calls of Map, and induction over the block for traverse | partial, refuted in full |
| C130 | A helper of a computation expression may be decorated or not | Model/Handlers.v (PDelegate, PFrom) | a plain helper runs in the same generator, a decorated one is an effect that gives its outcome; how a body ends does not depend on what it yields, so a congruence over the syntax of bodies reduces the claim to one call of one helper, which is C128 | partial, refuted in full |
| C131 | The work of iterating a pipeline of sequence operations | Model/ChainWork.v, Model/Chain.v, Model/Seq.v | the loops of Seq.v with a counter in the world around the result of each stage; a relation between a generator, the list it gives and the calls it costs is shown for each loop and composed over the chain; a simulation shows that the counter is not observable | partial, refuted in full |
| C132 | Reading a Map takes time in proportion to its size | Model/MapWork.v, Model/MapTree.v, Model/Map.v, Model/BlockCost.v | the functions that read a tree with a counter of calls and copied references; for the iterator an amortised bound with a potential of the stack (at most three rounds per binding) and a bound on the length of the stack by the depth of the tree; lower bounds by induction over the tree, the bits of the hash, and the paths of C08 | partial, refuted in full |
| C133 | Several tasks may dispose a composite at the same time | Model/CompositeTasks.v | transition system of any number of calls; a call runs from one action to the next without interruption; one invariant over all executions relates flags, log and what each call has left, the order comes from the part of the member list behind each call | partial, refuted in full |
| C134 | A builder's methods are called as its body runs, and only those that the body uses | Model/BuilderCalls.v | the loop of Builder.v written again with methods that are effects; the list of expected calls is a separate recursive function over what the body yields; induction over the run of the body, with a case for each call that may raise | partial, refuted in full |
| C135 | Iterators of Seq are generators that handle send, throw and close | Model/Protocol.v, Model/Abandon.v | generators with all four operations as a coinductive type over the sources of C120; induction over sequences of operations with the invariant that what is open is what the iterator holds | partial, refuted in full |
| C136 | An agent that has ended does not leave its callers waiting | Model/Mailbox.v, Model/Agent.v, Model/Reply.v, Model/Request.v | induction over executions after the end of the body: the body makes no more replies, so that nobody settles the futures; the queue by the counting invariant of C66 | partial, refuted in full |
| C137 | Agents that post to one another | Model/Network.v, Model/Agent.v, Model/Mailbox.v | every execution of the net projects to an execution of each agent, so that C97 applies; the mail is the posts of the bodies and the messages posted to the mailboxes (invariant); chains by induction over the stages | proved |
| C138 | Mailboxes, agents and chains of agents come to rest | Model/Mailbox.v, Model/Agent.v, Model/Network.v, Model/Request.v | an invariant of the lock for the absence of deadlock; a measure of the work that is left, which every step of the mailbox makes smaller and every call makes larger by a constant; lexicographic with the messages not yet read for agents, and induction over the numbers of the agents for nets | proved |
| C139 | Agents that ask one another answer, unless they wait in a circle | Model/Asking.v, Model/Agent.v, Model/Mailbox.v, Model/Reply.v | each agent is followed by a shadow agent with a scripted body, so that C97 applies although replies come from outside; an invariant says which request each body still owes and that each reply called is good; at rest, induction from the last agent down; coming to rest by nested accessibility, agent by agent, with the requests innermost; deadlock as an invariant | proved |
| C140 | An agent that keeps reply channels answers when it replies, and can be used as a lock | Model/Request.v, Model/Agent.v, Model/Mailbox.v, Model/Reply.v | the invariant of C99 holds for every body, so what a caller sees depends only on what the body replied; the outputs of a body that keeps channels are computed by induction on its sequential run (C97); the lock by induction on the messages with the kept channels in hand | partial, refuted in full |
| C141 | A recursive grammar made of the combinators reads what belongs to it and nothing else | Model/Parser.v (the grammar itself, a user program, is Spec/GrammarSpec.v) | the texts of a tree as an inductive relation; completeness by mutual induction on it, soundness by induction on the depth with many and sep_by taken from C59; totality by strong induction on the text that is left; an error excludes a text by completeness, after extending a numeral to its last digit | partial, refuted in full |
| C142 | Counting, grouping and merging with Map.change and a fold | Model/MapTree.v, Model/Map.v, Model/Block.v, Model/OptionResult.v (the programs, written by users, are in Spec/GroupingSpec.v) | induction on the block with C04 for each change; the groups are a permutation of the elements because exactly one of the ascending keys equals the key of an element | proved |
| C143 | Parsers made of the combinators are parsing expression grammars | Model/Parser.v (grammars, their compilation to combinators and the big-step relation are Spec/PegSpec.v) | soundness by induction on the depth and the grammar, completeness by mutual induction on derivations, determinism from completeness; totality of well-formed grammars by induction on the length of the text, then the rank of the rule, then the grammar; left recursion by induction on the depth | partial, refuted in full |
| C144 | A breadth-first search written with tailrec, Block and Map finds shortest paths | Model/Functions.v (tailrec), Model/Block.v, Model/MapTree.v (the program, written by a user, is in Spec/SearchSpec.v) | an invariant of the search (two levels of distances in the work, edges of seen keys lead to seen keys or to the work) kept by each step, over the evaluation relation of C46; the end by the number of reachable keys not seen yet and the length of the work | proved |
| C145 | Grammars made of parser combinators may be rewritten by laws | Model/Parser.v (Spec/PegSpec.v, Spec/PegLawsSpec.v) | inversion of the derivations of C143, which are unique; replacement inside of repetitions and rules by induction on derivations; the parsers by soundness and completeness of C143 | partial, refuted in full |
| C146 | A calculator made of parser combinators keeps precedence and associativity | Model/Parser.v (Spec/PegSpec.v; the program, written by a user, is in Spec/CalcSpec.v) | completeness by induction on the text of the expression, with what the repetition goes on with as accumulator; soundness by induction on the length of the text, then level by level; totality and unambiguity from C143 | proved |
| C147 | sequence runs parsers one behind the other, and starmap hands their values to a function | Model/Parser.v, Model/ParserStar.v | induction on the list of parsers; the relation of Spec/ParserSeqSpec.v is shown to be deterministic, so that it holds exactly of what the parser does | partial, refuted in full |

## 6. Refuted statements and what holds instead

* C04 (`C04_change_absent_nothing_refuted`). Full statement is false: with an absent key and a callback returning Nothing, change raises EffectError on some tree shapes and returns the map on others (refuted by two maps with the same bindings). Proved exactly when it raises (the search ends at a missing child), and everything else.
* C08 (`C08_removal_keeps_balance_refuted`, `C08_lookups_stay_logarithmic_refuted`). False of the code: remove and the splicing out of the successor use mk where add uses rebalance. Refuted: removals can turn a map of any size into a linear list, so that a lookup compares every key (C08_lookups_stay_logarithmic_refuted). Proved instead: removal never increases the height, so the depth stays logarithmic in the size the map had before the removals.
* C14 (`C14_pick_keyerror_refuted`). False of the code: pick raises EffectError, never KeyError. Exact behaviour proved, KeyError refuted.
* C15 (`C15_equality_refuted`). False of the code: == is a prefix test, so it is not symmetric and equal maps can hash differently. Exact behaviour proved, equality laws refuted; for maps of equal length the claim is proved.
* C18 (`C18_of_seq_stack_refuted`). False of the code: of_seq recurses once per element. Proved exactly when it fails for every recursion limit; of_block does not depend on the limit.
* C21 (`C21_zero_refuted`). False for n = 0: take_last(0) is the whole block and skip_last(0) is empty (slices [-0:] and [:-0]). Refuted for every non-empty block; proved for all n >= 1.
* C22 (`C22_stop_iteration_refuted`). Calls, order, results and exceptions are proved for every callback and every exception other than StopIteration (C22_*_partial; partition and fold for every exception). Refuted for StopIteration: map, filter, choose, collect and mapi run their callback inside builtins.map/filter/itertools.starmap, so a StopIteration of the callback ends the result silently instead of propagating; forall turns it into RuntimeError (C22_stop_iteration_refuted).
* C23 (`C23_start_refuted`). False: indexed ignores its start argument. Refuted by a witness; proved that the indices are always counted from 0.
* C27 (`C27_scan_none_refuted`). Proved for all sources, callbacks and counts, and for all states of scan other than None. False for scan with the state None: itertools.accumulate takes it for 'no state', so the state is not handed out and folding starts with the first element (C27_scan_none_refuted; exact behaviour in C27_scan_none_partial). A StopIteration that leaves a generator is seen as RuntimeError, one that leaves builtins.filter, accumulate or starmap ends the iteration; the theorems with effects say which (leaving, ended, outside). The _any_ theorems characterise the behaviour exactly (both ways) for any source and any callbacks, with effects on the same state and exceptions on both sides: the source is asked for an element, the callback runs on it, then the next is asked for; so a source may depend on what the callback did.
* C28 (`C28_filter_scan_zip_refuted`, `C28_dict_refuted`, `C28_unfold_refuted`). True of map, choose, collect, append/concat, skip, take, tail, pairwise, delay and init_infinite (C28_reiterable_partial, any number of iterations, also interrupted or interleaved ones). False of filter, scan, zip and unfold, whose results are one-shot iterators: the second iteration is empty (C28_*_refuted).
* C30 (`C30_eager_refuted`). Building a pipeline is free of effects when opening the sources is (C30_building_partial) and elements are pulled on demand; C30_any_source says exactly what has happened when elements have been taken, for any source and callbacks with effects. False of mapi, Seq.collect/Seq.concat (which iterate the source at once) and of filter/scan/zip over delay, which call the delayed function when built (C30_eager_refuted).
* C32 (`C32_scan_none_refuted`). Proved, for scan with all states other than None. False for scan with the state None, which hands out as many elements as the source has, not one more (C32_scan_none_refuted). The theorems with effects take scripted sources whose effects do not raise StopIteration, since such a source has simply ended. Sums are by +, one after the other: since Python 3.12 builtins.sum corrects the rounding of a run of floats, which is not modelled. The _any_ theorems characterise the behaviour exactly (both ways) for any source and any callbacks, with effects on the same state and exceptions on both sides: the source is asked for an element, the callback runs on it, then the next is asked for; so a source may depend on what the callback did. max and min with comparisons that have effects or raise: C32_comparisons, for any source and projection, both ways; comparisons are one per further element, in order.
* C34 (`C34_stop_iteration_refuted`, `C34_mixed_refuted`, `C34_take_last_zero_refuted`, `C34_indexed_start_refuted`). List semantics is proved for arrays of plain elements (always the case for typed storage, C34_typed_are_plain_partial) and for filter, fold, forall, equality, item assignment, insertion and deletion of every array. Refuted: an untyped list that contains an int8 (etc.) in the middle makes skip/take/map raise OverflowError because the constructor re-infers the type from the first element (C34_mixed_refuted); take_last(0)/skip_last(0) (C34_take_last_zero_refuted); indexed ignores start (C34_indexed_start_refuted). Slices with a step and slice assignment are C86. Callbacks are proved for every exception other than StopIteration, which cuts the result of map, filter, choose and collect short (C34_stop_iteration_refuted).
* C35 (`C35_int32_refuted`). Proved for every history of construction, assignment, insertion, append, extend, deletion, pop, slice assignment and slice deletion, for all integer typecodes except Int32/Uint32 on platforms where C long has 64 bits; there it is false (C35_int32_refuted: array.array('l') accepts 2**40) and only the 64-bit range holds (C35_wide_partial). Values of another kind are refused with TypeError (C35_wrong_kind).
* C36 (`C36_bytearray_refuted`). Proved for every initializer except a bytearray given without a typecode, which is kept without copying: C36_bytearray_aliased, C36_bytearray_refuted. Slices of an array never share storage with it (C36_derived_partial).
* C39 (`C39_optional_round_trip_refuted`). False for Some(None): to_optional gives None and of_optional gives Nothing. Refuted by that witness; proved that it is the only exception, and every other conversion round trip holds.
* C43 (`C43_keywords_refuted`). False for keyword arguments given before the last call: _curry drops them. Refuted by a witness; proved for every grouping of the positional arguments with keywords in the last call, and reuse of partial applications.
* C49 (`C49_no_return_value_refuted`, `C49_result_no_return_value_refuted`). False after a yield: a body that yields and then ends without a value gives Some/Ok of the value yielded last (C49_no_return_value_refuted, C49_result_no_return_value_refuted). Proved: zero exactly when nothing was yielded, the value yielded last otherwise, and plain function bodies.
* C50 (`C50_long_sequences_refuted`, `C50_yield_from_list_refuted`, `C50_work_refuted`). Elements, order, single eager execution, return value and exceptions are proved for every body (C50_elements_partial). Refuted: yield from a list or other plain iterable raises AttributeError because the builder sends the previous value to its iterator (C50_yield_from_list_refuted); the result nests one lazy concatenation per yield, so for every recursion limit a long enough body gives a sequence whose iteration raises RecursionError (C50_long_sequences_refuted, exact bound in C50_iteration_partial; C50_frames_partial shows that this bound is what the nested generators need), and iterating N elements asks the nested concatenations (N+4)(N-1)/2 times, which is not proportional to N (C50_work_partial, C50_work_refuted).
* C51 (`C51_await_nothing_refuted`, `C51_await_value_refuted`). Proved equal, step for step, for every body that an async generator can be (no return value, no yield from) and for plain coroutines. Refuted: awaiting Nothing/Error in a coroutine without yield lets EffectError escape (C51_await_nothing_refuted); an awaited value does not become the result as a yielded-from one does (C51_await_value_refuted).
* C52 (`C52_order_refuted`). The value is proved for all functions without effects (leftmost error, or all values in order) and sequence completely. The order of calls is false: fold_back calls the function on every element from the last to the first, also after an error (C52_order_refuted); the exact effects are proved (C52_effects_partial, C52_calls_partial) for functions that do not raise EffectError, those are C129_traverse_refuted.
* C58 (`C58_pstring_refuted`). Exact result, consumption and error message proved for strings shorter than the recursion limit; refuted for every limit: pstring of a longer string raises RecursionError because sequence recurses once per character (and running it needs four frames for each character, see C112).
* C59 (`C59_many_refuted`, `C59_many_long_refuted`). many/many1/sep_by/sep_by1 return exactly the relational specification whenever they return, and return for every consuming parser when the text left is shorter than the recursion limit. Refuted for every limit: many(preturn(x)) and many(parse_digit) on a long text raise RecursionError.
* C60 (`C60_pint_refuted`). Round trip proved for all integers whose number of digits is within the recursion limit and int's digit limit, also for numerals with leading zeros; failure without digits proved. Refuted for every recursion limit by an integer with more digits.
* C62 (`C62_base_exception_refuted`, `C62_unregistered_during_cancel_refuted`). Threads with arbitrary interleaving, reentrant listeners. True: no listener is called twice; a listener registered before the first cancel and never unregistered is called exactly once when every call of cancel is over and no listener raised a BaseException; registration order; a handle disposed before the first cancel prevents the call; one thread calls all; nothing is called after cancel is over; disposing a handle never raises; no deadlock. False of the code, with witnesses: a listener raising a BaseException (asyncio.CancelledError, SystemExit) stops cancel and the rest are never called; a listener unregistered by an earlier listener during cancel is still called.
* C63 (`C63_lost_refuted`). False of the code: register_internal tests the flag outside the lock, so a cancel that runs between the test and the lock loses the listener for ever (C63_lost_refuted, for every continuation). Proved: a registration that ends before the first cancel is called, one that begins after a cancel has returned raises ObjectDisposedException.
* C65 (`C65_all_members_refuted`). Exact behaviour proved for all nestings (members in order, each object once, up to the first that raises); all members disposed when no action raises, a second dispose does nothing. Refuted when a member raises: later members are not disposed.
* C67 (`C67_lost_refuted`, `C67_never_answered_refuted`). Refuted: the test of self.continuation is outside the lock (mailbox.py:143-146), so two threads each take a message and the second drops it (C67_lost_refuted); a continuation stored between read and clear is erased and its receive waits for ever (C67_never_answered_refuted). Proved for all interleavings: no message twice, none out of order, no receive ends twice, no deadlock.
* C68 (`C68_lost_refuted`, `C68_waits_refuted`, `C68_raises_refuted`). Refuted: the continuation of an abandoned receive stays in place, so the next message goes to it and is never received (C68_lost_refuted, for every schedule), or the next receive raises (C68_raises_refuted). Proved: receive raises only when the last accepted receive has not returned; every other receive gets its message.
* C69 (`C69_none_refuted`, `C69_second_refuted`, `C69_takes_back_refuted`). Refuted for None (never completes) and for a second reply that comes before the caller waits (it replaces the first). Proved for all interleavings of replies other than None with the caller: no reply is lost, only replied values arrive, a completed request does not change, the first reply wins when the caller waits.
* C70 (`C70_post_refuted`, `C70_pending_refuted`). Refuted: a cancellation by another thread during event processing lets a later post through (C70_post_refuted); a pending receive is cancelled only by the next event (C70_pending_refuted; with start() the body's task is cancelled as well, which is not part of this model). Proved: only receives accepted before the cancellation get messages, and only messages posted before it when the loop's thread cancels; at most one message later otherwise; every receive ends once something is posted after the cancellation.
* C71 (`C71_stop_iteration_refuted`). First call wins for every sequence of calls, also with the awaiter cancelled. Refuted for a first call error(StopIteration()): asyncio refuses it, the call raises TypeError and the awaiting code is told nothing.
* C74 (`C74_option_dict_refuted`). Result.dict() determines the result (proved for every injective payload dump). Option.dict() does not: Some(Nothing).dict() and Some(None).dict() are None like Nothing.dict() (C74_option_dict_refuted); proved for payloads that do not dump to None.
* C75 (`C75_pfloat_refuted`). Proved for all numerals within the recursion limit, for any float function (builtins.float is a parameter); an Error without digits. Refuted for every recursion limit by a longer numeral.
* C77 (`C77_returned_after_action_refuted`). Refuted with two threads: the second dispose() returns before the action has started. Proved for one thread (the action has started; with reentrancy it need not have finished).
* C78 (`C78_leak_refuted`, `C78_registration_refuted`). Model of tasks for start and start_immediate (same code). Kept while running and dropped on return: proved. Refuted: a computation that raises or is cancelled stays in the set for ever, and the token's source keeps the callback of every task for ever (C78_registration_refuted).
* C79 (`C79_raises_but_runs_refuted`). Raises exactly for none() and for a cancelled source's token; otherwise cancelling the source calls task.cancel(): proved. Refuted: when start raises the computation has been scheduled and runs, and no source can cancel it.
* C80 (`C80_take_loses_refuted`, `C80_take_waits_refuted`). C80_any_source_partial says exactly what has happened when elements have been taken, for any source and callbacks with effects. Proved for map, filter, choose, scan (with callbacks that have effects), collect, concat, append, skip and the elements of take. Refuted for the end of take(n): it awaits and drops element n+1, so a shared source loses it (C80_take_loses_refuted) and take never ends if it never comes (C80_take_waits_refuted).
* C81 (`C81_again_refuted`, `C81_range_again_refuted`). Refuted: every operation gives one async generator object, the second pass over it is empty. Proved: applying the operation anew gives the same elements.
* C82 (`C82_endless_refuted`). Refuted without a count: itertools.repeat(value, times or 0) yields nothing. Proved with a count.
* C83 (`C83_stop_iteration_refuted`). Proved for every exception other than StopIteration, for lists (C83_exceptions_partial) and any source, which may have effects on the same state as the callback (C83_any_source_partial). Refuted for StopIteration: map, choose, collect, sum_by, max_by and min_by raise RuntimeError; filter, scan and mapi end silently and drop the rest of the source (C83_stop_iteration_refuted). unfold and init_infinite are in C33.
* C84 (`C84_or_else_refuted`). Proved for and_then, then_ignore and ignore_then. Refuted for or_else: it is curried the other way round, so pipe(p, or_else(q)) tries q first while p.or_else(q) tries p first.
* C85 (`C85_one_shot_refuted`). The text and the exact number of pulled elements are proved for every source. Refuted that printing leaves the sequence as it was: over a one-shot iterator the printed elements (and the 101st) are gone.
* C86 (`C86_assign_refuted`). Proved for all bounds and steps: reading, deleting, and assigning what the storage accepts. Refuted that assignment treats typed storage as a list: array.array refuses every other iterable (TypeError), a bytearray takes the memory of an array.array instead of its numbers, and an empty value with a step deletes instead of raising ValueError. Slices of a TypedArray are storage objects, not TypedArrays; the theorems are about their elements.
* C87 (`C87_nested_refuted`, `C87_json_result_refuted`, `C87_json_option_refuted`). Pydantic's core schemas are modelled as documented (DESIGN.md). Python data: proved for all nestings in which no Option holds an Option or a type with None; Some(Nothing) comes back as Nothing (C87_nested_refuted). JSON: proved for types without Result whose options hold other types; reading a Result from JSON always raises (TypeError of Result(data)), and the item of an Option read from JSON stays raw data.
* C88 (`C88_instance_refuted`). Proved for Python data without instances of the three classes. Refuted for instances, which are taken unchecked, and therefore for every Option read from JSON.
* C89 (`C89_result_refuted`). Proved for types without Result and for a Result validated from a dictionary. Refuted for a Result validated from None, numbers, and strings or lists with the word error: TypeError leaves the validation. JSON: ValueError for types without Result; for a Result, TypeError exactly for an object with a str tag and a fitting item (C89_json_errors_partial). For a text in place of a Result it is TypeError exactly when the word ok or error occurs in it (C89_text_partial).
* C90 (`C90_is_refuted`). Proved for all programs of Option operations. Refuted for Option.Nothing() and for copies (copy, deepcopy, pickle): they make empty options that are other objects.
* C91 (`C91_repr_refuted`, `C91_copy_refuted`). Texts and their injectivity are proved in full. Refuted: repr() is str() (the decorator replaces the __repr__ of the class body, so repr(Some(1)) is 'Option(some=1)') and copies print alike (a copy of a Try is a Result).
* C92 (`C92_text_refuted`, `C92_determined_refuted`, `C92_map_determined_refuted`). The text is proved for every collection whose element texts do not raise StopIteration (that ends the join early, refuted). Refuted that texts tell collections apart when element texts contain the separator; proved when they do not.
* C93 (`C93_hash_refuted`, `C93_operators_refuted`). Hashes: proved for frozen unions; refuted without frozen (identity hash beside structural equality). Operators: < and > proved; <= and >= always raise TypeError, also with order=True (refuted).
* C94 (`C94_other_refuted`, `C94_retag_refuted`). Proved for the active case. Refuted for another case: it is accepted and has no visible effect; assigning the tag too gives a value equal to a fresh one, yet smaller than it and not picklable.
* C95 (`C95_casts_refuted`). Proved for classes, tuples of classes and, for downcast, unions of classes. Refuted for generics (type arguments unchecked by try_downcast; TypeError from downcast), unions (try_downcast never recognises a | b and raises for typing.Union), None, and downcast under -O. Python 3.10 to 3.13; classes whose instance check raises are left out. The type None is decided by try_downcast and refused by downcast (C95_none_partial).
* C96 (`C96_agree_refuted`). Proved for the 82 forwarding functions and 29 forwarding methods in the tables of Model/Modules.v; what a method does with its arguments is an oracle there. False of array.indexed (start dropped), map.fold_back (pipes the state, so a piped table is taken for it), Parser.or_else (the piped parser comes second) and functions that are not curried, such as option.or_else(y), which raise TypeError when piped.
* C97 (`C97_threads_refuted`). Proved for posts from any threads and requests (post_and_async_reply) made on the loop's thread, without cancellation for completeness; refuted when other threads make requests (a message is dropped, see C67). The body does not catch CancelledError; its effects other than receive are outputs.
* C98 (`C98_after_refuted`, `C98_threads_refuted`). That the agent ends is proved for all threads and schedules (C98_ends). Handling no further message is false: on the loop's thread it may get one more (at most one, C98_one_more_partial; none posted later when the loop's thread cancels, C98_loop_partial), even one posted after the cancellation (C98_after_refuted), and two more when other threads call post_and_async_reply (C98_threads_refuted). Calling task.cancel() from another thread is modelled as taking effect on the loop.
* C99 (`C99_none_refuted`, `C99_threads_refuted`). Proved for requests made on the loop's thread and posts from any thread, without cancellation for completeness, and answers other than None. Refuted for the answer None (C99_none_refuted: the request waits for ever) and for requests from several other threads (C99_threads_refuted: one request is dropped and waits for ever).
* C100 (`C100_refuted`, `C100_float32_refuted`). sum_by hands the results of the projection to a TypedArray first. Proved when the first result is not of a library number class (C100_sum_by_partial) and, for sized integers, up to the exception of the intermediate array (C100_sum_by_sized_partial). Refuted: int8(5) followed by 1000 raises OverflowError, a projection that raises StopIteration ends the sum silently (C100_refuted), float32 results are rounded before they are added (C100_float32_refuted). builtins.sum itself is a parameter.
* C101 (`C101_refuted`). Stated with d, the nested calls still allowed. Proved: depth of the tree is enough for every operation (plus the depth of the tree being built for filter and partition), lookup and traversal need exactly that; maps built by insertion, filter, partition, map have logarithmic depth, and blocks are turned into maps with a logarithmic stack. Refuted after removals: for every limit d a map of d + 1 keys in which looking up a present key raises RecursionError (C101_refuted). Map.of_seq/of_list(list) recurse once per element anyway (C18).
* C102 (`C102_stop_iteration_refuted`). sum is proved in full. sum_by is proved for projections that do not raise StopIteration; refuted otherwise: the map inside takes it for the end of the block and the sum is cut short silently (C102_stop_iteration_refuted). Python 3.12 and later add floats with compensation inside builtins.sum; add is then a parameter that need not be the + of the elements.
* C103 (`C103_refuted`). Proved for all coroutines when the stack has room for as many nested awaits as there are unawaited coroutine objects. Refuted: StopIteration comes out as RuntimeError, and long chains of awaits raise RecursionError (C103_refuted). Cancellation from outside, futures and the loop of asyncio.run itself are not modelled here.
* C104 (`C104_order_refuted`, `C104_exception_refuted`, `C104_stop_iteration_refuted`, `C104_tail_refuted`, `C104_negative_refuted`). Refuted in five ways: with two transformations the Block runs the first one on all elements before the second starts, so effects come in another order (C104_order_refuted) and another exception may be seen (C104_exception_refuted); a callback's StopIteration ends a Block silently and is a RuntimeError elsewhere; tail of an empty Block raises ValueError, elsewhere it is empty; negative counts are slices for a Block and zero elsewhere. Proved: for callbacks whose results depend on their arguments only (other effects allowed) and non-negative counts, all chains give the same elements on all three; a single transformation has the same elements, effects and exception for any callbacks that do not raise StopIteration.
* C105 (`C105_lazy_refuted`). Proved for all builders whose bind of a return_ value calls the function once (left unit) and whose delay is eager (the inherited one is); the methods of the builder other than bind are without effects in the model (C134 has methods with effects). Refuted for lazy monads (reader, state, task): a bind that does not call its function never sets is_done, so the call of a body that yields never ends (C105_lazy_refuted).
* C107 (`C107_one_shot_refuted`, `C107_to_seq_refuted`, `C107_filter_refuted`). Proved for everything whose iter() makes a new iterator: lists, Block, Map (C107_map) and the results of the operations named in C28. False of the one-shot objects that filter, scan, zip, unfold and Map.to_seq() return: nested loops over one such object see only the pairs of the first element with the others.
* C108 (`C108_kind_refuted`, `C108_seq_failure_refuted`). Proved: the call is do-notation in which either kind hands on its value and the first failure, whatever its kind, is the outcome (sync and async). False: an option function gives the Error it met and a result function gives Nothing (C108_kind_refuted), so the kind is only the builder's own when no failure of the other kind ends the body (C108_kind_partial). In effect.seq a Nothing or Error after a yield leaves the call as EffectError, and before any yield it is returned and cannot be iterated (C108_seq_failure_refuted).
* C109 (`C109_positional_refuted`, `C109_assigned_refuted`, `C109_sequence_refuted`, `C109_seq_refuted`, `C109_array_refuted`). Proved for the patterns that name the case, U(tag="c", c=p), U(c=p), U("c", c=p), for the match statements the library itself uses, and for Block([...]). False by position: __match_args__ is all the declared names in order, so U(_, x) stands for the first declared case only and Option("some", x) never matches a Some (C109_positional_refuted). False of a union that is not frozen after assigning to another case (C109_assigned_refuted). Seq(p) and TypedArray(p) never match because __match_args__ names attributes that do not exist, and [head, *tail] without the class never matches a Block or a Seq (C109_seq_refuted, C109_array_refuted, C109_sequence_refuted).
* C110 (`C110_class_refuted`, `C110_text_refuted`, `C110_builder_refuted`). Proved: up to the class a Try is a Result (C110_same), Success and Failure make Trys, or_else and or_else_with among Trys give a Try, effect.try_ gives the first Failure itself (C110_failure), catch hands a Try on. False otherwise: map, map2, apply, map_error and swap give a Result always, bind of a Failure and a rejecting filter give a Result, effect.try_ wraps a value with Ok, pipeline turns a Failure of any function but the last into an Error; str() of the outcome then says Ok or Error (C110_class_refuted, C110_text_refuted, C110_builder_refuted).
* C111 (`C111_push_refuted`, `C111_delete_refuted`). True of callbacks that leave the array alone (all seven methods, C111_hands_off_partial) and of those that only change positions already visited, such as writing back in place (map and fold, C111_behind_map_partial, C111_behind_fold_partial). False otherwise, because the iterators of the storage follow it as it changes: a callback that pushes makes map endless on every non-empty array (C111_push_refuted), one that deletes the first element is called for every other element only (C111_delete_refuted).
* C112 (`C112_literal_refuted`, `C112_alternatives_refuted`, `C112_any_of_refuted`, `C112_many_refuted`). Proved: two frames for each level of nested combinators are enough, and with less the parser does the same or raises RecursionError (C112_nesting_partial). False of the rest, with the exact need: a literal of n characters needs 4n+8 frames to be recognised (about 250 characters with Python's default limit of 1000), n alternatives need 2n frames even where the first one matches, n repetitions need n frames beside those of one element (C112_literal_refuted, C112_alternatives_refuted, C112_any_of_refuted, C112_many_refuted). Counted are the frames of Parser.run, the inner run functions, parse_zero_or_more and the callbacks; those of calls that end before the next counted one are not.
* C113 (`C113_sharing_refuted`, `C113_many1_refuted`, `C113_parentheses_refuted`, `C113_preturn_refuted`). Names of all combinators are proved, and their length in proportion to the combinators when no parser is used twice (C113_size_partial). False otherwise: every use of a parser copies its name, so k levels of sep_by1 give a name 2^k times as long (C113_sharing_refuted); many1 is called many (C113_many1_refuted); and_then, or_else and bind leave a parenthesis open (C113_parentheses_refuted); preturn formats its value when it is called, and what that raises comes out of preturn (C113_preturn_refuted).
* C114 (`C114_raises_refuted`, `C114_transitive_refuted`, `C114_symmetric_refuted`, `C114_hash_refuted`). Proved: reflexive for all values (C114_reflexive); without arrays nothing raises; without arrays and Maps two values are equal exactly if they are the same up to tuples for Blocks, so == is an equivalence and hashes agree; arrays against sequences of such values, Maps of the same size and Block.__contains__ likewise; a value has a hash exactly if no list, Block or array is in it (C114_hashable). False: TypedArray.__eq__ raises TypeError for whatever has no length, also from the right and from inside Blocks and Options (C114_raises_refuted); a list equals an array that equals a tuple (C114_transitive_refuted); Map.__eq__ takes a prefix for equal, and an array equals a Map that does not equal it (C114_symmetric_refuted); a Block has no hash though it equals a tuple that has one (C114_hash_refuted). Map keys are integers in this model.
* C115 (`C115_failure_refuted`, `C115_block_collect_refuted`). Proved for Some and Ok, and for collect and concat exactly: the values up to the first Nothing, then EffectError. False for Nothing and Error: their iteration raises EffectError instead of ending, so in, seq.collect, seq.concat and Block.collect raise where choose leaves them out (C115_failure_refuted, C115_block_collect_refuted).
* C116 (`C116_own_storage_refuted`). Proved for in, index, count, reversed and for extend and += with the array itself and with anything that does not share its storage. False when it shares the storage (the bytearray the array was made from, a.value): extend and += never end, where a list is doubled (C116_own_storage_refuted). Assumes comparisons do not change the array.
* C117 (`C117_unhashable_refuted`). Proved for all maps, except that items() and dict(m) are proved for keys that can be hashed. False for others: a Map takes keys that can only be compared, such as lists; keys() and values() work, items() and dict(m) raise TypeError (C117_unhashable_refuted).
* C118 (`C118_cons_refuted`, `C118_walk_refuted`, `C118_concat_refuted`, `C118_traverse_refuted`). The cost counted is the number of references written into new tuples and lists by CPython. Proved: exact costs of head, tail, reduce and of the shared cases, linear upper bounds of the others with their results. False of the code, which keeps a tuple and copies it: cons, head and tail copy the whole Block (C118_cons_refuted, C118_walk_refuted; building n elements with cons copies n(n+1) references, walking down copies 3n(n-1)/2), concat copies every prefix (C118_concat_refuted), and traverse of n elements that are all Ok copies n(n+7)/2-1 references (C118_traverse_partial, C118_traverse_refuted). C118_same_results: also for empty blocks the results and exceptions of the counted operations are those of the Block model.
* C119 (`C119_goes_on_refuted`, `C119_next_loop_refuted`). Proved for map, collect, choose, concat, append, skip, tail, take, pairwise, delay, dict, unfold and every iteration of a Seq or SeqGen, over all sources and callbacks (C119_finished_partial). False for filter, scan, zip and init_infinite, which give builtin objects: after an exception they go on with the next element, scan with the total it had, zip with its sources out of step when the second one raised or ended (C119_goes_on_refuted; exact outcomes for any source, also one that goes on after it raised or ended, in C119_any_source_partial; as functions of the script of a source in C119_filter_partial, C119_scan_partial, C119_zip_partial, C119_init_infinite_partial). A second loop over such an object, or over a Seq made from it, continues behind the failed element (C119_next_loop_refuted). Up to the exception these iterators are the ones of C27 to C33 (C119_same_elements, C119_same_outcomes).
* C120 (`C120_held_refuted`, `C120_at_end_refuted`). Proved: everything entered is left exactly once when the iteration is given up, for every function and nesting (C120_balanced, C120_balanced2, C120_released), and already when it ends or raises for all but filter, scan and zip (C120_released_at_end_partial); zip whose second source ends first and filter and scan whose callback raised keep their source until they are dropped themselves (C120_at_end_refuted). An iterator the user holds is left alone by every function (C120_held_partial) except that concat, append and collect close a generator that they were given directly or that their mapping gave: its remaining elements are lost (C120_held_refuted). CPython's reference counting is taken as given; exceptions raised in finally blocks and references kept by tracebacks are not modelled.
* C121 (`C121_long_chains_refuted`, `C121_async_chains_refuted`). Proved for compose and pipe (two and three frames for any number of functions, C121_compose). False for pipelines, which need a frame for every function, for sequences, which need two frames for every stage other than filter, and for asynchronous sequences, which need one for every stage: for every recursion limit there are chains of map alone and of append alone that raise RecursionError when iterated (C121_long_chains_refuted, C121_async_chains_refuted). The exact bounds: C121_pipeline_partial; C121_seq_partial and C121_async_partial (up to one frame, for any source); within them the results are those of C45, C53 and C27, beyond them no callback is called.
* C122 (`C122_at_once_refuted`, `C122_aclose_refuted`, `C122_late_refuted`). Model of async generators with the finalizer of asyncio's event loop (a generator without references is closed by a task made in the next turn). Proved: ended or raised is over for good; elements and effects are those of AsyncSeq.v; everything opened is closed, once, when the loop has turned twice per generator around each other. Refuted: not when the consumer goes on (C122_at_once_refuted), not after await result.aclose() (C122_aclose_refuted), and no fixed number of turns is enough (C122_late_refuted, for every number). finally blocks that await or raise, and references kept by tracebacks, are not modelled.
* C124 (`C124_recursive_refuted`, `C124_repetition_refuted`). Proved: the counted parsers do what the parsers of C55-C60 and C75 do (C124_same, C124_same_tokens); exact counts of pstring and any_of; the polynomial bound of all grammars without recursion (C124_grammar_partial); linear bounds of parsers told apart by the first character and of the tokens (C124_linear_partial, C124_tokens). Refuted in general: C124_repetition_refuted (quadratic), C124_recursive_refuted (exponential). Repetitions of parsers that succeed without consuming end in a RecursionError (C59) and are left out by the hypothesis consuming. Counted are the looks at the input, not the copying of Blocks (C118).
* C125 (`C125_timeout_refuted`). Proved: the model with visible suspensions is that of AsyncSeq.v when nobody interferes (C125_alone, C125_alone_own); the sharing part for all sources, numbers of tasks and schedules (C125_one_reader, C125_each_once, C125_refused); what a thrown exception does (C125_over, C125_over_sources, C125_thrown, C125_ended, C125_over_for_all). Refuted: C125_timeout_refuted, the last sentence: every operation of asyncseq is an async generator, and one that is left by an exception is over, so that asking again ends without an exception, although the source still has the element (C125_new_pipeline). Assumed of sources: they do not catch what is thrown into their awaits (passes). C125_over leaves out concat (collect with the identity).
* C126 (`C126_furthest_refuted`). C126_true is the first half for all grammars (C126_derived: strings, character sets, choices and sequences are such grammars; C126_number: numbers). The second half (furthest place) holds for parsers without alternatives and repetitions (C126_furthest, C126_furthest_string) and is false in general (C126_furthest_refuted): 'ab' or 'x' on the text 'ac' reports "Expecting 'x'. Got 'a'" about the first character. C126_last_alternative and C126_last_character say what is reported instead: the error of the last alternative only, so any_of names only its last character.
* C127 (`C127_order_refuted`). Proved for one order: curry outermost (C127_curry, over anything), then catches, then effect.result, then tailrec innermost (C127_stack; C127_computation for generators; C127_async for tailrec_async under effect.async_result). False of the other orders (C127_order_refuted), which C127_tailrec_idle, C127_tailrec_curry, C127_catch_async and C127_catch_inside describe: tailrec over catch returns Ok(TailCall(...)), catch over an async function returns Ok of a coroutine that nobody has run, catch over curry returns Ok of a function, effect.result over catch nests Results and never runs generators. Keyword arguments, async generators and awaiting a coroutine twice are not in this model.
* C128 (`C128_swallowed_refuted`). Partial because a short circuit is an EffectError, which is an Exception (error.py:4): except Exception or a bare except around a yield from Nothing catches it and the expression goes on to a value, and a return in finally or a suppressing with discards it (C128_swallowed_refuted). Proved in full: the call agrees with the meaning of the body for all four builders (C128_option, C128_result, C128_async), cleanup exactly once (C128_cleanup_once, _async), and except clauses that do not name EffectError or a base class leave short circuits alone (C128_own_exceptions_partial). Bodies with while loops are covered by C47 and C51 as arbitrary generators, not here.
* C129 (`C129_effect_errors_refuted`, `C129_pick_refuted`, `C129_change_refuted`, `C129_traverse_refuted`). Partial because _send catches every EffectError that leaves the body (builder.py:74-77, async_builder.py:81-84), not only its own: a call that raises EffectError(Nothing) makes the decorated function return Nothing, an effect.result one as well (C129_effect_errors_refuted), which Map.pick without a match (C129_pick_refuted) and Map.change (C129_change_refuted) do; traverse gives Nothing when its function raises it (C129_traverse_refuted with C129_leftmost: the exact outcome). Every other exception propagates, for all four builders (C129_other_exceptions_partial). EffectErrors with another argument, of iterating an Error and of ResultException, are taken likewise (NFail in Model/Builder.v) but have no theorem of their own.
* C130 (`C130_none_refuted`, `C130_yields_refuted`). Partial because zero() of effect.option is Nothing: a helper that returns None ends the whole expression with Nothing once it is decorated (C130_none_refuted), and one that yields and returns nothing gives its last yielded value instead of None (C130_yields_refuted). Proved for helpers that return values other than None, short circuit or raise, also for helpers of effect.result that return None and yield nothing, in bodies that return a value other than None, short circuit or raise (C130_decorate_partial); helpers in which another call raises EffectError are C129. Every helper has a decorated form (C130_decorated_exists).
* C131 (`C131_linear_refuted`). Partial because append does not flatten: n elements appended one by one are iterated with n*(n+5)/2 calls of next(), against n+2 when they are appended at once (C131_appends_partial), so no constant times elements and operations is enough (C131_linear_refuted). Proved: that counting changes nothing for all chains, callbacks and exceptions (C131_same), the exact number of calls for callbacks that answer whatever the state and do not raise (C131_calls: the lengths of all intermediate results and one for each, less only when there is a take), and (n+1)*k calls for n elements through k maps (C131_maps); the same counts hold for async sequences (C131_async_same, C131_async_calls), whose append does not flatten either (C131_async_appends_partial). Not counted: the calls of the lists that append, choose and collect are given, and the second generator of Seq.__iter__ around each result, which is asked as often as the result itself.
* C132 (`C132_to_list_refuted`, `C132_hash_refuted`, `C132_removals_refuted`). Partial because three parts are false of the code. to_list prepends to a Block, which copies it: n*(n+1) references for every map of n bindings (C132_to_list_refuted). hash shifts an integer that grows by two bits for every binding: more than 2*n*n bits are written when the hashes are not negative (C132_hash_refuted). After removals the tree can be a path (C08), and then making an iterator alone copies more than n*n references (C132_removals_refuted). Proved: counting changes nothing (C132_same), len costs at most 2n+1 calls (C132_len), iterating n times the depth and n*log n for maps built without removals (C132_iteration), one step the square of the depth (C132_next), == the sum for both maps (C132_equality). Counted are calls and references copied by Block operations, not the resumption of generators or what comparing items costs.
* C133 (`C133_returned_refuted`, `C133_failed_refuted`). Proved: at most once (C133_at_most_once), in order (C133_order), started when a call has returned (C133_returned_partial), each action run once to its end when all calls have returned (C133_all_released), and a call that is not over waits for its own action only (C133_no_deadlock). False: a call returns while another call still waits for an action (C133_returned_refuted), and an action that raised or was cancelled is never run again, whatever happens later, while later calls pass it and return (C133_failed_refuted). C65 is the case of one task, with the effects of the actions.
* C134 (`C134_zero_refuted`, `C134_delay_refuted`, `C134_signal_refuted`). Proved for builders whose methods log their calls with the arguments and may raise any exception but StopIteration (StopAsyncIteration) and EffectError, over any builder with left unit and eager delay: the exact list of calls (C134_calls_partial), the cut at the first call that raises (C134_missing_partial), bodies without yield (C134_plain), and agreement with the model of C105 (C134_quiet). Refuted: zero is called before every generator body, so a class without zero cannot be used at all (C134_zero_refuted); delay is given a value that is computed already and delays nothing (C134_delay_refuted); a StopIteration raised by a method ends the call quietly with the result so far (C134_signal_refuted). A bind that handles an exception: after an exception of return_ AsyncBuilder does not resume the body again, while Builder goes on with it (C134_handled); a StopIteration ends both (C134_handled_stop).
* C135 (`C135_throw_refuted`, `C135_finally_refuted`). Proved: with next() alone it is the iterator of C119 and C120 (C135_next), what is sent does not matter (C135_send), values sent too early (C135_early), and throw, close and the end release everything, for every sequence of operations (C135_released_partial; throw of StopIteration excluded). Refuted: throw never comes to the generator that is iterated, it is closed instead (C135_throw_refuted), and exceptions of finally blocks are lost (C135_finally_refuted), because the iterator is a generator expression and not yield from. References kept by tracebacks are not modelled; the objects that filter, scan and zip give have none of these methods.
* C136 (`C136_waits_refuted`, `C136_accepts_refuted`). Proved for all bodies, threads and interleavings: an ended agent handles nothing more (C136_ended), and a request answered before with something other than None has its answer once nothing goes on (C136_answered_partial). Refuted for the others, and for all of them: whatever happens after the end, an unanswered request completes only if its caller gives up (C136_waits_refuted), post is accepted as before, and what is posted stays in the queue for as long as the mailbox exists, all but one message (C136_accepts_refuted; the second part for requests made on the loop's thread). Not modelled: post raises RuntimeError once the event loop itself is closed.
* C140 (`C140_giveup_refuted`, `C140_threads_refuted`). For every body and any threads: C140_value, C140_replied. For agents that compute their replies message by message, with requests made on the loop's thread and posts from any thread: C140_seen_partial, C140_rest_partial; the lock: C140_lock_one_partial, C140_lock_order_partial, C140_lock_rest_partial, C140_lock_all_partial; permits: C140_pool_seen_partial, C140_pool_rest_partial. Refuted: when a caller that waited gave up, the lock is granted to it all the same and the next waits for ever (C140_giveup_refuted); requests from several other threads can be lost (C140_threads_refuted); a reply None leaves the caller waiting (second part of C140_replied, C99_none_refuted).
* C141 (`C141_whole_refuted`, `C141_deep_refuted`). C141_sound and C141_call_sound hold for all texts and limits. Within the limits (recursion for many and for the grammar, digits for int): C141_reads_partial, C141_round_trip_partial, C141_decides_partial; C141_show_injective. Refuted: a text of which only the beginning belongs to the grammar is accepted by Parser.__call__ (C141_whole_refuted), and for every size of the stack there is a tree whose text raises RecursionError (C141_deep_refuted).
* C143 (`C143_answers_refuted`, `C143_choice_refuted`). C143_sound, C143_complete, C143_deterministic, C143_limits, C143_replace, C143_forward, C143_choice and C143_total hold for all grammars; C143_safe and C143_safe_total for those whose functions neither raise nor have effects. Refuted: not every grammar has an answer (C143_answers_refuted; in general C143_left_recursion and C143_idle_loop), and choices may not be swapped (C143_choice_refuted). All errors count as no match here, their texts are not compared; the number parsers have properties of their own.
* C145 (`C145_rules_refuted`, `C145_factor_right_refuted`, `C145_swap_refuted`, `C145_factor_effects_refuted`). The laws are about what grammars say (the relation of C143); C145_parsers carries them to the parsers. C145_equivalence and C145_inside: replacing anywhere inside; C145_choice, C145_sequence, C145_unfold for all functions; C145_quiet, C145_factor, C145_swap for functions without effects; C145_rules. Refuted: C145_rules_refuted, C145_factor_right_refuted, C145_swap_refuted, C145_factor_effects_refuted.
* C147 (`C147_long_refuted`). Proved for all lists shorter than the recursion limit (C147_sequence, C147_append, C147_starmap) and for values that cannot be unpacked (C147_not_iterable). False for longer lists (C147_long_refuted): sequence is recursive in the list, so it raises RecursionError when it is called.

## 7. Other partial statements

* none

## 8. Not expressible here

* Wall-clock behaviour, fairness of real schedulers, memory use.
* pydantic itself: Model/Pydantic.v states what its unions, validators and typed dicts do with the schemas the library builds; that description is trusted. Pydantic models as items are not covered.
* static types.
* `repr`/`str` of foreign objects, except as parameters.
