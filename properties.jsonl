{"id": "C01", "title": "A Serie built from flattened data gives back its items in order", "statement": "Serie(k, values) on the flattening of n rows of k numbers has itemSize k, count n and size k*n, and value(i) / get<Array>(i) is row i for every i < n; numbers left over after the last complete row never show up in an item.", "quantifier": "every item size 1 <= k < 2^31, every list of rows with k*n < 2^32, every leftover tail shorter than k, every index", "why_tests_cant": "The index arithmetic is modulo 2^32 and the leftover tail has any length below k; samples cover a handful of shapes only.", "anchors": ["src/Serie.cxx:Serie(int,const Array&,uint)", "src/Serie.cxx:value", "include/dataframe/inline/Serie.hxx:get"]}
{"id": "C02", "title": "Writing an item and reading it back (lens laws)", "statement": "After set(i, v) / setValue(i, v) with a v of the right size, item i reads v, every other item reads what it read before, and itemSize, count and dimension are unchanged; writing the item just read changes nothing; of two writes to the same index the last one wins. The same holds for set<double> / setScalar on raw positions.", "quantifier": "every Serie whose storage holds all its items, every index in range, every value", "why_tests_cant": "Non-interference with all other items is a statement about every pair of indices of every Serie.", "anchors": ["include/dataframe/inline/Serie.hxx:set", "src/Serie.cxx:setValue", "src/Serie.cxx:setScalar", "include/dataframe/inline/Serie.hxx:get"]}
{"id": "C03", "title": "Writes never touch memory outside the Serie", "statement": "set(i, Array), setValue, set(i, double) and setScalar called with any 32-bit index and any value either complete inside the storage or throw std::invalid_argument and leave the Serie as it was; they throw exactly when the index or the item size is wrong.", "quantifier": "every Serie whose storage holds all its items, every 32-bit index, every value of every length", "why_tests_cant": "Absence of out-of-bounds access for all index/value combinations, including products that wrap at 2^32, cannot be sampled.", "anchors": ["include/dataframe/inline/Serie.hxx:set", "src/Serie.cxx:setValue", "src/Serie.cxx:setScalar"]}
{"id": "C04", "title": "Reading outside the Serie is refused", "statement": "value(i), get<Array>(i) and scalar(i) with an index outside the Serie throw std::invalid_argument instead of reading outside the storage; get<double> does so for every index past the storage.", "quantifier": "every Serie, every 32-bit index", "why_tests_cant": "The failing calls are undefined behaviour, which a test run may or may not notice.", "anchors": ["src/Serie.cxx:value", "src/Serie.cxx:scalar", "include/dataframe/inline/Serie.hxx:get"]}
{"id": "C05", "title": "No history of calls makes the storage smaller than the items", "statement": "After any sequence of constructions, copies, assignments, clones, reCounts and (successful or refused) writes, every Serie can read all its items 0..count-1 without leaving its storage, provided no requested count*itemSize reaches 2^32; without that proviso the claim fails.", "quantifier": "every finite history of public Serie calls over any number of Serie objects", "why_tests_cant": "An invariant over all histories; the failing constructor arguments need 2^32-sized products.", "anchors": ["src/Serie.cxx:Serie(int,uint32_t,uint)", "src/Serie.cxx:reCount", "src/Serie.cxx:operator=", "src/Serie.cxx:clone"]}
{"id": "C06", "title": "Copies, assignments and clones carry the same items", "statement": "A copy-constructed Serie is indistinguishable from its source; after assignment or clone of a valid Serie, itemSize, count and every item agree with the source; later writes to either side do not show in the other.", "quantifier": "every Serie, every later sequence of writes", "why_tests_cant": "Independence of the two objects quantifies over all later write sequences.", "anchors": ["src/Serie.cxx:Serie(const Serie&)", "src/Serie.cxx:operator=", "src/Serie.cxx:clone"]}
{"id": "C07", "title": "Assignment and clone keep the dimension", "statement": "After t = s, and for t = s.clone(), t.dimension() equals s.dimension().", "quantifier": "every pair of Series", "why_tests_cant": "The dimension is 3 in nearly every test, so the loss shows only for other dimensions combined with specific calls.", "anchors": ["src/Serie.cxx:operator=", "src/Serie.cxx:clone"]}
{"id": "C08", "title": "reCount gives exactly the requested number of zero items", "statement": "After reCount(c) a Serie has count c, the same itemSize and dimension, and every component of every item is 0.", "quantifier": "every Serie, every c with c*itemSize < 2^32", "why_tests_cant": "Quantifies over all counts and item sizes with 32-bit products.", "anchors": ["src/Serie.cxx:reCount"]}
{"id": "C09", "title": "map with a number-valued callback acts item by item", "statement": "map(f, s) with f returning a number is the scalar Serie whose item i is f(item i, i), with the same count, for scalar callbacks on scalar Series and for Array callbacks on any Series, including empty ones.", "quantifier": "every Serie, every callback", "why_tests_cant": "Quantifies over all callbacks and all Series.", "anchors": ["include/dataframe/functional/map.h:__map__"]}
{"id": "C10", "title": "map with an Array-valued callback keeps item boundaries or reports inconsistent sizes", "statement": "map(f, s) with f returning Arrays gives a Serie whose item i is exactly f(item i, i) when all results have one common non-zero size; when two results differ in size it throws std::runtime_error at the first differing item; on an empty Serie it returns an invalid empty Serie.", "quantifier": "every Serie, every callback, every pattern of result sizes", "why_tests_cant": "The pattern of result sizes is arbitrary; tests try a few.", "anchors": ["include/dataframe/functional/map.h:__map__"]}
{"id": "C11", "title": "map respects composition and identity", "statement": "map(g, map(f, s)) equals map(g after f, s), and mapping the identity gives a Serie with the same items.", "quantifier": "every Serie, every pair of side-effect-free callbacks", "why_tests_cant": "An equation between programs for all callbacks.", "anchors": ["include/dataframe/functional/map.h:__map__"]}
{"id": "C12", "title": "map over several Series combines items of equal index", "statement": "map(f, s1, ..., sn) on non-empty Series of one count returns the Serie whose item i is f(s1[i], ..., sn[i], i); Series of different counts are refused with std::invalid_argument before f is called; on empty Series the result is empty and f is not called.", "quantifier": "every number of Series, every item sizes, every callback", "why_tests_cant": "Quantifies over arities, shapes and callbacks; the empty case is undefined behaviour rather than a visible failure.", "anchors": ["include/dataframe/functional/map.h:map"]}
{"id": "C13", "title": "Callbacks run once per item, in order, and stop at the first exception", "statement": "map, filter, reject, partition, findAll, check, forEach and reduce call the user callback exactly once per item in increasing index order, with that item and that index; when the callback throws at index i the exception reaches the caller unchanged, the callback has run exactly for 0..i and never for later items.", "quantifier": "every Serie, every stateful or throwing callback, every failing index", "why_tests_cant": "The observable effect trace for every stateful callback is a statement over all executions.", "anchors": ["include/dataframe/functional/map.h", "include/dataframe/functional/filter.h", "include/dataframe/functional/forEach.h", "include/dataframe/functional/reduce.h", "include/dataframe/functional/utils/partition.h", "include/dataframe/functional/utils/reject.h", "include/dataframe/functional/conditional/check.h", "include/dataframe/functional/find.h:findAll"]}
{"id": "C14", "title": "A scalar callback on a vector Serie is refused", "statement": "Passing a callback on single numbers for a Serie with itemSize > 1 throws std::invalid_argument and never calls the callback, in forEach, find, partition, map, filter, reject, findAll, check and reduce alike.", "quantifier": "every Serie with itemSize > 1, every scalar callback", "why_tests_cant": "Silent acceptance gives plausible numbers, so an example test has to know the right answer in advance for each function.", "anchors": ["include/dataframe/functional/forEach.h", "include/dataframe/functional/find.h", "include/dataframe/functional/utils/partition.h", "include/dataframe/functional/map.h", "include/dataframe/functional/filter.h", "include/dataframe/functional/reduce.h"]}
{"id": "C15", "title": "filter keeps exactly the selected items in order", "statement": "filter(p, s) contains item i of s, unchanged and in original relative order, exactly when p(item i, i) is true; itemSize is kept.", "quantifier": "every Serie, every predicate", "why_tests_cant": "Quantifies over all predicates and Series.", "anchors": ["include/dataframe/functional/filter.h:__filter__", "include/dataframe/functional/utils/cut.h"]}
{"id": "C16", "title": "Filtering laws", "statement": "For index-free predicates: filtering twice with p equals filtering once, filter(p) then filter(q) equals filter(p and q) and hence commutes with it, filtering with true is the identity on items and with false gives an empty Serie of the same itemSize.", "quantifier": "every Serie, every pair of predicates", "why_tests_cant": "Equations between programs for all predicates.", "anchors": ["include/dataframe/functional/filter.h:__filter__"]}
{"id": "C17", "title": "filter and reject are complementary", "statement": "filter(p, s) and reject(p, s) together contain every item of s exactly once: their counts add up to count and their items form a permutation of the items of s; reject(p) equals filter(not p).", "quantifier": "every Serie, every predicate", "why_tests_cant": "Quantifies over all predicates and Series.", "anchors": ["include/dataframe/functional/filter.h:__filter__", "include/dataframe/functional/utils/reject.h:__reject__"]}
{"id": "C18", "title": "Filtering several Series keeps their rows aligned", "statement": "filter, filterAll, reject and rejectAll over several Series of equal count apply the same index selection to each: all outputs have equal counts and output row j of each Serie comes from one common input index, the j-th selected one; unequal counts are refused with std::invalid_argument before the predicate runs.", "quantifier": "every number of Series of every item sizes, every predicate", "why_tests_cant": "Alignment for every arity, shape and predicate.", "anchors": ["include/dataframe/functional/filter.h:filter", "include/dataframe/functional/filter.h:filterAll", "include/dataframe/functional/utils/reject.h:reject", "include/dataframe/functional/utils/reject.h:rejectAll"]}
{"id": "C19", "title": "partition splits without losing or duplicating items", "statement": "partition(p, s) returns (matched, unmatched) with matched = filter(p, s) and unmatched = reject(p, s), calling p once per item.", "quantifier": "every Serie, every predicate including stateful ones", "why_tests_cant": "Quantifies over all predicates; the single-pass claim is about effect traces.", "anchors": ["include/dataframe/functional/utils/partition.h"]}
{"id": "C20", "title": "find returns the first match and looks no further", "statement": "find(p, s) returns the item with the least index satisfying p, with that index and found=true, having called p only on items up to it; it returns found=false exactly when no item satisfies p.", "quantifier": "every Serie, every predicate", "why_tests_cant": "Minimality of the index for all Series and predicates.", "anchors": ["include/dataframe/functional/find.h:find"]}
{"id": "C21", "title": "findAll agrees with filter", "statement": "findAll(p, s) has the same items as filter(p, s), for scalar predicates on scalar Series and Array predicates on any Series.", "quantifier": "every Serie, every predicate", "why_tests_cant": "Agreement of two implementations on all inputs.", "anchors": ["include/dataframe/functional/find.h:findAll"]}
{"id": "C22", "title": "forEach over several Series visits equal indices together", "statement": "forEach(f, s1, ..., sn) calls f(s1[i], ..., sn[i], i) for i = 0, 1, ..., count-1 once each in order; unequal counts are refused before any call; an empty input makes no call.", "quantifier": "every number of Series, every stateful callback", "why_tests_cant": "Effect traces for every callback and arity.", "anchors": ["include/dataframe/functional/forEach.h:forEach"]}
{"id": "C23", "title": "reduce is a left fold and splits over concatenation", "statement": "reduce(f, s, init) is the left fold of f over items with their indices, init when s is empty; reducing the concatenation of two Series with an index-free f equals reducing the second starting from the result of the first; the vector form returns the accumulator as a one-item Serie.", "quantifier": "every Serie, every accumulator function", "why_tests_cant": "Quantifies over all callbacks and split points.", "anchors": ["include/dataframe/functional/reduce.h:reduce", "include/dataframe/functional/merge.h:merge"]}
{"id": "C24", "title": "check produces the 0/1 mask of the predicate", "statement": "check(s, p) is the scalar Serie whose item i is 1 when p(item i, i) holds and 0 otherwise, so the sum of the mask is the count of filter(p, s).", "quantifier": "every Serie, every predicate", "why_tests_cant": "Quantifies over all predicates and Series.", "anchors": ["include/dataframe/functional/conditional/check.h"]}
{"id": "C25", "title": "pipe and compose chain functions in opposite orders", "statement": "pipe(x, f1, ..., fn) is fn(...f1(x)), make_pipe(f1, ..., fn)(x) equals it, compose(f1, ..., fn)(x) is f1(...fn(x)); pipe(x, f...) equals compose of the reversed list; effects and the first exception occur in execution order and later stages do not run.", "quantifier": "every list of stages including throwing and stateful ones, every input", "why_tests_cant": "Quantifies over chains of every length and all stages.", "anchors": ["include/dataframe/functional/pipe.h", "include/dataframe/functional/utils/compose.h"]}
{"id": "C26", "title": "Operations that keep the item layout keep the dimension", "statement": "filter, reject, partition, merge, concat, partition_n, sort and negate return Series with the dimension of their input.", "quantifier": "every Serie, every dimension", "why_tests_cant": "Tests use dimension 3 where the loss is invisible.", "anchors": ["include/dataframe/functional/filter.h", "include/dataframe/functional/merge.h", "include/dataframe/functional/utils/concat.h", "include/dataframe/functional/utils/partition_n.h", "include/dataframe/functional/utils/sort.h"]}
{"id": "C27", "title": "merge by concatenation appends the items", "statement": "merge(a, b) has the items of a followed by those of b; different item sizes are refused with std::invalid_argument; it is associative, and the variadic merge(true, s1, ..., sn) is the concatenation of all.", "quantifier": "every pair / list of Series with total size below 2^32", "why_tests_cant": "Quantifies over all shapes and arities.", "anchors": ["include/dataframe/functional/merge.h:merge"]}
{"id": "C28", "title": "merge by interleaving alternates and then appends the rest", "statement": "merge(a, b, false) takes items alternately a[0], b[0], a[1], b[1], ... and, once the shorter is exhausted, the remaining items of the longer in order; every item occurs exactly once; the variadic form does the same round-robin over n Series.", "quantifier": "every pair / list of Series of any counts", "why_tests_cant": "Quantifies over all count combinations.", "anchors": ["include/dataframe/functional/merge.h:merge"]}
{"id": "C29", "title": "concat appends all Series of a list", "statement": "utils::concat(list) has the items of all Series of the list in order; it throws std::invalid_argument exactly when the list is empty, some Serie is invalid or item sizes differ.", "quantifier": "every list of Series with total size below 2^32", "why_tests_cant": "Quantifies over lists of every length.", "anchors": ["include/dataframe/functional/utils/concat.h:concat"]}
{"id": "C30", "title": "concat of concatenations flattens", "statement": "concat(concat(xs), concat(ys)) equals concat(xs ++ ys), concat of one Serie has its items, and concat(a, b) equals merge(a, b) on valid Series.", "quantifier": "all lists of valid Series with equal item size and total size below 2^32", "why_tests_cant": "Equations over all list lengths.", "anchors": ["include/dataframe/functional/utils/concat.h:concat", "include/dataframe/functional/merge.h:merge"]}
{"id": "C31", "title": "partition_n loses nothing", "statement": "The parts of partition_n(n, s), read one after the other, are exactly the items of s, for n >= 1; likewise for each Serie in the multi-Serie form; concat(partition_n(n, s)) has the items of s.", "quantifier": "every n >= 1, every Serie", "why_tests_cant": "Quantifies over all n and counts.", "anchors": ["include/dataframe/functional/utils/partition_n.h", "include/dataframe/functional/utils/concat.h"]}
{"id": "C32", "title": "partition_n is balanced", "statement": "Part sizes never differ by more than one and larger parts come first.", "quantifier": "every n >= 1, every Serie (single and multi-Serie form)", "why_tests_cant": "Quantifies over all n and counts.", "anchors": ["include/dataframe/functional/utils/partition_n.h"]}
{"id": "C33", "title": "partition_n returns n parts and refuses n = 0", "statement": "partition_n(n, ...) returns exactly n parts per Serie for n >= 1 and throws std::invalid_argument for n = 0.", "quantifier": "every n, every Serie, single and multi-Serie form", "why_tests_cant": "Both branches and all n against all counts; n = 0 is undefined behaviour in one form.", "anchors": ["include/dataframe/functional/utils/partition_n.h"]}
{"id": "C34", "title": "Aligned partitions of several Series", "statement": "The multi-Serie partition_n cuts every Serie at the same indices: the j-th parts of all Series have equal counts and row r of each j-th part comes from one common index; unequal counts are refused with std::invalid_argument.", "quantifier": "every number of Series, every n >= 1", "why_tests_cant": "Quantifies over arities and cut points.", "anchors": ["include/dataframe/functional/utils/partition_n.h"]}
{"id": "C35", "title": "zip concatenates items of equal index", "statement": "zip(s1, ..., sn) and zipVector({s1, ..., sn}) give the Serie whose item i is s1[i] ++ ... ++ sn[i], and agree with each other; they throw std::invalid_argument exactly when a Serie is invalid, counts differ or (zipVector) the list is empty.", "quantifier": "every non-empty list of Series of any item sizes with total size below 2^32", "why_tests_cant": "Quantifies over arities and shapes.", "anchors": ["include/dataframe/functional/utils/zip.h:zip", "include/dataframe/functional/utils/zip.h:zipVector"]}
{"id": "C36", "title": "unzip undoes zip", "statement": "unzip(zip(s1, ..., sn), {k1, ..., kn}) with ki the item sizes returns Series with the items of s1, ..., sn.", "quantifier": "every non-empty list of valid Series of equal count with total size below 2^32", "why_tests_cant": "A round trip over all arities and shapes.", "anchors": ["include/dataframe/functional/utils/zip.h", "include/dataframe/functional/utils/unzip.h"]}
{"id": "C37", "title": "zip undoes unzip", "statement": "zipVector(unzip(z, sizes)) has the items of z whenever the positive sizes add up to itemSize; unzip refuses an empty list or a wrong total with std::invalid_argument.", "quantifier": "every Serie, every list of positive sizes", "why_tests_cant": "A round trip over all ways of splitting the item.", "anchors": ["include/dataframe/functional/utils/unzip.h", "include/dataframe/functional/utils/zip.h"]}
{"id": "C38", "title": "unzip checks the true total of the sizes", "statement": "unzip throws std::invalid_argument whenever the mathematical sum of the sizes differs from itemSize.", "quantifier": "every Serie, every list of 32-bit sizes", "why_tests_cant": "The failing lists need a sum that wraps at 2^32.", "anchors": ["include/dataframe/functional/utils/unzip.h"]}
{"id": "C39", "title": "parallel_execute does not depend on scheduling", "statement": "For a functor without shared state, the outcome of parallel_execute(f, s, n) (result or exception) is the same for every interleaving of the worker threads.", "quantifier": "every interleaving of every number of jobs, every functor without shared state, every Serie", "why_tests_cant": "The set of interleavings is unbounded; a test sees the few the scheduler happens to choose.", "anchors": ["include/dataframe/functional/utils/parallel_execute.h"]}
{"id": "C40", "title": "parallel_execute agrees with the sequential call for item-wise functors", "statement": "If f acts item by item (as map with an index-free callback does), parallel_execute(f, s, n) has the items of f(s) for every n >= 1 and every schedule.", "quantifier": "every non-empty Serie, every n >= 1, every item-wise functor, every interleaving", "why_tests_cant": "Quantifies over core counts, Series, functors and schedules.", "anchors": ["include/dataframe/functional/utils/parallel_execute.h", "include/dataframe/functional/utils/partition_n.h", "include/dataframe/functional/utils/concat.h"]}
{"id": "C41", "title": "A failing job is reported as invalid_argument after all jobs", "statement": "With n >= 2, if f throws a std::exception on some part, or returns a different number of items than its part, parallel_execute throws std::invalid_argument whatever the schedule, and every job has been started; n = 0 throws std::invalid_argument.", "quantifier": "every functor, every set of failing parts, every interleaving", "why_tests_cant": "Quantifies over failure sets and schedules.", "anchors": ["include/dataframe/functional/utils/parallel_execute.h"]}
{"id": "C42", "title": "Count-changing functors are refused for every number of cores", "statement": "parallel_execute refuses a functor whose result has a different count than its input, for every nbCores >= 1, and wraps its exceptions alike.", "quantifier": "every functor, every nbCores >= 1", "why_tests_cant": "The single-core shortcut is a separate path; agreement has to hold for all inputs.", "anchors": ["include/dataframe/functional/utils/parallel_execute.h"]}
{"id": "C43", "title": "Sorting a scalar Serie gives its values in increasing order", "statement": "sort(s) on a scalar NaN-free Serie is a permutation of the values of s in non-decreasing order, whatever algorithm std::sort uses; sorting again changes nothing.", "quantifier": "every NaN-free scalar Serie, every conforming std::sort", "why_tests_cant": "Quantifies over all inputs and all conforming library implementations.", "anchors": ["include/dataframe/functional/utils/sort.h"]}
{"id": "C44", "title": "Sorting a vector Serie orders whole items", "statement": "sort(s) on a NaN-free Serie with itemSize > 1 is a permutation of its items in lexicographic order; sort(s, comp) with a strict weak order is a permutation with no item preceded by a greater one. Items are never torn apart.", "quantifier": "every Serie, every strict weak order, every conforming std::sort", "why_tests_cant": "Quantifies over all comparators and Series.", "anchors": ["include/dataframe/functional/utils/sort.h"]}
{"id": "C45", "title": "sort honours the comparator on scalar Series", "statement": "sort(s, comp) orders a scalar Serie by comp.", "quantifier": "every scalar Serie, every strict weak order", "why_tests_cant": "Default-order tests cannot reveal that another comparator is ignored.", "anchors": ["include/dataframe/functional/utils/sort.h"]}
{"id": "C46", "title": "memoize is transparent", "statement": "For a deterministic function f, every call of memoize(f) returns what f would return, after any history of earlier calls and cache clearings.", "quantifier": "every deterministic function, every history of calls", "why_tests_cant": "Wrong answers depend on earlier calls with colliding arguments.", "anchors": ["include/dataframe/functional/utils/memoize.h:Memoized"]}
{"id": "C47", "title": "memoize calls the function once per key", "statement": "Over any history without clear_cache, f runs at most once for arguments with equal contents; after clear_cache it runs again; a throwing f stores nothing.", "quantifier": "every history of calls", "why_tests_cant": "A count over all histories.", "anchors": ["include/dataframe/functional/utils/memoize.h:Memoized"]}
{"id": "C48", "title": "A Dataframe is a finite map from names to Series", "statement": "After any history of add, set, create, del, clear and look-ups, reading a name gives the items last stored under it, or a default empty Serie when nothing is stored; contains(name) tells which; other names are unaffected; iteration is in increasing name order without repeats.", "quantifier": "every finite history of Dataframe calls", "why_tests_cant": "A refinement over all histories.", "anchors": ["src/Dataframe.cxx", "include/dataframe/Dataframe.h"]}
{"id": "C49", "title": "All Series of a Dataframe have the same count", "statement": "At any time all Series held by a Dataframe have the same count.", "quantifier": "every finite history of Dataframe calls", "why_tests_cant": "An invariant over histories; the check that would enforce it is commented out.", "anchors": ["src/Dataframe.cxx:add", "include/dataframe/Dataframe.h"]}
{"id": "C50", "title": "A Dataframe keeps the dimension of stored Series", "statement": "Reading back a stored Serie gives the dimension it was stored with.", "quantifier": "every finite history of Dataframe calls, every dimension", "why_tests_cant": "Loss happens only for dimensions other than the default.", "anchors": ["src/Dataframe.cxx:add", "src/Serie.cxx:operator="]}
{"id": "C51", "title": "Const look-ups do not change the Dataframe", "statement": "Const get / operator[] and contains leave the Dataframe unchanged; non-const get / operator[] of an absent name insert exactly one default Serie under that name.", "quantifier": "every reachable Dataframe, every name", "why_tests_cant": "Absence of effects in every reachable state.", "anchors": ["src/Dataframe.cxx"]}
{"id": "C52", "title": "setCount resizes every Serie", "statement": "After setCount(c) with c > 0 different from the current count, every stored Serie has count c and only zeros, names and item sizes are kept; otherwise nothing changes.", "quantifier": "every reachable Dataframe, every c", "why_tests_cant": "Quantifies over all reachable states.", "anchors": ["src/Dataframe.cxx:setCount", "src/Serie.cxx:reCount"]}
{"id": "C53", "title": "nameOfSerie identifies a stored Serie by identity", "statement": "nameOfSerie(df, df.get(n)) is n for every stored name n; for a Serie object not stored in df it is the empty string; contains(Serie) is true for every stored Serie.", "quantifier": "every reachable Dataframe, every name including the empty one", "why_tests_cant": "Quantifies over all states and names; fails for one special name.", "anchors": ["src/utils/nameOfSerie.cxx", "src/Dataframe.cxx:contains"]}
{"id": "C54", "title": "add and sub act component by component", "statement": "add(a, b) / sub(a, b) on Series of equal shape is the Serie of component-wise floating-point sums / differences; any difference in count or item size throws std::invalid_argument.", "quantifier": "every pair of Series", "why_tests_cant": "Quantifies over all shapes and values.", "anchors": ["include/dataframe/functional/math/add.h", "include/dataframe/functional/math/sub.h"]}
{"id": "C55", "title": "add is commutative bit for bit, sub anti-commutative", "statement": "In IEEE-754 arithmetic add(a, b) equals add(b, a) bit for bit (up to NaN payloads), and sub(a, b) equals negate(sub(b, a)) wherever the difference is not zero.", "quantifier": "every pair of Series of doubles, including infinities, NaN and signed zeros", "why_tests_cant": "2^128 operand pairs per component.", "anchors": ["include/dataframe/functional/math/add.h", "include/dataframe/functional/math/sub.h", "src/functional/math/negate.cxx"]}
{"id": "C56", "title": "The overloads of add agree", "statement": "The list form add({s1, ..., sn}) on non-empty Series is the left-to-right component-wise sum; the variadic form starts from a zero Serie and has the same values, bit for bit up to the sign of zero; add(s, v) adds v to every item of a scalar Serie.", "quantifier": "every list of Series of one shape", "why_tests_cant": "Agreement of implementations for all list lengths and values.", "anchors": ["include/dataframe/functional/math/add.h", "src/functional/math/add.cxx"]}
{"id": "C57", "title": "The overloads of sub agree", "statement": "The list form sub({s1, ..., sn}) is s1 - s2 - ... - sn component-wise, left to right; sub(s, v) subtracts v from every item of a scalar Serie; invalid shapes throw std::invalid_argument.", "quantifier": "every list of Series of one shape", "why_tests_cant": "Agreement for all list lengths and values.", "anchors": ["include/dataframe/functional/math/sub.h", "src/functional/math/sub.cxx"]}
{"id": "C58", "title": "negate is exact and self-inverse", "statement": "negate(s) flips the sign of every component exactly (IEEE-754), and negate(negate(s)) has the items of s bit for bit (up to NaN payloads).", "quantifier": "every non-empty Serie of doubles including infinities, NaN and signed zeros", "why_tests_cant": "2^64 values per component.", "anchors": ["src/functional/math/negate.cxx"]}
{"id": "C59", "title": "mult and scale multiply component-wise", "statement": "mult(s, d), scale(s, d), scale(s, factors) and mult(s, t) multiply every component by the scalar / per-component / per-item factor; mult(s, d) = scale(s, d); scaling by 1 is the identity bit for bit; mult(s, t) of equal shapes is commutative; wrong shapes throw std::invalid_argument.", "quantifier": "every Serie of doubles, every factor", "why_tests_cant": "Quantifies over all doubles and shapes.", "anchors": ["src/functional/math/mult.cxx", "src/functional/math/scale.cxx"]}
{"id": "C60", "title": "div divides component-wise and guards small divisors", "statement": "div(d, s) divides every component of s by d; div(w, s) divides item i by w[i] and yields exact zeros where |w[i]| < 1e-10; no finite non-NaN input produces a division by zero in the second form; in that form wrong shapes and invalid Series throw std::invalid_argument, while the first form gives the empty Serie for a Serie without items.", "quantifier": "every Serie, every divider", "why_tests_cant": "Quantifies over all doubles.", "anchors": ["src/functional/math/div.cxx"]}
{"id": "C61", "title": "weightedSum is the linear combination", "statement": "weigthedSum({s1..sn}, {w1..wn}) has component values 0 + s1*w1 + ... + sn*wn accumulated left to right; in exact arithmetic it is linear in the weights and in the Series; shape or length mismatches throw std::invalid_argument.", "quantifier": "every non-empty list of Series and weights", "why_tests_cant": "Quantifies over lists of every length.", "anchors": ["src/functional/math/weightedSum.cxx"]}
{"id": "C62", "title": "minMax gives tight bounds", "statement": "For a non-empty Serie of NaN-free doubles (finite ones when scalar), every component lies between the reported min and max of that component and both are attained; an invalid Serie throws std::invalid_argument; an empty one gives empty arrays.", "quantifier": "every non-empty NaN-free Serie", "why_tests_cant": "Quantifies over all values and sizes.", "anchors": ["src/functional/math/minMax.cxx"]}
{"id": "C63", "title": "minMax bounds are attained for infinite values", "statement": "For every non-empty scalar Serie without NaN the reported min and max are values of the Serie.", "quantifier": "every non-empty NaN-free scalar Serie including infinities", "why_tests_cant": "Fails only for special values.", "anchors": ["src/functional/math/minMax.cxx"]}
{"id": "C64", "title": "Scalar normalize maps onto [0, 1]", "statement": "normalize on a scalar Serie with at least two distinct values gives values in [0, 1], 0 at the minima, 1 at the maxima, preserving order (exact arithmetic).", "quantifier": "every scalar Serie with two distinct values", "why_tests_cant": "Quantifies over all values.", "anchors": ["src/functional/math/normalize.cxx", "src/functional/math/minMax.cxx"]}
{"id": "C65", "title": "Vector normalize gives unit vectors", "statement": "normalize on a Serie with itemSize > 1 scales every non-zero item to Euclidean length 1 without changing its direction (exact arithmetic).", "quantifier": "every Serie of non-zero vectors", "why_tests_cant": "Quantifies over all vectors and item sizes.", "anchors": ["src/functional/math/normalize.cxx"]}
{"id": "C66", "title": "equals is an equivalence on NaN-free valid Series", "statement": "equals is symmetric and transitive on all Series and reflexive exactly on valid Series without NaN; equal Series have equal shape, dimension and items; equalsAll holds exactly when all Series are pairwise equal.", "quantifier": "all Series of doubles", "why_tests_cant": "Algebraic laws over all values including NaN and signed zeros.", "anchors": ["include/dataframe/functional/math/equals.h"]}
{"id": "C67", "title": "Equality masks mark exactly the equal items", "statement": "equalityMask(a, b) is 1 at i exactly when items i compare equal, approximateEqualityMask when all components differ by at most epsilon; shape mismatches throw; equals implies an all-ones mask.", "quantifier": "every pair of Series", "why_tests_cant": "Quantifies over all values and shapes.", "anchors": ["include/dataframe/functional/math/equals.h"]}
{"id": "C68", "title": "mean is the arithmetic mean", "statement": "In exact arithmetic mean(s) times count is the component-wise sum, and the mean lies between min and max; mean commutes with adding a constant and scaling.", "quantifier": "every non-empty Serie", "why_tests_cant": "Quantifies over all values and lengths.", "anchors": ["src/functional/stats/mean.cxx"]}
{"id": "C69", "title": "covariance is a positive semi-definite symmetric form", "statement": "In exact arithmetic covariance(x, y) = covariance(y, x), covariance(x, x) >= 0 with equality exactly for constant x, adding constants does not change it, and covariance(x, y)^2 <= covariance(x, x) * covariance(y, y); shape mismatches throw.", "quantifier": "every pair of non-empty scalar Series of equal count", "why_tests_cant": "Inequalities over all values and lengths.", "anchors": ["src/functional/stats/covariance.cxx", "src/functional/stats/mean.cxx"]}
{"id": "C70", "title": "quantile interpolates the order statistics", "statement": "For a non-empty scalar Serie quantile(s, 0) is the minimum, quantile(s, 1) the maximum, quantile(s, k/(n-1)) the k-th smallest value, and every quantile lies between minimum and maximum and between two neighbouring order statistics (exact arithmetic); q outside [0,1] throws std::invalid_argument; the result does not depend on the order of the items.", "quantifier": "every non-empty scalar Serie, every q in [0,1]", "why_tests_cant": "Quantifies over a continuum of q and all Series.", "anchors": ["src/functional/stats/quantile.cxx", "include/dataframe/functional/utils/sort.h"]}
{"id": "C71", "title": "quantile is monotone in q", "statement": "q1 <= q2 implies quantile(s, q1) <= quantile(s, q2), so q25 <= q50 <= q75 and IQR >= 0 (exact arithmetic).", "quantifier": "every non-empty scalar Serie, every q1 <= q2 in [0,1]", "why_tests_cant": "A statement over all pairs of reals.", "anchors": ["src/functional/stats/quantile.cxx"]}
{"id": "C72", "title": "outliers, isOutliers and notOutliers agree", "statement": "outliers and notOutliers partition the items of a NaN-free Serie; isOutliers is the 0/1 mask of outliers; with mustache >= 0 the values at the quartiles are never outliers; a larger mustache never adds outliers.", "quantifier": "every non-empty scalar Serie, every mustache", "why_tests_cant": "Quantifies over all values and mustaches.", "anchors": ["src/functional/stats/quantile.cxx"]}
{"id": "C73", "title": "bins counts every value exactly once", "statement": "bins(s, nb) has nb items adding up to the count of s whenever the values are not all equal; in the (start, stop) form with start < stop and all values >= start, each value in [start, stop) is counted in the bin of its interval and values >= stop in the last one (exact arithmetic).", "quantifier": "every non-constant non-empty scalar Serie, every nb >= 1", "why_tests_cant": "Conservation over all values and bin numbers.", "anchors": ["src/functional/stats/bins.cxx"]}
{"id": "C74", "title": "cross is the vector product", "statement": "cross(a, b) is orthogonal to a and b, changes sign when the arguments are swapped, vanishes for parallel arguments and satisfies |a x b|^2 = |a|^2|b|^2 - (a.b)^2 (exact arithmetic); Series that are not 3-vectors throw std::invalid_argument.", "quantifier": "every pair of Series of 3-vectors, b at least as long as a", "why_tests_cant": "Identities over all reals.", "anchors": ["src/functional/algebra/cross.cxx"]}
{"id": "C75", "title": "dot is the Euclidean inner product", "statement": "dot(a, b) is symmetric, bilinear and positive, and |dot(a, b)|^2 <= dot(a, a) dot(b, b) (exact arithmetic); in IEEE arithmetic dot(a, b) equals dot(b, a) bit for bit; dot with a fixed vector agrees with dot against the constant Serie.", "quantifier": "every pair of Series of one shape", "why_tests_cant": "Identities over all values and item sizes.", "anchors": ["src/functional/algebra/dot.cxx"]}
{"id": "C76", "title": "norm and norm2 return one length per item", "statement": "norm(s) is the scalar Serie of Euclidean lengths and norm2(s) that of squared lengths, for any count.", "quantifier": "every valid Serie", "why_tests_cant": "The failing calls write outside an array, which a test may not notice.", "anchors": ["src/functional/algebra/norm.cxx"]}
{"id": "C77", "title": "det is the determinant", "statement": "det(s) on 2x2 and 3x3 matrices given by all components is the determinant: invariant under transposition, alternating and multiplicative (exact arithmetic); symmetric storage gives the determinant of the symmetric matrix; other item sizes throw std::invalid_argument.", "quantifier": "every Serie of matrices", "why_tests_cant": "Polynomial identities over all reals; the symmetric path reads a destroyed array.", "anchors": ["src/functional/algebra/det.cxx", "src/view/Matrix.cxx"]}
{"id": "C78", "title": "inv inverts symmetric 3x3 matrices", "statement": "For 6-component items, inv(s) times s is the identity matrix whenever |det| >= 1e-10 (exact arithmetic), inverting twice returns the matrix when the inverse is accepted too, and a smaller determinant throws std::runtime_error.", "quantifier": "every Serie of symmetric 3x3 matrices", "why_tests_cant": "Identities over all reals.", "anchors": ["src/functional/algebra/inv.cxx"]}
{"id": "C79", "title": "inv inverts general 3x3 matrices", "statement": "For 9-component items, inv(s) times s is the identity matrix whenever |det| >= 1e-10 (exact arithmetic).", "quantifier": "every Serie of 3x3 matrices", "why_tests_cant": "A wrong cofactor cancels for many matrices used as examples.", "anchors": ["src/functional/algebra/inv.cxx"]}
{"id": "C80", "title": "transpose is self-inverse and swaps rows and columns", "statement": "transpose(s) moves component (i,j) to (j,i); applied twice it returns the items; other item sizes throw std::invalid_argument.", "quantifier": "every Serie of 2x2 or 3x3 matrices", "why_tests_cant": "Quantifies over all items and counts.", "anchors": ["src/functional/algebra/transpose.cxx"]}
{"id": "C81", "title": "Eigenvectors are orthonormal", "statement": "The eigenvectors returned for a symmetric 2x2 or 3x3 matrix are orthonormal (exact arithmetic), whatever the number of sweeps.", "quantifier": "every symmetric matrix", "why_tests_cant": "A loop invariant over all matrices.", "anchors": ["src/functional/algebra/eigen.cxx"]}
{"id": "C82", "title": "Eigenpairs satisfy the eigenvalue equation to the stated tolerance", "statement": "In exact arithmetic sum_k |A v_k - lambda_k v_k|^2 is at most 2e-5 times the squared off-diagonal norm of A; the eigenvalues add up to the trace; the iteration stops before its cap.", "quantifier": "every symmetric 2x2 and 3x3 matrix", "why_tests_cant": "Convergence over a continuum of matrices.", "anchors": ["src/functional/algebra/eigen.cxx"]}
{"id": "C83", "title": "Eigenvalues are sorted and the three entry points agree", "statement": "Eigenvalues are in decreasing order and the k-th eigenvector belongs to the k-th eigenvalue; eigenValues, eigenVectors and eigenSystem return the same data; inconsistent shapes throw std::runtime_error.", "quantifier": "every Serie of symmetric matrices, in every arithmetic with a total order", "why_tests_cant": "Quantifies over all matrices and agreement of implementations.", "anchors": ["src/functional/algebra/eigen.cxx"]}
{"id": "C84", "title": "normals are perpendicular to their triangle with length twice its area", "statement": "normals(positions, indices) has one item per triangle, perpendicular to its edges, with squared length 4 times the squared area, and flips when two vertices are swapped (exact arithmetic); indices must refer to existing points.", "quantifier": "every mesh with valid indices", "why_tests_cant": "Identities over all coordinates and meshes.", "anchors": ["src/functional/geo/normals.cxx"]}
{"id": "C85", "title": "areas returns the triangle areas", "statement": "areas(positions, indices) is the scalar Serie of triangle areas.", "quantifier": "every mesh with valid indices", "why_tests_cant": "Every call fails in a different way depending on the mesh size.", "anchors": ["src/functional/geo/areas.cxx", "src/functional/math/div.cxx", "src/functional/algebra/norm.cxx"]}
{"id": "C86", "title": "insar projects and fringes wrap", "statement": "insar(u, los) is the dot product of every displacement with los; fringes(d, w) lies in [0, |w|) and differs from d in absolute phase by a multiple of w (exact arithmetic); fringes is periodic with period w.", "quantifier": "every displacement Serie, every non-zero spacing", "why_tests_cant": "Quantifies over all reals.", "anchors": ["src/functional/geo/insar.cxx"]}
{"id": "C87", "title": "from_dims fills the box uniformly", "statement": "from_dims(npts, center, dims) has the product of npts points in x-fastest order, equally spaced; each coordinate with at least two points runs from center-dim/2 to center+dim/2; coordinates with one point sit at the center.", "quantifier": "all npts with product below 2^32/3, all centers and dimensions (exact arithmetic)", "why_tests_cant": "Quantifies over all grid sizes and boxes.", "anchors": ["include/dataframe/functional/geo/cartesian_grid.h:from_dims"]}
{"id": "C88", "title": "from_points starts at p1 and ends at p2", "statement": "from_points(npts, p1, p2) has the product of npts points in x-fastest order, the first is p1 and the last agrees with p2 in every dimension with at least two points (exact arithmetic), all inside the box.", "quantifier": "all npts with product below 2^32/3, all points", "why_tests_cant": "Quantifies over all grid sizes and boxes.", "anchors": ["include/dataframe/functional/geo/cartesian_grid.h:from_points"]}
{"id": "C89", "title": "Vector view operations", "statement": "Vector::dot, add, sub and mult are the component-wise operations when lengths agree; norm() is the Euclidean norm and normalize() gives length 1.", "quantifier": "every vector (exact arithmetic)", "why_tests_cant": "Truncation in the accumulator is invisible for integer-valued examples.", "anchors": ["src/view/Vector.cxx"]}
{"id": "C90", "title": "Packed symmetric indexing is a bijection", "statement": "For every size m the packed index used by symmetric matrices maps the m(m+1)/2 pairs i<=j one-to-one onto 0..m(m+1)/2-1, is symmetric in i and j, and enumerates rows of the upper triangle in order.", "quantifier": "every m, every pair of indices", "why_tests_cant": "Quantifies over all m.", "anchors": ["src/view/Matrix.cxx:indexS", "src/view/Matrix.cxx:array"]}
{"id": "C91", "title": "Matrix view operations return usable matrices", "statement": "Matrix::transpose, multMat and symSquaredMatrix return matrices whose components can be read and are the transpose / product / symmetric expansion; at, trace, isSymmetric, multVec act on the viewed array.", "quantifier": "every square matrix", "why_tests_cant": "Reading a destroyed array may appear to work.", "anchors": ["src/view/Matrix.cxx", "include/dataframe/view/Matrix.h"]}
{"id": "C92", "title": "Manager names are sorted, unique and match contains", "statement": "names(k) lists every eligible name once, in increasing order; contains(k, n) is true exactly when n is listed; it lists stored Series of item size k and of the Manager's dimension (except positions and indices) and all names offered by the decomposers.", "quantifier": "every Dataframe, every list of decomposers", "why_tests_cant": "Quantifies over all decomposers and Dataframes.", "anchors": ["src/attributes/Manager.cxx"]}
{"id": "C93", "title": "Manager look-up order", "statement": "serie(k, n) returns a stored Serie of that name and item size when there is one, otherwise the answer of the first decomposer giving a valid Serie, otherwise an invalid Serie; adding a decomposer at the end never changes a valid answer.", "quantifier": "every Dataframe, every list of decomposers, every request", "why_tests_cant": "Quantifies over decomposer lists and requests.", "anchors": ["src/attributes/Manager.cxx"]}
{"id": "C94", "title": "Components delivers the named component", "statement": "For a stored vector, symmetric or full matrix Serie, serie(1, name + component) is the scalar Serie of that component of every item.", "quantifier": "every stored Serie, every component name", "why_tests_cant": "The wrong component is returned for some names of some layouts only.", "anchors": ["src/attributes/Components.cxx"]}
{"id": "C95", "title": "Every advertised name resolves", "statement": "Every name listed by Manager::names(k) gives a valid Serie of item size k from Manager::serie(k, name).", "quantifier": "every Dataframe, every list of the shipped decomposers", "why_tests_cant": "A cross-check of two functions over all states.", "anchors": ["src/attributes/Manager.cxx", "src/attributes/Components.cxx", "src/attributes/EigenValues.cxx", "src/attributes/EigenVectors.cxx", "src/attributes/Normals.cxx", "src/attributes/Areas.cxx", "src/attributes/Valence.cxx", "src/attributes/Coordinates.cxx"]}
{"id": "C96", "title": "Coordinates delivers the coordinates of the positions", "statement": "With three names, serie(1, names[i]) is the scalar Serie of coordinate i of positions, and only these names resolve.", "quantifier": "every Dataframe with 3D positions, every three distinct names", "why_tests_cant": "Quantifies over all names and Series.", "anchors": ["src/attributes/Coordinates.cxx"]}
{"id": "C97", "title": "Eigen decomposers resolve their names", "statement": "For a stored symmetric matrix Serie n, EigenValues resolves n1, n2, n3 to the eigenvalues in decreasing order and EigenVectors to the eigenvectors.", "quantifier": "every stored Serie, every name", "why_tests_cant": "A type confusion makes every digit out of range.", "anchors": ["src/attributes/EigenValues.cxx", "src/attributes/EigenVectors.cxx"]}
{"id": "C98", "title": "Valence counts incident triangles", "statement": "Valence gives for every point the number of triangle corners referring to it; the values add up to three times the number of triangles.", "quantifier": "every mesh with valid indices", "why_tests_cant": "Quantifies over all meshes.", "anchors": ["src/attributes/Valence.cxx"]}
{"id": "C99", "title": "Normals and Area decomposers agree with the geometry", "statement": "Normals resolves its name to normals(positions, indices), and Area to half the length of each normal; other names are left to other decomposers.", "quantifier": "every Dataframe with a mesh", "why_tests_cant": "Quantifies over meshes; fails for meshes with two or more triangles.", "anchors": ["src/attributes/Normals.cxx", "src/attributes/Areas.cxx"]}
{"id": "C100", "title": "print shows every component once, in order", "statement": "utils::print writes the items of a Serie in order, separated by commas, with vector items in parentheses, for every count including zero; it never reads outside the Serie.", "quantifier": "every valid Serie, every number formatter", "why_tests_cant": "Quantifies over all counts and item sizes.", "anchors": ["include/dataframe/functional/utils/print.h"]}
{"id": "C101", "title": "approximatelyEquals with epsilon 0 is equals", "statement": "approximatelyEquals(a, b, 0) coincides with equals(a, b) whenever all stored numbers are finite.", "quantifier": "for all Series a, b of finite doubles", "why_tests_cant": "Tests compare a handful of Series built from whole items; the claim ranges over all finite doubles (subnormal differences, overflowing differences) and over Series that carry leftover numbers after the last whole item.", "anchors": ["include/dataframe/functional/math/equals.h"]}
{"id": "C102", "title": "random fills a Serie with values between the bounds", "statement": "random(count, itemSize, min, max, seed) returns a Serie of count items of itemSize numbers, holding the values in the order in which they are drawn, and every one of them is a finite double between min and max.", "quantifier": "for all counts, item sizes, finite bounds min <= max and seeds", "why_tests_cant": "A test sees one seed and a few hundred values; the claim is about all 2^32 seeds, all pairs of bounds (rounding at the upper bound, a difference that overflows) and all sizes (the product of count and item size wraps at 2^32).", "anchors": ["src/functional/math/random.cxx"]}
{"id": "C103", "title": "A Manager releases the decomposers it was given exactly once", "statement": "In every history in which no decomposer is handed over twice, constructing, adding, clearing, copying, querying and destroying Managers is defined, and once all Managers are destroyed every decomposer handed over has been released exactly once.", "quantifier": "for all finite histories of operations on any number of Managers and decomposers", "why_tests_cant": "Lifetimes depend on unbounded histories, and a delete through a base class without virtual destructor or a second delete usually passes unnoticed in a test run.", "anchors": ["src/attributes/Manager.cxx", "include/dataframe/attributes/Manager.h", "include/dataframe/attributes/Decomposer.h"]}
{"id": "C104", "title": "A UserDefinedDecomposer answers with its callback", "statement": "A UserDefinedDecomposer built from a lambda written in the constructor call answers the request for its item size and name with the result of that lambda, and every other request with an empty Serie.", "quantifier": "for all item sizes, names, lambdas, Dataframes and requests", "why_tests_cant": "The reference to the destroyed temporary still works by luck in the one unit test, whose lambda captures nothing; a test cannot observe that the call is undefined.", "anchors": ["include/dataframe/attributes/UserDefinedDecomposer.h", "unitTest/decomposer.cxx"]}
{"id": "C105", "title": "Quantiles in binary64 stay in order", "statement": "Computed with doubles, quantile(s, q) of finite values lies between the two values next to its position in the sorted Serie, hence between the smallest and the largest value; it does not decrease when q grows; q = 0 gives the smallest and q = 1 the largest value exactly.", "quantifier": "every scalar Serie of finite doubles, every q in [0,1], every conforming std::sort", "why_tests_cant": "Rounding errors leave the interval for rare operands only; the claim is about all of them.", "anchors": ["include/dataframe/functional/stats/quantile.h"]}
{"id": "C106", "title": "Decomposers offer the documented names", "statement": "Components offers one name per number of an item of every stored Serie that is not a scalar; EigenValues and EigenVectors number the eigenvalues and eigenvectors of symmetric matrices; Normals, Area and Valence offer their name to requests of their item size; a user-defined decomposer offers its name when its callback answers; no other name is offered.", "quantifier": "every Dataframe, Serie, item size, dimension and name", "why_tests_cant": "Quantifies over all item sizes and dimensions; the tests look at one or two.", "anchors": ["src/attributes/Components.cxx", "src/attributes/EigenValues.cxx", "src/attributes/EigenVectors.cxx", "src/attributes/Normals.cxx", "src/attributes/Areas.cxx", "src/attributes/Valence.cxx", "include/dataframe/attributes/UserDefinedDecomposer.h"]}
{"id": "C107", "title": "Normalization of scalars in binary64", "statement": "Computed with doubles, normalize(s) maps finite values that are not all equal into [0, 1], the smallest to 0 and the largest to 1, and keeps their order.", "quantifier": "every scalar Serie of finite doubles", "why_tests_cant": "Where the rounded quotient times 1 misses 1 depends on single bits of the operands; the tests take one set of small integers.", "anchors": ["src/functional/math/normalize.cxx"]}
{"id": "C108", "title": "Rounding error of the mean", "statement": "Computed with doubles, the mean of n finite values differs from the exact mean by at most ((1+2^-53)^(n+1) - 1) times the mean of the absolute values (plus half the smallest double), is finite when the sum of absolute values is, does not decrease when values grow, and lies between the smallest and the largest value; vectors componentwise.", "quantifier": "every Serie of doubles, every item size and number of items", "why_tests_cant": "An error bound is a statement about all operands; tests compare single results with a tolerance.", "anchors": ["src/functional/stats/mean.cxx"]}
{"id": "C109", "title": "Rounding error of dot products", "statement": "Computed with doubles, a finite dot product of two items of size k differs from the exact one by at most ((1+2^-53)^(k+1) - 1) times the sum of the absolute products, plus an underflow term below k(1+2^-53)^k 2^-1075; in particular an exact product that is not 0 is not lost beyond that bound.", "quantifier": "every two Series of doubles of equal shape, every item", "why_tests_cant": "An error bound is a statement about all operands; tests use small integers, which are exact.", "anchors": ["src/functional/algebra/dot.cxx"]}
{"id": "C110", "title": "Covariance in binary64", "statement": "Computed with doubles, covariance(x, y) and covariance(y, x) are the same bit for bit; covariance(x, x) of finite values is neither NaN nor negative, and is 0 when all values are equal; covariance of finite values is not NaN.", "quantifier": "every two scalar Series of doubles", "why_tests_cant": "Bitwise symmetry and the sign under overflow are statements about all operands.", "anchors": ["src/functional/stats/covariance.cxx"]}
{"id": "C111", "title": "Inserting into a stream writes to that stream", "statement": "operator<< for Array, Strings, Serie and Series writes a complete text of its argument to the given stream and to no other stream, and returns the given stream; a list of numbers is enclosed in one pair of brackets, an empty list is [].", "quantifier": "every Array, Strings, Serie, Series, every stream", "why_tests_cant": "Tests do not look at what is written; the four operators use std::cout or std::cerr, which is only noticed with another stream.", "anchors": ["include/dataframe/types.h", "include/dataframe/inline/Serie.hxx"]}
{"id": "C112", "title": "dump shows every item", "statement": "Serie::dump writes one line per item, with its index and its components in order, for every item size including 1.", "quantifier": "every valid Serie", "why_tests_cant": "Tests never call dump; item size 1 is the case that fails.", "anchors": ["src/Serie.cxx:dump"]}
{"id": "C113", "title": "Messages and arrays are shown in full on the right stream", "statement": "print(Array) writes all numbers in order in brackets to std::cerr, [] for none; info writes to std::cout, warning and error to std::cerr, each one line; log writes its arguments in order separated by single blanks.", "quantifier": "every Array of up to 2^32 numbers, every message, every list of arguments", "why_tests_cant": "No test looks at the output.", "anchors": ["src/Serie.cxx:print", "include/dataframe/utils/utils.h"]}
{"id": "C114", "title": "A matrix is only made from an array of suitable length", "statement": "squaredMatrix accepts exactly the arrays of n*n numbers and symSquaredMatrix exactly the arrays of n(n+1)/2 numbers; any other length is rejected with an exception, never undefined behaviour.", "quantifier": "every length", "why_tests_cant": "Unsuitable lengths form an infinite family whose members behave differently (undefined or silently wrong); tests use suitable lengths.", "anchors": ["src/view/Matrix.cxx:squaredMatrix", "src/view/Matrix.cxx:symSquaredMatrix"]}
{"id": "C115", "title": "Whole numbers are handled without any rounding", "statement": "In IEEE double arithmetic add, sub, mult, dot, cross and the 2x2 and 3x3 determinants of Series of whole numbers give exactly the mathematical result as long as the numbers stay below a stated bound (2^52 for sums, 2^26 for products and cross, k*B^2 <= 2^53 for dot, 2^16 for determinants), and mean gives the correctly rounded quotient.", "quantifier": "every Series of whole numbers within the bounds, any number of items", "why_tests_cant": "The number of combinations is astronomical and exactness must hold for each of them, not for sampled ones.", "anchors": ["src/functional/math/add.cxx", "src/functional/math/sub.cxx", "src/functional/math/mult.cxx", "src/functional/algebra/dot.cxx", "src/functional/algebra/cross.cxx", "src/functional/algebra/det.cxx", "src/functional/stats/mean.cxx"]}
{"id": "C116", "title": "The cross product in floating-point arithmetic", "statement": "In IEEE double arithmetic cross(a,b) is the opposite of cross(b,a) apart from the sign of zeros, cross(a,a) is zero, and the components and the inner products with a and b deviate from the exact values by a stated bound.", "quantifier": "all Series of 3D vectors, including infinities and not-a-numbers for the antisymmetry", "why_tests_cant": "Tests compare a few vectors with small whole components, where no rounding occurs.", "anchors": ["src/functional/algebra/cross.cxx"]}
{"id": "C117", "title": "Grids in floating-point arithmetic start and end where asked and never fold back", "statement": "In IEEE double arithmetic the points of a grid axis begin exactly at the first end, are monotone, deviate from equal spacing by a stated bound, and end at the other end.", "quantifier": "all numbers of points and all finite ends", "why_tests_cant": "Whether the last point is met depends on the bits of the step; round test values hide it.", "anchors": ["include/dataframe/functional/geo/cartesian_grid.h:from_points", "include/dataframe/functional/geo/cartesian_grid.h:from_dims"]}
{"id": "C118", "title": "Fringes in floating-point arithmetic stay within one spacing", "statement": "In IEEE double arithmetic every fringe value is a number between 0 (inclusive) and the spacing (exclusive).", "quantifier": "all finite displacements and spacings other than zero", "why_tests_cant": "The violations occur for isolated displacements just below zero or of extreme size.", "anchors": ["src/functional/geo/insar.cxx"]}
{"id": "C119", "title": "Normalized vectors have length one in floating-point arithmetic", "statement": "In IEEE double arithmetic normalize turns every vector that is not zero into one with components in [-1,1] whose sum of squares differs from 1 by at most (9k+16) 2^-53, k being the number of components.", "quantifier": "all finite vectors other than zero, of any number of components from 2 up", "why_tests_cant": "Tests use vectors of moderate size; overflow and underflow of the squares need extreme ones, and the bound is for all vectors.", "anchors": ["src/functional/math/normalize.cxx"]}
{"id": "C120", "title": "Weighted sums in floating-point arithmetic", "statement": "In IEEE double arithmetic every component of weigthedSum differs from the exact weighted sum by at most growth(n+1) times the sum of the absolute products plus an underflow term, n being the number of Series, and is exact for whole numbers of moderate size.", "quantifier": "all lists of Series of one shape, all weights, all items and components with a finite result", "why_tests_cant": "Tests compare a few sums for equality; the bound holds for every length and every magnitude.", "anchors": ["src/functional/math/weightedSum.cxx"]}
{"id": "C121", "title": "The parallel post-processing example computes what a sequential call computes", "statement": "parallel_execute applied to the example's model returns, for every number of cores and every interleaving of the threads, bit for bit the Serie that a single call of the model returns: for every point the sum, in the order of the sources, of the tensors of the sources.", "quantifier": "all sets of sources, all point Series, all numbers of cores and all schedules; for any arithmetic", "why_tests_cant": "A run shows one schedule on one machine with one number of cores.", "anchors": ["examples/parallel-postprocess/main.cxx", "include/dataframe/functional/utils/parallel_execute.h"]}
{"id": "C122", "title": "The stress field of one source is a physical tensor field", "statement": "The tensor computed by Source::stress is linear in the source's vector, depends on the relative position only, is even, falls off with the third power of the distance, is zero next to the source, turns with the source (isotropy) and has zero divergence away from the source.", "quantifier": "all sources, vectors and points, in exact arithmetic", "why_tests_cant": "These are identities over all real arguments; examples only sample them.", "anchors": ["examples/parallel-postprocess/main.cxx"]}
{"id": "C123", "title": "The criticality index of the critical-stress example is a usable number", "statement": "The pipeline returns, for every item compressed in all directions, a finite non-negative index, and the finite mean of the indices.", "quantifier": "all stress and position Series with the program's cohesion and angle", "why_tests_cant": "The program only prints its result; no test looks at it.", "anchors": ["examples/critical-stress/main.cxx", "src/functional/algebra/eigen.cxx", "src/functional/stats/mean.cxx"]}
{"id": "C124", "title": "A memoized functor can be given to parallel_execute", "statement": "parallel_execute on a memoized functor returns what it returns on the functor itself, and what a call has computed an identical later call does not compute again.", "quantifier": "all functors, Series, numbers of cores, schedules and sound cache contents", "why_tests_cant": "No test combines the two; each job works on its own copy of the cache, which depends on how the lambda captures the functor.", "anchors": ["include/dataframe/functional/utils/parallel_execute.h", "include/dataframe/functional/utils/memoize.h"]}
{"id": "C125", "title": "The documented program of the attribute manager works", "statement": "On a Dataframe with positions, indices and a symmetric tensor S the manager lists the names the documentation prints, for every item size, and each listed name resolves to the Serie it stands for.", "quantifier": "all data of the three Series", "why_tests_cant": "Tests count the names for one data set and do not ask for the Series behind the eigen names.", "anchors": ["include/dataframe/attributes/README.md", "README.md", "src/attributes/Manager.cxx", "src/attributes/EigenValues.cxx", "src/attributes/Components.cxx"]}
{"id": "C126", "title": "inv in binary64", "statement": "Computed with doubles, inv refuses exactly the singular 3x3 matrices, with a runtime error, and gives every other matrix an inverse each entry of which has a relative error of two roundings at most.", "quantifier": "every Series of symmetric or full 3x3 matrices of finite doubles", "why_tests_cant": "Tests invert a few well-scaled matrices and compare with a tolerance; cancellation in the determinant and overflow show only for particular entries.", "anchors": ["src/functional/algebra/inv.cxx", "include/dataframe/functional/algebra/inv.h"]}
{"id": "C127", "title": "Dataframe::dump lists every Serie", "statement": "After any calls, Dataframe::dump writes to std::cerr one line per stored name in increasing order of the names, with the name, and the item size and count of the Serie that get gives for it; nothing else is written.", "quantifier": "every history of calls of a Dataframe", "why_tests_cant": "Tests never call dump; the claim is about every sequence of add, set, create, del, clear and look-ups.", "anchors": ["src/Dataframe.cxx", "include/dataframe/Dataframe.h"]}
{"id": "C128", "title": "The default tolerance of approximatelyEquals", "statement": "Without epsilon, approximatelyEquals accepts two Series exactly when no two corresponding numbers differ by more than 100 * 2^-52; the order of the Series does not matter; among numbers of absolute value 128 and more only equal ones are accepted.", "quantifier": "every two Series of doubles of the same shape", "why_tests_cant": "Tests compare a few numbers near 1; the absolute tolerance and the rounding of the difference are claims about all doubles.", "anchors": ["include/dataframe/functional/math/equals.h"]}
{"id": "C129", "title": "The programs of README.md print what README.md says", "statement": "The weighted-sum program writes 2a + 3b + 4c with its shape to std::cout; the chained program prints one line per item with its index and the norm of its sum; the forEach program prints, for each index, the items of the three Series in the documented layout.", "quantifier": "every data of the documented shapes (weighted sum in binary64: every whole numbers up to 2^20)", "why_tests_cant": "No test runs the programs of the README; the claims are about every data a reader puts in them, about undefined reads, and about the stream written to.", "anchors": ["README.md", "src/functional/math/weightedSum.cxx", "include/dataframe/functional/forEach.h", "include/dataframe/types.h"]}
{"id": "C130", "title": "Seeded random Series are reproducible", "statement": "random(count, itemSize, min, max, seed) is a function of its arguments: component c of item i is number i * itemSize + c of a stream that depends on seed, min and max only, computed from the words of the mt19937 sequence of the C++ standard; asking for more items keeps the first ones, and another item size regroups the same numbers.", "quantifier": "every seed, bounds, count and item size whose product fits 32 bits", "why_tests_cant": "There are 2^32 seeds and unboundedly long streams; a test compares a few draws.", "anchors": ["src/functional/math/random.cxx"]}
{"id": "C131", "title": "The empty Serie returned for refused arguments", "statement": "inv, norm, normals, areas, insar, fringes, sort and dot with an array return the empty Serie when they refuse their arguments; the empty Serie can be passed to every other function: the result is an empty Serie again, or an exception, no callback is called and nothing is read outside the storage.", "quantifier": "every refused Serie, every second argument and every callback", "why_tests_cant": "Tests do not pass refused results on; the claim is about all refused arguments and all callbacks.", "anchors": ["src/functional/algebra/inv.cxx", "src/functional/algebra/norm.cxx", "src/functional/algebra/dot.cxx", "src/functional/geo/insar.cxx", "include/dataframe/functional/utils/sort.h"]}
{"id": "C132", "title": "Constants of the code as doubles", "statement": "M_PI is the double nearest to pi and the rotation angle of eigen for equal diagonal entries is the double nearest to -pi/4; the literals 1e-10 and 0.00001 are the doubles nearest to the decimals, 0.25, 0.5 and 0.75 are exact. The guards of div and inv decide |x| < 10^-10 of the real number exactly: no double lies between the decimal and the literal.", "quantifier": "every finite divisor and determinant, every math library", "why_tests_cant": "The statement compares with a real number and with every other double.", "anchors": ["src/functional/algebra/eigen.cxx", "src/functional/algebra/inv.cxx", "src/functional/math/div.cxx", "src/functional/stats/quantile.cxx"]}
{"id": "C133", "title": "Eigenvalues and eigenvectors in binary64", "statement": "In IEEE binary64, with a mathematical library whose sin, cos (on [-1, 1]) and atan are off by at most 2^-52, eigenValues and eigenVectors terminate and return finite numbers for every item whose entries are of moderate size (at most 2^400, off-diagonal entries zero or at least 2^-400): the vectors are orthonormal up to 10^-10, the squared residual of A v = lambda v is at most 22/10^6 of the off-diagonal squares plus M^2/10^18, and the values sum to the trace up to 10^-10 M, M being a bound of the entries. For an off-diagonal entry of 2^512 or more, or of 2^-538 or less, the square overflows or vanishes and a 2x2 matrix gets its diagonal back as eigenvalues.", "quantifier": "every accurate math library, every Serie of symmetric 2x2 or 3x3 matrices", "why_tests_cant": "The statement covers every matrix, every rounding error of up to 200 rotations and every library; tests check a few well-conditioned matrices against printed digits.", "anchors": ["src/functional/algebra/eigen.cxx"]}
{"id": "C134", "title": "The returned eigenvalues are the eigenvalues of the matrix", "statement": "Every symmetric 2x2 and 3x3 matrix has an orthonormal basis of eigenvectors; for every such basis, the k-th largest returned value differs from the k-th largest eigenvalue by at most sqrt(2e-5) times the off-diagonal norm of the matrix in exact arithmetic, and in IEEE binary64 (accurate library, entries of moderate size bounded by M) its square by at most 22/10^6 of the off-diagonal squares plus M^2/10^18.", "quantifier": "every Serie of symmetric matrices, every decomposition of each matrix, every place", "why_tests_cant": "Tests compare with known eigenvalues of a few matrices; the claim is about the true eigenvalues of every matrix.", "anchors": ["src/functional/algebra/eigen.cxx"]}
{"id": "C135", "title": "Histogram bins in binary64", "statement": "For finite doubles between start and stop, with stop - start at least 2^-960 and not overflowing, and 1 <= nb < 2^32, bins counts every value once, in a bin number that never decreases with the value: start is counted in the first bin, stop in the last, and every value in a bin whose exact interval it misses by at most 2^-50 of the range, so a value further than that from the boundaries of an exact interval is counted in it. Without start and stop the same holds between the smallest and the largest value. A Serie of equal values leads to the conversion of NaN to an integer (undefined).", "quantifier": "every scalar Serie of finite doubles, every number of bins, every start and stop", "why_tests_cant": "Tests use a handful of round values; rounding moves values across boundaries for a few inputs only (9 of {0, 9, 18} in 14 bins falls in bin 6).", "anchors": ["src/functional/stats/bins.cxx"]}
{"id": "C136", "title": "The order of the items does not matter for statistics", "statement": "For two scalar Series holding the same values in different orders (no NaN), sort, quantile (every q), minMax, outliers, notOutliers, isOutliers and bins in IEEE binary64 have the same outcome: equal values up to the sign of a zero, the same outliers, every value marked in the same way, and the very same histogram; minMax also for vectors. mean and covariance are independent of the order in exact arithmetic; in binary64 they are not.", "quantifier": "every pair of Series with the same items, every conforming sort, every q, factor and number of bins", "why_tests_cant": "The number of orders is factorial; a test fixes one.", "anchors": ["include/dataframe/functional/utils/sort.h", "src/functional/stats/quantile.cxx", "src/functional/stats/bins.cxx", "src/functional/math/minMax.cxx", "src/functional/stats/mean.cxx", "src/functional/stats/covariance.cxx"]}
{"id": "C137", "title": "Statistics of a merged Serie follow from its parts", "statement": "For two scalar Series merged by concatenation: the histogram between given bounds is the sum of the two histograms (and is defined exactly when both are), the minimum and maximum are the smaller and the larger of those of the parts (both in IEEE binary64); in exact arithmetic the mean is the weighted mean, and count times covariance is the sum of those of the parts plus n1*n2/(n1+n2) times the product of the differences of the means.", "quantifier": "every pair of scalar Series, every bounds and number of bins", "why_tests_cant": "Tests never relate the statistics of a whole to those of its parts.", "anchors": ["include/dataframe/functional/merge.h", "src/functional/stats/bins.cxx", "src/functional/math/minMax.cxx", "src/functional/stats/mean.cxx", "src/functional/stats/covariance.cxx"]}
{"id": "C138", "title": "The pipeline of the stress-state example always throws; with three sizes it keeps the right rows", "statement": "zip, reject (distance > 2), filter (trace < 0) and unzip as written in examples/stress-state throw std::invalid_argument for every stress, distance and rock type Series of equal count, because the zipped rows have eight entries and the sizes given to unzip add up to seven. With sizes 6, 1, 1 the pipeline returns the stresses, distances and rock types of exactly the points that are not further than 2 with a negative trace, in order and aligned.", "quantifier": "every three Series of item sizes 6, 1, 1 and equal count n with 8n < 2^32, in any arithmetic", "why_tests_cant": "The example is not built; no test composes zip, reject, filter and unzip.", "anchors": ["examples/stress-state/main.cxx", "include/dataframe/functional/utils/zip.h", "include/dataframe/functional/utils/unzip.h", "include/dataframe/functional/utils/reject.h", "include/dataframe/functional/filter.h"]}
{"id": "C139", "title": "Determinants in binary64", "statement": "For matrices whose entries are finite and at most M in absolute value (2^-330 <= M <= 2^330) det returns finite numbers at most 5 u M^2 (2x2) and 34 u M^3 (3x3) away from the determinant, u = 2^-53, so a result larger than that has the sign of the determinant. For 2x2 matrices the transposed matrix gives the same double, exchanged rows the opposite one (up to the sign of zero), and a singular matrix gives zero. A non-singular 2x2 matrix may give zero; a 3x3 matrix with two equal rows may give a non-zero result, and the transposed 3x3 matrix another one.", "quantifier": "every Serie of full 2x2 or 3x3 matrices with entries in that range; witnesses for the negative parts", "why_tests_cant": "The unit tests do not test det; a handful of matrices cannot bound the rounding error.", "anchors": ["src/functional/algebra/det.cxx", "include/dataframe/functional/algebra/det.h"]}
{"id": "C140", "title": "Normals of triangles in binary64", "statement": "For a mesh whose coordinates are finite and at most M in absolute value (2^-490 <= M <= 2^490), every component of every normal is finite and at most 33 u M^2 away from that of the exact normal, u = 2^-53; a triangle with two equal vertices has the normal zero. For any coordinates, exchanging the last two vertices gives the opposite doubles (up to the sign of zero). Exchanging the first two may change more than the sign, and three points on a line may have a normal that is not zero.", "quantifier": "every positions and triangles within them; witnesses for the negative parts", "why_tests_cant": "normals is not tested for rounding; tests look at one or two meshes with small whole coordinates.", "anchors": ["src/functional/geo/normals.cxx", "include/dataframe/functional/geo/normals.h"]}
{"id": "C141", "title": "Statistics under a change of units", "statement": "Replace every x of a scalar Serie by x*a + b (scale, then add). The mean becomes mean*a + b and a covariance is multiplied by the product of the two factors. The q-quantile becomes its image for a > 0 and the image of the (1-q)-quantile for a < 0. For a <> 0 outliers and notOutliers are mapped and the mask isOutliers is the same; normalize gives the same numbers for a > 0 and 1 - t for a < 0; bins between mapped bounds counts the same, as does bins without bounds for a > 0. A histogram of negated values is not the reversed histogram: values on the bounds of bins go elsewhere.", "quantifier": "every non-empty scalar Serie of exact reals, every a and b; a witness for the last sentence", "why_tests_cant": "The unit tests compute each statistic of one fixed list; none relates the statistics of two Series.", "anchors": ["src/functional/stats/quantile.cxx", "src/functional/stats/covariance.cxx", "src/functional/stats/bins.cxx", "src/functional/math/normalize.cxx", "include/dataframe/functional/stats/quantile.h"]}
{"id": "C142", "title": "Line-of-sight projections and fringes in binary64", "statement": "insar gives, for every displacement whose projection is finite, a number at most ((1+u)^4 - 1) sum |d_i l_i| + (1+u)^3 * 3 * 2^-1075 from the exact inner product, u = 2^-53. For a spacing w of at least 2^-1000 in absolute value and finite d/w, the fringe is between 0 and |w| and at most u (|d| + 3 |w|) from |w| (d/w - k) for a whole number k. For a spacing that is a power of two and displacements that are not negative (and do not underflow) the fringe is exactly d modulo w and less than w; for negative displacements it is not.", "quantifier": "every non-empty Serie of doubles, every line of sight and every such spacing; a witness for the negative part", "why_tests_cant": "The unit tests have no test of insar or fringes in which rounding matters, and cannot cover all displacements and spacings.", "anchors": ["src/functional/geo/insar.cxx", "include/dataframe/functional/geo/insar.h"]}
{"id": "C143", "title": "Eigen decomposition under a change of units", "statement": "For symmetric matrices A and A' = k A + t I of dimension 2 or 3, k <> 0: for k > 0 the eigenvalues of A' are k x + t in the same order, with the same eigenvectors; for k < 0 they are k x + t in reverse order, and if the eigenvalues of A are distinct the eigenvectors are those of A in reverse order. With equal eigenvalues and k < 0 the eigenvectors need not be reversed.", "quantifier": "every non-empty Serie of symmetric matrices of exact reals, every k <> 0 and t; a witness for the last sentence", "why_tests_cant": "The unit tests decompose a few fixed matrices and never relate two decompositions.", "anchors": ["src/functional/algebra/eigen.cxx", "include/dataframe/functional/algebra/eigen.h"]}
{"id": "C144", "title": "Normals of transformed and of closed meshes", "statement": "If every vertex p is replaced by M p + c, the normals n' satisfy transpose(M) n' = det(M) n; for a rotation or reflection M, n' = det(M) M n with det(M) = 1 or -1; a translation leaves the normals unchanged, and scale by k multiplies them by k*k. If every directed side of a triangle is traversed as often as its reverse (a closed mesh) the normals add up to zero and mean gives the zero vector. For an open mesh they need not.", "quantifier": "every mesh of exact reals with triangles within its vertices, every M, c, k; a witness for the open mesh", "why_tests_cant": "A test checks the normals of one mesh; the relations range over all meshes and all transformations.", "anchors": ["src/functional/geo/normals.cxx", "include/dataframe/functional/geo/normals.h", "src/functional/math/scale.cxx", "src/functional/stats/mean.cxx"]}
{"id": "C145", "title": "Accuracy of quantiles and outliers in binary64", "statement": "For n doubles of absolute value at most M, the q-quantile is at most u M (2 n + 4) from the quantile of the same numbers computed exactly, u = 2^-53, and the interquartile range at most u M (4 n + 11). If (n-1) q is a whole number k the quantile is exactly the k-th smallest value; in particular the median of an odd number of values, and the quartiles of 4 j + 1 values, are exact. outliers, notOutliers and isOutliers agree with one flag per value, and the flag is that of the exact fences for every value farther than u mu M (6 n + 22) from both fences, |mustache| <= mu. The quantile at the double nearest k/(n-1) need not be the k-th value.", "quantifier": "every non-empty scalar Serie of doubles with 2^-1000 <= M and M (resp. mu M) away from overflow, every q in [0,1], every mustache, every conforming std::sort; a witness for the last sentence", "why_tests_cant": "Tests compare a few quantiles of short lists of small numbers with a tolerance; rounding of the position depends on n and q.", "anchors": ["src/functional/stats/quantile.cxx", "include/dataframe/functional/stats/quantile.h"]}
{"id": "C146", "title": "Changing units by a power of two changes no digit", "statement": "If every input number is multiplied by 2^e (|e| <= 100), the double returned is exactly 2^e times the former one for mean, quantile and IQR; 2^(e+f) times for dot, cross and covariance (second argument multiplied by 2^f), 2^(2e) times for normals, 2^(n e) times for det of n x n matrices; normalize of non-zero vectors returns the same numbers; isOutliers the same mask, outliers and notOutliers the same selection. For very small numbers this is false: the dot product of 2^-600 with itself is 0, of 2^-500 is not.", "quantifier": "every non-empty Serie of doubles that are 0 or of magnitude 2^-100 to 2^100, e and f from -100 to 100, q and mustache of the same kind, every conforming std::sort; a witness for the last sentence", "why_tests_cant": "Tests compare with tolerances and one choice of units; this is equality of every digit for all inputs and all units.", "anchors": ["src/functional/stats/mean.cxx", "src/functional/stats/quantile.cxx", "src/functional/stats/covariance.cxx", "src/functional/algebra/dot.cxx", "src/functional/algebra/cross.cxx", "src/functional/algebra/det.cxx", "src/functional/geo/normals.cxx", "src/functional/math/normalize.cxx"]}
{"id": "C147", "title": "The helpers of the headers", "statement": "toSerie cuts an Array into items of the given size (dimension always 3, its argument is ignored; size 0 undefined, sizes of 2^31 and more give an invalid Serie with no item); createArray gives n times the value. utils::count, getCount and countAndCheck list one count per Serie in order; countAndCheck throws exactly when two counts differ and its message names the first Serie that differs from the first one. utils map on a std::vector calls the function once per element in order and stops at its first exception; contains finds exactly the elements equal under ==, at the first position. contains(v, v[i]) is not always true: NaN.", "quantifier": "every Array, item size, list of Series, vector, element type, function with any state, and equality; a witness for the last sentence", "why_tests_cant": "These helpers have no unit test; the overload of map and contains is not called at all by the library.", "anchors": ["src/Serie.cxx", "include/dataframe/types.h", "include/dataframe/utils.h", "include/dataframe/utils/utils.h"]}
{"id": "C148", "title": "The rearranging functions commute with map and filter", "statement": "As equations between programs that end normally, for callbacks without state: map after merge is merge after map, appended or interleaved; filter after an appending merge is the appending merge of the filtered Series, and the same for concat of any number of Series and for the parts of partition_n joined again; find in an appended Serie is find in the first one and otherwise in the second one with the index moved up by the count of the first; filter p after map f is map f after filter (p of f), for arrays when an item is selected; reduce after map or filter is one reduce; zip, filter, unzip is filterAll; sort commutes with filter and with applying a non-decreasing function (exact reals). Not so for filter and interleaving, nor for filter and map to arrays when nothing is selected: the mapped Serie then has item size 0 and is not valid.", "quantifier": "every valid Serie of numbers or of arrays, every list of Series, number of parts, predicate and function, conforming std::sort; sort over exact reals; witnesses for the last sentence", "why_tests_cant": "Each unit test calls one function on one small Serie; a law relates two programs for all Series and callbacks.", "anchors": ["include/dataframe/functional/map.h", "include/dataframe/functional/filter.h", "include/dataframe/functional/find.h", "include/dataframe/functional/reduce.h", "include/dataframe/functional/merge.h", "include/dataframe/functional/utils/concat.h", "include/dataframe/functional/utils/partition_n.h", "include/dataframe/functional/utils/sort.h", "include/dataframe/functional/utils/unzip.h", "include/dataframe/functional/utils/zip.h"]}
{"id": "C149", "title": "approximatelyEquals, approximatelyEqualsAll and approximateEqualityMask answer the same question", "statement": "approximatelyEquals says yes exactly when both Series are valid, agree in item size, count and dimension, and every two numbers at the same place satisfy |x - y| <= epsilon as computed; approximatelyEqualsAll of two Series gives the same answer; the answer is yes exactly when the mask is all ones (and so for equals and equalityMask). The answer does not depend on the order of the two Series, grows with epsilon, and a valid Serie is approximately equal to itself if and only if it holds no infinity and no NaN. When the first Serie has leftover numbers beyond those of the second the comparison reads past the end of the second. The relation is not transitive.", "quantifier": "every two Series whose storages have the same length (any number type for the first sentence, every double for the rest), every epsilon (not below 0 for the self-comparison); every larger first storage for the undefined behaviour; a witness for the last sentence", "why_tests_cant": "The unit tests call the functions on a few Series with finite numbers, shapes that agree and one tolerance.", "anchors": ["include/dataframe/functional/math/equals.h"]}
{"id": "C150", "title": "Vector::toString writes six decimals per component", "statement": "The text of a Vector is the text of each component followed by a tab, so splitting at the tabs gives the texts of the components in order. The text of a finite double is a minus sign if its sign bit is set, then digits without superfluous leading zeros, a point and six digits, which together write the number of millionths nearest to its absolute value, ties to even. Read back it is within half a millionth of the double, it is exact when the double is a whole number of millionths, and it never decreases when the absolute value grows. Two finite doubles have the same text exactly when they have the same sign bit and the same number of millionths, and are then within one millionth; two Vectors have the same text exactly when their components do. Small numbers all read 0.000000, so the text does not determine the Vector.", "quantifier": "every Vector of doubles of fewer than 2^32 components, every finite double, infinities and NaN; a witness for the last sentence", "why_tests_cant": "No unit test calls toString; a test could compare a few texts, not the rounding of every double.", "anchors": ["src/view/Vector.cxx", "include/dataframe/view/Vector.h"]}
{"id": "C151", "title": "Identities of vector algebra between the programs of the library", "statement": "As equations between programs that end normally, over exact reals: dot(cross(a,b),c) is det(zip(a,b,c)); cross(a,cross(b,c)) is mult(b,dot(a,c)) minus mult(c,dot(a,b)), and the sum of cross(a,cross(b,c)) over the three rotations is zero; dot and cross distribute over add, sub and mult by a number; dot(a+b,a+b) plus or minus dot(a-b,a-b) is 2(dot(a,a)+dot(b,b)) or 4 dot(a,b); for 3x3 matrices transpose commutes with add and mult, det after transpose is det, and det after mult by t is t^3 det. The last two fail for 2x2 matrices: transpose and mult return a Serie of dimension 3, which det refuses.", "quantifier": "all non-empty Series of equal count with items of three numbers (any size for dot, nine for matrices), every factor; for the zipped determinant the 9 n numbers fit a Serie; a witness for the last sentence", "why_tests_cant": "Each unit test calls one function on one or two items; an identity relates programs of several calls for all Series.", "anchors": ["src/functional/algebra/cross.cxx", "src/functional/algebra/dot.cxx", "src/functional/algebra/det.cxx", "src/functional/algebra/transpose.cxx", "src/functional/math/sub.cxx", "src/functional/math/add.cxx", "src/functional/math/mult.cxx", "include/dataframe/functional/utils/zip.h"]}
{"id": "C152", "title": "Inverses of symmetric matrices, their eigenvalues and units", "statement": "In exact arithmetic inv refuses a Serie of symmetric 3x3 matrices exactly when some matrix has eigenvalues with a product of absolute value below 1e-10. Otherwise the eigenvectors of every inverse are those of the matrix, with reciprocal eigenvalues, and its determinant is the reciprocal; for positive definite matrices eigenValues(inv(s)) gives the reciprocals in reverse order, each off by at most sqrt(2e-5) times the off-diagonal norm of the inverse. inv(scale(s, t)) is scale(inv(s), 1/t) when both are accepted; a change of units alone can make inv refuse a matrix it inverted before.", "quantifier": "every non-empty Serie of symmetric 3x3 matrices of exact reals, every orthonormal eigenbasis, every factor t <> 0; a witness for the last clause", "why_tests_cant": "Relates inv, eigenValues and scale for all matrices at once; the tests invert single matrices.", "anchors": ["src/functional/algebra/inv.cxx", "src/functional/algebra/eigen.cxx", "include/dataframe/functional/math/scale.h"]}
{"id": "C153", "title": "No undefined behaviour in nested calls on soundly built Series", "statement": "A Serie is sound if it is empty of item size 0, or if its item size is at least 1 and its storage holds exactly its items plus at most an incomplete further one, with fewer than 2^32 numbers; the constructors with such sizes give sound Series. On sound Series of any shapes, matching or not, these functions return a sound Serie or throw, and never read or write outside a storage: copying and assignment, the setters, negate, scale, mult, div, add and sub in all their forms, weigthedSum, inv, transpose, fringes, the equality masks, and map, filter, reject, findAll and check with callbacks that are defined themselves (for map to Arrays: giving arrays that are not empty and not longer than the item); minMax, mean, covariance, partition, find, forEach, reduce to a number and print are defined as well. Hence no nesting of such calls is undefined. merge and concat keep Series sound as long as all their numbers together are fewer than 2^32; zip is defined on every non-empty list of sound Series; clone exactly on valid ones. The functions left out (det of symmetric matrices, norm, norm2, dot, cross, normalize, bins, map over several Series, reduce to arrays, partition_n into 0 parts, the lists of add and sub without element) are undefined for some sound Series.", "quantifier": "every program made of nested calls of these functions, with every sound Serie, shape, number, index and callback", "why_tests_cant": "Quantifies over all compositions of about forty functions and over shapes that do not fit together; the tests call single functions on fitting shapes, and out-of-range reads of a vector often go unnoticed.", "anchors": ["src/Serie.cxx", "include/dataframe/inline/Serie.hxx", "include/dataframe/functional/map.h", "include/dataframe/functional/filter.h", "include/dataframe/functional/merge.h", "include/dataframe/functional/utils/zip.h", "src/functional/math/mult.cxx", "src/functional/math/div.cxx", "src/functional/math/weightedSum.cxx", "src/functional/algebra/inv.cxx"]}
{"id": "C154", "title": "Which requests for an attribute are undefined", "statement": "Take a Dataframe whose Series are sound (C153) and of dimension 3; every Dataframe built by its calls from sound Series, with sizes that fit, is such a one. Listing the names of the attributes and asking whether a name is among them is never undefined, for any Dataframe, the decomposers of the library and user-defined ones whose callback is defined. A request to Components is undefined exactly if the request is for numbers and its name is the name of a stored Serie (item size at least 1) followed by x, y or z - or, when no stored Serie fits that way, by a pair of them - where the place this means lies beyond the item and the Serie has an item. Coordinates with three names is undefined exactly if the name is among them and its place lies beyond the items of the positions. EigenValues and EigenVectors are undefined exactly for the empty name and their own item size (Series of fewer than 2^32/9 items). Normals and Valence are defined when every number of the indices is that of a vertex (Valence: and the indices do not come in pairs). In all other cases these requests give a sound Serie or an exception, and so does a Manager with any list of such decomposers, for every name and item size from 1 on.", "quantifier": "every sound Dataframe, requested name and item size, and list of decomposers; every sequence of Dataframe calls", "why_tests_cant": "The condition is exact over all strings and all stored names and item sizes; the tests ask for a few existing attributes, and reading past an item usually yields a plausible number.", "anchors": ["src/attributes/Manager.cxx", "src/attributes/Components.cxx", "src/attributes/Coordinates.cxx", "src/attributes/EigenValues.cxx", "src/attributes/EigenVectors.cxx", "src/attributes/Normals.cxx", "src/attributes/Valence.cxx", "include/dataframe/attributes/UserDefinedDecomposer.h", "src/Dataframe.cxx"]}
{"id": "C155", "title": "The variadic add that sub.h provides is the negated sum", "statement": "The header sub.h has no variadic sub but a function template named add that subtracts. In a file that includes sub.h and not add.h, math::add(s0, s1, ...), for one, two or more Series of the same item size and count, subtracts all of them, from the first on, in order, from zeros; for every type of numbers. In exact arithmetic each number of the result is minus the sum of the corresponding numbers, so the result is the sum only if the sum is zero. In double precision it is, rounding included, the negation of the sum taken in order, up to the sign of a zero. Series of different count throw invalid_argument, and so do well-formed Series of different item size.", "quantifier": "every non-empty list of Series, every shape and all numbers, in every arithmetic, exact arithmetic and binary64", "why_tests_cant": "No test includes sub.h; equality with the negated rounded sum is over all doubles, number and length of Series.", "anchors": ["include/dataframe/functional/math/sub.h", "include/dataframe/functional/math/add.h", "include/dataframe/utils.h"]}
{"id": "C156", "title": "Operations made for pipes take what is piped as second argument", "statement": "MAKE_OP makes operations for pipe of which the piped Serie is the second argument. So pipe(s, make_sub(t)) is t - s, the opposite of sub(s, t) (in double precision too, rounding included, up to the sign of a zero), and piping twice through make_sub(t) gives s back in exact arithmetic; make_cross(t) gives t x s, the opposite of cross(s, t); make_concat(t) puts the items of t before those of s and make_zip(t) the columns of t before those of s; make_add(t) and make_mult(t) give t + s and t * s, but vectors piped through make_mult of their factors are refused with invalid_argument, while mult(vectors, factors) multiplies, and factors piped through make_mult of the vectors give that same product. make_div is made for pipes: make_div(c) divides the piped numbers by c and make_div(t) by those of t. A number c given to make_sub, make_mult, make_covariance, make_cross or make_equals is not used as a number: it is converted to a Serie without items whose item size is c truncated, so for every piped Serie with items make_sub, make_mult and make_covariance throw invalid_argument, make_equals gives false, and make_cross throws or, if both item sizes are 3, gives the empty Serie; the conversion is undefined if c truncated is not an int.", "quantifier": "every Serie piped and every Serie or number the operation is made with, all shapes and numbers", "why_tests_cant": "The tests pipe through make_div, make_map and make_filter only; the order of the arguments and the refusals are stated for all shapes and numbers, and the conversion of a number compiles silently.", "anchors": ["include/dataframe/functional/macros.h", "include/dataframe/functional/pipe.h", "include/dataframe/Serie.h", "include/dataframe/functional/math/sub.h", "include/dataframe/functional/math/mult.h", "include/dataframe/functional/math/div.h", "include/dataframe/functional/algebra/cross.h", "include/dataframe/functional/utils/concat.h", "include/dataframe/functional/utils/zip.h"]}
{"id": "C157", "title": "What a passed assertion of the unit tests means", "statement": "assertCondition passes exactly if the condition holds and assertEqual exactly if the integers are equal. Comparing two finite doubles with a finite tolerance passes if their distance is at most the tolerance, and only if it is at most the tolerance times 1 + 1/(2^53 - 1). A NaN passes the comparison with every number, and so do equal infinities, so that a passed comparison does not by itself bound the distance of the two numbers or say that they are numbers; any other pair with an infinity fails. Comparing arrays passes exactly if they have the same length and every pair of numbers passes; comparing a Serie with an Array looks at its stored numbers only, comparing two Series exactly at item size, dimension, count and all stored numbers. shouldThrowError passes exactly if invalid_argument is thrown, shouldNotThrowError exactly if nothing is thrown; any other exception leaves both. The test of inv for general matrices has the tolerance 1e5: it passes for every finite result below 99999.", "quantifier": "every two doubles, tolerance, arrays and Series; every result of the tested call", "why_tests_cant": "It is about which wrong results the tests themselves let pass, over all doubles including NaN and infinities.", "anchors": ["unitTest/assertions.h", "unitTest/inv.cxx"]}
{"id": "C158", "title": "Lengths of vectors in binary64", "statement": "For a Serie of one vector with k >= 2 components that are finite, at most 2^490 in size and not all below 2^-511, norm2 is the sum of the squares up to the relative error (4k + 2) 2^-53, norm is the Euclidean length up to the relative error (4k + 4) 2^-53, and no component is larger than the length returned. Enlarging components, up to 2^490 in size, never makes norm2 or norm smaller. Changing signs changes no bit of either, for all doubles; nor does exchanging the first two components, while other orders of the components may change norm2. A NaN makes both NaN. Outside the range the length of a vector of finite components can be returned as infinity (for a vector of length 2^600) or as zero (for a vector that is not zero).", "quantifier": "every Serie of one vector of two or more components, every component in the range (all doubles for signs, exchange and NaN), every dimension of the Serie", "why_tests_cant": "Error bounds and monotony are about all combinations of rounding errors; sample vectors such as (3, 4) are computed without any.", "anchors": ["src/functional/algebra/norm.cxx", "include/dataframe/functional/algebra/norm.h"]}
{"id": "C159", "title": "The programs in the comments of the headers", "statement": "The example programs in the comments of the headers give what the comments say, with any numbers in place of the literals: get and set of numbers and Arrays, the display of numbers, the two sums of reduce, the parts of partition_n, zip, the masks of equals.h (the approximate one with the literals of the comment, in binary64), pipe with a doubling map, compose, the even numbers of filter (in binary64, for integers that fit into an int) and the split into compressive and other tensors. Two comments are wrong: get without a type gives an Array also for item size 1, not a double; and Arrays written to std::cerr go to std::cout, in brackets and with commas, while std::cerr gets only the ends of the lines.", "quantifier": "every representable Serie of the shape used in the comment, every number in it (integers within 32 bits for the even numbers; the literals of the comment for the approximate mask)", "why_tests_cant": "The comments are promises about all data; running them once with their literals says nothing about other numbers, and the wrong stream is not seen in a terminal.", "anchors": ["include/dataframe/inline/Serie.hxx", "include/dataframe/Serie.h", "include/dataframe/functional/reduce.h", "include/dataframe/functional/pipe.h", "include/dataframe/functional/filter.h", "include/dataframe/functional/utils/partition_n.h", "include/dataframe/functional/utils/zip.h", "include/dataframe/functional/utils/compose.h", "include/dataframe/functional/utils/partition.h", "include/dataframe/functional/math/equals.h"]}
{"id": "C160", "title": "Which results depend on the choice of the axes", "statement": "Let the axes be changed by an orthogonal 3x3 matrix Q (a rotation or a reflection), vectors v becoming Q v and tensors S becoming Q S Q^T by the map of the library. Over exact reals: dot, insar (the line of sight turned as well) and the norm and norm2 of one vector give the same numbers; cross gives the turned vectors, reversed if Q is a reflection; mean (under every matrix) and normalize (vectors that are not zero) give the turned result; det of full matrices is the same; inv of symmetric tensors gives the turned inverses, or refuses in both axes. The eigenvalues of a turned tensor are those of the tensor and its eigenvectors are turned; the squares of the differences of what eigenValues returns are at most 4e-5 times the sum of the squared off-diagonal norms of the two tensors. The bounds of minMax do depend on the axes.", "quantifier": "every orthogonal 3x3 matrix, every non-empty Serie of vectors or tensors", "why_tests_cant": "Invariance is a statement about all rotations and all data at once.", "anchors": ["include/dataframe/functional/algebra/dot.h", "include/dataframe/functional/algebra/cross.h", "include/dataframe/functional/algebra/norm.h", "include/dataframe/functional/algebra/det.h", "include/dataframe/functional/algebra/inv.h", "include/dataframe/functional/algebra/eigen.h", "include/dataframe/functional/geo/insar.h", "include/dataframe/functional/stats/mean.h", "include/dataframe/functional/math/normalize.h", "include/dataframe/functional/math/minMax.h"]}
{"id": "C161", "title": "Accuracy of the covariance in binary64", "statement": "Let x and y be scalar Series of n >= 1 finite doubles, the values of size at most A and B, the deviations from their exact means at most P and Q, all four bounds between 2^-400 and 2^400. Then covariance gives a finite double. It differs from the exact covariance of the stored values by at most p*q + (2n+7)*2^-53*(P+p)*(Q+q), where p = (2n+2)*2^-53*A and q = (2n+2)*2^-53*B bound the errors of the two computed means. Those errors enter only by their product: while p <= P and q <= Q the error is at most p*q + (8n+28)*2^-53*P*Q, however large the common offset of the values is. With exact numbers the same program gives the exact covariance.", "quantifier": "all pairs of finite double Series of every length below 2^32 within the bounds", "why_tests_cant": "The bound must hold for every rounding in sums of every length.", "anchors": ["src/functional/stats/covariance.cxx", "include/dataframe/functional/stats/covariance.h", "src/functional/stats/mean.cxx"]}
{"id": "C162", "title": "Functions that need more than sound Series", "statement": "A Serie is sound if its storage holds all its items and fewer numbers than one more item (numbers may be left over), with fewer than 2^32 numbers in all. For sound Series: (a) partition_n into n >= 1 parts, partition_n of several Series, filter, reject, filterAll, rejectAll and forEach over several Series, and unzip with sizes >= 1 adding up to less than 2^32 never have undefined behaviour: they throw or give sound Series. (b) insar with a line of sight has undefined behaviour exactly if the item size and the line of sight are 3 and the storage has fewer than 3 numbers. (c) eigenValues and eigenVectors of fewer than 2^32/9 items have undefined behaviour exactly if the dimension is neither 2 nor 3, the items have fewer than 6 numbers and there is an item; eigenSystem never has. (d) sort has undefined behaviour exactly if the comparison (< of the numbers for item size 1, the given one for larger items) is not a strict weak order on the items. In (b) to (d) all other calls throw or give sound Series. (e) approximatelyEquals, for any two Series at all, has undefined behaviour exactly if the shapes and dimensions agree, the first storage is longer, and the whole second storage is within epsilon of the beginning of the first; never if the first Serie has no numbers left over. (f) parallel_execute with a functor that gives sound Series of no more numbers than its argument has, or throws, gives a sound Serie or throws under every schedule. (g) the two cartesian grids with fewer than 2^32/3 points, and random with fewer than 2^32 numbers and a generator without undefined behaviour, throw or give sound Series.", "quantifier": "all numbers, all sound Series (all Series in (e)), all callbacks without undefined behaviour, all comparators, all conforming sorting algorithms, all functors, schedules, grid sizes and points", "why_tests_cant": "Undefined behaviour need not show in a test run, and the unit tests contain no Serie with numbers left over, no comparator that is not an order and no dimension other than the default.", "anchors": ["include/dataframe/functional/utils/partition_n.h", "include/dataframe/functional/utils/unzip.h", "include/dataframe/functional/filter.h", "include/dataframe/functional/utils/reject.h", "include/dataframe/functional/forEach.h", "src/functional/geo/insar.cxx", "src/functional/algebra/eigen.cxx", "include/dataframe/functional/utils/sort.h", "include/dataframe/functional/math/equals.h", "include/dataframe/functional/utils/parallel_execute.h", "include/dataframe/functional/geo/cartesian_grid.h", "src/functional/math/random.cxx"]}
{"id": "C163", "title": "The unit-test programs that assert nothing", "statement": "Four programs of unitTest/ print or discard their results. (a) The comment in view.cxx, the map of pairs of a matrix (9 numbers) and a vector (3 numbers) to the product of squaredMatrix(m) with v: over exact numbers, on two non-empty Series of equal counts, it gives the Serie, item size 3, of the matrix-vector products of linear algebra; in binary64, on whole numbers of absolute value at most B with 3 B^2 <= 2^53, it gives the same products exactly. On the data of the comment the result is the one written there. (b) memoize.cxx: for every seed, random(1000000, 6, -1e5, 1e5) gives a million items of 6 finite numbers between the bounds; the first call of the memoized function gives what eigenValues gives, a million items of 3; a further call on the same Serie, whatever the wrapped function does, gives the same item size, count and numbers without running it and leaves the cache as it is. (c) basic() and test() in decomposer.cxx: for all Series of item sizes 1, 3, 3 and 6 and dimension 3 in the frame, whatever their lengths and numbers, names(1), names(3) and names(6) are exactly the 15, 4 and 1 names (13, 4 and 1 for test()) of the theorem, in alphabetical order; positions and indices are not among them although their item size is 3.", "quantifier": "all Series of the given item sizes, all numbers within the bounds, all seeds, all mathematical libraries, all functions wrapped", "why_tests_cant": "The programs contain no assertion: they pass whatever the library computes. The expected values of view.cxx stand in a comment.", "anchors": ["unitTest/view.cxx", "unitTest/memoize.cxx", "unitTest/decomposer.cxx", "include/dataframe/functional/utils/memoize.h", "src/view/Matrix.cxx", "src/attributes/Manager.cxx"]}
{"id": "C164", "title": "Which exceptions a call can throw", "statement": "For Series whose item size is not negative, empty, inconsistent and defective ones included: (a) negate, scale and mult with a number, div by a number, dot, insar, fringes, norm, norm2, normals, approximatelyEquals, squaredMatrix and symSquaredMatrix throw no exception. (b) inv, eigenValues and eigenVectors throw nothing but runtime_error; eigenSystem nothing but runtime_error and invalid_argument. (c) add and sub in all their forms, scale with an array, mult and div of two Series, weigthedSum, minMax, normalize, the two masks, cross, det, transpose, areas, mean, covariance, bins, quantile, IQR, the outlier functions, the grids, concat, partition_n, zip, zipVector, unzip, merge, sort and print throw nothing but invalid_argument. (d) A function with a callback throws, besides what the callback throws: nothing for map and check on items with results that are numbers and reduce on items; runtime_error for map from items to items; invalid_argument for map and check on numbers with results that are numbers, reduce on numbers, map over several Series with results that are numbers, filter, reject, find, findAll, partition and forEach in all their forms and random; both for the other forms of map. pipe and compose throw what their stages throw. (e) length_error is thrown by value and get<Array> exactly if the item size is negative, and they throw nothing else; get<double>, scalar and the setters throw nothing but invalid_argument, whatever the Serie.", "quantifier": "all Series of item size 0 <= k < 2^31, all numbers, callbacks, states and arguments; all Series in (e)", "why_tests_cant": "A test shows an exception that is thrown. That no input makes a function throw another type, which a handler for invalid_argument would miss, is a statement on all inputs.", "anchors": ["include/dataframe/inline/Serie.hxx", "src/Serie.cxx", "include/dataframe/functional/map.h", "include/dataframe/functional/filter.h", "include/dataframe/functional/find.h", "include/dataframe/functional/forEach.h", "include/dataframe/functional/reduce.h", "src/functional/algebra/inv.cxx", "src/functional/algebra/eigen.cxx", "src/functional/algebra/norm.cxx", "src/functional/geo/normals.cxx", "src/functional/math/div.cxx", "include/dataframe/functional/utils/concat.h", "include/dataframe/functional/utils/zip.h"]}
{"id": "C165", "title": "The order of the calls of a Dataframe", "statement": "After any history of calls on a Dataframe: (a) Two calls about different names (add, set, create, del, the non-const operator[] and get, and changes through the references these return) give the same names, Series and addresses in either order. They give the same count exactly if the Dataframe had a count other than 0, or one of the calls brings none, or both bring the same. (b) Hence a list of such calls about pairwise different names gives the same Dataframe in every order, if the Dataframe had a count. (c) Adding twice under a name stores what the second call stores, in the node of the first; adding and deleting stores what deleting stores; changes through references compose; looking up twice is looking up once. (d) setCount can be exchanged with del and with clear. Of two calls of setCount, each effective on the given Dataframe, the second counts. setCount to another count and back to the old one leaves all names, and zeros in place of all values. A Serie added before an effective setCount is zeroed and resized; one added after it is stored as it is, whatever its count. setCount to the count that the first Serie brought changes nothing.", "quantifier": "all histories of calls from an empty Dataframe of any count, all names, Series, addresses and changes", "why_tests_cant": "The histories and the pairs of calls are unbounded; a test fixes one history and one order.", "anchors": ["src/Dataframe.cxx", "include/dataframe/Dataframe.h"]}
{"id": "C166", "title": "What a NaN in the data does", "statement": "In IEEE binary64: (a) minMax of a scalar Serie passes over NaN: it gives what it gives for the values that are numbers, and the largest finite double as minimum and its negative as maximum if there is no number. (b) minMax of a Serie of vectors gives NaN for both bounds of a component whose value in the first item is NaN; for any other component it gives the least and the greatest of the values that are numbers. So the order of the items decides whether a NaN shows. (c) The mean of a scalar Serie with a NaN is NaN, and the mean of vectors is NaN in each component in which some item is; the covariance is NaN if either Serie holds a NaN. (d) A NaN in a component of either item makes that component of the sum and of the difference NaN, and the dot product of the items. A NaN in any Serie of weightedSum makes that component NaN whatever the weight, 0 included. div of two Series gives zeros where the divisor is smaller than 1e-10, also for items with NaN, NaN in all components where the divisor is NaN, and otherwise keeps each NaN. (e) equalityMask and approximateEqualityMask are 0 at each item in which either Serie holds a NaN. (f) sort of a scalar Serie has undefined behaviour exactly if the Serie holds a NaN and two numbers x < y; quantile with q between 0 and 1 and IQR have it then too.", "quantifier": "all scalar and vector Series of doubles, all positions of NaN, all algorithms of std::sort that conform to the standard, all implementations of the mathematical functions", "why_tests_cant": "Where a NaN sits among the values, and which other values there are, decides the outcome; undefined behaviour of std::sort need not show in a test.", "anchors": ["src/functional/math/minMax.cxx", "src/functional/stats/mean.cxx", "src/functional/stats/covariance.cxx", "src/functional/math/add.cxx", "src/functional/math/sub.cxx", "src/functional/math/div.cxx", "src/functional/math/weightedSum.cxx", "src/functional/algebra/dot.cxx", "src/functional/stats/quantile.cxx", "include/dataframe/functional/utils/sort.h"]}
{"id": "C167", "title": "A Serie of vectors is treated like the Series of its components", "statement": "For any sound Serie s of items of k >= 1 components, unzip(s, {1, ..., 1}) gives k scalar Series, the c-th of which is also what map(item -> item[c]) gives and zipVector of which gives s back; for k = 3 in any reachable Dataframe it is also what the decomposer Components delivers as x, y or z. Arithmetic and statistics work on these components separately: for two Series of the same shape (k >= 2, at least one item) the c-th component of add, sub and mult of the two Series is the add, sub or mult of their c-th components, and the c-th component of scale, mult and div by a number is the scale, mult or div of the c-th component. The mean of a Serie of vectors has as its c-th value the mean of the c-th component, and minMax (over doubles, all values finite) the minimum and maximum of the c-th component - although minMax starts from DBL_MAX and lowest for scalars and from the first item for vectors.", "quantifier": "for all number types, all sound Series of any item size and item count, all components and all numbers; minMax for all finite doubles", "why_tests_cant": "Each of these functions has a branch for scalars and a branch for vectors, written separately; the tests try one branch or the other on a few values. That the two branches agree for every item size, length and value - so that a user may split a Serie into its components and combine them again before or after a computation - relates two runs of the code over an unbounded set of inputs.", "anchors": ["include/dataframe/functional/utils/unzip.h", "include/dataframe/functional/utils/zip.h", "include/dataframe/functional/math/add.h", "include/dataframe/functional/math/sub.h", "src/functional/math/mult.cxx", "src/functional/math/scale.cxx", "include/dataframe/functional/math/div.h", "include/dataframe/functional/stats/mean.h", "src/functional/math/minMax.cxx", "src/attributes/Components.cxx"]}
