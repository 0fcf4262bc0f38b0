# Formal model of `dataframe` — design

The C++ library in `/repo` is modelled in Rocq (Coq 8.16.1) and the properties in
`properties.jsonl` are proved about the model, for all inputs, without size bounds.
The code is read as text only; the link between code and model is the citation
(file and lines) on every definition.

## 1. How the code is modelled

**Outcomes.** A call ends in `Ok v`, `Throw e` (a C++ exception) or `UB` (undefined
behaviour: out-of-range `vector::operator[]`, integer division by zero, an
out-of-range double-to-integer conversion, a dangling reference, a violated
precondition of a standard algorithm). `UB` is never "assumed away": theorems state when it
cannot happen, or exhibit an input where it does. Memory exhaustion is not modelled.

**Numbers.** `uint32_t`, `int`, `size_t` are `Z` with the wrap written out
(`u32 x = x mod 2^32`, `s32`, `u64`). `double` is a type class `Num`: every structural
definition works for any carrier. It is instantiated with
*(a)* `F64`: IEEE-754 binary64 from Flocq (`BinarySingleNaN`, one NaN, round to nearest even) and
*(b)* `R`: exact real arithmetic (Coq's `Reals`).
Theorems about layout, ordering and exceptions are proved for every `Num`; IEEE theorems on `F64`;
algebraic identities on `R` (and their English statement says "exact arithmetic").
`sin`, `cos`, `atan` on `F64` are parameters (libm is not modelled).

**Callbacks.** A user callback has type `item -> index -> M St B` with
`M St B = St -> outcome B * St`: it may read and write an arbitrary state, throw, or
have undefined behaviour. State changes made before an exception persist. Hence
"called exactly once, in order, with these arguments" is a statement about all callbacks.

**Objects.** A Serie is the record of its four fields (`s_`, `count_`, `dimension_`, `itemSize_`).
A mutating method returns the new record. Object identity matters for
`nameOfSerie` only, where addresses are explicit.

**Loops** over `uint32_t` counters become monadic folds over the index list
`0, 1, ..., n-1`; writes and reads go through the checked `rd` / `wr`.

**Concurrency.** `parallel_execute` is modelled as a labelled transition system: one
state machine per job (copy of functor and part), a schedule is any list of job
numbers; the main thread joins in order. The theorems quantify over all complete schedules.

**Standard library.** `std::sort` is *any* function meeting its specification (permutation,
sorted with respect to a strict weak order); violated preconditions are `UB`.
`std::map` / `std::set` are strictly sorted association lists / lists.

## 2. How properties are stated

`Spec.v` contains the vocabulary of the statements and nothing from the model beyond the `Serie`
record: a Serie *represents* `k, rows` (`repr s k rows`) when its item size is `k`, its count is the number of rows and its
storage starts with the rows one after the other (possibly followed by leftover numbers).
Results are stated as equality with the canonical Serie `mk k rows` (or relations between rows). The effect of
callbacks is specified by an inductively defined call trace (`calls`). Property theorems are in `Props_*.v`,
closed by `exact lemma`, each followed by `Print Assumptions` and an `Example` showing
that its hypotheses are met by a concrete non-trivial case. Theorems about a claim the code
violates are named `..._refuted` (a concrete witness); the part that does hold is `..._partial`.

## 3. Files

| file | content |
|---|---|
| `Base.v` | outcomes, callback monad, machine integers, checked vector access |
| `Num.v` | the `Num` class (double operations used by the code) |
| `Serie.v` | `src/Serie.cxx`, `inline/Serie.hxx`, `types.h` |
| `Functional.v` | map, filter, find, findAll, forEach, reduce, merge, check, reject, partition, pipe, compose |
| `Utils.v` | concat, partition_n, zip, unzip, sort, memoize, parallel_execute, print |
| `Streams.v` | operator<<, dump, print(Array), info / warning / error / log: what is written to which stream |
| `ToString.v` | Vector::toString: std::to_string(double) as sprintf("%f"), correctly rounded |
| `Dataframe.v` | `src/Dataframe.cxx`, nameOfSerie |
| `Mathf.v`, `Stats.v`, `Algebra.v`, `Geo.v`, `Views.v`, `Attributes.v` | the corresponding directories |
| `Examples.v` | `examples/parallel-postprocess`, `examples/critical-stress` |
| `StressState.v` | the pipeline of `examples/stress-state` |
| `ExecMemo.v` | `functional/utils/{parallel_execute,memoize}.h` together: a memoized functor run in parallel |
| `Helpers.v` | `utils.h` and `utils/utils.h`: counts, `map` and `contains` on std::vector |
| `FrameDump.v` | `src/Dataframe.cxx` `dump` |
| `Documented.v` | the weighted-sum, chaining and forEach programs of `README.md` |
| `F64.v`, `RNum.v` | the two instances of `Num` |
| `F64Error.v`, `F64Angle.v`, `F64Rot.v`, `F64Jacobi.v`, `F64Step.v`, `F64Sweep.v`, `F64Eig.v` | error analysis of `eigen.cxx` in binary64 (lemmas; `accurate` and `moderate` are the hypotheses of C133) |
| `F64Scale.v` | binary64 operations on operands multiplied by powers of two (lemmas) |
| `EigenExact.v` | real symmetric matrices: `decomposed` (the eigenvalues of C134), existence, perturbation |
| `Spec.v` | vocabulary of the statements |
| `*Facts.v` | lemmas |
| `Props_*.v` | property theorems, assumptions, examples |
| `UnitTests.v`, `UnitTestsAttributes.v` | the repository's unit tests replayed on the model in binary64 (validation of the model, no property depends on them) |


## 4. Property by property

- **C01 A Serie built from flattened data gives back its items in order.** Constructor and value/get modelled with 32-bit index arithmetic; proved by arithmetic on `concat rows ++ tail`.
- **C02 Writing an item and reading it back (lens laws).** Lens laws for the four setters over `repr`; list-update lemmas lifted to rows.
- **C03 Writes never touch memory outside the Serie.** Case analysis on the guards; no wrap because `i < count` and `k*count < 2^32`.
- **C04 Reading outside the Serie is refused.** Refuted by concrete reads (UB); partial: in-range reads are defined, `get<double>` guarded.
- **C05 No history of calls makes the storage smaller than the items.** Heap of Serie objects, operations as a datatype, invariant by induction over the history; refuted without the 2^32 proviso by `Serie(65536, 65536)`.
- **C06 Copies, assignments and clones carry the same items.** Exact equality for the copy constructor; `repr` preserved for the others; independence via the heap model of C05.
- **C07 Assignment and clone keep the dimension.** Refuted with a dimension-2 Serie; partial: holds for dimension 3 / copy construction.
- **C08 reCount gives exactly the requested number of zero items.** Direct computation.
- **C09 map with a number-valued callback acts item by item.** Induction over the index list, trace relation `calls`.
- **C10 map with an Array-valued callback keeps item boundaries or reports inconsistent sizes.** As C09 with the size check; exact index of the first inconsistent result.
- **C11 map respects composition and identity.** Corollary of C09/C10.
- **C12 map over several Series combines items of equal index.** n-ary map over a list of Series; refuted on empty input, partial otherwise.
- **C13 Callbacks run once per item, in order, and stop at the first exception.** All callback loops refine one relation `calls` / `calls_fail`.
- **C14 A scalar callback on a vector Serie is refused.** Refuted for map, filter, reject, findAll, check, reduce; partial (proved) for forEach, find, partition.
- **C15 filter keeps exactly the selected items in order.** Index collection followed by copying = `filter` on enumerated rows.
- **C16 Filtering laws.** Corollary of C15.
- **C17 filter and reject are complementary.** Corollary of C15 and its analogue for reject; permutation.
- **C18 Filtering several Series keeps their rows aligned.** n-ary filters; all outputs are selections by one index list.
- **C19 partition splits without losing or duplicating items.** Two-list collection loop.
- **C20 find returns the first match and looks no further.** First-match recursion with trace.
- **C21 findAll agrees with filter.** Corollary.
- **C22 forEach over several Series visits equal indices together.** n-ary forEach with trace.
- **C23 reduce is a left fold and splits over concatenation.** Left fold; append lemma.
- **C24 check produces the 0/1 mask of the predicate.** As C09.
- **C25 pipe and compose chain functions in opposite orders.** Kleisli composition in the callback monad.
- **C26 Operations that keep the item layout keep the dimension.** Refuted; partial: results always have dimension 3.
- **C27 merge by concatenation appends the items.** Write loop into a fresh Serie, invariant on the prefix written.
- **C28 merge by interleaving alternates and then appends the rest.** Same with round-robin order; specification as a separate recursive function on row lists.
- **C29 concat appends all Series of a list.** As C27 for lists.
- **C30 concat of concatenations flattens.** Corollary of C27/C29.
- **C31 partition_n loses nothing.** Loop over parts; `concat` of parts.
- **C32 partition_n is balanced.** Arithmetic on quotient and remainder.
- **C33 partition_n returns n parts and refuses n = 0.** Refuted for the single-Serie form (count < n, n = 0); proved for the multi form.
- **C34 Aligned partitions of several Series.** All Series cut by one size list.
- **C35 zip concatenates items of equal index.** Scatter writes at computed offsets; invariant over written columns.
- **C36 unzip undoes zip.** zip layout read by unzip.
- **C37 zip undoes unzip.** Converse.
- **C38 unzip checks the true total of the sizes.** Refuted by sizes wrapping to the right total.
- **C39 parallel_execute does not depend on scheduling.** Confluence of independent job machines under every complete schedule.
- **C40 parallel_execute agrees with the sequential call for item-wise functors.** C39 plus C31/C29.
- **C41 A failing job is reported as invalid_argument after all jobs.** C39 plus failure propagation.
- **C42 Count-changing functors are refused for every number of cores.** Refuted at one core; partial for n >= 2.
- **C43 Sorting a scalar Serie gives its values in increasing order.** Section over any conforming sort.
- **C44 Sorting a vector Serie orders whole items.** Same with row comparison; lexicographic order proved a strict weak order on NaN-free rows.
- **C45 sort honours the comparator on scalar Series.** Refuted with the reverse order.
- **C46 memoize is transparent.** Refuted by colliding keys; partial when all arguments share item size and dimension and contain no NaN and results have dimension 3.
- **C47 memoize calls the function once per key.** History induction with a call counter.
- **C48 A Dataframe is a finite map from names to Series.** Refinement to a finite map over all histories.
- **C49 All Series of a Dataframe have the same count.** Refuted; partial for histories adding one count only and never setting another.
- **C50 A Dataframe keeps the dimension of stored Series.** Refuted; invariant: stored dimension is always 3.
- **C51 Const look-ups do not change the Dataframe.** Direct.
- **C52 setCount resizes every Serie.** Direct.
- **C53 nameOfSerie identifies a stored Serie by identity.** Addresses as part of the model; refuted for the empty name; partial otherwise.
- **C54 add and sub act component by component.** Component-wise loop.
- **C55 add is commutative bit for bit, sub anti-commutative.** Flocq commutativity; sign lemma for subtraction.
- **C56 The overloads of add agree.** Folds; zero start handled by a lemma on `0 + x` in IEEE.
- **C57 The overloads of sub agree.** Folds.
- **C58 negate is exact and self-inverse.** `x * -1 = -x` in IEEE via Flocq.
- **C59 mult and scale multiply component-wise.** Component-wise loops; `x * 1 = x`.
- **C60 div divides component-wise and guards small divisors.** Component-wise loops with threshold.
- **C61 weightedSum is the linear combination.** Left-to-right accumulation; linearity in R.
- **C62 minMax gives tight bounds.** Fold invariants with the F64 order.
- **C63 minMax bounds are attained for infinite values.** Refuted with infinity.
- **C64 Scalar normalize maps onto [0, 1].** Real arithmetic.
- **C65 Vector normalize gives unit vectors.** Real arithmetic.
- **C66 equals is an equivalence on NaN-free valid Series.** F64 equality.
- **C67 Equality masks mark exactly the equal items.** Component-wise loops.
- **C68 mean is the arithmetic mean.** Sums in R.
- **C69 covariance is a positive semi-definite symmetric form.** Sums in R, Cauchy-Schwarz by discriminant.
- **C70 quantile interpolates the order statistics.** Real arithmetic with floor.
- **C71 quantile is monotone in q.** Piecewise linear monotonicity.
- **C72 outliers, isOutliers and notOutliers agree.** Corollary of filter and check.
- **C73 bins counts every value exactly once.** Counting by induction; floor arithmetic.
- **C74 cross is the vector product.** `ring` / `nra`.
- **C75 dot is the Euclidean inner product.** Sums in R; IEEE commutativity by Flocq.
- **C76 norm and norm2 return one length per item.** Refuted (counts other than 1); partial for count 1.
- **C77 det is the determinant.** Polynomial identities; symmetric storage refuted (dangling).
- **C78 inv inverts symmetric 3x3 matrices.** `field`.
- **C79 inv inverts general 3x3 matrices.** Refuted with an integer matrix; partial: rows other than the wrong entry.
- **C80 transpose is self-inverse and swaps rows and columns.** Direct.
- **C81 Eigenvectors are orthonormal.** On R. One visit of a pair either leaves the state or multiplies the basis by a plane rotation (JacobiSpec.v `turn`), which keeps rows and columns orthonormal; invariant of sweeps for any cap, then carried through the sort (a permutation of rows) and `map`.
- **C82 Eigenpairs satisfy the eigenvalue equation to the stated tolerance.** On R. The rotation angle clears the entry (trigonometry of atan), so the off-diagonal norm loses exactly the square of that entry and the running threshold equals it; every sweep rotates at least one entry of size at least a sixth, so (5/6)^64 < 1e-5 bounds the passes; residual = twice the off-diagonal norm by Parseval, trace by orthonormality of columns.
- **C83 Eigenvalues are sorted and the three entry points agree.** Generic arithmetic. All decision trees of the selection sort on 2 and 3 values; decreasing under any order of the `good` values; the places form a permutation used for both values and vectors; the three entry points unfold to the same item function.
- **C84 normals are perpendicular to their triangle with length twice its area.** Vertex look-ups, the loop over (array, position) as a run of calls, cross product by `ring`; Heron's formula in squared edge lengths as an independent area.
- **C85 areas returns the triangle areas.** Refuted: never returns a Serie; `Serie(2)` has no item so `div` throws, and `norm2` writes past its one-element array.
- **C86 insar projects and fringes wrap.** floor arithmetic; `insar` reduces to one fixed vector `dot`; refuted on the empty Serie.
- **C87 from_dims fills the box uniformly.** Triple loop layout; refuted for one-point coordinates; partial otherwise.
- **C88 from_points starts at p1 and ends at p2.** Triple loop layout.
- **C89 Vector view operations.** Norm refuted (integer accumulator); the rest proved.
- **C90 Packed symmetric indexing is a bijection.** Triangular number arithmetic.
- **C91 Matrix view operations return usable matrices.** Dangling views modelled as UB on read: refuted; partial for the in-place observers.
- **C92 Manager names are sorted, unique and match contains.** Sorted-set insertion: membership and order by induction over the stored names and over the names offered by an arbitrary list of decomposers.
- **C93 Manager look-up order.** First-match recursion over an arbitrary list of decomposers, stateful and possibly throwing; refuted for item size 0.
- **C94 Components delivers the named component.** Refuted for full matrices, prefix clashes and 2-D Series; proved for vectors and symmetric matrices over reachable Dataframes.
- **C95 Every advertised name resolves.** Refuted (EigenValues; mesh names); proved for Normals, Valence, Coordinates and Components over tidy Dataframes, any item size, via a generic resolution lemma.
- **C96 Coordinates delivers the coordinates of the positions.** Direct; also with fewer names than coordinates.
- **C97 Eigen decomposers resolve their names.** Refuted: no digit ever resolves; proved which control characters do.
- **C98 Valence counts incident triangles.** Counting by induction, generic over arithmetics in which small whole numbers are exact (binary64, reals).
- **C99 Normals and Area decomposers agree with the geometry.** Normals direct; Area proved for one triangle via C84 (the length of a normal is twice the area), undefined from two triangles on (algebra::norm reads past its Series, as in C85), one number for none.
- **C100 print shows every component once, in order.** Output as a token list.
- **C101 approximatelyEquals with epsilon 0 is equals.** F64 arithmetic (a finite difference is zero exactly for equal values, gradual underflow); refuted with a Serie carrying a leftover number; partial when both storages have the same length.
- **C102 random fills a Serie with values between the bounds.** Random.v has the loop for an arbitrary source of numbers, mt19937 in full (checked against the 10000th value given by the standard) and the distribution as in libstdc++; bounds by Flocq rounding (the number below one times the rounded difference never exceeds the exact difference); refuted when the difference overflows; undefined when the product of sizes wraps.
- **C103 A Manager releases the decomposers it was given exactly once.** Life.v: objects with class and alive flag, Managers as lists of addresses; the full statement is C103_statement, refuted; partial by an invariant (released and held addresses together are those handed over).
- **C104 A UserDefinedDecomposer answers with its callback.** Life.v: function objects with addresses; the decomposer keeps the address.
- **C105 Quantiles in binary64 stay in order.** Props_F64Quantile.v, binary64 with rounding: position, floor and rest are exact or monotone (F64Round.v: lerp_within, lerp_mono, frac_fmt); the sorter is any conforming one; refuted when the difference of neighbours overflows.
- **C106 Decomposers offer the documented names.** Props_Names.v: a table of layouts (dimension, item size, suffixes) written independently of the model; each decomposer's names for every request; refuted for item size 4 in three dimensions.
- **C107 Normalization of scalars in binary64.** Props_F64Normalize.v, binary64 with rounding: 1/(max-min) and the product are monotone and bounded within the range that neither overflows nor underflows; four counterexamples outside.
- **C108 Rounding error of the mean.** Props_F64Sum.v over F64Sum.v (standard model of rounding: each addition has relative error at most 2^-53, division in addition 2^-1075): induction on the values; monotone by monotone rounding; two counterexamples.
- **C109 Rounding error of dot products.** Props_F64Sum.v: sum_prod_err (products with underflow term, then the sum).
- **C110 Covariance in binary64.** Props_F64Sum.v: covariance as one expression (covariance_steps); commutative product; the sign of squares, sums and quotients by case analysis including overflow to infinity; two counterexamples.
- **C111 Inserting into a stream writes to that stream.** Streams.v models output as tokens tagged with the stream; Props_Streams.v computes what each operator appends, by induction on the loop over all elements but the last (all_but_last); refuted with a stream other than std::cout and std::cerr.
- **C112 dump shows every item.** Props_Streams.v: dump as forEach with a writing callback; the trace of the calls gives the text; refuted for scalars.
- **C113 Messages and arrays are shown in full on the right stream.** Props_Streams.v: same loop lemma as C111; log by induction on the arguments.
- **C114 A matrix is only made from an array of suitable length.** Props_Shapes.v, exact reals: the root of 8L+1 lies strictly between 2n+1 and 2n+3, the size of the local array is the truncated square of the root; a loop with one step outside it is undefined, and otherwise every step is inside.
- **C115 Whole numbers are handled without any rounding.** Props_F64Int.v: a result that is whole and below 2^53 in absolute value is representable, so each rounding is the identity; the exactness is carried through the loops of the functions by bounds on partial sums.
- **C116 The cross product in floating-point arithmetic.** Props_F64Cross.v: commutativity of * and antisymmetry of - up to the sign of zeros; rounding errors of two products and one difference; witnesses evaluated.
- **C117 Grids in floating-point arithmetic start and end where asked and never fold back.** Props_F64Grid.v: monotony of rounding and of i -> i*step; error of one division, one product and one sum; witnesses evaluated.
- **C118 Fringes in floating-point arithmetic stay within one spacing.** Props_F64Grid.v: floor of the quotient is exact, the difference with it is representable, the product rounds within [0,|w|].
- **C119 Normalized vectors have length one in floating-point arithmetic.** Props_F64Norm.v: relative errors of squares, sum, root, reciprocal and products; the square root of a rounded square is not smaller than the number; no overflow below 2^490; witnesses evaluated.
- **C120 Weighted sums in floating-point arithmetic.** Props_F64Weighted.v: error of sums of products (F64Sum), exactness for whole numbers (Props_F64Int); witness evaluated.
- **C121 The parallel post-processing example computes what a sequential call computes.** Examples.v (model), Props_Examples.v: the item-wise theorem of parallel_execute (C40_item_wise) for the function that sums over the sources; the grid theorems for any arithmetic.
- **C122 The stress field of one source is a physical tensor field.** Props_Source.v: the field as a closed formula in r^-3 and r^-5, then ring identities; the derivatives at (1,0,0) with the derivation rules of the standard library.
- **C123 The criticality index of the critical-stress example is a usable number.** Props_Critical.v: the loops as selections (filter/select), the order of the eigenvalues from C83; special values of IEEE multiplication, division and addition by cases.
- **C124 A memoized functor can be given to parallel_execute.** ExecMemo.v (model: a memoized call as a computation in steps, one copy of the cache per job), Props_ParMemo.v: parallel_decided for both functors; finish and concat do not look at the dimension of the parts.
- **C125 The documented program of the attribute manager works.** Props_Readme.v: the documented program with arbitrary data; evaluation of the listing on Series of which only the shape is known; C94 and C96 for the names that resolve.
- **C126 inv in binary64.** Props_F64Inv.v: minors and determinants of whole entries up to 2^16 are exact, one division and one product round (relative_error_N_FLT_ex); the exact inverse is stated by the product with the matrix.
- **C127 Dataframe::dump lists every Serie.** FrameDump.v (model), Props_FrameDump.v: the loop only writes; the traversal order from C48.
- **C128 The default tolerance of approximatelyEquals.** Props_Tolerance.v: monotone rounding between the tolerance and the next double; doubles of at least 128 are multiples of 2^-45.
- **C129 The programs of README.md print what README.md says.** Documented.v (model of the programs), Props_Documented.v: C120_whole for the sum, the call traces of map and forEach for the others, the text of an Array from C111; the chain on items of two numbers reads arr[2] whatever the data.
- **C130 Seeded random Series are reproducible.** Props_Seeded.v: the sequence of the standard as a predicate on nat -> Z (existence and uniqueness proved); stretches of it for the blocks of the generator; draws from C102.
- **C131 The empty Serie returned for refused arguments.** Props_Empty.v: by cases on the guards, and by computation on the default Serie.
- **C132 Constants of the code as doubles.** Props_Constants.v: pi between two rationals by Machin's formula of the standard library (PI_2_3_7); the literals are correctly rounded quotients; the guard by monotonicity of rounding.
- **C133 Eigenvalues and eigenvectors in binary64.** F64Error.v to F64Eig.v: backward error analysis of the code's Jacobi method: after each rotation the computed matrices are near an exact orthonormal basis and the exact form of the matrix in it, with a linearly growing bound; the off-diagonal sum of squares shrinks by a factor in each sweep, so at most 65 sweeps are needed. Props_F64Eigen.v: the bounds for the returned values, and the counterexamples outside the range.
- **C134 The returned eigenvalues are the eigenvalues of the matrix.** EigenExact.v: the spectral theorem for sizes 2 and 3 (a root of the characteristic polynomial by the intermediate value theorem, then one plane rotation) and the min-max argument that an orthonormal basis with small residual gives every eigenvalue up to the residual. Props_EigenValues.v: applied to the exact and the binary64 results (C82, C133).
- **C135 Histogram bins in binary64.** Props_F64Bins.v: the computed position (v - start) / size is within 2^-50 nb of the exact one by the error of each rounding; floor, monotony of rounding and the clamp give the bin; the counts are those of bins_between_counts (C73). Counterexamples for the exact intervals, an underflowing width and an overflowing range; the constant Serie in general.
- **C136 The order of the items does not matter for statistics.** Props_Order.v: a relation on doubles (equal up to the sign of a zero) that add, sub, mul and the comparisons respect; two sorted arrangements of the same values are related (OrderFacts.sorted_unique), and quantile, the fences, minMax and the bin numbers carry the relation through. Sums by permutation of real sums; counterexample 2^53 + 1 - 2^53 for doubles.
- **C137 Statistics of a merged Serie follow from its parts.** Props_Merged.v: merge is concatenation (C27); counts of a concatenation add up, bounds by C62, sums of real lists split.
- **C138 The pipeline of the stress-state example always throws; with three sizes it keeps the right rows.** StressState.v, Props_StressState.v: the pipeline is zip (C35), reject and filter (selection of rows) and unzip (C37); the zipped rows have 6+1+1 entries, the sizes in the program add up to 7.
- **C139 Determinants in binary64.** Props_F64Det.v: det_f64 gives the expression computed per item; errors are propagated with F64Error (nearby); 2x2 symmetries by commutativity of the rounded product; equal reals round alike; witnesses computed.
- **C140 Normals of triangles in binary64.** Props_F64Normals.v: normals_ok (C84) with the stored doubles converted back to places; errors propagated with F64Error through the edges, the products and the difference; equal vertices by x - x = 0 and commutativity; witnesses computed.
- **C141 Statistics under a change of units.** Props_Units.v: sums and deviations of mapped values; sorting the mapped values gives the mapped (reversed for a < 0) sorted values, so quantile interpolates between mapped ranks; the fences of outliers map with the quartiles; minMax maps; the bin of a mapped value is the same; the mirrored histogram is computed.
- **C142 Line-of-sight projections and fringes in binary64.** Props_F64Fringes.v: insar_f64 and fringes_f64 give the expression computed per item; sum_prod_err for the projection; three rounding errors (quotient, fractional part, product) for the phase; for powers of two every operation is exact (mult_bpow_exact_FLT, frac_within, mod_fmt); the witness is computed.
- **C143 Eigen decomposition under a change of units.** Props_EigenUnits.v: every rotation, the stopping test and the sort of the Jacobi solver are followed on k A + t I: same rotations for both signs of k, order kept or reversed; symmetric_aff, then item by item; the witness is a multiple of the identity.
- **C144 Normals of transformed and of closed meshes.** Props_MeshTransform.v: normals_R gives the cross product per triangle; the cofactor identity for M; orthogonal M by M M^T = I; the sum over directed sides cancels in pairs; the witness is a tetrahedron without its base.
- **C145 Accuracy of quantiles and outliers in binary64.** Props_F64QuantileErr.v: rounding of the position by a Lipschitz bound of the interpolation (positions less than 1 apart), the fractional part is exact, three rounding errors (difference, product, sum) after it; fences by the same calculus of errors; whole positions are exact; the witness 49 * (1/49) < 1 is computed.
- **C146 Changing units by a power of two changes no digit.** Props_F64Scale.v on F64Scale.v: a relation between the two runs (exact factor 2^e, multiples of 2^g, bound k 2^h) preserved by every operation as long as the results stay normal; sums keep g and add the k, products add g and h; sorted lists correspond by uniqueness of sorting; comparisons agree; the witness is computed.
- **C147 The helpers of the headers.** Helpers.v, Props_Helpers.v: loops as folds; the counts by induction over the list with the position of the first mismatch; agreement with the shorter countAndCheck of Serie.v used elsewhere; map by the call relations of Spec.v; contains by induction.
- **C148 The rearranging functions commute with map and filter.** Props_Laws.v: both programs of each law reduced to their tables by the lemmas of C09-C37, then equality of lists; sort by uniqueness of the sorted list.
- **C149 approximatelyEquals, approximatelyEqualsAll and approximateEqualityMask answer the same question.** Props_Close.v: std::equal over storages of equal length decides Forall2; the mask by C67's loop; Bleb through the order of extended reals; the witness is computed.
- **C150 Vector::toString writes six decimals per component.** ToString.v, Props_ToString.v: digits by recursion on quotient by ten, read back by induction; rounding of the fraction m 10^6 / 2^-e shown equal to Flocq's ZnearestE of the exact value; the loop by induction over the Vector; splitting at tabs because no number text has one.
- **C151 Identities of vector algebra between the programs of the library.** Props_VecLaws.v: tables of equal length as columns of one list, each call rewritten to a map over that list, then identities of R by ring.
- **C152 Inverses of symmetric matrices, their eigenvalues and units.** Props_InvEigen.v: the determinant is the product of the eigenvalues (multiplicativity, orthonormal basis); W A = I carries eigenvectors over with reciprocal values; C134_exact_values for the computed values; scaling by the closed formula of the inverse; the witness is computed.
- **C153 No undefined behaviour in nested calls on soundly built Series.** SafeFacts.v (a logic of computations that are defined and give a result with a given property), Props_Safe.v: one lemma per function by loop invariants, programs by induction on their tree; witnesses for the functions left out are computed for every number type.
- **C154 Which requests for an attribute are undefined.** Props_Ask.v: the names and look-ups of components_serie are inverted into a relation from requests to places; SafeFacts.v for the loops; a loop rule with an invariant on the state for forEach in Normals and Valence; Dataframes by induction on the calls.
- **C155 The variadic add that sub.h provides is the negated sum.** SubAdd.v, Props_SubAdd.v: induction on the Series; a relation between numbers kept by one step carries over to the tables; in doubles the step is the sign symmetry of addition.
- **C156 Operations made for pipes take what is piped as second argument.** Make.v, Props_Make.v: the made operation with its arguments in the order of the macro; values from the theorems on each operation, opposites number by number; a number is converted by the constructor that is not explicit.
- **C157 What a passed assertion of the unit tests means.** Assertions.v, Props_Assertions.v: comparison and rounding of one difference in binary64, the loop over arrays by induction on the rest of the arrays.
- **C158 Lengths of vectors in binary64.** Props_F64Length.v: the sum and the root as folds of binary64 operations; error of a sum of products (F64Sum.v) and of the root by the difference of squares; monotony step by step; squares are never -0, so the first two commute; extremes are computed.
- **C159 The programs in the comments of the headers.** DocComments.v, Props_DocComments.v: the programs of the comments as functions of their data; by the theorems about forEach, reduce, map, filter and partition, the small ones by computation on symbolic numbers.
- **C160 Which results depend on the choice of the axes.** Props_Axes.v: 3x3 matrices up to equality of entries (rewriting), polynomial identities for cross and det, uniqueness of inverses, eigenvalues by C134; the theorems about the programs give the rest.
- **C161 Accuracy of the covariance in binary64.** Props_F64Cov.v: running error of a sum of perturbed terms, division by n, deviations and products by F64Error.v; with deviations from any two numbers the sum of products changes by the product of the two offsets.
- **C162 Functions that need more than sound Series.** Each loop keeps the invariant that the Series under construction are sound and of unchanged shape. The undefined cases are read off the reads that can leave the storage.
- **C163 The unit-test programs that assert nothing.** The product program is an instance of the rule for map over several Series, with squaredMatrix and multVec evaluated on items of 9 and 3 numbers; exactness follows from exact sums of products of small whole numbers. The memoize program composes the bounds of random, the shape of eigenValues and the look-up of an equivalent key. The names are computed with the Series left symbolic.
- **C164 Which exceptions a call can throw.** A judgement with a set of exceptions and a condition on the result, with one rule for every construct; reads and writes never throw. map from items to items does not throw runtime_error where all results have one length, which the condition carries.
- **C165 The order of the calls of a Dataframe.** Maps that are ordered by name and agree in all look-ups are equal; every call about one name acts on the node of that name only.
- **C166 What a NaN in the data does.** NaN absorbs in every arithmetic operation and is not less than anything; folds of minimum and maximum skip it unless they start with it.
- **C167 A Serie of vectors is treated like the Series of its components.** Both branches of each function are known exactly (mk k rows, mk 1 (col xs)); the c-th column of a pointwise result is the pointwise result of the c-th columns.

## 5. Trusted base

- The Coq 8.16.1 kernel (including `vm_compute`), and the libraries Stdlib and Flocq as installed.
- Axioms: only those of the standard library reached through `Reals` (also used inside Flocq's definitions):
  `ClassicalDedekindReals.sig_forall_dec`, `ClassicalDedekindReals.sig_not_dec`,
  `FunctionalExtensionality.functional_extensionality_dep`, and `Classical_Prop.classic` where listed.
  The output of `Print Assumptions` for each theorem is tabulated in section 6.
- The reading of the C++ code, recorded in the comment on each definition.

**Not modelled**: memory exhaustion, libm accuracy, stream formatting of numbers (a parameter),
template overload resolution (each resolved call is modelled), `if.h` (does not compile when used), `utils/inferring.h` (type traits, not used), in `examples/stress-state` (not built, some of its headers do not exist) everything after the pipeline (the `reduce` over a `std::map`, for which there is no overload), `examples/parallel-jacobi-solver` (empty main), threads beyond the job structure of `parallel_execute`.

**Validation of the model**: `UnitTests.v` and `UnitTestsAttributes.v` run the assertions of `unitTest/*.cxx` on the
model in binary64 (with a Taylor-series libm for the eigen tests) and compare with the values the tests expect. This
found one misreading: `Areas.cxx` calls the overload `div(double, const Serie &)` (Serie divided by 2), where the model
had first used the Serie/Serie overload; C99 was restated and reproved after the correction.


## 6. Assumptions of each theorem (`Print Assumptions`)

**Closed under the global context (no axioms)** - C01_construction, C02_set_get, C02_get_set, C02_set_set, C02_number_laws, C03_item_writes_safe, C03_number_writes_safe, C04_read_refusal_partial, C05_history_storage, C06_copies, C06_clone_of_reached, C06_independence, C07_dimension_partial, C08_reCount, C09_map_number, C09_map_number_items, C10_map_array, C10_map_array_inconsistent, C10_map_array_empty, C11_map_fusion, C11_map_identity, C12_map_multi, C12_map_multi_refused, C13_exception_stops_numbers, C13_exception_stops_arrays, C13_exception_stops_map_array, C13_each_item_once_numbers, C13_each_item_once_arrays, C13_each_item_once_generic, C14_refused_partial, C14_array_callback_refused, C14_map_on_vector_reads_components, C15_filter, C15_filter_pure, C16_filter_laws, C16_filter_laws_numbers, C17_filter_reject_complement, C17_reject_is_filter_not, C18_multi_filter_aligned, C18_common_index, C18_multi_filter_refused, C19_partition, C20_find_first, C20_find_none, C20_find_throw, C20_find_pure, C20_find_pure_arrays, C21_findAll_filter, C22_forEach_multi, C22_forEach_multi_log, C22_forEach_multi_refused, C24_check_mask, C25_pipe_compose, C25_pipe_compose_pure, C23_reduce, C23_reduce_empty, C23_reduce_fold_left, C23_reduce_concat, C23_reduce_concat_arrays, C27_merge_concat, C27_merge_refused, C27_merge_associative, C27_merge_variadic, C27_merge_variadic_refused, C28_merge_interleave, C28_merge_variadic_interleave, C29_concat, C29_concat_refused, C30_concat_flattens, C30_concat_single_and_merge, C31_partition_n_lossless, C31_partition_n_multi_lossless, C32_partition_n_balanced, C32_partition_n_multi_balanced, C33_partition_n_parts_partial, C33_partition_n_count, C33_partition_n_multi_parts, C34_partition_n_aligned, C34_partition_n_refused, C35_zip, C35_zip_refused, C36_unzip_zip, C37_zip_unzip, C37_unzip, C37_unzip_refused, C38_unzip_total_partial, C44_sort_by_comparator, C44_swo_everywhere, C45_scalar_comparator_ignored, C100_print, C100_print_all, C39_schedule_independent, C39_complete_schedules, C40_item_wise, C41_first_failure, C41_some_failure, C41_all_jobs, C41_undefined, C41_no_cores, C42_refused_partial, C47_once_per_key, C47_clear, C47_throw_stores_nothing, C48_finite_map, C49_same_count_partial, C50_dimension_partial, C51_lookups, C51_reads, C52_setCount, C53_nameOfSerie, C53_contains_partial, C54_add_sub, C56_list_sum, C56_add_value, C56_shapes, C57_sub_overloads, C59_by_number, C59_by_factors, C59_by_serie, C59_shapes, C60_div, C60_shapes, C60_empty, C61_weighted_sum, C61_shapes, C62_edges, C66_meaning, C67_equality_mask, C67_approximate_mask, C67_equals_all_ones, C26_dimension_partial, C69_shapes, C70_refused, C72_mask_and_items, C74_refused, C75_fixed_vector, C77_symmetric_refuted, C77_refused, C80_transpose, C80_refused, C89_componentwise, C89_at, C83_vector_belongs_to_value, C83_inconsistent_shapes, C83_empty, C84_otherwise, C85_never_returns, C85_otherwise, C86_fringes_empty, C86_insar_otherwise, C86_fringes_otherwise, C87_refused, C88_refused, C92_names, C92_no_repetition, C92_other_dimension, C93_stored_partial, C93_first_answer, C93_no_answer, C93_exception, C93_adding, C94_vector, C94_symmetric_partial, C94_full_partial, C94_full_wrong, C94_scalar, C94_empty, C96_coordinates, C96_fewer_names, C97_never_resolves, C97_control_character_partial, C97_vectors_one_number, C97_empty_name, C97_requests, C98_valence, C98_missing_point, C98_otherwise, C99_normals, C99_area_undefined, C99_otherwise, C95_partial, C95_components_partial, C102_fills, C102_item_size_throws, C102_overflow, C103_refuted, C103_derived_undefined, C103_copy_undefined, C103_clear_leaks, C103_twice_undefined, C103_after_end, C103_dangling_undefined, C103_partial, C104_temporary_undefined, C104_other_requests, C104_partial, C106_components_partial, C106_components_otherwise, C106_eigen, C106_mesh, C106_user, C111_array_partial, C111_array_empty_refuted, C111_strings_partial, C111_serie_partial, C111_valid_showable, C111_serie_undefined, C111_series_partial, C111_own_stream, C112_dump_partial, C112_scalar_refuted, C113_print_array, C113_messages, C113_log, C114_lengths_covered, C121_parallel, C121_sources, C121_main, C121_count_refuted, C123_pipeline_partial, C124_cores_forget, C125_listing_partial, C125_resolved_partial, C125_resolved_refuted, C125_normals_refuted, C127_dump, C129_chain_partial, C129_chain_refuted, C129_display_partial, C129_display_refuted, C130_words, C130_exists, C130_standard, C131_refused, C131_passed_on, C131_no_calls, C138_refused, C138_pipeline, C147_toSerie, C147_createArray, C147_counts, C147_map, C147_contains, C147_find, C148_merge_map, C148_merge_map_arrays, C148_merge_filter, C148_find, C148_concat_map, C148_concat_filter, C148_filter_map, C148_filter_map_arrays, C148_reduce, C148_partition_n, C148_zip_filter, C149_decides, C149_items, C149_leftover_undefined, C150_special, C153_constructors, C153_unary, C153_binary, C153_several, C153_reader, C153_programs, C153_joins, C153_zip, C153_clone, C153_left_out, C154_components, C154_coordinates, C154_eigen, C154_normals, C154_valence, C154_request, C154_names, C154_built, C155_value, C155_shapes, C156_values, C156_joins, C156_div, C156_factors, C156_number, C157_conditions, C157_exceptions, C159_get, C159_display, C159_parts, C159_zip, C159_pipe, C162_partition_n, C162_several, C162_unzip, C162_insar, C162_eigen, C162_sort, C162_approximately, C162_parallel, C162_grids, C162_random, C164_length, C164_never, C164_runtime, C164_invalid, C164_callbacks, C164_chains, C165_exchange, C165_any_order, C165_same_name, C165_setCount, C167_components, C167_decomposer, C167_arithmetic, C167_mean.

**Axioms: `ClassicalDedekindReals.sig_forall_dec`, `FunctionalExtensionality.functional_extensionality_dep`** - C77_determinant, C83_sorted_and_agree, C150_number, C150_read_back, C150_same_text, C150_vector, C150_vectors, C150_not_injective.

**Axioms: `ClassicalDedekindReals.sig_not_dec`, `ClassicalDedekindReals.sig_forall_dec`, `FunctionalExtensionality.functional_extensionality_dep`, `Classical_Prop.classic`** - C04_read_refusal_refuted, C04_statement_false_refuted, C05_unrestricted_refuted, C06_clone_of_invalid_refuted, C07_dimension_refuted, C07_statement_refuted, C10_zero_size_results_refuted, C12_map_multi_empty_refuted, C14_scalar_callback_refused_refuted, C24_mask_sum, C33_partition_n_refuted, C38_unzip_total_refuted, C43_sort_scalar, C43_sort_nan_undefined, C44_sort_vector, C45_scalar_comparator_refuted, C42_refuted, C46_transparent_refuted, C46_nan_refuted, C46_transparent_partial, C49_same_count_refuted, C50_dimension_refuted, C53_contains_refuted, C55_commutation, C56_variadic_sum, C58_negate, C59_f64, C60_guard_f64, C60_no_nan, C61_linear, C62_scalar, C62_vector, C63_refuted, C63_partial, C64_normalize_scalar, C65_normalize_vector, C66_equivalence, C66_all, C101_refuted, C101_approx_zero_partial, C26_dimension_refuted, C68_scalar, C68_vector, C69_covariance, C70_quantile, C70_order_of_items, C71_monotone, C71_median, C72_exact, C72_partition_partial, C72_partition_refuted, C73_total, C73_nothing_lost, C73_intervals_partial, C73_intervals_refuted, C74_cross, C74_antisymmetric, C75_dot, C75_symmetric_bits, C76_single_partial, C76_refuted, C77_full_matrices_partial, C78_inverse, C78_refused, C79_inverse_partial, C79_refuted, C89_dot, C89_norm_partial, C89_norm_refuted, C90_packed_index, C91_reads, C91_stored_partial, C91_returned_refuted, C81_orthonormal_eigenvectors, C81_any_number_of_sweeps, C82_eigenpairs, C82_stops_before_the_cap, C83_other_dimensions_refuted, C84_normals, C84_swap, C84_missing_point, C85_refuted, C86_insar_partial, C86_insar_empty_refuted, C86_fringes, C86_periodic, C87_box_partial, C87_refuted, C88_from_points, C93_size_zero_refuted, C94_full_refuted, C94_clash_refuted, C94_two_dimensional_refuted, C97_refuted, C98_arithmetics, C99_area_partial, C99_area_empty_refuted, C99_area_refuted, C95_eigen_refuted, C95_mesh_refuted, C102_random, C102_uniform, C102_canonical, C102_wide_range, C102_refuted, C104_refuted, C105_between, C105_monotone, C105_extremes, C105_refuted, C106_refuted, C107_normalize_partial, C107_refuted, C107_below_one, C107_above_one, C107_tiny_range, C107_huge_range, C108_error, C108_finite, C108_monotone, C108_vector, C108_between_refuted, C108_overflow_refuted, C109_error, C109_cancellation_refuted, C110_symmetric, C110_variance, C110_constant_refuted, C110_nan_refuted, C111_stream_refuted, C114_symmetric_refuted, C114_squared_refuted, C114_squared_partial, C115_add_sub, C115_mult, C115_dot, C115_cross, C115_det, C115_mean, C115_limit_refuted, C116_antisymmetric, C116_self_partial, C116_self_refuted, C116_error, C116_orthogonal_refuted, C117_from_points_partial, C117_from_dims_partial, C117_last_refuted, C118_fringes_partial, C118_below_refuted, C118_number_refuted, C119_normalize_partial, C119_large_refuted, C119_small_refuted, C119_above_refuted, C120_error, C120_whole, C120_average_refuted, C122_linear_partial, C122_relative_partial, C122_fall_off_partial, C122_near_partial, C122_isotropic_refuted, C122_equilibrium_refuted, C123_exact_partial, C123_never_finite, C123_usable_refuted, C124_same_result_partial, C124_one_core_partial, C124_remembered_refuted, C126_inverse_sym_partial, C126_inverse_full_partial, C126_singular_partial, C126_singular_refuted, C126_scale_refuted, C128_bound_partial, C128_large, C128_symmetric, C128_bound_refuted, C129_sum_partial, C130_fraction, C130_values, C130_prefix, C130_reshape, C132_pi, C132_literals, C132_guards, C133_eigenpairs_partial, C133_diagonal_returned, C133_large_refuted, C133_small_refuted, C134_eigenvalues_exist, C134_exact_values, C134_f64_values_partial, C134_f64_refuted, C135_bins, C135_bins_of_range, C135_constant, C135_exact_refuted, C135_any_range_refuted, C136_sort, C136_quantile, C136_outliers, C136_minMax, C136_minMax_arrays, C136_bins_between, C136_bins, C136_exact_sums, C136_mean_refuted, C137_bins, C137_minMax, C137_exact, C139_error, C139_sign, C139_two, C139_singular, C139_regular_refuted, C139_three_refuted, C140_swap, C140_error, C140_degenerate, C140_refuted, C141_moments, C141_quantile, C141_outliers, C141_normalize, C141_bins, C141_mirror_refuted, C142_insar, C142_phase, C142_power_of_two, C142_negative_refuted, C143_rescaled, C143_equal_values_refuted, C144_affine, C144_rigid, C144_translation, C144_scale, C144_closed, C144_open_refuted, C145_error, C145_rank, C145_median, C145_outliers, C145_rank_refuted, C146_mean, C146_covariance, C146_dot, C146_cross, C146_det, C146_normals, C146_normalize, C146_quantile, C146_outliers, C146_dot_refuted, C147_contains_refuted, C148_merge_filter_interleaved_refuted, C148_filter_map_arrays_refuted, C148_sort, C149_mask, C149_monotone, C149_reflexive, C149_symmetric, C149_not_transitive, C151_triple_product, C151_double_cross, C151_dot_bilinear, C151_cross_bilinear, C151_parallelogram, C151_matrices, C151_plane_refuted, C152_guard, C152_eigen, C152_values, C152_scale, C152_units_refuted, C155_exact, C155_doubles, C155_not_the_sum, C156_opposite, C156_opposite_doubles, C157_number, C157_special, C157_distance_refuted, C157_arrays, C157_series, C157_inv_test, C158_error, C158_monotone, C158_signs, C158_order, C158_nan, C158_extremes, C159_sums, C159_masks, C159_filters, C160_products, C160_mean, C160_lengths, C160_determinants, C160_inverses, C160_eigenvalues, C160_box_refuted, C161_accuracy, C161_exact, C161_offset, C163_products, C163_products_exact, C163_stresses, C163_names, C166_minMax_scalar, C166_minMax_vector, C166_mean, C166_covariance, C166_items, C166_weights, C166_masks, C166_sort, C167_minMax.
