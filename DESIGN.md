# Formal model of MatrixMultiplicationHPX — design

## 1. Method

* **Executable model.** Every modelled C++ function is a total Gallina function that follows the
  source statement by statement.  Loops `for (i = lo; i < hi; i += st)` run over the explicit index
  list of that loop; a zero step in a non-empty loop is the outcome `EDiverge`.
* **Undefined behaviour is an outcome.** Programs end in `Ret v` or in `Err e`, where `e` says why:
  out-of-bounds `operator[]`, misaligned vector access, division by zero, missing `return`,
  uncaught exception, `std::terminate` (a bare `throw;`), divergence.
* **Shared memory and threads.** `prog A` (file `Conc.v`) is a free monad with single-cell read, write
  and allocate steps and a binary fork/join `Par`.  `step` is a small-step interleaving semantics
  (one memory access per step, any thread).  `must tol p m Q` says: every schedule of `p` from `m`
  terminates, never reaches `Err`, never has two enabled conflicting accesses (a data race) except on
  cells in `tol`, and ends with a value satisfying `Q`.
  `omp parallel for`, `hpx::async`+`then`+`wait_all` and `for_each_n(par, ..)` are all `Par` trees: any
  chunking a runtime chooses is one of the interleavings.
* **Data-race-freedom theorem.** For programs whose parallel branches have disjoint footprints the
  sequential execution `run` determines the result of every schedule (`drf_must`).
* **Arithmetic.** `NumOps T` is a record of operations (zero, one, add, mul) with **no laws**.
  Theorems that say which sum is computed in which order hold for it, hence for doubles.
  Theorems "equals the product" for kernels that re-associate sums assume semiring laws
  (class `Exact` of `Num.v`), i.e. exact arithmetic.  `MDouble.v` instantiates `T := binary64` of Flocq,
  every operation rounded to nearest even, with infinities and NaNs; error bounds are proved for it.
  `MContract.v` adds every way in which a compiler may fuse `a*b+c` into one rounding (`-march=native`
  in CMakeLists.txt), `MFast.v` every order of summation (`-ffast-math` in otherExperiments/Makefile).
* **Index arithmetic** uses unbounded `nat` (array kernels) or `Z` with explicit 64-bit wrapping
  (scheduler, allocator).  `MWord*.v` repeat the application and its algorithms with every index and
  counter computed modulo 2^64; C74 says when the two agree.

## 2. Files (rocq/theories)

Models (definitions only, no proofs; every definition cites the file and lines it models):

| file | models |
|---|---|
| `Base.v`, `Conc.v` | outcomes, loops; memory, threads, interleavings, races |
| `Num.v` | `NumOps` (operations without laws), `UnitLaws`, `Exact` |
| `MDouble.v`, `MContract.v`, `MFast.v` | binary64; fused multiply-adds; -ffast-math |
| `MUtil.v` | src/util: transpose, identity, printing |
| `MNaive.v`, `MKernels.v` | src/reference_kernels/naive.hpp, kernel.hpp; components/multiplier.cpp |
| `MRecursive.v` | components/recursive.cpp, single.cpp |
| `MSchedule.v` | static_improved.cpp, matrix_multiply_work.hpp, pseudodynamic.cpp |
| `MBalance.v` | the relative balance criterion of static_improved.cpp in doubles |
| `MIter.v`, `MCeil.v` | index_iterator.hpp (both copies), block counts through `double` |
| `MVariants.v` | algorithms.hpp, looped.hpp, semi.cpp |
| `MTiled.v` | kernel_tiled.cpp, combined.cpp |
| `MKTest.v` | kernel_test.cpp |
| `MTile.v` | src/memory_layout |
| `MApp.v` | matrix_multiply.cpp (options, `hpx_main`, `main`), proposal.cpp |
| `MWord.v`, `MWord2.v`, `MWord3.v`, `MWordApp.v` | the application and its algorithms with 64-bit indices |
| `MExcept.v`, `MAlign.v` | exception classes; aligned_allocator.hpp, `align` of benchmark.cpp |
| `MExp.v`, `MExp2.v`, `MBench.v`, `MBenchFast.v` | otherExperiments: plain kernels, AVX and assembler kernels, `main`; its two translation units |
| `MReport.v` | the figures printed by matrix_multiply.cpp, kernel_tiled.cpp, combined.cpp and benchmark.cpp |
| `MPrint.v` | `os << x` for doubles and unsigned integers |
| `MTranscript.v` | the standard output of matrix_multiply.cpp and benchmark.cpp, the searches and runs of evaluate.py, the runs in README.md |
| `MVerbose.v` | what is printed with --verbose, also by recursive.cpp, static_improved.cpp, kernel_tiled.cpp, combined.cpp, proposal.cpp |
| `MComponents.v` | the components multiplier and recursive, the names they are registered under and found by (single.cpp, static_improved.cpp, recursive.cpp, matrix_multiply.cpp) |
| `MRandom.v` | the numbers drawn in matrix_multiply.cpp and create_random_matrix.hpp |
| `MCmdline.v` | the options of matrix_multiply.cpp and how they are parsed, the command lines of evaluate.py, README.md and src/tests/tests.cpp |
| `MTests.v` | src/tests: `hpx_main` of the tests and the 76 cases that multiply matrices |
| `MTests2.v` | src/tests/test_tile_view.cpp and test_iterate_tiles.cpp, with the functions under test as parameters |
| `MLearn.v` | learning/MetaProgrammingCPP.cpp |

Specifications used in theorem statements, independent of the models' helpers: `Spec.v` (product,
transpose, identity), `SpecSched.v` (packages, covering, halving chains), `SpecIter.v`, `SpecTile.v`,
`SpecTiled.v`, `SpecDet.v`, `SpecApp.v`, `SpecRound.v`, `SpecContract.v`, `SpecExact.v`, `SpecExp.v`,
`SpecExp2.v`, `SpecBench.v`, `SpecTests.v`, `SpecTests3.v`, `SpecDomain.v`, `SpecWord.v`, `SpecCount.v`,
`SpecReport.v`, `SpecLayout.v`, `SpecLearn.v`, `SpecLearn2.v`, `SpecFast.v`, `SpecPrint.v`
(reading numerals, closest decimal), `SpecTranscript.v` (what a regular expression matches),
`SpecBalance.v`, `SpecScale.v`, `SpecCmdline.v`, `SpecCmdline2.v` and `SpecCmdline3.v` (command lines and their meaning, the options with a value, shortened names),
`SpecVerbose.v` (what a verbose line says), `SpecComponents.v` (what the name service may answer),
`SpecRandom.v` (closed form of the random numbers), `SpecSpecial.v` (inputs of an entry, NaNs and infinities).

Proofs: `ConcFacts.v` (sequential run determines every schedule), `Erase.v` (a racy flag that does not
influence the result), `LoopFacts.v`, `Tools*.v`, `P*.v`.
Property theorems: `Properties*.v`, each closed by `exact`, with `Print Assumptions` beneath.
Concrete cases meeting the hypotheses: `Examples*.v`.

## 3. Per property: what is modelled and how it is proved

* C01, C02 naive kernels: rows as parallel tasks over a shared result; footprints are rows; sequential
  run computed with an update-list lemma.
* C03–C07 block kernels: pure functions with checked accesses on local vectors; loop invariants by
  update lists.  C06: first failing access exhibited.
* C08–C12 recursion: one array per recursive call, four parallel children plus continuation each;
  induction on the depth.  C10–C12: evaluation of the same model at the offending parameters.
* C13–C18 scheduler: Z model with wrapping; invariants over the loop; measure `sum n^3`.
  The double comparison is an arbitrary boolean function of (difference, minimum).
* C19 schedule + recursion composed.
* C20, C21 algorithms; C22, C23 looped; C24, C25 semi: iterators modelled as iterated `increment`.
* C26–C28 combined; C29, C30 kernel_tiled; C31 kernel_test: constants as a record with the
  divisibility facts that `verify_blocking_setup` checks; instantiated with the shipped constants.
* C32–C35 iteration library, any dimension (lists as indices).
* C36: Flocq, round-to-nearest-even of a quotient of integers below 2^53.
* C37–C41 memory_layout; C42, C43 util; C44 lifetime model of the returned pointer;
  C45 allocator addresses in Z modulo 2^64; C46 printing as list of lines.
* C47, C48 application: decision functions of `main`/`hpx_main`.
* C49: error bound over the summation trees of the variants.
* C50: corollary of the order-exact theorems.
* C51, C59–C62 plain experiment kernels; C63–C66 AVX and assembler kernels: registers are lists of four
  lanes, aligned loads and stores check the address modulo 32, loops over blocks of shared buffers.
  Each kernel: result with its order of summation, the sizes it needs, and the outcome at other sizes.
* C52 benchmark buffers; C67 the benchmark's `main` composed with all kernels, including the exact
  check `==` on doubles (all sums are integers below 2^53) and the exit status.
* C53 looped at block sizes that do not divide; C54 naive kernels on short inputs (`std::terminate`).
* C55, C56 make_tiled at zero tiles and short arrays; C57 proposal never returns (C40 composed).
* C58 the whole application: options, dispatch, computation, printing and check.
* C68 contraction: the order of summation of every variant is data (`SpecContract.v`) that does not depend
  on the numbers; every way of fusing the multiply-adds of such an order satisfies the same bound.
* C69 integer matrices: all partial sums are integers below 2^53, so no order and no contraction rounds.
* C70–C72 test suites: the cases are a table transcribed from src/tests; every contraction and every
  sequence of random draws in [0,1) passes; what passing says and what it cannot see.
* C73 exact domains: the earlier theorems inside; outside, matrices of ones (or a transposed unit pair) for which
  every schedule fails or returns a wrong entry, by induction on the recursion and on the schedule's packages.
* C74 64-bit indices: the word program is the unbounded program (equality of programs) if the largest
  intermediate index stays below 2^64; a wrapping N*N always ends in the range check of `at()`; the counter of
  `looped` wraps at sizes that are otherwise handled.
* C75 the generic programs instantiated with formulas over unknowns; the order of each algorithm is fixed as in
  C68 and the formula of an order is counted by induction.
* C76 figures: a calculus of "equal up to n roundings" on Flocq's operations; the programs that ignore
  --repetitions are equal by computation.
* C77 the tests as decision procedures: `close15` holds only for equal doubles because the tolerance is below
  2^-53; the verdict is then computed for arbitrary functions under test; the wrong function that passes alters
  one tile that is not a corner.
* C78 the recursion over the dimension unfolded to the list of tuples; the output by induction over that list.
* C79, C80 an invariant of rearrangement: a term is a sum of the products with indices `ks`, each once, besides
  zeros (`prods` in `PFast.v`).  Error, finiteness and exactness follow from it by induction over the term.  Each
  kernel runs on terms, and what it leaves satisfies the invariant.
* C81 printing: the digits are an integer quotient rounded to nearest; closeness to the exact value follows in the
  rationals, and so does the rule for ties; the form of the numeral is read off its characters; that 15 digits
  survive by comparing the spacing of decimals with that of doubles.
* C82, C83 output: a text is a list of pieces; a search of evaluate.py depends only on the pieces that hold a colon
  behind the right word, which is decided by computation, the numbers having no such character.  Pieces may
  arrive in any order (two processes' streams, `hpx::cout` and `std::cout`).
* C84 the documented runs: C58 at their options, and C83.
* C85 balance: a split gives both localities at least two packages; a most loaded locality that has a package too
  large to be split with profit bounds the difference by half of its own work.
* C86 scale: one iteration commutes with scaling.  For 2^e localities a difference left over would be less than half
  of the smallest package of a most loaded locality, which divides both its work and (or is at least twice) the
  average.  Equal shares for up to 128 localities: one small schedule each by computation, then scaled.

* C87 command lines: the parser and the relation `sets` agree by induction over the words; the words of evaluate.py
  are found by cutting its text at the blanks, the numbers having none.
* C88 verbose output: the lines of one recursion by induction on the depth, each entry being in one quarter; packages by
  C14 and C15.  A piece of output is what one `<<` chain ending in `std::flush` or `std::endl` writes; the pieces
  of parallel tasks may arrive in any order, but the characters of two pieces are not mixed.
* C89 names: every component registered under one of the run's names has the same members, so every answer makes the
  program with names equal to the one without, by induction over the recursion.  The state of the name service is the
  set of all components of the run; that a component is registered before it is asked for follows from the order in the
  source (`register_as` before `async`).
* C90 random matrices: the order of the multiplier modulo 2^31-1 from the prime divisors of 2^31-2 (by computation) and
  Bezout's identity; neighbouring high digits have low digits that differ by the inverse of the multiplier, which bounds
  the distance of two fractions from below; rounding errors as in C76.
* C91 special values: by the order of summation of C68; a NaN or an infinity survives every further operation by cases on
  Flocq's operations, and partial sums below 2^1023 do not overflow by the error bound of C68.

## 4. Trusted base

* Coq 8.16.1 kernel; `Print Assumptions` of every theorem is listed in §6.
* The correspondence between the C++ sources and the `M*.v` files (line citations there).
* The interleaving semantics: C++ guarantees it for race-free programs, and race-freedom is proved
  in the same model.
* The runtime primitives: OpenMP loops, HPX futures, `wait_all`, `for_each_n` run every task exactly
  once and join; network transport delivers values unchanged.  The name service answers with a
  component registered under the name asked for (C89).  Models other than `MComponents.v` call the components directly.
* Array index arithmetic does not exceed 2^64 in the parts without a word model: src/util, src/memory_layout,
  proposal.cpp, the tests and otherExperiments (vectors that exist in memory have fewer than 2^61 doubles).  For
  the application and its algorithms this is theorem C74.
* `operator<<` prints a double like `printf("%.*g")` does in glibc: the exact value rounded to nearest, ties to even
  (`MPrint.v`).  Python's `re` finds the leftmost match with the shortest group (C83 relates the model to that).
* boost::program_options (not part of /repo) as modelled in `MCmdline.v`: style unix_style with shortened names,
  `lexical_cast` for unsigned numbers, boost's names of truth values.  `strtod` and the words that HPX accepts for itself
  are parameters; the theorems hold for all of them.
* `std::default_random_engine` and `std::uniform_real_distribution` (not part of /repo) as modelled in `MRandom.v` after
  libstdc++ and libc++; used by C90 only.
* Boost.Test's `BOOST_CHECK_CLOSE` and `BOOST_CHECK_SMALL` (not part of /repo) as modelled in `MTests.v`.
* Flocq's definition of binary64 as the meaning of `double`; `MContract.v` and `MFast.v` as the
  meaning of the compiler flags.  The theorems on otherExperiments other than C79 and C80 (C67 among them) are about the
  order written in the source.

## 5. Not modelled

* The clocks (a duration is an argument of C76 and C83), output with --help, response files
  and short options on the command line, build scripts; evaluate.py except its command lines, runs and searches (C83, C84, C87).
* Random engines other than those of libstdc++ and libc++ (C90).  All other theorems hold for any draws (C58: finite, not
  negative; C70: in [0,1]).
* Wrapping of array indices outside of the scheduler, the allocator and `MWord*.v` (§4).
* src/memory_layout/tile_view_iterator.hpp (included nowhere; its template arguments do not fit).
* src/tests/tests.cpp except the words it hands to HPX (C87).

## 6. Assumptions of the theorems

`Print Assumptions` reports *Closed under the global context* for every theorem named in MANIFEST.json
except the following groups.

The theorems of C74 equate programs, whose continuations are functions, and use exactly one axiom of Coq's
standard library, `FunctionalExtensionality.functional_extensionality_dep`:

`C74_no_wrap_same`, `C74_ordinary_sizes`, `C74_end_to_end`, `C74_square_wraps`, `C74_looped_wraps`,
`C74_no_size_bound_refuted`, `C80_program`, `C89_single_same`, `C89_application_same`,
`C89_single_product`, `C89_pseudodynamic_same`, `C89_pseudodynamic_product`, `C89_stale_refuted`.

These speak about doubles and use Coq's real numbers:

`C36_double_ceil_exact`, `C36_double_zero_block`, `C36_model_count_is_computed`, `C36_bound_is_sharp`,
`C43_identity_double`, `C47_tolerance`, `C47_accepted_iff`, `C47_accepted_is_close`,
`C47_nan_infinite_rejected`, `C47_identical_accepted`, `C47_real_reading_refuted`,
`C47_positive_verdict`, `C49_rounding_error`, `C49_variants_agree`, `C49_check_succeeds`,
`C58_end_to_end_double`, `C67_right_double`, `C67_right_shipped`, `C67_wrong_reported_refuted`,
`C68_contracted_error`, `C68_contracted_agree`, `C68_uncontracted`, `C68_same_bits_refuted`,
`C69_integer_exact`, `C69_integer_value`, `C69_integer_same_bits`, `C69_larger_bound_refuted`,
`C70_suites_pass`, `C70_semi_two_undefined`, `C70_literals`, `C71_blind_to_swapped_factors`,
`C71_blind_to_exchanged_blocks`, `C72_passing_certifies`, `C72_passing_certifies_all`, `C72_close_zero`,
`C76_figures_accurate`, `C76_flops_exact`, `C76_flops_near`, `C76_no_repetitions`, `C76_no_time`,
`C76_performance_of_the_run_refuted`, `C76_benchmark_fast`, `C76_benchmark_rate`,
`C77_close_means_equal`, `C77_view_verdict`, `C77_iterate_verdict`, `C77_suites_pass`,
`C77_shipped_suites_pass`, `C77_passing_means_tiled_refuted`, `C79_kernels`, `C79_kernels_finite`,
`C79_all_block_sizes`, `C79_intrinsics`, `C79_application`, `C79_application_finite`,
`C79_order_irrelevant_refuted`, `C80_identity_exact`, `C80_check_exact`, `C81_closest`,
`C81_half_to_even`, `C81_form`, `C81_integers`, `C81_decimals_survive`, `C81_distinct_refuted`,
`C82_output`, `C82_output_blocked4`, `C82_output_nothing`, `C83_times`, `C83_performance`, `C83_plotted`,
`C83_performance_refuted`, `C83_unknown`, `C84_evaluate`, `C84_readme`, `C85_relative_criterion`,
`C85_guarantee`, `C85_percent_refuted`, `C86_scale_doubles`, `C87_command`, `C87_rejected`,
`C87_negative_refuted`, `C87_evaluate`, `C87_evaluate_stops`, `C87_evaluate_runs`, `C87_readme`,
`C87_readme_runs`, `C87_readme_combined_refuted`, `C88_level_zero`, `C88_times`, `C88_performance`,
`C88_plotted`, `C88_performance_refuted`, `C88_single_lines`, `C88_pseudodynamic_lines`,
`C88_lines_refuted`, `C88_schedule`, `C88_inputs`, `C88_result`, `C88_padding`, `C88_where`,
`C88_differences`, `C88_reference`, `C90_engine`, `C90_draws`, `C90_guard`, `C90_apart`, `C90_distinct`,
`C90_end_to_end`, `C90_suites_pass`, `C90_check_exact`, `C90_single_odd_noticed`,
`C90_pseudodynamic_odd_noticed`, `C91_nan`, `C91_finite`, `C91_no_overflow`, `C91_no_minus_zero`,
`C91_minus_zero_fused_refuted`, `C91_same_overflow_refuted`.

For each of these it lists exactly the four axioms of Coq's standard library
`ClassicalDedekindReals.sig_not_dec`, `ClassicalDedekindReals.sig_forall_dec`,
`FunctionalExtensionality.functional_extensionality_dep`, `Classical_Prop.classic`.
For `C72_every_check`, `C81_unsigned`, `C81_zero` it lists only `ClassicalDedekindReals.sig_forall_dec` and
`FunctionalExtensionality.functional_extensionality_dep`.  No other axiom is used, and none is declared in this development.
