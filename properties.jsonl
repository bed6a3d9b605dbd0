{"id": "C01", "title": "naive_matrix_multiply returns the product", "statement": "naive_matrix_multiply(N,A,B) returns a vector of N*N entries whose entry (i,j) is the left-to-right sum over k=0..N-1 of A[i,k]*B[k,j], starting from 0, and it does so whatever order and interleaving the OpenMP threads run the rows in; no data race is possible.", "quantifier": "every N, all vectors A and B with N*N entries, every arithmetic (no algebraic law assumed, so also rounded doubles), every thread interleaving", "why_tests_cant": "tests run a handful of sizes on one schedule; the claim ranges over every size, content and thread interleaving", "anchors": ["src/reference_kernels/naive.hpp:naive_matrix_multiply"]}
{"id": "C02", "title": "naive_matrix_multiply_transposed returns A times B-transposed", "statement": "naive_matrix_multiply_transposed(N,A,B) returns N*N entries, entry (i,j) being the left-to-right sum over k of A[i,k]*B[j,k]; this equals naive_matrix_multiply(N,A,transpose_matrix(N,B)) entry for entry and bit for bit, for every thread interleaving.", "quantifier": "every N, all A and B with N*N entries, every arithmetic, every thread interleaving", "why_tests_cant": "unbounded sizes, contents and schedules", "anchors": ["src/reference_kernels/naive.hpp:naive_matrix_multiply_transposed", "src/util/transpose_matrix.hpp:transpose_matrix"]}
{"id": "C03", "title": "kernel computes the requested block", "statement": "kernel(x,y,bs,N,A,B) started on a zeroed bs*bs vector fills it with the block of A*B whose upper left corner is (x,y), each entry summed left to right, whenever x+bs<=N and y+bs<=N; it never throws and never touches memory outside the vectors.", "quantifier": "every N, x, y, bs with the block inside the matrix, all A and B of N*N entries, every arithmetic", "why_tests_cant": "unbounded block positions, sizes and contents", "anchors": ["src/reference_kernels/kernel.hpp:kernel"]}
{"id": "C04", "title": "kernel_transposed computes the requested block", "statement": "kernel_transposed on a zeroed bs*bs vector fills it with the (x,y) block of A*B-transposed, each entry summed left to right, whenever the block lies inside the matrix; no out-of-bounds access happens.", "quantifier": "every N, x, y, bs with the block inside the matrix, all A and B of N*N entries, every arithmetic", "why_tests_cant": "unbounded block positions, sizes and contents", "anchors": ["src/reference_kernels/kernel.hpp:kernel_transposed"]}
{"id": "C05", "title": "kernel_transposed_blocked computes the requested block", "statement": "If 4 divides the block size, block_input is positive and divides N, and the block lies inside the matrix, kernel_transposed_blocked fills a zeroed vector with the (x,y) block of A*B-transposed, each entry being the sum over consecutive chunks of block_input products of the chunk's left-to-right sum (a fixed summation order, hence the exact product under exact arithmetic); all accesses are in bounds.", "quantifier": "every N, x, y, block size, block_input meeting the conditions, all A and B of N*N entries, every arithmetic; exactness for every commutative semiring", "why_tests_cant": "register-blocked loop nest: every size/offset/divisor combination matters", "anchors": ["src/reference_kernels/kernel.hpp:kernel_transposed_blocked"]}
{"id": "C06", "title": "kernel_transposed_blocked is undefined outside its divisibility conditions", "statement": "For N > 0 and block_input > 0, kernel_transposed_blocked performs an out-of-bounds access when the block size is positive and not a multiple of four, or when block_input does not divide N and the requested block includes the last matrix row. More exactly, for a block size that is a multiple of four the call stays inside the matrices if and only if the last chunk of block_input values of the block's last row does, and then every entry is the dot product that runs on into the following matrix row.", "quantifier": "every N, block position, block size and block_input violating the conditions, all A and B of N*N entries", "why_tests_cant": "an out-of-bounds read usually goes unnoticed in a test run", "anchors": ["src/reference_kernels/kernel.hpp:kernel_transposed_blocked"]}
{"id": "C07", "title": "calculate_submatrix returns the block for every kernel choice", "statement": "multiplier::calculate_submatrix(x,y,bs) returns bs*bs entries equal to the (x,y) block of A*B (or of A*B-transposed when constructed with transposed=true) for every combination of transposed, block_input and bs that selects a kernel whose size conditions hold.", "quantifier": "every N, x, y, bs, block_input, transposed flag; all A, B; exact arithmetic", "why_tests_cant": "the kernel is selected by three parameters; all combinations and sizes must agree", "anchors": ["src/variants/components/multiplier.cpp:multiplier::calculate_submatrix"]}
{"id": "C08", "title": "distribute_recursively assembles the block under every task interleaving", "statement": "If the block size halves evenly until it is at most block_result, and the leaf size meets the kernel's conditions, distribute_recursively(x,y,n) returns exactly the (x,y) block of the product, whatever order and interleaving the asynchronous sub-tasks and their continuations run in; continuations never race.", "quantifier": "every N, x, y, n, block_result, block_input, transposed; every interleaving of the recursively spawned tasks at memory-access granularity; all A, B", "why_tests_cant": "the tree of tasks is unbounded and schedules cannot be enumerated by tests", "anchors": ["src/variants/components/recursive.cpp:recursive::distribute_recursively", "src/variants/components/recursive.cpp:recursive::extract_submatrix"]}
{"id": "C09", "title": "algorithm single returns the matrix product", "statement": "single::matrix_multiply returns the N*N product (A*B or A*B-transposed) after any positive number of repetitions when N halves evenly down to a leaf not larger than block_result meeting the kernel conditions; with zero repetitions it returns the zero matrix.", "quantifier": "every N of the stated form, block_result, block_input, transposed, repetitions, all A, B, every schedule", "why_tests_cant": "unbounded sizes, parameters and schedules", "anchors": ["src/variants/single.cpp:single::matrix_multiply"]}
{"id": "C10", "title": "block_result = 0 does not disable blocking", "statement": "The option text says block-result can be set to 0 to disable blocking; with block_result = 0 algorithm single returns the all-zero matrix for every N, whatever A and B are.", "quantifier": "every N, all A and B, every schedule, every repetition count", "why_tests_cant": "a test shows one size; the claim is that no input at all gives a product other than zero", "anchors": ["src/variants/components/recursive.cpp:recursive::distribute_recursively", "src/matrix_multiply_application/matrix_multiply.cpp:main"]}
{"id": "C11", "title": "distribute_recursively on an odd size is wrong", "statement": "For every odd block size n larger than block_result the result of distribute_recursively has the last n-th row region never written: entries are placed with stride n-1 and the product is not returned (there are A, B for which it differs).", "quantifier": "every odd n greater than block_result, every schedule", "why_tests_cant": "universally quantified over sizes and schedules", "anchors": ["src/variants/components/recursive.cpp:recursive::distribute_recursively", "src/variants/components/recursive.cpp:recursive::extract_submatrix"]}
{"id": "C12", "title": "the default command line reads out of bounds", "statement": "Running the application with its default options (algorithm single, N=4, transposed, block-result 128, block-input 128) performs an out-of-bounds read of the input matrices before any result is produced, for all matrix contents.", "quantifier": "all 4x4 inputs A and B", "why_tests_cant": "the read goes past a heap buffer and is typically silent", "anchors": ["src/matrix_multiply_application/matrix_multiply.cpp:main", "src/variants/components/multiplier.cpp:multiplier::calculate_submatrix", "src/reference_kernels/kernel.hpp:kernel_transposed_blocked"]}
{"id": "C13", "title": "create_schedule terminates", "statement": "create_schedule finishes for every N, every number of localities, every min_work_size, every bound on absolute and relative work difference, even when the requested balance is unreachable.", "quantifier": "every N with N*N below 2^62, every positive locality count, every parameter setting, every outcome of the floating-point comparison", "why_tests_cant": "termination for all parameters cannot be tested", "anchors": ["src/variants/static_improved.cpp:static_improved::create_schedule"]}
{"id": "C14", "title": "work packages never overlap and stay inside the matrix", "statement": "The packages produced by create_schedule are pairwise disjoint squares inside the N x N result, so no result entry is ever computed or written by two packages.", "quantifier": "every N, locality count and parameter setting (no divisibility condition) (N*N < 2^62)", "why_tests_cant": "all schedules for all parameters", "anchors": ["src/variants/static_improved.cpp:static_improved::create_schedule", "src/variants/static_improved.cpp:static_improved::insert_submatrix"]}
{"id": "C15", "title": "work packages cover the whole matrix for power-of-two sizes", "statement": "If N is min_work-compatible (every size that gets split is even, in particular N a power of two with min_work_size at least 1), the packages cover every entry of the result exactly once.", "quantifier": "every N = 2^e and every min_work_size >= 1, every locality count, every balance bound (N*N < 2^62)", "why_tests_cant": "all parameter settings; loop length depends on the parameters", "anchors": ["src/variants/static_improved.cpp:static_improved::create_schedule"]}
{"id": "C16", "title": "work packages can lose entries", "statement": "For odd sizes, or with min_work_size = 0 and zero balance bounds, create_schedule drops entries of the result: there are parameter settings (N=1 on one locality; N=3 on two localities) where some entry belongs to no package and the returned product entry stays 0.", "quantifier": "existence, plus the characterisation that entries can only be lost by splitting an odd-sized package", "why_tests_cant": "the tests only use power-of-two sizes on one locality", "anchors": ["src/variants/static_improved.cpp:static_improved::create_schedule"]}
{"id": "C17", "title": "imbalance never grows and the loop stops only for a reason", "statement": "Each step of create_schedule leaves the maximum work not larger and the minimum work not smaller; on return either the balance constraint holds or no package on a most-loaded locality can be split without making the difference worse or falling below min_work_size.", "quantifier": "every N, locality count, parameter setting (N*N < 2^62)", "why_tests_cant": "statement about every iteration of a data-dependent loop", "anchors": ["src/variants/static_improved.cpp:static_improved::create_schedule", "src/variants/static_improved.cpp:static_improved::fulfills_constraints"]}
{"id": "C18", "title": "work accounting is exact and free of wrap-around", "statement": "During create_schedule the recorded work totals always sum to N*N, each is at least the area of that locality's packages, and no unsigned subtraction wraps and no signed conversion overflows while N*N < 2^62.", "quantifier": "every N with N*N < 2^62, every parameter setting, every iteration", "why_tests_cant": "wrap-around needs huge inputs", "anchors": ["src/variants/static_improved.cpp:static_improved::create_schedule"]}
{"id": "C19", "title": "pseudodynamic returns the product on any number of localities", "statement": "pseudodynamic returns the matrix product for every positive locality count, every balance parameter and every interleaving of the package tasks and their insert continuations, if the schedule splits only even sizes and each package meets the recursive conditions; the result does not depend on the number of localities. Without any law of arithmetic, the result is the same matrix in every interleaving and every entry is summed in the order of an admissible leaf.", "quantifier": "every locality count, parameters, N of the stated form, A, B, every schedule, every positive repetition count (N*N < 2^62)", "why_tests_cant": "distributed schedules cannot be enumerated", "anchors": ["src/variants/static_improved.cpp:static_improved::matrix_multiply", "src/variants/static_improved.cpp:static_improved::insert_submatrix", "src/variants/pseudodynamic.cpp:pseudodynamic::matrix_multiply"]}
{"id": "C20", "title": "algorithm algorithms returns the product when blocks divide N", "statement": "algorithms::matrix_multiply with transposed B returns the N x N product if block_result and block_input are positive and divide N, for every interleaving of the parallel result blocks, with no data race.", "quantifier": "every N, block sizes dividing N, A, B, every schedule", "why_tests_cant": "all sizes and all schedules", "anchors": ["src/variants/algorithms.hpp:algorithms::matrix_multiply", "src/variants/algorithms.hpp:index_iterator", "src/variants/algorithms.hpp:dim_index_iterator"]}
{"id": "C21", "title": "algorithm algorithms misbehaves when blocks do not divide N", "statement": "block_result = 0 divides by zero, block_input = 0 never terminates, and for positive block sizes where block_result does not divide N, or block_input does not divide N, the run performs an out-of-bounds access.", "quantifier": "every N > 0 and all block sizes violating divisibility", "why_tests_cant": "out-of-bounds reads are silent and divergence cannot be observed by a finite test", "anchors": ["src/variants/algorithms.hpp:algorithms::matrix_multiply"]}
{"id": "C22", "title": "algorithm looped returns the product when blocks divide N", "statement": "looped::matrix_multiply returns, for positive block sizes dividing N, exactly the same bits as naive_matrix_multiply_transposed (same summation order), for every N, A, B.", "quantifier": "every N and block sizes dividing N, every A, B, every arithmetic", "why_tests_cant": "all sizes and block combinations", "anchors": ["src/variants/looped.hpp:looped::matrix_multiply", "src/variants/looped.hpp:iterate_indices"]}
{"id": "C23", "title": "algorithm looped silently returns zeros when a block exceeds N", "statement": "If block_result > N or block_input > N (both positive), looped returns the all-zero matrix, whatever A and B are; this includes the default block size 128 for every N < 128.", "quantifier": "every N and larger block, all A, B", "why_tests_cant": "quantified over all inputs", "anchors": ["src/variants/looped.hpp:iterate_indices", "src/variants/looped.hpp:looped::matrix_multiply"]}
{"id": "C24", "title": "algorithm semi returns the product when 4 and block_input divide N", "statement": "semi::matrix_multiply returns the N x N product A*B-transposed if 4 divides N and the positive block_input divides N, all accesses in bounds.", "quantifier": "every N divisible by 4, every divisor block_input, A, B", "why_tests_cant": "all sizes", "anchors": ["src/variants/semi.cpp:semi::matrix_multiply"]}
{"id": "C25", "title": "algorithm semi is undefined for other sizes", "statement": "For N > 0 and block_input > 0, if 4 does not divide N or block_input does not divide N, semi performs an out-of-bounds access; with block_input = 0 it never terminates for N >= 4 and performs an out-of-bounds access for N = 1, 2, 3.", "quantifier": "every N and block_input violating the conditions, all A, B", "why_tests_cant": "silent out-of-bounds reads; divergence", "anchors": ["src/variants/semi.cpp:semi::matrix_multiply"]}
{"id": "C26", "title": "algorithm combined returns the product for every N in one repetition", "statement": "combined::matrix_multiply with repetitions = 1 returns the N x N product A*B for every N (no divisibility condition; padding is handled), for every interleaving of the parallel L3 blocks; no access is out of bounds and the only race is on the write-only logging flag.", "quantifier": "every N, A, B (exact arithmetic), every schedule; any cache-block constants that pass verify_blocking_setup with register blocks dividing L1", "why_tests_cant": "nine nested blocked loops over three tiled layouts; tests cover a few sizes", "anchors": ["src/variants/combined.cpp:combined::matrix_multiply", "src/variants/combined.cpp:combined::combined"]}
{"id": "C27", "title": "combined accumulates over repetitions", "statement": "With repetitions = r, combined returns r times the product (the accumulator is never cleared), so for r >= 2 the result is not the product in general.", "quantifier": "every N, r, A, B, every schedule", "why_tests_cant": "unbounded repetitions", "anchors": ["src/variants/combined.cpp:combined::matrix_multiply"]}
{"id": "C28", "title": "combined has a data race on its logging flag", "statement": "Whenever the padded matrix has at least two L3 blocks (N > 256 for the shipped constants), two parallel tasks can access the captured local `first` at the same time with at least one write: a data race, i.e. undefined behaviour.", "quantifier": "every N giving two or more parallel blocks: there is a schedule that reaches the race", "why_tests_cant": "races depend on the schedule", "anchors": ["src/variants/combined.cpp:combined::matrix_multiply"]}
{"id": "C29", "title": "kernel_tiled returns the product for every N", "statement": "kernel_tiled::matrix_multiply returns the N x N product A*B for every N and every positive repetition count (the accumulator is cleared each repetition), for every interleaving of the OpenMP loop over L3 blocks, without races, out-of-bounds or misaligned vector accesses.", "quantifier": "every N, A, B, repetitions, every schedule, all positive blocking constants accepted by verify_blocking_setup whose L1 blocks are multiples of the register blocks (5 x 8); without the latter the claim is refuted by a witness", "why_tests_cant": "all sizes, schedules", "anchors": ["src/reference_kernels/kernel_tiled.cpp:kernel_tiled::matrix_multiply", "src/reference_kernels/kernel_tiled.cpp:kernel_tiled::kernel_tiled"]}
{"id": "C30", "title": "kernel_tiled and kernel_test ignore the transposed flag", "statement": "With transposed = true the two kernels still compute A*B, so for a non-symmetric B they disagree with the reference the application checks against; the application's check cannot notice because it always uses B = identity.", "quantifier": "every N, A, B; existence of a disagreement for N >= 2", "why_tests_cant": "the application's own check is blind to it", "anchors": ["src/reference_kernels/kernel_tiled.cpp:kernel_tiled::matrix_multiply", "src/reference_kernels/kernel_test.cpp:kernel_test::matrix_multiply", "src/matrix_multiply_application/matrix_multiply.cpp:main"]}
{"id": "C31", "title": "kernel_test is correct exactly for sizes that fit its padding", "statement": "kernel_test (padding 64, largest k block 512) behaves as follows for N x N inputs and at least one repetition. If 4 divides N and N rounded up to a multiple of 512 is at most N+63, it returns the product A*B on every schedule. If 4 divides N > 0 and the rounded-up size exceeds N+63, every run performs an out-of-bounds access. If 4 does not divide N, every run performs a misaligned vector load. With zero repetitions it returns the zero matrix for every N.", "quantifier": "every N, A, B, repetition count, every schedule; the product also for any block constants and padding that fit", "why_tests_cant": "only a few sizes can be run and out-of-bounds reads are silent", "anchors": ["src/reference_kernels/kernel_test.cpp:kernel_test::matrix_multiply"]}
{"id": "C32", "title": "iterate_indices visits every grid point exactly once", "statement": "index_iterator::iterate_indices calls f exactly once for every point of the step grid in [min,max), for any dimension, any stack of blockings and any choice of parallel dimensions, provided each block size divides the extents of the enclosing level; points that agree in all parallel dimensions are visited in a fixed order.", "quantifier": "every dimension, every blocking stack, every parallel-dimension mask, every schedule", "why_tests_cant": "unbounded nesting and dimension", "anchors": ["src/variants/index_iterator.hpp:iterate_indices", "src/variants/index_iterator.hpp:dim_index_iterator"]}
{"id": "C33", "title": "iterate_indices leaves the range when blocks do not divide", "statement": "If the outermost block size does not divide the extent, iterate_indices leaves the range: the visited set is the step grid of the extent rounded up to the block multiple, so with unit final steps the index max itself is visited.", "quantifier": "every range and block size", "why_tests_cant": "exact characterisation for every size", "anchors": ["src/variants/index_iterator.hpp:iterate_indices"]}
{"id": "C34", "title": "dim_index_iterator enumerates the grid", "statement": "Starting from min, the first prod_d ceil((max-min)/step) increments of dim_index_iterator enumerate every grid point exactly once, dimension 0 fastest, and further increments stay at the last point.", "quantifier": "every dimension, min, max, positive steps", "why_tests_cant": "all dimensions and sizes", "anchors": ["src/variants/index_iterator.hpp:dim_index_iterator", "src/memory_layout/index_iterator.hpp:dim_index_iterator"]}
{"id": "C35", "title": "loop_nest enumerates the grid in lexicographic order", "statement": "loop_nest<dim> calls f once per grid point in lexicographic order, last dimension fastest; a zero step in a non-empty dimension never terminates.", "quantifier": "every dimension, min, max, step", "why_tests_cant": "all dimensions and sizes", "anchors": ["src/memory_layout/loop_nest.hpp:loop_nest", "src/variants/index_iterator.hpp:loop_nest"]}
{"id": "C36", "title": "block counts computed in double are exact", "statement": "static_cast<size_t>(ceil(double(a)/double(b))) equals the exact ceiling of a/b for all 0 <= a < 2^53 and 0 < b < 2^53, so iterate_indices never loses or duplicates a block through rounding.", "quantifier": "all a, b below 2^53", "why_tests_cant": "2^106 pairs", "anchors": ["src/variants/index_iterator.hpp:iterate_indices"]}
{"id": "C37", "title": "make_tiled puts every entry at its tile position", "statement": "make_tiled<dim>(org, tiling) returns an array in which the entry with tile coordinates t and in-tile coordinates i is org at row-major position (t*tile+i), tile after tile in row-major order, for every dimension, if every tile size divides its stride; it is a bijective rearrangement.", "quantifier": "every dimension, every tile size and stride with divisibility, every array of that size", "why_tests_cant": "all dimensions and sizes", "anchors": ["src/memory_layout/tile_array.hpp:make_tiled", "src/memory_layout/tile_array.hpp:tile_dim"]}
{"id": "C38", "title": "make_tiled drops entries when a tile does not divide its stride", "statement": "If some tile size does not divide its stride, every entry in the remainder strip is absent from the result and the freed positions hold T(); make_tiled with a wrong number of tiling entries throws instead.", "quantifier": "every tiling violating divisibility", "why_tests_cant": "all sizes", "anchors": ["src/memory_layout/tile_array.hpp:make_tiled"]}
{"id": "C39", "title": "tile_view reads the right entries", "statement": "For an array produced by make_tiled<2>, iterate_tiles visits every tile once in row-major order and the tile_view it passes reads, at in-tile coordinates, exactly the original entry.", "quantifier": "every 2-d tiling with positive tile sizes, every array, every callback", "why_tests_cant": "all sizes", "anchors": ["src/memory_layout/tile_view.hpp:tile_view", "src/memory_layout/tile_iterator.hpp:iterate_tiles"]}
{"id": "C40", "title": "undo_tiling never returns", "statement": "undo_tiling flows off its end without returning a value: every call that does not throw is undefined behaviour, although its local array holds the original data whenever all strides are equal (for two different strides, of which the first is at least 2, even that array is wrong).", "quantifier": "every tiling and array", "why_tests_cant": "undefined behaviour is not observable reliably", "anchors": ["src/memory_layout/tile_array.hpp:undo_tiling"]}
{"id": "C41", "title": "flat_index is row-major only for equal strides", "statement": "memory_layout::flat_index equals the row-major offset for the reversed strides; it is the row-major offset for every index when all strides are equal, and is not for a 2-d array with different strides, the first at least 2 (two different indices collide or the offset is out of range).", "quantifier": "every dimension and stride vector", "why_tests_cant": "all strides", "anchors": ["src/memory_layout/util.hpp:flat_index"]}
{"id": "C42", "title": "transpose_matrix transposes", "statement": "transpose_matrix(N,M) puts entry (j,i) at (i,j), is an involution, and the rectangular form transpose_matrix(cols,rows) inverts itself with the arguments exchanged; no access is out of bounds.", "quantifier": "every size and matrix of matching length", "why_tests_cant": "all sizes", "anchors": ["src/util/transpose_matrix.hpp:transpose_matrix"]}
{"id": "C43", "title": "multiplying by create_identity_matrix returns the matrix", "statement": "naive_matrix_multiply(N,A,create_identity_matrix(N)) equals A for every arithmetic with 0+x=x, x+0=x, x*1=x, x*0=0, and for all finite non-negative doubles.", "quantifier": "every N and A", "why_tests_cant": "all sizes and contents", "anchors": ["src/util/create_identity_matrix.hpp:create_identity_matrix", "src/reference_kernels/naive.hpp:naive_matrix_multiply"]}
{"id": "C44", "title": "exception text is dangling", "statement": "what() of matrix_multiplication_exception and memory_layout_exception returns a pointer into a string that is destroyed before the caller can read it: every read of the text is undefined behaviour, whatever the program does in between; the text formed inside what() is the class prefix followed by the message, and the exception's own message stays intact.", "quantifier": "every message", "why_tests_cant": "reads of freed memory often appear to work", "anchors": ["src/util/matrix_multiplication_exception.hpp:what", "src/memory_layout/memory_layout_exception.hpp:what"]}
{"id": "C45", "title": "aligned_allocator returns an aligned block that fits", "statement": "The first alloc(n) on an aligned_allocator with power-of-two alignment returns a multiple of the alignment with room for n objects inside the buffer it owns, if sizeof(T)*n+alignment does not wrap and n > 0; for n = 0 the program terminates exactly when one object does not fit behind the padding; a second alloc on the same object terminates the program; if the size computation wraps, the returned block does not fit.", "quantifier": "every base address, element size, n, alignment", "why_tests_cant": "all addresses and sizes, including wrap-around", "anchors": ["src/aligned_allocator.hpp:aligned_allocator::alloc"]}
{"id": "C46", "title": "print_matrix for rectangular matrices prints the wrong entries", "statement": "print_matrix(N,M,m) prints m[i*N+j] at row i, column j; for 1 < N < M there are matrices for which this is not the row-major entry, and for N > M > 0 it throws out_of_range, whereas print_matrix_host(rows,cols,m) prints the row-major entries for every shape.", "quantifier": "every shape and matrix", "why_tests_cant": "all shapes", "anchors": ["src/util/util.hpp:print_matrix", "src/util/util.hpp:print_matrix_host"]}
{"id": "C47", "title": "the application's check accepts exactly close results", "statement": "Whenever a run with an accepted algorithm ends normally it has status 0, and with --check its verdict is positive iff C has N*N entries and every entry's computed double difference to the reference product (the one selected by --transposed) is below the double nearest to 1e-10. In binary64: success implies that every entry is within that double of the reference over the reals and is not NaN or infinite; NaN and infinite entries are always rejected; a bit-identical finite result always passes; the exact real-number reading |c - r| < 1e-10 iff accepted is false.", "quantifier": "all options, generated inputs, results and references", "why_tests_cant": "all pairs of vectors", "anchors": ["src/matrix_multiply_application/matrix_multiply.cpp:main"]}
{"id": "C48", "title": "algorithm selection follows the documented table", "statement": "For every algorithm name and transposed flag the application's possible outcomes are exactly those of running the named variant on the generated A and the identity followed by the common report; looped/algorithms/semi without transposition and combined with transposition end in an exception; every unknown name ends with status 1 and the 'invalid algorithm' message, nothing computed. With --help nothing runs, except that kernel_test and kernel_tiled still run on empty matrices: kernel_test reads out of bounds and kernel_tiled throws out_of_range for every N > 0.", "quantifier": "every algorithm string, both flags, every other option, every generated matrix, every schedule", "why_tests_cant": "infinitely many names", "anchors": ["src/matrix_multiply_application/matrix_multiply.cpp:hpx_main", "src/matrix_multiply_application/matrix_multiply.cpp:main"]}
{"id": "C49", "title": "rounded results of all variants agree within a proven bound", "statement": "Every suitable variant sums each entry straight, in chunks, or in chunks over a zero-padded range. With every operation rounded to the nearest double (no fused multiply-add), each finite entry differs from the exact dot product by at most ((1+2^-53)^(N+2)-1)*sum|a||b| + N*2^-1075*(1+2^-53)^(N+2); for finite entries in [-1,1] and N <= 512 nothing overflows, any two variants agree within 1e-10, and the comparison of the application with the straight product succeeds for every B.", "quantifier": "every N, all matrices, every summation order used by the variants", "why_tests_cant": "all real matrices", "anchors": ["src/reference_kernels/naive.hpp", "src/reference_kernels/kernel.hpp", "src/variants/algorithms.hpp", "src/variants/semi.cpp", "src/reference_kernels/kernel_tiled.cpp", "src/variants/combined.cpp", "src/matrix_multiply_application/matrix_multiply.cpp:main"]}
{"id": "C50", "title": "all parallel variants are deterministic", "statement": "For given inputs, naive (both kernels), single, pseudodynamic, algorithms, semi, looped, kernel_tiled and kernel_test are free of data races and return bit-identical output on every schedule, or no schedule returns at all. No associativity or commutativity of addition is needed. combined races only on its first flag and still returns the same output on every schedule.", "quantifier": "every schedule, every arithmetic, every block size parameter; N x N inputs where sizes matter; pseudodynamic for N*N < 2^62 and at least one locality; kernel_tiled and combined for every set of constants whose blocks divide each other; kernel_test with its constants and every N", "why_tests_cant": "schedules cannot be enumerated", "anchors": ["src/reference_kernels/naive.hpp", "src/variants/components/recursive.cpp", "src/variants/static_improved.cpp", "src/variants/algorithms.hpp", "src/reference_kernels/kernel_tiled.cpp", "src/reference_kernels/kernel_test.cpp"]}
{"id": "C51", "title": "blocked experiment kernels", "statement": "multBlocked2 stores the product with the transposed second matrix for even n, in every interleaving and without data races, and accesses A out of bounds for odd n (unless A has a whole extra row). multBlocked4 sums only the products number 0, 4, 8, ..., for every n divisible by 4, and accesses A out of bounds for every other n; with the identity as second matrix, which the benchmark passes, three of four columns of its result are zero, so it is wrong for every A with a non-zero entry in one of these columns.", "quantifier": "every n, A, B, initial C and interleaving", "why_tests_cant": "all sizes", "anchors": ["otherExperiments/multBlocked.cpp:multBlocked2", "otherExperiments/multBlocked.cpp:multBlocked4"]}
{"id": "C52", "title": "experiment benchmark buffers are aligned and large enough", "statement": "align(64, ...) on the benchmark's (n*n+8)-double buffers: every pointer it returns is 64-byte aligned with room for n*n doubles before the end of the buffer; it never returns null for n >= 8 (the benchmark uses 4096), but because `space` is passed in doubles and compared with bytes it returns null for every n <= 7 at some base address although the buffer is large enough.", "quantifier": "every n and every base address; for \"never returns null\" every base address that is a multiple of 8, as that of an array of doubles is", "why_tests_cant": "all addresses", "anchors": ["otherExperiments/benchmark.cpp:align", "otherExperiments/benchmark.cpp:main"]}
{"id": "C53", "title": "algorithm looped for block sizes that do not divide N", "statement": "A zero block size divides by zero. If 0 < block_result <= N does not divide N, 0 < block_input <= N and there are at least two blocks in one row or in the k direction (N/br * (N/bi) >= 2), looped performs an out-of-bounds access. If N/br = 1 and N/bi = 1, only the leading br x br block gets a value, summed over the first bi terms, and the rest stays zero. If br divides N, every entry is summed only over the first (N/bi)*bi terms.", "quantifier": "every N, every block sizes in the stated classes, all A, B, every arithmetic", "why_tests_cant": "quantified over all sizes; the out-of-bounds access and the truncated sums are silent", "anchors": ["src/variants/looped.hpp:iterate_indices", "src/variants/looped.hpp:looped::matrix_multiply"]}
{"id": "C54", "title": "naive kernels end the program on inputs that are too short", "statement": "If N > 0 and A or B has fewer than N*N entries, every run of naive_matrix_multiply and naive_matrix_multiply_transposed ends in std::terminate, because the exception of vector::at leaves the OpenMP region; no out-of-bounds access happens and nothing is returned.", "quantifier": "every N > 0, every A, B with A or B shorter than N*N, every schedule", "why_tests_cant": "sizes and schedules are unbounded; a crash on one size says nothing about silent reads on another", "anchors": ["src/reference_kernels/naive.hpp:naive_matrix_multiply", "src/reference_kernels/naive.hpp:naive_matrix_multiply_transposed"]}
{"id": "C55", "title": "make_tiled with a tile size of zero divides by zero", "statement": "If some tile size is zero and every earlier dimension has at least one full tile, make_tiled divides by zero, which is undefined behaviour; the function does not check its tile sizes.", "quantifier": "every dimension, every tiling with a zero tile size after dimensions with at least one full tile, every array", "why_tests_cant": "division by zero is undefined behaviour and depends on the platform; all dimensions and sizes", "anchors": ["src/memory_layout/tile_array.hpp:tile_dim"]}
{"id": "C56", "title": "make_tiled reads or writes outside an array that is too short", "statement": "If the array has fewer entries than the product of the strides, make_tiled accesses a vector outside its bounds; it never compares the array size with the tiling information.", "quantifier": "every dimension, every tiling with divisibility, every shorter array", "why_tests_cant": "out-of-bounds accesses often go unnoticed; all sizes", "anchors": ["src/memory_layout/tile_array.hpp:make_tiled", "src/memory_layout/tile_array.hpp:tile_dim_indices"]}
{"id": "C57", "title": "the proposal variant never returns", "statement": "With the shipped constants, proposal's matrix_multiply is undefined behaviour for every N and every input: an out-of-bounds read in make_tiled for N <= 256 and, for larger N, flowing off the end of the non-void undo_tiling. For all other block constants accepted by verify_blocking_setup, and every tile size, it is undefined behaviour as well.", "quantifier": "all sizes, inputs, block constants and tile sizes", "why_tests_cant": "a test shows one size; whether the UB is visible depends on the compiler", "anchors": ["src/variants/proposal.cpp:matrix_multiply", "src/memory_layout/tile_array.hpp:make_tiled", "src/memory_layout/tile_array.hpp:undo_tiling"]}
{"id": "C58", "title": "the application end to end", "statement": "For every suitable combination of size and options, every one of the eight working algorithms ends, in every schedule, with status 0, C equal to the generated A (B is always the identity) and a positive check at every verbosity, using only x*1=x, x*0=0, 0+x=x+0=x for the generated numbers; the only data race is combined's flag. Consequently the check passes although kernel_test and kernel_tiled ignore --transposed. The default command line reads out of bounds; --repetitions=0 with single leaves C empty (failed check, or out_of_range when printed); combined with r repetitions fails its check unless r*x is within tolerance of x for all entries.", "quantifier": "all options, sizes, generated matrices, schedules, localities", "why_tests_cant": "all sizes, option combinations and interleavings", "anchors": ["src/matrix_multiply_application/matrix_multiply.cpp:main", "src/matrix_multiply_application/matrix_multiply.cpp:hpx_main"]}
{"id": "C59", "title": "accumulating experiment kernels", "statement": "multNaive and multTransposed add the products A[i,k]*B[k,j] (B[j,k]) in the order of k to the old contents of C[i,j], in every interleaving and without data races; with a zeroed C they store the product, and in exact arithmetic they never store the product when C has a non-zero entry.", "quantifier": "every n, A, B, initial C and interleaving", "why_tests_cant": "all sizes and interleavings; the benchmark only ever uses a zeroed C", "anchors": ["otherExperiments/multNaive.cpp:multNaive", "otherExperiments/multTransposed.cpp:multTransposed"]}
{"id": "C60", "title": "the counter kernel overwrites C", "statement": "multCounter stores the product with the transposed second matrix, summed in the order of k, whatever C contained, in every interleaving and without data races.", "quantifier": "every n, A, B, initial C and interleaving", "why_tests_cant": "all sizes and interleavings", "anchors": ["otherExperiments/multCounter.cpp:multCounter"]}
{"id": "C61", "title": "the GPU-style experiment kernel", "statement": "multGPU, for every block size b and chunk size kc with 4 | kc that divide n, stores in C[i,j] the products of row i of A and row j of B summed in four interleaved lanes per chunk, whatever the uninitialised local arrays and C contained, in every interleaving and without data races; in exact arithmetic that is the product. If b does not divide n it accesses A out of bounds (unless A has a whole extra row).", "quantifier": "every n, b, kc, A, B, initial C, contents of uninitialised arrays and interleaving", "why_tests_cant": "all sizes; uninitialised memory; interleavings", "anchors": ["otherExperiments/multGPU.cpp:multGPU"]}
{"id": "C62", "title": "the exchanged-loops experiment kernel", "statement": "multExchanged, for all block sizes that are multiples of 4 and divide n, stores the product of A and the non-transposed B, every entry summed in the straight order of k despite the exchanged and blocked loops, whatever the uninitialised local arrays and C contained, in every interleaving and without data races. If the row block size does not divide n it accesses A out of bounds (unless A has a whole extra row).", "quantifier": "every n, block sizes, A, B, initial C, contents of uninitialised arrays and interleaving", "why_tests_cant": "all sizes; bit-exact summation order; uninitialised memory", "anchors": ["otherExperiments/multExchanged.cpp:multExchanged"]}
{"id": "C63", "title": "the AVX loop kernel", "statement": "multIntrinLoop, for all block sizes dividing n with 4 | BLOCKSIZEX, 16 | BLOCKSIZEY, 4 | KCHUNK and 32-byte aligned A, B and C, stores in C[i,j] the chain fma(A[i,k],B[k,j],.) over k ascending from 0, whatever the uninitialised local arrays and registers and C contained, in every interleaving and without data races; with an exact multiply-add that is the product. If one of A, B, C is not 32-byte aligned, or BLOCKSIZEX does not divide n and A has no whole extra row, every run with n > 0 has undefined behaviour.", "quantifier": "every n, block sizes, addresses, A, B, initial C, multiply-add operation, contents of uninitialised memory and interleaving", "why_tests_cant": "all sizes and alignments; bit-exact order; uninitialised registers", "anchors": ["otherExperiments/multIntrinLoop.cpp:multIntrinLoop"]}
{"id": "C64", "title": "the register-blocked kernel and its non-FMA branch", "statement": "multRegister compiled with __FMA__ stores the fma chain over k ascending for all block sizes that are multiples of 8 and divide n, provided its local arrays happen to be 32-byte aligned (nothing requests it; misaligned arrays are undefined behaviour). The branch without __FMA__ indexes the registers as jjj*JJ_BLOCKSIZE+iii instead of iii*JJ_BLOCKSIZE+jjj: its exact result is characterised, rows 5, 6 and 7 of each group of eight are zero for all inputs, so the result is wrong whenever the product is non-zero there.", "quantifier": "every n, block sizes, array addresses, A, B, initial C, multiply-add operation and interleaving", "why_tests_cant": "stack alignment is accidental; the wrong branch is not built by the Makefile", "anchors": ["otherExperiments/multRegister.cpp:multRegister"]}
{"id": "C65", "title": "the inline-assembler kernel", "statement": "multASM with a supported compiler, 4 | n and 32-byte aligned A and B stores the products of row i of A and row j of B in four lanes which are added at the end; in exact commutative arithmetic that is the product. For 2 <= n not a multiple of four, for misaligned arrays, and for n = 1 with fewer than four accessible elements, every run has undefined behaviour. With an unsupported compiler (including gcc 4.9, which the message asks for) C is overwritten by sums of zeros.", "quantifier": "every n, addresses, A, B, initial C and interleaving", "why_tests_cant": "all sizes and alignments; compiler versions", "anchors": ["otherExperiments/multASM.cpp:multASM"]}
{"id": "C66", "title": "the GPU-style AVX kernel", "statement": "multGPUASM compiled with __FMA__ stores in C[i,j] the multiply-add chains of row i of A and row j of B in four lanes per chunk, the lanes added in order, for every block and chunk size that is a multiple of 4 and divides n, provided its local arrays happen to be 32-byte aligned; with an exact multiply-add that is the product. Compiled without __FMA__ it silently stores zeros. Misaligned local arrays, or a block size not dividing n (without an extra row of A), are undefined behaviour.", "quantifier": "every n, block sizes, array addresses, A, B, initial C, multiply-add operation and interleaving", "why_tests_cant": "stack alignment is accidental; the branch without FMA is not built by the Makefile", "anchors": ["otherExperiments/multGPUASM.cpp:multGPUASM"]}
{"id": "C67", "title": "What the benchmark program prints for every argument, and that its exit status never tells", "statement": "main of otherExperiments/benchmark.cpp, for the shipped n = 4096 and every other multiple of 256 up to 2^25: whatever addresses new[] returns and whatever uninitialised memory contains, the arguments naive, transposed, counter, exchanged, blocked2, asm, gpu, gpuasm, register and intrinLoop (the last three with FMA, intrinLoop also without; asm with a supported compiler; 32-byte aligned local arrays) all end with exit status 0 and print exactly the check 2n in binary64. blocked4 prints n; without __FMA__ gpuasm prints 0 and register the rounded square root of 7n^2, which is not 2n; an unknown or missing argument prints no check; all with exit status 0. If the local arrays of register or gpuasm are not 32-byte aligned the run is undefined behaviour.", "quantifier": "all n divisible by 256 with 8 <= n <= 2^25, all argument vectors, all buffer addresses, all contents of uninitialised memory, all schedules; the general theorems for all number types", "why_tests_cant": "Needs every placement of the arrays, both compilations, every schedule of the parallel kernels; one run only shows one check value and cannot tell a right from a wrong one because the exit status is always 0.", "anchors": ["otherExperiments/benchmark.cpp:20-155", "otherExperiments/Makefile"]}
{"id": "C68", "title": "fusing a*b+c does not break the results", "statement": "The order in which a suitable variant sums up an entry does not depend on the numbers. Whatever multiply-adds the compiler contracts into one operation with one rounding (it may, the code is built with -march=native), every finite entry stays within the error bound of C49; two variants, each compiled in its own way, agree for entries in [-1,1] up to twice that bound for all N up to 2^19, and up to N=512 main's comparison with 1e-10 accepts them. Without contraction the result is that of the plain double run. That all compilations give the same bits is false, already for N=2.", "quantifier": "every suitable command line, matrices, interleaving and every choice of contracted operations", "why_tests_cant": "a test run sees one compiler's choice on one machine; the choices are exponentially many", "anchors": ["CMakeLists.txt:51", "src/variants/components/recursive.cpp", "src/variants/combined.cpp", "src/variants/algorithms.hpp", "src/variants/looped.hpp", "src/variants/semi.cpp", "src/reference_kernels/kernel_tiled.cpp"]}
{"id": "C69", "title": "integer matrices are multiplied exactly", "statement": "If all entries of A and B are integers and sum_k |A[i,k]*B[k,j]| <= 2^53 for every entry, then every suitable variant returns, bit for bit, the doubles of the exact product (zero always +0), for every interleaving and every choice of fused multiply-adds; hence all variants return the same bits. The bound is sharp: with 2^53+1 there are integer matrices whose product no double represents.", "quantifier": "all N, all integer matrices within the bound, every suitable command line, interleaving and contraction", "why_tests_cant": "tests use a handful of sizes and one compilation; exactness is a statement about all matrices and all orders of summation", "anchors": ["src/variants/components/recursive.cpp", "src/variants/combined.cpp", "src/variants/algorithms.hpp", "src/variants/looped.hpp", "src/variants/semi.cpp", "src/reference_kernels/naive.hpp", "src/reference_kernels/kernel_test.cpp", "src/reference_kernels/kernel_tiled.cpp"]}
{"id": "C70", "title": "the multiplication test suites pass, except three cases with undefined behaviour", "statement": "Of the 76 test cases of the suites algorithms, combined, looped, pseudodynamic, semi, single and naive, the 73 that do not run semi on 2x2 matrices pass: for every sequence of random numbers in [0,1], every interleaving and every choice of fused multiply-adds, every check of every case succeeds. The three cases that run semi on 2x2 matrices (identity_2, apply_inverse_2, random_matrices_2) always access a vector out of bounds. Each number written in their matrices is taken to be a double to which the decimal fraction is at least as close as to any other double.", "quantifier": "every case of the suites, every random sequence in [0,1], interleaving and contraction", "why_tests_cant": "running the suite sees one generator, one schedule and one compiler; an out-of-bounds access may go unnoticed", "anchors": ["src/tests/test_hpx_main.cpp:38", "src/tests/test_algorithms.cpp", "src/tests/test_combined.cpp", "src/tests/test_looped.cpp", "src/tests/test_pseudodynamic.cpp", "src/tests/test_semi.cpp:23", "src/tests/test_single.cpp", "src/tests/test_naive.cpp", "src/util/create_random_matrix.hpp:8"]}
{"id": "C71", "title": "what the test suites cannot see", "statement": "Every case that passes also passes if the code under test multiplies B by A instead of A by B (the random matrices are equal, since every call starts a fresh engine, and the literal ones are inverse to each other). For every program under test and every case, exchanging block_input and block_result changes nothing, because all cases use equal sizes; the tests' hpx_main does pass the two in the wrong order to single: with block_input 0 and block_result N it yields the zero matrix where single yields the product.", "quantifier": "every case, random sequence, interleaving and contraction; every program under test; all N and matrices", "why_tests_cant": "the claim is about the tests themselves", "anchors": ["src/tests/test_hpx_main.cpp:44", "src/tests/test_hpx_main.cpp:48", "src/variants/single.hpp:23", "src/variants/pseudodynamic.hpp:28", "src/util/create_random_matrix.hpp:12"]}
{"id": "C72", "title": "a passing case certifies the product of its matrices", "statement": "If any program under test passes a case other than the three excluded ones, then each entry it returns is finite and close to the exact product of the two matrices of the case, for every execution and compilation of that program: within 2E-8 where the check is BOOST_CHECK_SMALL with 1E-8, within 2E-5 where it is BOOST_CHECK_SMALL with 1E-5, and within 2E-12 where it is BOOST_CHECK_CLOSE with 1E-10 per cent. These are all the checks that occur. Where the check is relative and the exact entry is zero, the entry returned is zero.", "quantifier": "every program under test, every case, random sequence in [0,1], interleaving and contraction", "why_tests_cant": "it relates all programs that pass to the exact product, which the tests never compute", "anchors": ["src/tests/test_single.cpp:119", "src/tests/test_hpx_main.cpp:38", "src/reference_kernels/naive.hpp"]}
{"id": "C73", "title": "the exact set of options for which each algorithm is right", "statement": "For each of the nine algorithms and all accepted options with N >= 1, an explicit condition (single: at least one repetition and N halves evenly to a block the kernel handles; pseudodynamic: the packages of the computed schedule cover the matrix and halve evenly to such blocks; algorithms and looped: both block sizes positive and dividing N; semi: 4 and block_input divide N; combined: exactly one repetition; proposal: never; kernel_test: 4 divides N, the padding of 63 reaches the next multiple of 512, not transposed; kernel_tiled: not transposed or N = 1) holds if and only if the algorithm returns the product for all A and B in every schedule. Outside it there are A and B for which no schedule returns the product. Without tolerating the data race of combined the condition additionally demands N <= 256 for it.", "quantifier": "all sizes N >= 1, all options accepted by the algorithm, all numbers of localities, all inputs A and B, all schedules; for pseudodynamic N*N < 2^62", "why_tests_cant": "tests sample a few sizes inside the domain; that no other size works, and that none of the sizes inside fails, is a statement about all sizes", "anchors": ["src/variants/single.cpp", "src/variants/static_improved.cpp", "src/variants/algorithms.hpp", "src/variants/looped.hpp", "src/variants/semi.cpp", "src/variants/combined.cpp", "src/variants/proposal.cpp", "src/reference_kernels/kernel_test.cpp", "src/reference_kernels/kernel_tiled.cpp", "src/matrix_multiply_application/matrix_multiply.cpp"]}
{"id": "C74", "title": "64-bit index arithmetic", "statement": "With every array index and loop counter of the application and its algorithms computed in size_t arithmetic (modulo 2^64), the application is the same program as with unbounded integers whenever the largest intermediate index of the chosen algorithm stays below 2^64; in particular for N and block sizes up to 2^29 (N up to 2^21 for looped), so that there every suitable run still ends with C = A and a positive check. If N*N itself is at least 2^64, every run ends with std::out_of_range before any algorithm starts. Without a size bound the correctness claim is false: looped counts its blocks in one 64-bit number, and when that count is a multiple of 2^64 (for example N = 2^22 with blocks of one element) it returns the zero matrix and reports success.", "quantifier": "all options, all sizes N < 2^64, all algorithms, all numbers of localities, all inputs, all schedules", "why_tests_cant": "matrices large enough to wrap an index cannot be allocated in a test, and a test shows nothing about the sizes between the tested ones and the wrap-around", "anchors": ["src/matrix_multiply_application/matrix_multiply.cpp", "src/reference_kernels/naive.hpp", "src/reference_kernels/kernel.hpp", "src/reference_kernels/kernel_tiled.cpp", "src/reference_kernels/kernel_test.cpp", "src/variants/components/recursive.cpp", "src/variants/algorithms.hpp", "src/variants/looped.hpp", "src/variants/semi.cpp", "src/variants/combined.cpp", "src/util/util.hpp"]}
{"id": "C75", "title": "Every product exactly once, and how many operations", "statement": "Run on unknowns instead of numbers, every suitable algorithm leaves in entry (i,j) a sum whose summands are exactly the products a[i,k]*b[k,j] (a[i,k]*b[j,k] for a transposed B), each once and by increasing k, followed only by the zero products of the padding (combined, kernel_tiled: k up to the next multiple of 256; kernel_test: 512). The order of summation is the one listed for the algorithm: straight for looped, chunks of block-input for algorithms and semi, straight or chunks for single and pseudodynamic, padded chunks for the tiled kernels. The number of multiplications is exactly N*N times the width of the sum, the additions are one per product and one per chunk. Hence the 2N^3 operations of the printed report are exact for the algorithms without chunks and strictly fewer than the operations of the others.", "quantifier": "all options and sizes for which the algorithm is suitable, all algorithms, all numbers of localities, all schedules, all number types", "why_tests_cant": "a numeric result does not show which products went into it or in which order, and operations are not observable at all", "anchors": ["src/matrix_multiply_application/matrix_multiply.cpp:359", "src/reference_kernels/kernel.hpp", "src/reference_kernels/kernel_tiled.cpp", "src/reference_kernels/kernel_test.cpp", "src/variants/components/recursive.cpp", "src/variants/algorithms.hpp", "src/variants/looped.hpp", "src/variants/semi.cpp", "src/variants/combined.cpp"]}
{"id": "C76", "title": "The printed performance figures", "statement": "For an accepted algorithm without --help, 0 < N < 2^53, 0 < repetitions < 2^53 and every measurable time, the printed average time, performance and reference performance are finite and equal the intended quotients (time/repetitions, repetitions*2N^3/10^9/time, 2N^3/10^9/time) up to 1, 6 and 5 roundings; the operation count is exact as long as it is at most 2^53. With no repetitions the average is infinite and the performance zero; with no measured time the performance is infinite. The algorithms algorithms, looped, semi and proposal are the same program for every number of repetitions, so the claim that the figure is the rate of the computation is false for them: it is that rate times the number of repetitions. benchmark.cpp cuts its time to whole milliseconds: it prints an infinite rate for every run shorter than one and otherwise the rate for the shortened time.", "quantifier": "all options, all sizes and numbers of repetitions below 2^53, all times between 2^-300 and 2^300 seconds (benchmark: all tick counts)", "why_tests_cant": "times differ from run to run, so a test cannot fix the expected figure, and none of the tests looks at the printed figures", "anchors": ["src/matrix_multiply_application/matrix_multiply.cpp:227", "src/matrix_multiply_application/matrix_multiply.cpp:357", "src/reference_kernels/kernel_tiled.cpp:537", "src/variants/combined.cpp:364", "otherExperiments/benchmark.cpp:61", "otherExperiments/benchmark.cpp:134"]}
{"id": "C77", "title": "What the two test suites of the memory layout decide", "statement": "The tolerance 1E-15 (per cent) of test_tile_view leaves no room: a double passes against an integer reference below 2^53 exactly if it is finite and equal to it. With constants that belong together, and whatever function stands in the place of make_tiled (as long as it returns N*N doubles), test_tile_view passes exactly if the four corner tiles hold the right numbers; with whatever list of tiles visited in the place of iterate_tiles, test_iterate_tiles passes exactly if the tiles are visited row by row, all of them, and the four corner tiles are right. Both pass with the shipped functions, for the shipped constants (256, tiles of 4 x 4) and all others that fit. The claim that a function that passes both tiles the matrix is false for all constants with three or more tiles in a row: a wrong function passing both exists.", "quantifier": "all doubles; all matrix sizes, tile sizes and reference vectors that fit; all functions in the place of make_tiled, all traversals in the place of iterate_tiles", "why_tests_cant": "it is a statement about the tests themselves: which functions they accept", "anchors": ["src/tests/test_tile_view.cpp:7", "src/tests/test_tile_view.cpp:22", "src/tests/test_iterate_tiles.cpp:10", "src/tests/test_iterate_tiles.cpp:38", "src/memory_layout/tile_array.hpp", "src/memory_layout/tile_view.hpp"]}
{"id": "C78", "title": "The looper of learning/MetaProgrammingCPP.cpp", "statement": "For every dimension and all bounds, iterate_simple calls its callback exactly once on every tuple of numbers between the bounds, in lexicographic order, whatever the callback does. With lower bound 0 the program prints the pairs joined by a comma and a blank, and a line end, each number as its decimal numeral without superfluous zeros; the shipped bounds are 0 and 10. With a lower bound above 0 the output is not that text: a separator also precedes the first pair, because the program recognises the first pair by its coordinates being 0.", "quantifier": "all dimensions, all bounds, all callbacks and states", "why_tests_cant": "the file has no test and runs with one dimension and one pair of bounds", "anchors": ["learning/MetaProgrammingCPP.cpp:11", "learning/MetaProgrammingCPP.cpp:25", "learning/MetaProgrammingCPP.cpp:43"]}
{"id": "C79", "title": "Kernels in any order of summation (-ffast-math)", "statement": "otherExperiments/Makefile compiles with -ffast-math and -mfma, so the compiler may sum up the products of an entry in any order and bracketing, drop additions of zero, exchange factors and fuse any products with additions, differently for every entry. Whatever it chooses, a finite entry of the result of each of the ten kernels of the benchmark that compute the product differs from the exact entry by at most ((1+2^-53)^n - 1) * sum |a_ik b_kj| + n * tiny * (1+2^-53)^n (tiny is half the smallest positive double); with entries of absolute value at most 1 and n <= 2^19 all entries are finite. This holds for the block sizes of the sources and for all others that fit, for the kernels with intrinsics also as written with the IEEE fused operation, and likewise for all algorithms of the application with suitable options. The claim that the order does not matter is false for every size above 2: naive has two orders with results 1 and 0 in the same place.", "quantifier": "all sizes that the blocks divide, all matrices of doubles, all block sizes that fit, all rearrangements and contractions, all initial contents of uninitialised memory; for the application all suitable options and all interleavings", "why_tests_cant": "a test sees the one order its compiler chose, for a few sizes and numbers", "anchors": ["otherExperiments/Makefile:11", "otherExperiments/Makefile:14", "otherExperiments/Makefile:27", "otherExperiments/multNaive.cpp", "otherExperiments/multGPU.cpp", "otherExperiments/multExchanged.cpp", "otherExperiments/multIntrinLoop.cpp", "otherExperiments/multRegister.cpp", "otherExperiments/multGPUASM.cpp", "otherExperiments/multASM.cpp"]}
{"id": "C80", "title": "The benchmark's check is exact under -ffast-math", "statement": "Multiplied with the identity, a matrix of finite doubles is reproduced exactly by the ten kernels in every order of summation and with every contraction. The number main prints for a kernel is therefore 2n exactly, for every n up to 2^25 that 256 divides, whatever order the compiler chooses in the kernel and, in the other translation unit, in the loop that sums up the squares.", "quantifier": "all n from 8 to 2^25 divisible by 256, all finite matrices, all ten kernels, all addresses of the arrays, all rearrangements and contractions of both loops", "why_tests_cant": "a run shows one compiler's choice for one size", "anchors": ["otherExperiments/benchmark.cpp:24", "otherExperiments/benchmark.cpp:41", "otherExperiments/benchmark.cpp:60", "otherExperiments/benchmark.cpp:143", "otherExperiments/benchmark.cpp:152", "otherExperiments/Makefile:14"]}
{"id": "C81", "title": "How numbers are printed", "statement": "Every finite double is printed with precision P > 0 as a decimal numeral (digits, point, exponent) that denotes a P-digit decimal to which no other P-digit decimal is closer, so with a relative error of at most 10^(1-P)/2, and of two equally close ones with the even last digit; the numeral has no superfluous zeros, and has an exponent exactly when the printed number is below 10^-4 or at least 10^P, then with one digit before the point. Infinities and NaNs are printed as texts that are no numerals. Integers of at most P digits are printed exactly, and a decimal of at most P <= 15 digits that was rounded to a double is printed as it was. Unsigned integers are printed in full, as digits only. The claim that different times are printed differently is false for the default precision 6.", "quantifier": "all doubles, all precisions, all unsigned integers", "why_tests_cant": "there are 2^64 doubles, and no test reads the output", "anchors": ["src/matrix_multiply_application/matrix_multiply.cpp:228", "src/matrix_multiply_application/matrix_multiply.cpp:360", "otherExperiments/benchmark.cpp:65", "otherExperiments/benchmark.cpp:137"]}
{"id": "C82", "title": "The output of the benchmark", "statement": "For each of the ten names whose kernel computes the product, the standard output of the benchmark is, character by character, five lines: the operation count 137438953472, 137.438953472, the measured time, the rate, and check: 8192. The time is the number of whole milliseconds exactly; the rate differs from 2*4096^3/10^9 divided by that time by less than 8e-12 of it, or is 'inf' for a time below one millisecond. blocked4 prints the same lines with check: 4096. Without a name or with an unknown one, the output is the operation count and one line that says so.", "quantifier": "all platforms (addresses, contents of uninitialised memory, with or without fused operations), all command lines, all run times below 10^18 ns", "why_tests_cant": "the times differ from run to run, and the benchmark has no test", "anchors": ["otherExperiments/benchmark.cpp:65", "otherExperiments/benchmark.cpp:67", "otherExperiments/benchmark.cpp:127", "otherExperiments/benchmark.cpp:135", "otherExperiments/benchmark.cpp:152", "otherExperiments/README.md"]}
{"id": "C83", "title": "What evaluate.py reads from the output", "statement": "For every algorithm, size, number of repetitions and every order in which the pieces of the output arrive, the regular expressions of evaluate.py find the total time and the average time that the run printed for itself. They find its performance for all algorithms but combined and kernel_tiled, and the number found is repetitions*2N^3/10^9/time up to 5.1 millionths. For combined and kernel_tiled the claim is false: the search finds the line on the inner performance, which is that of the product padded to multiples of 420, 256 and 256 and of the inner time. For a name that is not in the list (and has no colon) no search succeeds and the script stops with an exception. The model of re.search finds a group exactly if it is that of the leftmost match and the shortest there.", "quantifier": "all options with --verbose=0 and without --help, all measured times, all names of localities without a colon, all permutations of the pieces of output; all texts and literals for the search", "why_tests_cant": "no test runs the script, and the interleaving of the two output streams is not under a test's control", "anchors": ["evaluate.py:21", "evaluate.py:22", "evaluate.py:23", "src/matrix_multiply_application/matrix_multiply.cpp:59", "src/matrix_multiply_application/matrix_multiply.cpp:228", "src/matrix_multiply_application/matrix_multiply.cpp:340", "src/matrix_multiply_application/matrix_multiply.cpp:357", "src/variants/combined.cpp:332", "src/reference_kernels/kernel_tiled.cpp:496", "src/variants/static_improved.cpp:198"]}
{"id": "C84", "title": "The documented runs", "statement": "Each of the ten runs of evaluate.py (pseudodynamic; N from 512 to 8192; block-input 128 and 0; without --small-block-size=128, which the program does not declare) returns with status 0 and the correct product, and the script reads its performance up to 5.1 millionths. Four of the five commands in README.md (N = 8192; single, kernel_tiled, pseudodynamic, kernel_test) return the correct product. The claim that the fifth, combined, does is false: it ends with an exception, because combined rejects the default --transposed=true.", "quantifier": "all numbers of localities, all schedules, all finite non-negative matrix entries, all measured times, all orders of the output", "why_tests_cant": "the runs take too long to repeat on all schedules and numbers of localities", "anchors": ["evaluate.py:6", "evaluate.py:16", "evaluate.py:40", "README.md:58", "README.md:68", "README.md:79", "README.md:93", "README.md:103", "src/matrix_multiply_application/matrix_multiply.cpp:212"]}
{"id": "C85", "title": "How evenly the schedule spreads the work", "statement": "When create_schedule returns, the requested balance is reached, or the least loaded locality has more than half of the work of the most loaded one and no locality has twice its share N*N/L, or all packages of the most loaded localities are too small to be split (at most min_work_size). A locality has no package or at least two, unless nothing was split, so at most N*N/(2m*m) localities have work, m being half of min_work_size rounded up (or min_work_size itself for N = 2^e*min_work_size), however many localities there are. Two localities share an even matrix equally. The relative criterion, computed in doubles, never accepts a schedule that misses the bound and rejects none that is below it by more than two roundings. Two claims are false: that the work is distributed for N <= min_work_size (256 by default; one locality does everything), and that the bound is in percent, as --help says (a bound of 5 accepts a schedule with a difference of 300 percent that could be improved).", "quantifier": "all sizes with N*N < 2^62 (criterion: 2^53), all min_work_size, all bounds (doubles), all numbers of localities", "why_tests_cant": "the tests run the scheduler on one locality only and look at the product, which does not show who computed what", "anchors": ["src/variants/static_improved.cpp:42", "src/variants/static_improved.cpp:61", "src/variants/static_improved.cpp:74", "src/variants/static_improved.cpp:133", "src/matrix_multiply_application/matrix_multiply.cpp:283"]}
{"id": "C86", "title": "Schedules grow with the matrix; who gets equal shares", "statement": "create_schedule draws the same picture at every scale: for a matrix c times as large, with min_work_size and max_work_difference enlarged by c and c*c (up to rounding), it returns the schedule of the small matrix with all positions and sizes multiplied by c, also with the comparison in doubles as long as N*N < 2^53. Lowering min_work_size changes nothing if no package of the schedule is that small. With 2^e localities it ends with the requested balance, or with equal shares, or with a package of at most min_work_size on every most loaded locality. 1, 2, 4, ..., 128 localities get equal shares of every matrix whose size is a multiple of twice their number and more than their number times min_work_size, unless the requested balance is reached before. That this goes on is false: 256 localities do not get equal shares of any matrix of 512c rows with min_work_size 2c-1, although equal shares exist (as for the square of any number of localities, one square package each).", "quantifier": "all factors c, all sizes N with (c*N)^2 < 2^62 whose halving meets no odd size above min_work_size, all min_work_size, all bounds, all numbers of localities (equal shares: the powers of two up to 128 and all their multiples as sizes)", "why_tests_cant": "the tests run the scheduler on one locality only; the schedule for 256 localities differs in kind from the one for 128", "anchors": ["src/variants/static_improved.cpp:42", "src/variants/static_improved.cpp:74", "src/variants/static_improved.cpp:133", "src/variants/static_improved.cpp:171"]}
{"id": "C87", "title": "What a command line means", "statement": "matrix_multiply accepts exactly the command lines in which every word is --name=value, --name value or --help for one of its twelve options (names may be shortened to n, t, r, v, block-r, block-i, c, a, mi, max-w, max-r and he or anything between; shorter ones are rejected), with a value of the option's type (--help takes none) and no option twice, or a word that HPX accepts for itself; the meaning is unique. The run then has the values given and the documented defaults for all other options, and no value is read with the wrong type. All other command lines compute nothing and end with the status of hpx::init (the model does not say what happens if a word that begins with a dash stands where a value is due). The text that evaluate.py composes means what the script intends, for all sizes, repetitions and block sizes below 2^64, if HPX accepts --small-block-size=128, --hpx:cores=16 and --hpx:thread=16: then its ten calls return the product and the script reads their performance. If HPX rejects one of the three, the script stops with an exception. The commands in README.md select the options of C84 for any name of an algorithm. That negative numbers are rejected is false: --n-value=-k asks for size 2^64-k.", "quantifier": "all lists of words (arguments are arbitrary strings), all conversions strtod for the one floating-point option, all sets of words that HPX accepts, all n, repetitions and block sizes below 2^64", "why_tests_cant": "there are infinitely many command lines, and no test calls the program or the script", "anchors": ["src/matrix_multiply_application/matrix_multiply.cpp:62", "src/matrix_multiply_application/matrix_multiply.cpp:248", "src/matrix_multiply_application/matrix_multiply.cpp:316", "evaluate.py:7", "evaluate.py:13", "evaluate.py:40", "README.md:58", "README.md:68"]}
{"id": "C88", "title": "What --verbose prints", "statement": "With --verbose=0 the output is that of C82 to C84. At every level, and in whatever order the pieces of the output arrive, evaluate.py reads the same times and the same performance. With --verbose=1 and --algorithm=single every entry of the matrix lies in exactly one line on a computed block (at most --block-result rows) per repetition, if halving the size reaches such blocks without a remainder; with pseudodynamic the same holds over the lines of all localities, each locality writes only about blocks in its own packages, and one line about each of them. That every entry lies in such a line is false for each odd size above --block-result: the last entry lies in none. The schedule printed is the one carried out, and it is said to be aborted exactly if the requested balance is not reached. combined, proposal and kernel_tiled print the sizes they pad to. With --verbose=2 the matrices are printed row by row: A, the identity for B (transposed or not), and for every suitable run the matrix printed as the result is A again; with --check=true the reference is then printed as A and every difference as 0. In any run the check passes exactly if all entries of the matrix of differences are below 1E-10.", "quantifier": "all options (sizes, levels, repetitions, block sizes), all numbers of localities, all names of localities without a colon, all measured times, all permutations of the pieces of output", "why_tests_cant": "no test looks at the output, and the order of the lines of parallel tasks differs from run to run", "anchors": ["src/variants/components/recursive.cpp:41", "src/variants/components/recursive.cpp:54", "src/variants/static_improved.cpp:15", "src/variants/static_improved.cpp:163", "src/variants/static_improved.cpp:239", "src/matrix_multiply_application/matrix_multiply.cpp:91", "src/matrix_multiply_application/matrix_multiply.cpp:120", "src/matrix_multiply_application/matrix_multiply.cpp:235", "src/util/util.hpp:5", "src/variants/combined.cpp:81"]}
{"id": "C89", "title": "The components and their names", "statement": "The components find each other by name: /multiplier#k and /recursive#k for locality k. The two kinds of names and the names of different localities never coincide. Whatever the name service answers, as long as it answers with some component registered under the name asked for and no earlier run has registered these names, single and pseudodynamic return the result that the direct calls give (hence the product, where C09 and C19 say so). In pseudodynamic all components found are on the locality that asks, so no locality multiplies for another one, and all verbose lines on a package come from its locality. That the result is the product of the run's own matrices is false if a multiplier of an earlier run is still registered: the service may return it, and then the result is the product of the earlier matrices.", "quantifier": "all sizes, matrices, block sizes, numbers of repetitions, lists of localities and root localities, all sets of components registered before under other names, all functions that answer the questions (also differently each time)", "why_tests_cant": "the tests run on one locality, where only one pair of names exists, and start HPX anew for each case; which of several components of a name is returned is up to HPX", "anchors": ["src/variants/components/recursive.cpp:46", "src/variants/components/recursive.cpp:66", "src/variants/single.cpp:24", "src/variants/single.cpp:31", "src/matrix_multiply_application/matrix_multiply.cpp:137", "src/variants/static_improved.cpp:204", "src/variants/static_improved.cpp:223", "src/variants/static_improved.cpp:250", "src/variants/components/multiplier.hpp", "src/variants/components/recursive.hpp"]}
{"id": "C90", "title": "The random matrices", "statement": "Every matrix is filled from a freshly seeded engine, x -> a*x mod 2^31-1 with a = 16807 (libstdc++) or 48271 (libc++): its n-th output is a^n, it never is 0 and repeats exactly after 2^31-2 outputs. Every entry uses two outputs; it is finite, equals the fraction that they denote in base 2^31-2 up to 4 roundings, and lies strictly between 3/10^10 and 1-3/10^10, so the guard of newer libraries against 1.0 never acts. Two draws are equal if their positions differ by a multiple of 2^30-1 and otherwise differ by more than 3/10^10; so the entries of an N x N matrix are pairwise different exactly if N <= 32767. With these numbers, and without any assumption on the generator, every suitable run of the application returns A with a positive check (C58) and the test suites pass (C70). The threshold 10^-10 of --check is small enough for them: up to N = 32767, if C consists of entries of A and zeros, the check succeeds exactly if C = A, so a lost or displaced entry is always noticed. In particular it is always negative for odd sizes above --block-result with single, and for odd sizes above --min-work-size on three or more localities with pseudodynamic if --max-work-difference is at most N^2.", "quantifier": "all positions k, i, j (no bound), all sizes N, both multipliers, with and without the guard, every choice of contracted operations; all options, localities and outcomes of the run", "why_tests_cant": "the period is 2^31-2 and the smallest distance is over all pairs of 2^30-1 draws; the tests do not look at the drawn numbers", "anchors": ["src/util/create_random_matrix.hpp:8", "src/util/create_random_matrix.hpp:12", "src/util/create_random_matrix.hpp:16", "src/matrix_multiply_application/matrix_multiply.cpp:83", "src/matrix_multiply_application/matrix_multiply.cpp:88", "src/matrix_multiply_application/matrix_multiply.cpp:393"]}
{"id": "C91", "title": "NaNs, infinities, overflow and signed zeros in the products", "statement": "In every suitable run, entry (i,j) of the result depends on nothing but row i of A and column j of B, for every number type: a NaN or an infinity elsewhere does not reach it, and padding adds nothing to it. In doubles, whichever multiplications and additions the compiler fuses: a NaN in the row or the column makes the entry a NaN; an infinity or NaN there is never lost, i.e. an entry that is finite has finite inputs only; and for N <= 2^19 the entry is finite exactly if its inputs are, provided that the absolute values of its products sum up to at most 2^1022. Without fused operations no entry is -0. That this also holds with fused operations is false (N = 1, single). That all algorithms overflow for the same matrices is false: for N = 4 and block-input 2, algorithms returns an infinity where looped returns a finite number.", "quantifier": "all options and sizes for which the algorithm is suitable, all algorithms, all numbers of localities, all schedules, all matrices of doubles (the first part: of any number type), every choice of fused operations", "why_tests_cant": "the tests multiply by the identity with entries in [0,1]; special values can stand anywhere and meet in any order, and which operations are fused depends on the compiler", "anchors": ["src/reference_kernels/kernel.hpp", "src/reference_kernels/kernel_tiled.cpp", "src/reference_kernels/kernel_test.cpp", "src/variants/components/recursive.cpp", "src/variants/algorithms.hpp", "src/variants/looped.hpp", "src/variants/semi.cpp", "src/variants/combined.cpp", "CMakeLists.txt"]}
