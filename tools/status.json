{
 "C06": {
  "status": "partial",
  "note": "Proved for grids of fewer than 2^32 + nprocs cells with axes of any size_t size (C06_four_billion; C06_decomposition_valid is the earlier bound 2^31). C06_modulo: on any grid the result consists of divisors whose product is the number of processes modulo 2^32. C06_unbounded_refuted shows that the unrestricted claim is false (std::accumulate over an int)."
 },
 "C10": {
  "status": "partial",
  "note": "False as promised by the header (C10_valid_rank_refuted). C10_valid_rank_partial covers all directions with |dir| <= number of processes along each axis. C10_exact gives the result for every direction, C10_neighbour_iff and C10_valid_iff say exactly which displacements along one axis give the periodic neighbour, and a valid rank for all processes (the product of displacement and number of processes being below 2^30; C10_overflow shows that some bound is needed, C10_two_axes that lengths do not decide for two axes at once)."
 },
 "C13": {
  "status": "partial",
  "note": "False (C13_optimal_refuted: the first candidate is never considered). C13_exact determines the decomposition returned, ties included, when no axis has one cell; C13_one_cell_axis: the claim holds when an axis has one cell; C13_optimal_iff says exactly when it holds. Reals axioms of the standard library through Flocq."
 },
 "C14": {
  "status": "proved",
  "note": "The cost is compared in IEEE double arithmetic. Reals axioms of the standard library through Flocq."
 },
 "C04": {
  "status": "proved",
  "note": "Zero axes: the ideal empty product is refuted (C04_no_axes_empty_product_refuted), the code is undefined there."
 },
 "C31": {
  "status": "partial",
  "note": "False in general (C31_default_size_refuted, C31_periodic_refuted); C31_periodic_iff shows it holds exactly for sizes dividing 2^64, C31_serial_semantics says what is computed otherwise."
 },
 "C35": {
  "status": "partial",
  "note": "Proved for displacements of one cell (C28, C71). C35_any_reach_refuted and C35_shared_side_refuted give failing programs; C35_two_or_more_cells proves that every displacement of two or more cells along one axis makes every program that calls applyFilter undefined as soon as a process owns two cells along that axis, and C35_axis_stencils is the resulting exact condition for stencils along the axes. Along several axes at once: C35_overshoot (a process asks for a rank that does not exist, whatever the number of cells per process), C35_long_diagonal (no overshoot, two cells or more per process) and the exact condition C35_exactly_unit. Missing: overshoots that cancel (DiagProps.ex_cancel shows that such a program can run) and one cell per process without overshoot (ReachProps.ex_one_cell_each)."
 },
 "C37": {
  "status": "partial",
  "note": "Proved for stencils along the axes; C37_shared_side_refuted: branches that share a side leak. The exact number of leaked resources for every stencil: C73."
 },
 "C34": {
  "status": "partial",
  "note": "Rank 0 reassembles the field; on the other ranks the call takes the address of the first element of an empty vector (C34_nonroot_front_refuted)."
 },
 "C50": {
  "status": "partial",
  "note": "False as claimed (C50_all_cells_refuted: 2048^3 cells; C50_truncated_loop for all such sizes); C50_all_cells_partial covers grids of fewer than 2^31 cells with axes of at most 2^30. The exact condition is C50_exactly: with axes of at most 2^30 cells one step is the scheme for every field iff the grid has fewer than 2^31 cells (exact arithmetic, nonzero velocities). C50_untouched: the cells from (int) ntot on are never written, in any arithmetic; C50_driver_last_cell: so for the program with 1291 or more cells along each axis."
 },
 "C58": {
  "status": "partial",
  "note": "False (C58_long_axis_refuted). C58_harmless_axes: true in any arithmetic when every axis has at most 2^30 cells or divides 2^64 - 2^32; C58_exactly: over the reals, with velocities and lengths different from zero, that condition is necessary too."
 },
 "C48": {
  "status": "proved",
  "note": "The three versions agree bit for bit in any arithmetic, and agree with upwind when products and quotients regroup (real numbers). C48_doubles_refuted: in double precision upwind and upwindAcc differ (7 cells per axis, one step). Loops taken in counter order."
 },
 "C49": {
  "status": "proved",
  "note": "Real arithmetic, sizes dividing 2^64. C49_driver_field holds for any arithmetic and any velocities. C49_other_sizes_refuted: three cells per axis give check sum 1.3, six cells on two processes are undefined; C49_doubles_refuted: not the same in double precision."
 },
 "C47": {
  "status": "partial",
  "note": "False as claimed: C47_race_refuted (a data race is reachable whenever two teams have time steps), C47_result_refuted (a complete execution with a wrong field). The exact condition is C47_race_free_iff: no execution has a data race iff one team has all the time steps; then every execution gives the sequential field (C47_idle_teams; C47_one_team_partial, C47_single_step are special cases). A team is modelled as one thread."
 },
 "C46": {
  "status": "proved",
  "note": "Threads interleave single accesses to f and oldF; barriers at the end of each omp for. Holds for every object on which the sequential advect is defined. C46_completes: executions are bounded and can always be completed."
 },
 "C36": {
  "status": "proved",
  "note": "For every program of applyFilter, copyOutToIn, setInData..., check sums and printing on filters just constructed whose lock-step execution is defined (C28-C32 say when). The whole programs, with construction, reductions and gathering: C72."
 },
 "C64": {
  "status": "proved",
  "note": "arD is IEEE binary64 as in the standard library's SpecFloat; no contraction to fused multiply-add. upwindMpi is not covered."
 },
 "C65": {
  "status": "proved",
  "note": "C65_exact_refuted: the check sum is not exactly 1 for 3 cells along each axis and 2 steps."
 },
 "C66": {
  "status": "proved",
  "note": "C66_lossless_refuted: reading the printed text back does not give the number."
 },
 "C67": {
  "status": "proved",
  "note": "Timings are not printed by these programs. C67_pattern_refuted: the pattern in CMakeLists.txt is a character class and accepts check sums 0.5, 1.3 and 0. Ranks and times of the MPI programs are not covered here."
 },
 "C68": {
  "status": "proved",
  "note": "The reader is written from the description of the legacy VTK format (TextSpec.v). Opening and writing the file never fail in the model."
 },
 "C69": {
  "status": "proved",
  "note": "Sizes that are no power of two: see C49 (the offsets wrap wrongly or the access is out of bounds). C69_exact_refuted, C69_order_refuted: the sum is not exactly 1 and depends on the order of the reduction."
 },
 "C70": {
  "status": "proved",
  "note": "How a launcher merges the streams of the ranks is not modelled; the times are arbitrary. Sizes that are no power of two: see C31, C35, C49. testStencil2d without a decomposition is undefined (C57)."
 },
 "C71": {
  "status": "proved",
  "note": "Displacements of more than one cell: see C35. C71_laplacian_default_serial_refuted: one iteration on one process with 8000 x 8000 cells is not the periodic Laplacian (real numbers)."
 },
 "C72": {
  "status": "proved",
  "note": "For every run that C70's model of the programs defines; C72_..._run spell out the cases of C70. C72_file_strict_refuted: with -vtk on two ranks, front() of an empty vector taken to be undefined, execution comes to EmptyFront. What MPI_Reduce makes of the contributions is an arbitrary function of their list. C72_..._calls hold for every command line and also for executions that do not end well."
 },
 "C73": {
  "status": "proved",
  "note": "For grids whose number of axes is less than 2^31 and displacements with one entry per axis, whenever construction is defined and a decomposition exists."
 },
 "C74": {
  "status": "proved",
  "note": "The report of the number of threads printed at the start of upwind.F90 is not modelled. C74_doubles_refuted: 3 cells per axis, 3 steps, the two programs differ in the last bit of some values. The directive !$acc parallel loop is treated as the OpenMP one, with inds private."
 },
 "C75": {
  "status": "proved",
  "note": "What is characterised is a defect: for other grids than those of the program the file is inconsistent. The layout of the text is not modelled."
 },
 "C76": {
  "status": "proved",
  "note": "numpy.sum is any reduction of the values and at most two zeros (PySpec.v). C76_program: the test pattern is a character class; str() of a number between 1/2 and 3/2 is assumed to begin with 0 or 1. Exceptions are Undef; memory never runs out."
 },
 "C77": {
  "status": "proved",
  "note": "What is characterised is a defect. C77_one_cell: with one cell the file reads like the C++ one."
 },
 "C78": {
  "status": "proved",
  "note": "sum() is any reduction of the values and at most two zeros (PySpec.v). C78_program, C78_program3: the test pattern is a character class; the text of a number between 1/2 and 3/2 is assumed to begin with 0 or 1. Exceptions are Undef; memory never runs out. C78_global_refuted: the field can be wrong when the global variable up is another object."
 },
 "C79": {
  "status": "proved",
  "note": "C79_never_written characterises a defect: linspace and the module saveVTK do not exist in the versions of Julia that run the rest."
 },
 "C80": {
  "status": "proved",
  "note": "Both products are evaluated as written (no contraction of a product and a sum). The intrinsic sum is any reduction of the values and at most two zeros. C80_sizes_refuted: ier is never assigned, so the sizes given need not be used. The text printed for the sizes is not modelled."
 },
 "C81": {
  "status": "proved",
  "note": "sin and M_PI are parameters with the stated bounds; no contraction of products and sums. The bound on the check sum grows with the square of the number of cells, as any order is allowed. C81_constants_3d_refuted: the double after 1 is mapped to -2^-51."
 },
 "C82": {
  "status": "proved",
  "note": "Real arithmetic. The profile is assumed differentiable with a quadratic remainder bound; C82_carried_solves relates it to derivatives. The field of an object is arbitrary in the theorems, although the class offers no way to set it."
 },
 "C83": {
  "status": "proved",
  "note": "steady_exact and steady_double show which background values are steady."
 },
 "C84": {
  "status": "proved",
  "note": "Real arithmetic. C84_walk covers walks around the grid, C84_corner and C84_driver ask for fewer steps than cells along every axis. No sign condition on the probabilities."
 },
 "C85": {
  "status": "proved",
  "note": "The library mpinum is not in the repository: what is assumed of it is stated at the top of PyMpiModel.v and in DESIGN.md. C85_exactly, C85_right, C85_driver and C85_program are in real arithmetic. C85_negative_refuted: a negative velocity is not served; C85_decompositions_refuted: bits depend on the decomposition."
 },
 "C86": {
  "status": "proved",
  "note": "Doubles as in C64. The text of a double between 1/2 and 3/2 is assumed to start with 0 or 1 (C86_program). C86_uniform_refuted: a uniform field is not kept exactly."
 },
 "C87": {
  "status": "proved",
  "note": "Doubles as in C64, no contraction into fused operations. f15.9 is assumed to round to a nearest multiple of 10^-9 (f_edit; f15_9_ok gives an instance). The text of the compiler-dependent parts is arbitrary."
 },
 "C88": {
  "status": "proved",
  "note": "e20.7 is assumed to write seven digits nearest to the value (e_edit; e20_7_ok gives an instance). C88_unreadable and C88_dims_refuted are the negative halves of the statement. Nothing is said about more than 280 steps, where values near the smallest double would have to be followed."
 },
 "C89": {
  "status": "proved",
  "note": "Sequentially consistent interleavings; OpenMP gives a racy program no meaning at all, so the model is the favourable reading. The three _refuted theorems hold for every number of threads from two on (C89_repeated_refuted from one on). That the rest of the program is not affected is C87_program, which holds for any report."
 },
 "C90": {
  "status": "proved",
  "note": "The versions of Python and NumPy enter as two flags. Grids of fewer than 2^31 cells; numCells an array of int64. saveVTK cannot be called from Python and is not modelled."
 },
 "C91": {
  "status": "proved",
  "note": "Any text of a double that is not empty and has no white space."
 },
 "C92": {
  "status": "proved",
  "note": "Real arithmetic; axes of at most 2^30 cells (see C42). Exactly when the values stay bounded: C94."
 },
 "C93": {
  "status": "proved",
  "note": "Real arithmetic. C93_as_many_steps_refuted: the bound on the number of steps is needed."
 },
 "C94": {
  "status": "proved",
  "note": "Real arithmetic; axes of at most 2^30 cells. C94_bounded_beyond_the_limit: bounded is weaker than the maximum principle of C92."
 },
 "C95": {
  "status": "proved",
  "note": "IEEE binary64, round to nearest even, no fused multiply-add; std::sqrt correctly rounded (dbl_sqrt) for the standard deviation."
 },
 "C96": {
  "status": "proved",
  "note": "print of Python 2; \"%f\" and str() are parameters giving texts without white space; the readability part assumes they give numerals for the numbers in the file (true of finite ones)."
 }
}