# Formal model of fidibench (C++ part) in Rocq/Coq 8.16

## 1. Method

The model is a set of total, executable Gallina functions, one per C++ function, in
`rocq/theories/*Model.v`.  Each definition cites the file and lines it models.

* **Outcomes.** `res A = Ok a | Undef u`.  Undefined behaviour (out of bounds access, division by
  zero, signed overflow, read of an uninitialised object, dereference of `end()`, `front()` of an
  empty vector) and erroneous MPI calls (invalid rank, RMA range) are the distinct outcome
  `Undef u`, never assumed away.
* **Machine integers.** `size_t` is `Z` reduced modulo 2^64 after every operation (`u64`), `int` is
  `Z` with signed overflow = `Undef`, and conversions to `int` wrap modulo 2^32 (`i32`; implementation
  defined before C++20, what every compiler does).  LP64 data model.
* **Floating point.** Field data are of an arbitrary type `D` with arbitrary operations (record
  `arith D`, no laws).  A theorem "for every `arith`" therefore holds bit for bit for IEEE doubles;
  theorems in exact arithmetic instantiate `arith` with the reals.  The cost comparison in
  `CubeDecomp::computeOptimalDecomp` uses Flocq's binary64.
* **MPI.** A run on `sz` ranks is a list of per-rank states; `MPI_Get` reads the source buffer of
  another element of the list.  A separate interleaving semantics (`MpiSched*.v`) shows that every
  schedule allowed by the fence rules gives the result of the lock-step semantics; in `MpiMain*.v` the
  whole programs are run in it, one process per rank.
* **OpenMP.** A work-shared loop is a multiset of per-thread lists of micro steps executed in any
  interleaving.

Specifications are in `*Spec.v` (short, independent of the model's helpers), proofs in `*Proof.v`,
the property theorems in `*Props.v` (each with `Print Assumptions` and an `Example` meeting its
hypotheses).

## 2. Properties

The statements are in `properties.jsonl`; the status of each is in the table at the end of this file.

| id | modelled in | proof |
|----|----------|-------|
| C01-C04 | `MaiModel.v`: `MultiArrayIter`, all methods, as a record with the flat index | mixed-radix digits (`Radix.v`), induction on the axes |
| C05-C16 | `CdModel.v`: `CubeDecomp`, all methods, state incl. "not built" | the search loop is a filter of the nested-loop enumeration; tiling by div/mod |
| C13, C14 | `CdModel.v`, costs in binary64 (`Ieee.v`, `CdOpt.v`) | monotone rounding; permutation argument for cubic grids; counterexample by computation; `BestProps.v`: the search returns the best candidate but the first |
| C17-C25 | `CmdModel.v`: `CmdLineArgParser` on byte strings, `std::map` as sorted association list, `atoi` exact, `atof` any function | induction over argument lists and call histories |
| C26-C35, C37 | `FilterModel.v`: `Filter`, per rank state and list of all ranks | invariant "every rank's data are the restriction of one global field"; for C35 also an invariant that holds with any stencil (`ReachProof.v`: width of the layers, lengths of the buffers; `DiagProps.v`: displacements along several axes) and a rank and cell chosen for each displacement |
| C36 | `MpiSchedModel.v`: ranks interleaved under the fence rules | invariant over all reachable configurations |
| C72 | `MpiMainModel.v`: the `main` functions of the MPI programs as processes of the machine of C36 | the processes in lock-step compute what the models of C70 compute; then as C36; the calls by a predicate on processes preserved by every event |
| C73 | `FilterModel.v` (`f_winIds`, `f_allocs`) | invariant of the constructor's loop: one side entry per different side, three live resources per displacement |
| C38-C40, C56, C57 | `LapModel.v`: drivers laplacian and testStencil2d | the preceding ones; trigonometric identities over the reals |
| C41-C45, C50-C52, C54, C55, C58, C59 | `UpModel.v`: class `Upwind`, `saveVTK.h`, driver (upwind.cxx and the identical upwindOMPTasks.cxx) | index bijection, sum reindexing, convexity |
| C48, C60 | `AccModel.v`: upwindAcc, upwindAcc2, upwindOMP5 | the per-cell formula of `UpModel.v` |
| C46, C47, C61 | `ParModel.v`: threads interleaving single accesses, barriers | disjoint footprints, commutation, invariant over interleavings |
| C49 | `UpMpiModel.v`: driver upwindMpi | `Filter` theorems plus the formula of C42 |
| C53 | `VtkModel.v`: `writeVTK` | nested loops of C01 |
| C64, C65 | the models of upwind and of the accelerator versions, in binary64 (`Double.v`) | rounding is monotone; error of one cell summed over the grid (`DblProof.v`, `DblField.v`) |
| C66 | `NumModel.v`: `operator<<` of a stream for int, bool and double (default format) | decimal rounding as in Flocq; parser of numerals in `NumSpec.v` |
| C67, C68 | `TextModel.v`: the text written to the terminal and to files by `help()`, upwind and its accelerator versions, `saveVTK`, `writeVTK` | C62-C66; reader of legacy VTK files in `TextSpec.v` |
| C69 | the model of upwindMpi, in binary64 | C49, C64; error of a stencil with non-negative weights, of sums over boxes and of any reduction tree (`DblSten.v`, `UmDblProps.v`) |
| C70 | `MpiTextModel.v`: the text written by each rank of upwindMpi, laplacian and testStencil2d, with the messages of `Filter` | C39, C49, C57, C62, C66-C69; report lines in `MpiTextSpec.v` |
| C71 | the same models as C28, C39, C49, C57 | `WrapSpec.v`: displaced index in unsigned arithmetic, `sound_stencil` (where the cell read must lie) |
| C74, C75 | `FortModel.v`: the Fortran versions, including the loop as threads of the machine of C46 | the per-cell formula with `LangSpec.v`'s increment; disjoint footprints as in C46 |
| C76, C77 | `PyModel.v`: the Python version and the text it writes; int32 arrays wrap | the per-cell formula with `LangSpec.v`'s increment; `PySpec.v`: numpy.sum as a reduction in any order, pieces of ten values; the reader of `TextSpec.v` |
| C78, C79 | `JlModel.v`: the Julia versions and the text of saveVTK.jl; Int wraps at 64 bits, an index out of range is an exception | the per-cell formula with the C++ increment over the cells with the first index fastest (`LangSpec.v`), `JlSpec.v`: grids of fewer than 2^60 cells; the reader of `TextSpec.v` |
| C80 | `MmModel.v`: matmult.F90; the concurrent loop on the machine of `ParModel.v`, one access to c at a time | `MmSpec.v`: a matrix stored by columns, the sum of products in order, sums of integers, the arguments before the first blank one |
| C81 | as C39, with the arithmetic of `Double.v` | `DblSpec.v`, `laplace` over the reals (`LapSpec.v`) iterated; `accurate_sin` (`LapSineProps.v`), pi enclosed by Machin's series of the standard library |
| C82 | as C41-C45 | `ConvSpec.v`: profiles, periodicity, the carried profile, sampling on a grid |
| C83, C84 | as C41-C45 | `WalkSpec.v`: cells upwind, words and their probabilities, multinomial numbers |
| C85 | `PyMpiModel.v`: upwindMPI.py (class Upwind, main), all processes at once; the external library mpinum by its contract | `PyMpiSpec.v`: fields cut into boxes, the formula of a step with its order of operations |
| C86 | as C85, with the arithmetic of `Double.v` | `DblSpec.v`, `TextSpec.v` (pattern of the test) |
| C87 | `FortTextModel.v`: the text of the Fortran programs; `FortModel.v` with the arithmetic of `Double.v` | `DblSpec.v`, `TextSpec.v` (pattern of the test) |
| C88 | `FortTextModel.v` (`fo_vtk_text`, `e_edit`); `FortFile.v`, `FortFront.v` | `TextSpec.v` (`read_rectilinear`), `NumSpec.v` (`denotes`; the reader accepts e and E); `reads_near` in `FortFileProps.v` |
| C89 | `FortThreadModel.v`: the accesses of every thread of the first parallel region, interleaved | lines and numbers in the theorems themselves (`FortThreadProps.v`) |
| C90 | `CyModel.v`: constructor, advect, checksum of upwind5.pyx | the scheme of `LangSpec.v` with the terms of the Python version |
| C91 | `PrintModel.v`, `CyModel.v` (`cy_printOut`) | words of the text (`TextSpec.v`) |
| C92 | `UpModel.v` | Courant numbers, Fourier modes and their factors (`StabProps.v`) |
| C93 | `UpModel.v` | distance downwind, weighted means (`MomentProps.v`), binomial coefficients of the standard library |
| C94 | `UpModel.v` | modes and factors as in C92, `cube_factor2` for the program (`FourierProps.v`) |
| C95 | `UpModel.v`, `AccModel.v`, `PyModel.v`, `JlModel.v`, `FortModel.v`, `CyModel.v`, `UpMpiModel.v`, `PyMpiModel.v` | `within`, `agree` (sum of the distances), `dbl_sqrt` (correctly rounded square root), `double_value` of `DblSpec.v` (`RoundProps.v`, `RoundOtherProps.v`, `FortRoundProps.v`, `MpiRoundProps.v`, `PyMpiRoundProps.v`) |
| C96 | `CyFileModel.v`: saveVTK of the Cython version with the print statement of Python 2; `%f` and `str` are parameters | reader of legacy VTK files of `TextSpec.v` (`CyFileProps.v`) |
| C62, C63 | `DrvModel.v`: the remaining `main` functions | C17-C25 for fixed call histories |

## 3. Trusted base

* **Kernel.** Coq 8.16.1's kernel (`coqc`, cross-checked with `coqchk` by the gate).  No kernel check is switched off,
  no plugin, no functor or module type is used.
* **Axioms.** None of our own.  `ASSUMPTIONS.md` has the output of `Print Assumptions` for every property theorem.  Most
  are closed under the global context.  The others use the axioms of the standard library's real numbers,
  `ClassicalDedekindReals.sig_forall_dec`, `ClassicalDedekindReals.sig_not_dec`,
  `FunctionalExtensionality.functional_extensionality_dep`, and, through Flocq, `Classical_Prop.classic`.
* **Statements.** The definitions in `*Spec.v` and the model.

### Modelled

Every C++ function under `cxx/`, `laplacian/cxx/` and `upwind/cxx/` except those listed below: `MultiArrayIter`, `CubeDecomp`,
`CmdLineArgParser`, `Filter`, `writeVTK`, the drivers laplacian, testStencil2d, testCubeDecomp, testMultiArrayIter,
upwind, upwindOMPTasks, upwindAcc, upwindAcc2, upwindOMP5, upwindMpi, with `saveVTK.h` and the three index fragments.
The Fortran versions of upwind (`upwind/fortran/*.F90`), the Python versions (`upwind/python/upwind.py`, `upwindMPI.py`, `saveVTK.py`), the Julia versions (`upwind/julia/*.jl`), `matmult/fortran/matmult.F90`.

### Where the model is simpler than the code

* The models of the classes reduce text written to files and to the terminal to the numbers in it, and `help()` returns the
  lines as data.  `TextModel.v` and `MpiTextModel.v` turn these into the text that the programs and `writeVTK` write; streams never fail, the locale is "C",
  no program changes the format of a stream.
* `MPI_Wtime` is left out; in `MpiTextModel.v` the reduced times and the results of the reductions are parameters, and the
  streams of the ranks are kept apart.
* `atof`, `sin`, `sqrt`, `M_PI` are parameters; theorems over the reals instantiate them.
* The type of field values has arbitrary operations; the compiler is assumed to evaluate the expressions as written
  (no contraction to fused multiply-add, no reassociation).  Theorems over the reals are about exact arithmetic;
  those about double precision say so.
* Memory: a vector of `n` elements is a list; allocation of 2^31 elements or more in the Laplacian drivers and of more than
  `max_size()` in the upwind drivers is `Undef BadAlloc`; otherwise allocation succeeds.
* MPI: outside `MpiSched*.v` and `MpiMain*.v` all ranks execute a function together; `MPI_Gather` collects the contributions
  in rank order, `MPI_Reduce` applies an arbitrary function to them.  `MpiSchedModel.v` writes down the rules for the
  collective calls, `MPI_Win_fence` and `MPI_Get` that are used.  `MPI_Comm_rank`, `MPI_Comm_size` and `MPI_Wtime` do not
  couple the ranks; the times are arbitrary.
* OpenMP and OpenACC: accesses of threads are interleaved; freedom from data races is proved, so that this describes all
  the executions of the C++ memory model.  A team of upwindOMP5 is one thread.

### Not modelled

* The meaning OpenMP gives to a race (none): the report of the number of threads (upwind.F90:287-303) is modelled with interleaved accesses in `FortThreadModel.v` and is a parameter of `FortTextModel.v`.
* mpinum, the library under `upwindMPI.py` (not in the repository). Assumed in `PyMpiModel.v`: CubeDecomp gives each
  axis a number of processes that divides its number of cells, or nothing; processes are laid out in C order;
  getNeighborProc is periodic; getData copies the outermost layer on the given side of the array of the other process
  as it was when that process made the same call; reduce combines all the elements of all the processes.
* The build system, the job scripts.
* Exceptions thrown by the standard library, signals, threads of the MPI library.

## 4. Wrong programs

`tools/mutate.py` applies the edits of `seeded/mutants/*.json` to a scratch copy of the model one at a time, recompiles,
and records in `seeded/LOG.jsonl` which property theorems no longer hold.  Theorems that survived an edit that makes their
claim false were tightened (field `theorems_tightened`), and the edit was tried again.

## 5. Status

Generated from `MANIFEST.json` by `tools/gen_design.py`.

<!-- status -->

| id | property | status | theorems |
|---|---|---|---|
| C01 | Iterator visits exactly the nested-loop sequence | proved | C01_visits_nested_loops, C01_every_cell_once |
| C02 | Flat index and index set are inverse of each other | proved | C02_flat_to_indices_to_flat, C02_indices_to_flat_to_indices, C02_flat_index_is_position, C02_int_instance_agrees |
| C03 | Running past the end wraps around, begin() restarts | proved | C03_any_history, C03_begin_restarts, C03_past_end_wraps |
| C04 | Degenerate boxes: an empty extent gives an empty loop | proved | C04_zero_extent_empty_loop, C04_zero_extent_getIndices_undefined, C04_no_axes_undefined, C04_no_axes_empty_product_refuted |
| C05 | build() succeeds exactly when a uniform decomposition exists | proved | C05_build_iff_decomposition_exists |
| C06 | The decomposition returned is a uniform decomposition | partial | C06_modulo, C06_four_billion, C06_decomposition_valid, C06_unbounded_refuted |
| C07 | Sub-domains tile the grid | proved | C07_tiling |
| C08 | Perfect load balance | proved | C08_load_balance |
| C09 | getNeighborRank is the periodic neighbour | proved | C09_periodic_neighbour |
| C10 | getNeighborRank always returns a valid rank | partial | C10_valid_rank_partial, C10_valid_rank_refuted, C10_exact, C10_neighbour_iff, C10_valid_iff |
| C11 | Neighbour relation is symmetric | proved | C11_neighbour_symmetric, C11_neighbour_injective |
| C12 | Decomposition queries are independent of call history | proved | C12_history_independent |
| C13 | The decomposition minimises the surface to volume ratio | partial | C13_exact, C13_one_cell_axis, C13_optimal_iff, C13_optimal_refuted, C13_optimal_but_one_partial |
| C14 | On grids with equal extents the decomposition is optimal | proved | C14_cubic_optimal |
| C15 | Candidate process counts per axis are exactly the divisors | proved | C15_divisors |
| C16 | A decomposition object is unusable after a failed build | proved | C16_failed_build_unusable, C16_constructor_hides_failure |
| C17 | parse() accepts exactly the command lines whose options are all registered | proved | C17_accepts_iff_registered, C17_defined |
| C18 | A rejected command line changes nothing | proved | C18_rejected_changes_nothing |
| C19 | A valued option takes the argument following its last occurrence | proved | C19_last_value_wins, C19_no_value_keeps_previous, C19_cases |
| C20 | A flag is flipped once per occurrence | proved | C20_flag_parity |
| C21 | Options that are not mentioned keep their default, stray arguments are ignored | proved | C21_unmentioned_unchanged, C21_stray_ignored |
| C22 | Unknown names give the documented sentinel | proved | C22_unknown_gives_sentinel, C22_default_until_parse |
| C23 | Negative numbers can be passed as values | proved | C23_negative_number_accepted, C23_negative_number_is_a_value, C23_no_leading_digit_rejected |
| C24 | Decimal integers are read exactly | proved | C24_int_read_exactly, C24_int_accepted, C24_out_of_range_undefined |
| C25 | help() lists every registered option once and never dereferences a missing entry | proved | C25_help_complete |
| C26 | Construction allocates the rank's own box | proved | C26_constructor, C26_storage_tiles |
| C27 | setInData samples the function at every owned cell and publishes the borders | proved | C27_set_by_indices, C27_set_by_position, C27_border_is_what_is_read |
| C28 | Parallel filter equals serial periodic stencil, bit for bit | proved | C28_parallel_equals_serial, C28_programs, C28_undivided_axes |
| C29 | The result does not depend on the number of processes | proved | C29_process_count_independent |
| C30 | Repeated apply / copyOutToIn iterates the serial operator | proved | C30_iterates |
| C31 | Periodic boundary conditions hold on every grid size | partial | C31_serial_semantics, C31_periodic_iff, C31_default_size_refuted, C31_periodic_refuted |
| C32 | Check sum of the output is (sum of weights) x check sum of the input | proved | C32_check_sum, C32_weights_times_input |
| C33 | copyOutToIn makes input and output coincide | proved | C33_copyOutToIn |
| C34 | saveVTK reassembles the global field | partial | C34_saveVTK_reassembles, C34_nonroot_front_refuted, C34_print |
| C35 | Stencils of any reach are supported | partial | C35_overshoot, C35_long_diagonal, C35_exactly_unit, C35_any_reach_refuted, C35_shared_side_refuted, C35_two_or_more_cells, C35_axis_stencils |
| C36 | Halo exchange is deterministic under every interleaving and never deadlocks | proved | C36_every_schedule, C36_no_deadlock, C36_terminates, C36_reads_between_fences, C36_fields |
| C37 | Windows and buffers are released exactly once | partial | C37_all_released_once, C37_shared_side_refuted |
| C38 | A filter without valid decomposition must not be used | proved | C38_invalid_decomposition_unusable, C38_testStencil2d_undefined |
| C39 | The Laplacian benchmark operator annihilates constants and has zero check sum | proved | C39_driver_field, C39_stencil_is_laplacian, C39_constants, C39_zero_check_sum, C39_driver_check_sums, C39_driver_invalid |
| C40 | Cell positions are the cell centres | proved | C40_cell_centres, C40_spacing_and_symmetry |
| C41 | Upwind flat index and index set are inverse of each other | proved | C41_flat_of_index_set, C41_index_set_of_flat, C41_distinct |
| C42 | One advection step is the periodic first-order upwind scheme | proved | C42_driver, C42_every_field, C42_constructor, C42_one_step, C42_advect |
| C43 | Advection conserves the check sum | proved | C43_conservation |
| C44 | Maximum principle under the Courant condition | proved | C44_maximum_principle |
| C45 | The spread never increases | proved | C45_spread |
| C46 | Every OpenMP schedule gives the sequential result | proved | C46_every_schedule, C46_completes, C46_field |
| C47 | OpenMP offload version executes the time steps in order | partial | C47_one_team_partial, C47_race_refuted, C47_result_refuted, C47_idle_teams, C47_race_free_iff, C47_single_step |
| C48 | OpenACC variants agree with each other and with the CPU version | proved | C48_constructor, C48_formula, C48_versions_agree, C48_same_as_upwind, C48_reals, C48_doubles_refuted, C48_same_output, C48_drivers, C48_driver_field |
| C49 | The MPI upwind benchmark computes the same field as the serial one | proved | C49_driver_field, C49_stencil_is_upwind, C49_same_as_upwind, C49_driver_invalid, C49_other_sizes_refuted, C49_doubles_refuted |
| C50 | advect updates every cell whatever the grid size | partial | C50_untouched, C50_exactly, C50_driver_last_cell, C50_truncated_loop, C50_all_cells_partial, C50_all_cells_refuted |
| C51 | Time stepping composes | proved | C51_compose, C51_no_steps |
| C52 | Upwind VTK output is consistent | proved | C52_vtk |
| C53 | writeVTK output is consistent | proved | C53_file, C53_more_axes, C53_short_field, C53_point, C53_corners, C53_centres, C53_cell_value |
| C54 | The upwind driver satisfies its stability condition | proved | C54_driver |
| C55 | Constant fields are steady | proved | C55_constant |
| C56 | The initial field of the Laplacian benchmark is an eigenfunction | proved | C56_eigenfunction |
| C57 | testStencil2d prints the difference of the displaced edge field | proved | C57_testStencil2d |
| C58 | One advection step is right on axes of any length | partial | C58_harmless_axes, C58_exactly, C58_long_axis_refuted |
| C59 | Degenerate grids in the upwind driver | proved | C59_zero_cells, C59_negative_cells |
| C60 | Domain of the accelerator kernels | proved | C60_fewer_axes, C60_long_axis_refuted |
| C61 | Every schedule of the OpenACC kernels gives the sequential result | proved | C61_kernel, C61_time_steps |
| C62 | What a driver runs is determined by the command line | proved | C62_upwind, C62_upwindAcc, C62_upwindMpi, C62_laplacian, C62_testStencil2d, C62_upwind_check_sum |
| C63 | The example programs show what they are meant to show | proved | C63_testMultiArrayIter, C63_testCubeDecomp, C63_testCubeDecomp_no_layout |
| C64 | The maximum principle survives rounding | proved | C64_upwind, C64_upwindAcc, C64_upwind_driver, C64_upwindAcc_driver |
| C65 | The check sum printed is 1 in double precision | proved | C65_upwind_driver, C65_upwindAcc_driver, C65_six_decimals, C65_upwind_program, C65_exact_refuted |
| C66 | What the printed digits of a number mean | proved | C66_printed_value, C66_not_finite, C66_integer, C66_error, C66_order, C66_same_text, C66_small_integer, C66_lossless_refuted |
| C67 | What upwind and its accelerator versions write | proved | C67_upwind, C67_upwindAcc, C67_cases, C67_upwind_report, C67_upwindAcc_report, C67_tests_pass, C67_pattern_refuted, C67_bare_numbers |
| C68 | The files written can be read and say what the field is | proved | C68_saveVTK, C68_upwind, C68_upwindAcc, C68_writeVTK, C68_writeVTK_more |
| C69 | upwindMpi in double precision | proved | C69_upwindMpi, C69_exact_refuted, C69_order_refuted |
| C70 | What the MPI programs write, rank by rank | proved | C70_upwindMpi_report, C70_upwindMpi_file, C70_laplacian_test, C70_upwindMpi_help, C70_upwindMpi_run, C70_laplacian_help, C70_laplacian_run, C70_testStencil2d_help, C70_testStencil2d_run |
| C71 | applyFilter on every grid and every number of processes | proved | C71_apply, C71_programs, C71_axis_stencils, C71_steps_to_the_right, C71_periodic_iff, C71_laplacian, C71_laplacian_default, C71_laplacian_default_serial_refuted, C71_upwindMpi, C71_testStencil2d |
| C72 | The MPI programs run to completion whatever the relative speed of the ranks | proved | C72_upwindMpi, C72_upwindMpi_run, C72_laplacian, C72_laplacian_run, C72_testStencil2d, C72_testStencil2d_run, C72_upwindMpi_calls, C72_laplacian_calls, C72_testStencil2d_calls, C72_file_strict_refuted |
| C73 | What the destructor of class Filter leaves behind | proved | C73_leak, C73_no_leak_iff |
| C74 | The Fortran versions solve the same problem | proved | C74_constructor, C74_constructor_iff, C74_advect, C74_same_as_cxx, C74_reals, C74_every_schedule, C74_gpu_schedule, C74_long_axis, C74_main_iff, C74_driver, C74_doubles_refuted |
| C75 | The file of the Fortran versions | proved | C75_against_cxx, C75_fits_iff, C75_cube |
| C76 | The Python version solves the same problem | proved | C76_constructor, C76_advect, C76_same_as_acc, C76_same_as_cxx, C76_body_iff, C76_driver, C76_doubles_same_as_acc, C76_check_sum, C76_usage, C76_program, C76_index_table_refuted |
| C77 | The file of the Python version | proved | C77_words, C77_unreadable, C77_one_cell, C77_program |
| C78 | The Julia versions solve the same problem | proved | C78_constructor, C78_index_functions, C78_one_call, C78_advect, C78_advect3, C78_versions_agree, C78_same_as_cxx, C78_same_values, C78_global_refuted, C78_body_iff, C78_driver, C78_doubles_same_as_cxx, C78_check_sum, C78_usage, C78_program, C78_program3 |
| C79 | The file of the Julia versions | proved | C79_read_back, C79_cells, C79_never_written |
| C80 | matmult: the two products agree and the program reports success | proved | C80_product, C80_real_product, C80_every_schedule, C80_initmat, C80_exact, C80_in_order, C80_program, C80_read_error, C80_sizes_refuted |
| C81 | The Laplacian benchmark in double precision | proved | C81_benchmark, C81_eigenfunction, C81_constants, C81_constants_3d_refuted, C81_sine |
| C82 | The upwind scheme converges to the solution of the advection equation | proved | C82_carried_solves, C82_error, C82_first_order, C82_converges, C82_unit_courant |
| C83 | Information travels at most one cell per step, and only downwind | proved | C83_dependence, C83_untouched, C83_driver |
| C84 | The advected field is the distribution of a random walk | proved | C84_walk, C84_corner, C84_driver |
| C85 | The MPI version in Python computes the same field as the serial version, for any number of processes | proved | C85_constructor, C85_formula, C85_gather, C85_right, C85_exactly, C85_body, C85_driver, C85_file, C85_usage, C85_no_decomposition, C85_program, C85_negative_refuted, C85_decompositions_refuted |
| C86 | In double precision the MPI version in Python passes its test for any number of processes | proved | C86_check_sum, C86_program, C86_uniform_refuted |
| C87 | In double precision the Fortran versions keep the field in [0,1] and print a check sum the tests accept | proved | C87_field, C87_program, C87_no_argument |
| C88 | The VTK file of the Fortran versions can be read after up to 100 steps, and not after more on a large grid | proved | C88_hundred_steps, C88_unreadable, C88_dims_refuted |
| C89 | The report of the number of threads in the Fortran versions is right with one thread and a race with more | proved | C89_one_thread, C89_private, C89_silent_refuted, C89_repeated_refuted, C89_wrong_number_refuted, C89_any, C89_gpu |
| C90 | The Cython version computes the field of upwind.py, and only with Python 2 and NumPy before 1.10 | proved | C90_constructor, C90_advect, C90_same_as_python, C90_check_sum, C90_too_many |
| C91 | print() and printOut() show every cell once, in the order of the memory | proved | C91_print, C91_printOut |
| C92 | The stability limit of the upwind scheme is sharp | proved | C92_first_step, C92_maximum_principle_iff, C92_modes, C92_growth, C92_unbounded, C92_one_axis, C92_even_axes |
| C93 | The pulse moves with the velocity and spreads like numerical diffusion | proved | C93_marginal, C93_mean, C93_variance, C93_covariance, C93_as_many_steps_refuted |
| C94 | The standard deviation printed by the program in closed form; when the field stays bounded; its limit | proved | C94_sum_of_squares, C94_std, C94_bounded_iff, C94_bounded_every_start, C94_limit, C94_bounded_beyond_the_limit, C94_program |
| C95 | In double precision every value and the standard deviation printed are close to those of exact arithmetic | proved | C95_fortran, C95_cython, C95_versions_agree, C95_upwindMpi, C95_upwindMpi_agrees, C95_python_mpi, C95_processes_agree, C95_python, C95_julia, C95_upwind, C95_upwindAcc, C95_each_cell, C95_multinomial, C95_std, C95_std_closed_form |
| C96 | The file written by saveVTK of the Cython version is wrong in its first line and in nothing else | proved | C96_file |
