#!/usr/bin/env python3
"""Writes /verif/properties.jsonl (one JSON object per line)."""
import json, os
P = []
def p(id, title, statement, quantifier, why, anchors):
    P.append(dict(id=id, title=title, statement=statement, quantifier=quantifier,
                  why_tests_cant=why, anchors=anchors))

# ---------------------------------------------------------------- MultiArrayIter
p("C01", "Iterator visits exactly the nested-loop sequence",
  "Building an iterator over [lo,hi) and calling getIndices()/next() getNumberOfTerms() times yields every index tuple of the box exactly once, in the order of the equivalent nested for-loops: last index fastest for row-major, first index fastest for column-major.",
  "all dimensions >= 1, all lo < hi whose number of cells fits in size_t, both orderings",
  "the set of boxes is unbounded in extent and in number of axes; the existing test only prints one 3x5x5 box",
  ["cxx/MultiArrayIter.h:MultiArrayIter::getIndices", "cxx/MultiArrayIter.cpp:build,begin,next,getNumberOfTerms"])
p("C02", "Flat index and index set are inverse of each other",
  "computeBigIndex(getIndices()) after move(k) is k for every k below the number of terms, and move(computeBigIndex(v)) followed by getIndices() returns v for every v in the box; the int instantiation of computeBigIndex agrees with the size_t one whenever the box holds fewer than 2^31 cells.",
  "all boxes, all flat indices, all index tuples of the box",
  "round trip over an unbounded index space", ["cxx/MultiArrayIter.h:computeBigIndex,getIndices", "cxx/MultiArrayIter.cpp:move"])
p("C03", "Running past the end wraps around, begin() restarts",
  "After k + getNumberOfTerms() increments the iterator shows the same index tuple as after k increments, and after begin() it shows lo, whatever was done before.",
  "all boxes, all numbers of steps that do not overflow size_t, all call histories of begin/next/move",
  "quantifies over all histories of calls", ["cxx/MultiArrayIter.cpp:begin,next,move"])
p("C04", "Degenerate boxes: an empty extent gives an empty loop",
  "An iterator over a box with some extent equal to zero reports zero terms, so the idiomatic loop performs no visit and no undefined operation; calling getIndices() on it is undefined (division by zero). Building an iterator with zero axes should be an empty product, but is undefined.",
  "all boxes with a zero extent; all numbers of axes including zero",
  "needs reasoning about undefined behaviour on every degenerate shape", ["cxx/MultiArrayIter.cpp:build", "cxx/MultiArrayIter.h:getIndices"])

# ---------------------------------------------------------------- CubeDecomp
p("C05", "build() succeeds exactly when a uniform decomposition exists",
  "build(nprocs, dims) returns true if and only if there are process counts d_i dividing dims_i with product nprocs.",
  "all process counts >= 1, all grids with fewer than 2^31 cells and at most 32 axes",
  "the existence of a factorisation ranges over all grids and process counts",
  ["cxx/CubeDecomp.cpp:build,computeOptimalDecomp,getPrimeFactors"])
p("C06", "The decomposition returned is a uniform decomposition",
  "When build() returns true, getDecomp() has one entry per axis, each entry divides the grid size along that axis, and the entries multiply to nprocs.",
  "all grids and process counts (the code only achieves this below 2^31 cells)",
  "the failing inputs need products that coincide modulo 2^32, no test samples those",
  ["cxx/CubeDecomp.cpp:computeOptimalDecomp,build", "cxx/CubeDecomp.h:getDecomp"])
p("C07", "Sub-domains tile the grid",
  "Every cell of the global grid lies in the [getBegIndices(r), getEndIndices(r)) box of exactly one rank r in 0..nprocs-1, and every such box is contained in the grid.",
  "all grids (below 2^31 cells), process counts for which build() succeeded, all cells",
  "needs every cell of every grid for every process count", ["cxx/CubeDecomp.cpp:getBegIndices,getEndIndices"])
p("C08", "Perfect load balance",
  "All ranks own boxes of the same shape, dims_i / decomp_i cells along axis i, hence exactly (number of cells)/nprocs cells each, and never an empty box.",
  "all grids, process counts and ranks", "universally quantified over ranks and sizes", ["cxx/CubeDecomp.cpp:build,getBegIndices,getEndIndices"])
p("C09", "getNeighborRank is the periodic neighbour",
  "For a direction whose components do not exceed the number of sub-domains along each axis, getNeighborRank(r, dir) is a valid rank, namely the one whose position in the process grid is the position of r plus dir, wrapped periodically.",
  "all successful decompositions of at most 2^30 processes, all ranks, all directions with |dir_i| <= decomp_i",
  "unbounded numbers of ranks, axes and directions", ["cxx/CubeDecomp.cpp:getNeighborRank"])
p("C10", "getNeighborRank always returns a valid rank",
  "As documented in the header, periodic boundary conditions ensure that the returned rank is valid (0 <= rank < nprocs) for every direction.",
  "all decompositions, ranks and directions", "the violating directions are those longer than the process grid, only a proof shows exactly which directions are safe",
  ["cxx/CubeDecomp.h:getNeighborRank", "cxx/CubeDecomp.cpp:getNeighborRank"])
p("C11", "Neighbour relation is symmetric",
  "The neighbour in direction -dir of the neighbour of r in direction dir is r; so for a fixed direction every rank is the neighbour of exactly one rank.",
  "all decompositions of at most 2^30 processes, ranks and directions with |dir_i| <= decomp_i", "universal statement over all process grids",
  ["cxx/CubeDecomp.cpp:getNeighborRank"])
p("C12", "Decomposition queries are independent of call history",
  "getBegIndices, getEndIndices, getNeighborRank and getDecomp return the same answer whatever sequence of other queries was issued before on the same object, although they all move an internal iterator.",
  "all successful decompositions, all finite sequences of queries", "quantifies over all call histories",
  ["cxx/CubeDecomp.cpp:getBegIndices,getEndIndices,getNeighborRank,getDecomp"])
p("C13", "The decomposition minimises the surface to volume ratio",
  "As documented, the decomposition returned has the least surface to volume ratio of the sub-domain among all valid decompositions.",
  "all grids and process counts", "optimality quantifies over all competing decompositions",
  ["cxx/CubeDecomp.h:computeOptimalDecomp", "cxx/CubeDecomp.cpp:computeOptimalDecomp,computeCost"])
p("C14", "On grids with equal extents the decomposition is optimal",
  "When all axes have the same number of cells (the only case the benchmark programs use) the decomposition returned has the least surface to volume ratio, with the ratio computed and compared in IEEE double precision as in the code.",
  "all extents, axes and process counts below the size bound", "optimality over all competing decompositions, including floating-point ties",
  ["cxx/CubeDecomp.cpp:computeOptimalDecomp,computeCost", "laplacian/cxx/laplacian.cxx:main"])
p("C15", "Candidate process counts per axis are exactly the divisors",
  "The candidate list used for an axis of n >= 1 cells contains every positive divisor of n and nothing else, in increasing order.",
  "all n >= 1", "all integers", ["cxx/CubeDecomp.cpp:getPrimeFactors"])
p("C16", "A decomposition object is unusable after a failed build",
  "If build() returns false on a fresh object, getDecomp() is empty and asking for a rank's indices or neighbours is undefined; callers must test the returned flag (the two-argument constructor discards it).",
  "all grids and process counts without a valid decomposition", "undefined behaviour is not observable by testing",
  ["cxx/CubeDecomp.h:CubeDecomp", "cxx/CubeDecomp.cpp:build,getBegIndices", "laplacian/cxx/testCubeDecomp.cxx:test"])

# ---------------------------------------------------------------- CmdLineArgParser
p("C17", "parse() accepts exactly the command lines whose options are all registered",
  "parse() returns true if and only if every argument after the program name that starts with '-' and continues with a non-digit is a registered option name.",
  "all registered option tables, all argument lists of 7-bit characters", "the space of command lines is infinite", ["cxx/CmdLineArgParser.h:parse"])
p("C18", "A rejected command line changes nothing",
  "When parse() returns false every get<T>() returns what it returned before the call.",
  "all option tables and command lines", "infinite input space; needs frame reasoning", ["cxx/CmdLineArgParser.h:parse"])
p("C19", "A valued option takes the argument following its last occurrence",
  "After a successful parse, an int (double, string) option has the value atoi (atof, identity) of the argument that follows the last occurrence of its name that is followed by an argument, and its previous value when there is no such occurrence.",
  "all option tables, all command lines", "infinite input space", ["cxx/CmdLineArgParser.h:parse,get"])
p("C20", "A flag is flipped once per occurrence",
  "After a successful parse a bool option equals its previous value negated once for every argument equal to its name; two occurrences cancel.",
  "all option tables, all command lines", "infinite input space", ["cxx/CmdLineArgParser.h:parse,get"])
p("C21", "Options that are not mentioned keep their default, stray arguments are ignored",
  "An option whose name is not among the arguments keeps its value, and arguments that neither look like options nor follow a valued option never influence the outcome (so positional values such as those the ctest suite passes have no effect).",
  "all option tables, all command lines", "frame property over an infinite input space", ["cxx/CmdLineArgParser.h:parse", "upwind/cxx/CMakeLists.txt"])
p("C22", "Unknown names give the documented sentinel",
  "get<double>, get<int>, get<string>, get<bool> on a name never registered with that type return minus the largest double, minus INT_MAX, the empty string and false.",
  "all histories of set() and parse() calls, all names", "quantifies over histories", ["cxx/CmdLineArgParser.cpp:get"])
p("C23", "Negative numbers can be passed as values",
  "A value argument written '-' followed by a digit is always accepted; but a negative number written without leading digit, such as -.5, is rejected although atof accepts it.",
  "all registered options, all value strings", "infinite input space", ["cxx/CmdLineArgParser.h:parse"])
p("C24", "Decimal integers are read exactly",
  "An int option given the decimal representation of any int value is read back as this value; a decimal outside the int range is undefined behaviour.",
  "all 32-bit integers, all decimal strings", "2^32 values and unboundedly long strings", ["cxx/CmdLineArgParser.h:parse (atoi)"])
p("C25", "help() lists every registered option once and never dereferences a missing entry",
  "After any history of set() and parse() calls, help() prints one line per (type, name) registered, with its current value and its help string, and performs no undefined lookup; -h is always registered.",
  "all histories of set() and parse()", "quantifies over histories", ["cxx/CmdLineArgParser.h:help,set,CmdLineArgParser"])

# ---------------------------------------------------------------- Filter
p("C26", "Construction allocates the rank's own box",
  "On every rank the constructor succeeds without undefined behaviour, isDecompValid() equals the success of the decomposition, and when valid the field storage has exactly one entry per cell of the rank's box.",
  "all grids within the size bound, all process counts, all ranks, all stencils with offsets of unit length along the axes",
  "all grids x process counts x stencils", ["cxx/Filter.cpp:Filter::Filter,newWindow,getWindowIter", "cxx/Filter.h:isDecompValid"])
p("C27", "setInData samples the function at every owned cell and publishes the borders",
  "After setInData (setInDataByIndices) each rank stores f at the centre (the index set) of each of its cells, and each communication window exposes exactly the border layer that neighbours will read.",
  "all grids, process counts, stencils, functions", "universal over functions and grids", ["cxx/Filter.cpp:setInData,setInDataByIndices,getPosition"])
p("C28", "Parallel filter equals serial periodic stencil, bit for bit",
  "With stencil offsets of unit length along the axes and power-of-two grid sizes along the axes that carry a negative offset, applyFilter() on all ranks gives at every cell the value of the serial periodic stencil, summed in the key order of the stencil map; no arithmetic law is used so the result is bit-identical for IEEE doubles.",
  "all grids, process counts with a valid decomposition, stencils of this class, input fields, any arithmetic",
  "needs all grids and all process counts; tests only compare check sums on one size", ["cxx/Filter.cpp:applyFilter,fetch,getWindowIter", "cxx/CubeDecomp.cpp:getNeighborRank"])
p("C29", "The result does not depend on the number of processes",
  "For two process counts that both admit a decomposition the assembled output fields are identical, bit for bit (same hypotheses as C28).",
  "all pairs of process counts, grids, stencils, fields, numbers of iterations", "all pairs of configurations", ["cxx/Filter.cpp:applyFilter"])
p("C30", "Repeated apply / copyOutToIn iterates the serial operator",
  "After n rounds of applyFilter(); copyOutToIn() the distributed input field is the n-fold iterate of the serial stencil operator on the initial field, and the communication windows expose the new borders.",
  "all n, grids, process counts, stencils, fields", "induction over time steps", ["cxx/Filter.cpp:copyOutToIn,applyFilter", "laplacian/cxx/laplacian.cxx:main", "upwind/cxx/upwindMpi.cxx:main"])
p("C31", "Periodic boundary conditions hold on every grid size",
  "applyFilter() wraps stencil offsets periodically for any number of cells along an axis. (The code does so for negative offsets if and only if the number of cells divides 2^64.)",
  "all grid sizes and offsets", "fails only for sizes that are not powers of two, CI uses 32 and 128", ["cxx/Filter.cpp:applyFilter (indOffset[j] %= globalDims[j])", "laplacian/cxx/laplacian.cxx (default -numCells 8000)"])
p("C32", "Check sum of the output is (sum of weights) x check sum of the input",
  "computeCheckSum returns on rank 0 the sum over the whole grid, and in exact arithmetic the output check sum after applyFilter is the sum of the stencil weights times the input check sum.",
  "all grids, process counts, stencils, fields (exact real arithmetic)", "universal over fields", ["cxx/Filter.cpp:computeCheckSum,applyFilter"])
p("C33", "copyOutToIn makes input and output coincide",
  "After copyOutToIn() the input check sum equals the output check sum bit for bit, and output data are unchanged.",
  "all filter states", "universal over states", ["cxx/Filter.cpp:copyOutToIn,computeCheckSum"])
p("C34", "saveVTK reassembles the global field",
  "The field handed to the VTK writer on rank 0 has at each global column-major position the value held by the owning rank, every cell being written exactly once.",
  "all grids, process counts, fields", "all decompositions", ["cxx/Filter.cpp:saveVTK"])
p("C35", "Stencils of any reach are supported",
  "applyFilter() implements arbitrary stencils (offset -> weight map). (The code does not: offsets of length >= 2 and diagonal offsets read out of bounds or address a non-existing rank.)",
  "all stencils", "the failing shapes are never tested", ["cxx/Filter.h:Filter", "cxx/Filter.cpp:applyFilter,getWindowIter,getNumberOfGhostsFromOffset"])
p("C36", "Halo exchange is deterministic under every interleaving and never deadlocks",
  "Whatever the relative speed of the ranks, any complete execution of rounds of fence/get/fence/compute/publish ends in the same state as the lock-step execution, and as long as some rank is unfinished something happens, even if every MPI call waits for the other ranks as long as the standard permits.",
  "all numbers of ranks, all programs of rounds, all schedules permitted by the MPI fence rules", "all interleavings", ["cxx/Filter.cpp:fetch,applyFilter,copyOutToIn"])
p("C37", "Windows and buffers are released exactly once",
  "Destroying the filter frees every window and every buffer allocated by the constructor, each once. (This fails when two offsets share a side.)",
  "all stencils", "all stencil shapes; leaks are invisible to functional tests", ["cxx/Filter.cpp:newWindow,deleteWindow,~Filter"])
p("C38", "A filter without valid decomposition must not be used",
  "When isDecompValid() is false, applyFilter, setInData, computeCheckSum, printOutData and saveVTK are undefined; testStencil2d calls printOutData in that case.",
  "all grids and process counts without decomposition", "undefined behaviour is not observable by testing", ["cxx/Filter.cpp", "laplacian/cxx/testStencil2d.cxx:96"])
p("C39", "The Laplacian benchmark operator annihilates constants and has zero check sum",
  "For the stencil assembled by laplacian.cxx, in exact arithmetic, a constant field is mapped to zero and the output check sum is zero for any input field.",
  "all dimensions, power-of-two sizes, process counts, fields", "universal over fields and sizes", ["laplacian/cxx/laplacian.cxx:main"])
p("C40", "Cell positions are the cell centres",
  "getPosition gives points strictly inside the domain, symmetric about its centre and equally spaced by (xmax-xmin)/n (exact arithmetic).",
  "all domains, sizes and indices", "universal over reals", ["cxx/Filter.cpp:getPosition"])

# ---------------------------------------------------------------- Upwind
p("C41", "Upwind flat index and index set are inverse of each other",
  "getFlatIndex(getIndexSet(i)) = i for every cell i, and index sets of distinct cells differ.",
  "all dimensions, all sizes with fewer than 2^31 cells", "unbounded sizes", ["upwind/cxx/upwind.cxx:getIndexSet,getFlatIndex", "upwind/cxx/compute_index_set.h"])
p("C42", "One advection step is the periodic first-order upwind scheme",
  "After one step every cell holds the result of the upwind formula evaluated on the previous field, the upwind neighbour being the periodic neighbour on the side the velocity comes from; bit for bit for any arithmetic.",
  "all dimensions, sizes (any, not only powers of two), velocities, fields, cells", "universal over fields and sizes", ["upwind/cxx/upwind.cxx:advect"])
p("C43", "Advection conserves the check sum",
  "checksum() is the same before and after any number of time steps (exact arithmetic).",
  "all dimensions, sizes, velocities, time steps, initial fields, numbers of steps", "ctest only matches a regular expression that accepts any number starting with 0, 1, 9 or a dot", ["upwind/cxx/upwind.cxx:advect,checksum"])
p("C44", "Maximum principle under the Courant condition",
  "If the sum over the axes of |v_j| dt / dx_j is at most 1 then all values stay between the minimum and maximum of the initial field for ever (exact arithmetic).",
  "all fields, sizes, numbers of steps, dt within the Courant bound", "induction over time", ["upwind/cxx/upwind.cxx:advect"])
p("C45", "The spread never increases",
  "Under the Courant condition std() after any number of steps is at most std() before (exact arithmetic).",
  "all fields, sizes, numbers of steps", "universal over fields", ["upwind/cxx/upwind.cxx:std,advect"])
p("C46", "Every OpenMP schedule gives the sequential result",
  "For any assignment of loop iterations to threads and any interleaving of the threads between the implicit barriers, advect gives bit for bit the field of the sequential execution.",
  "all numbers of threads, chunk assignments and interleavings", "all schedules", ["upwind/cxx/upwind.cxx:advect (omp for)", "upwind/cxx/upwindOMPTasks.cxx:advect"])
p("C47", "OpenMP offload version executes the time steps in order",
  "upwindOMP5 gives the sequential result for any number of teams. (It does not: the time-step loop is distributed over teams.)",
  "all schedules of teams", "a race only shows for some schedules", ["upwind/cxx/upwindOMP5.cxx:advect"])
p("C48", "OpenACC variants agree with each other and with the CPU version",
  "For three dimensions the fields computed by upwindAcc and upwindAcc2 are bit-identical, and equal to that of upwind in exact arithmetic.",
  "all sizes, velocities, numbers of steps", "universal over sizes and fields", ["upwind/cxx/upwindAcc.cxx:advect", "upwind/cxx/upwindAcc2.cxx:advect", "upwind/cxx/compute_flat_index_offset_x.h"])
p("C49", "The MPI upwind benchmark computes the same field as the serial one",
  "For power-of-two sizes and any valid process count the field computed by upwindMpi after n steps equals the field of upwind after n steps (exact arithmetic). (For other sizes it does not.)",
  "all sizes, process counts, numbers of steps", "all configurations", ["upwind/cxx/upwindMpi.cxx:main", "upwind/cxx/upwind.cxx"])
p("C50", "advect updates every cell whatever the grid size",
  "advect processes all ntot cells. (When ntot exceeds INT_MAX the loop bound is truncated to int: for instance 2048^3 cells gives zero iterations and the field is left unchanged.)",
  "all grid sizes", "the failing sizes need more than 2^31 cells", ["upwind/cxx/upwind.cxx:60,65", "upwind/cxx/upwindOMPTasks.cxx:60"])
p("C51", "Time stepping composes",
  "advect(n, dt); advect(m, dt) is advect(n+m, dt); advect with zero or negative step count leaves the field unchanged.",
  "all n, m, fields", "induction over steps", ["upwind/cxx/upwind.cxx:advect"])
p("C52", "Upwind VTK output is consistent",
  "saveVTK writes as many coordinates per axis as announced, CELL_DATA announces the number of values written, and the value at VTK cell (x,y,z) is the field at index (z,y,x).",
  "all sizes, NDIMS 1 to 3, fields", "universal over sizes", ["upwind/cxx/saveVTK.h"])
p("C53", "writeVTK output is consistent",
  "For at most three axes writeVTK writes exactly the announced number of points, whose extreme coordinates are the domain corners, and exactly the announced number of cell values, in the order of the field; the points are those of the uniform grid, cell (i,j,k) of a saved field carries the value of that cell, and the initial field is evaluated at the midpoint of each cell; for more than three axes it writes nothing.",
  "all sizes, domains, fields", "universal over sizes", ["cxx/writeVTK.cpp:writeVTK"])
p("C54", "The upwind driver satisfies its stability condition",
  "For every positive -numCells the time step chosen by main gives a Courant sum of 0.3, so check sum 1 and values within [0,1] hold after any number of steps (exact arithmetic).",
  "all -numCells >= 1 (below the size bound), all -numSteps", "universal over sizes and steps", ["upwind/cxx/upwind.cxx:main"])
p("C55", "Constant fields are steady",
  "A constant field is left unchanged by any number of time steps, for any velocity and time step (exact arithmetic).",
  "all constants, sizes, velocities, steps", "universal over reals", ["upwind/cxx/upwind.cxx:advect"])

p("C56", "The initial field of the Laplacian benchmark is an eigenfunction",
  "Over the real numbers k rounds of the Laplacian benchmark multiply the product of sines it starts from by the k-th power of 2 nd (cos(2 pi/n) - 1).",
  "all dimensions, power-of-two sizes, process counts, numbers of rounds", "universal over sizes; floating point tests only compare with a tolerance", ["laplacian/cxx/laplacian.cxx:func,main"])
p("C57", "testStencil2d prints the difference of the displaced edge field",
  "For a valid decomposition every rank of testStencil2d prints each of its cells with the value of the two-point difference of the field that is one in the first row and column, and the saved field is the same one; bit for bit for any arithmetic.",
  "all power-of-two sizes, process counts, arithmetics", "all configurations", ["laplacian/cxx/testStencil2d.cxx:main"])

p("C58", "One advection step is right on axes of any length",
  "An object with fewer than 2^31 cells gets the upwind formula in every cell. (False: the sum of index, offset and axis length is converted to int before the remainder, so on axes of more than 2^30 cells the wrong neighbour is read.)",
  "all grids of fewer than 2^31 cells", "the failing sizes need more than 2^30 cells along one axis", ["upwind/cxx/upwind.cxx:advect"])
p("C59", "Degenerate grids in the upwind driver",
  "With -numCells 0 the constructor writes element 0 of an empty vector; with a negative -numCells the size of the field wraps around and the allocation fails. Neither is rejected by the driver.",
  "all step counts and flags, any arithmetic; -numCells between -10^6 and 0", "undefined behaviour is not observable by a test", ["upwind/cxx/upwind.cxx:Upwind,main"])

p("C60", "Domain of the accelerator kernels",
  "The index fragments included by upwindAcc, upwindAcc2 and upwindOMP5 read three elements whatever NDIMS is, so advect is undefined for fewer than three axes; and index + direction + numCells overflows int on an axis of 2^30 cells with a negative velocity.",
  "all objects, time steps and arithmetics", "undefined behaviour is not observable by a test; the overflow needs 2^30 cells", ["upwind/cxx/compute_flat_index_offset_x.h", "upwind/cxx/compute_flat_index_offset_y.h", "upwind/cxx/compute_flat_index_offset_z.h", "upwind/cxx/upwindAcc.cxx:advect"])

p("C61", "Every schedule of the OpenACC kernels gives the sequential result",
  "For any number of workers, any assignment of the cells to workers and any interleaving of their accesses, the kernels of upwindAcc and upwindAcc2 are free of data races, terminate, and leave bit for bit the arrays of the sequential execution.",
  "all numbers of workers, assignments and interleavings", "all schedules", ["upwind/cxx/upwindAcc.cxx:advect", "upwind/cxx/upwindAcc2.cxx:advect"])

p("C62", "What a driver runs is determined by the command line",
  "For every list of arguments whose option values the C library can read, upwind, upwindAcc, upwindAcc2, upwindOMP5, upwindMpi, laplacian and testStencil2d run their computation with, for each option, the number after its last occurrence or the default, and each flag on when given an odd number of times; they run nothing exactly when -h is on or a word looks like an option and is none. In particular upwind -numCells n -numSteps s prints check sum 1 (exact arithmetic) for every admissible n and every int s.",
  "all argument lists, arithmetics, process counts", "universal over command lines", ["cxx/CmdLineArgParser.cpp:parse", "upwind/cxx/upwind.cxx:main", "upwind/cxx/upwindAcc.cxx:main", "upwind/cxx/upwindMpi.cxx:main", "laplacian/cxx/laplacian.cxx:main", "laplacian/cxx/testStencil2d.cxx:main"])
p("C63", "The example programs show what they are meant to show",
  "testMultiArrayIter prints the numbered nested loops over its box in the storage order asked for. testCubeDecomp, for a number of processes that can be laid out over the grid, prints boxes that contain every cell exactly once and, for every axis direction in turn, the rank whose box is the displaced one (wrapped around); for a number that cannot, it reads an iterator that was never built.",
  "all boxes, grids and numbers of processes", "the programs only run three fixed cases and print", ["laplacian/cxx/testMultiArrayIter.cxx", "laplacian/cxx/testCubeDecomp.cxx"])

p("C64", "The maximum principle survives rounding",
  "In IEEE double precision with round to nearest the drivers upwind, upwindAcc, upwindAcc2 and upwindOMP5 keep every value of the field a finite number between 0 and 1, exactly, after any number of steps; more generally advect does so for up to three axes when the coefficients it computes are between -1/8 and 0.",
  "all sizes below the bound, all step counts, all fields with values in [0,1]", "rounding errors depend on every intermediate value", ["upwind/cxx/upwind.cxx:advect,main", "upwind/cxx/upwindAcc.cxx:advect,main"])
p("C65", "The check sum printed is 1 in double precision",
  "In IEEE double precision the check sum of the drivers upwind, upwindAcc, upwindAcc2 and upwindOMP5 differs from 1 by at most (7 steps + 1.2 cells) / 2^53, hence by less than 5e-7 for every admissible size and up to 2*10^8 steps, so that the tests' pattern for the six digits printed is met. (It is not exactly 1 in general.)",
  "all sizes below the bound, all step counts", "the tests look at a few sizes and step counts", ["upwind/cxx/upwind.cxx:checksum,main", "upwind/cxx/CMakeLists.txt:60"])

p("C66", "What the printed digits of a number mean",
  "A finite double written to a stream with the default format is a decimal numeral whose value is the number rounded to six significant digits, ties to even (error at most half of 1e-5 of the number); the order of numbers is kept; two non-zero numbers have the same text exactly when they agree in six digits; whole numbers below a million are printed as such, and an int or size_t exactly; inf and nan are no numerals. Different doubles can have the same text.",
  "all doubles, all integers", "there are 2^64 doubles, and the notation changes with the exponent", ["upwind/cxx/saveVTK.h:saveVTK", "upwind/cxx/upwind.cxx:main", "cxx/writeVTK.cpp:writeVTK", "cxx/CmdLineArgParser.h:help"])

p("C67", "What upwind and its accelerator versions write",
  "For every argument list whose option values can be read, upwind, upwindAcc, upwindAcc2 and upwindOMP5 write exactly: the report with the numbers of cells and steps actually used, the check sum and, when asked, the spread; or the help with the current values of all options; or, for an unknown option, its name, the help, and a message on standard error, ending with exit code 1 in the accelerator versions and 0 in upwind. The report in double precision has check sum 1, so that the tests pass; but their pattern is met by wrong check sums too, and the bare numbers in the test commands are ignored.",
  "all argument lists, sizes below the bound, up to 2*10^8 steps", "universal over command lines; the pattern of the tests accepts wrong output", ["upwind/cxx/upwind.cxx:main", "upwind/cxx/upwindAcc.cxx:main", "cxx/CmdLineArgParser.cpp:parse", "cxx/CmdLineArgParser.h:help", "upwind/cxx/CMakeLists.txt:54"])
p("C68", "The files written can be read and say what the field is",
  "The text written by saveVTK and by writeVTK follows the grammar of legacy VTK files, so that a reader gets back the dimensions, the coordinates in the right order of axes, and for each cell the six digits of the value the field has there; in particular up0.vtk holds the initial condition and up1.vtk (up.vtk) the field after the last step on the unit cube, all values between 0 and 1. writeVTK refuses more than three axes with a warning and writes no file.",
  "all grids with up to three axes, all fields of finite numbers, all argument lists of the drivers", "universal over grids and fields; no test reads a file back", ["upwind/cxx/saveVTK.h:saveVTK", "cxx/writeVTK.cpp:writeVTK", "upwind/cxx/upwind.cxx:main"])

p("C69", "upwindMpi in double precision",
  "For every number of cells per axis that is a power of two (below the bound on the grid size), every number of processes that can decompose the grid and every number of steps, the fields of upwindMpi computed in IEEE double precision have all values between 0 and 1 exactly, and the check sums reported before and after each step and at the end differ from 1 by at most (8 steps + 1.2 (cells + processes)) / 2^53, in whatever order MPI_Reduce combines the contributions. (They are not exactly 1, and their last digits may depend on that order; without any step the final check sum is 0.)",
  "all such sizes, process counts, step counts and reduction orders", "universal over sizes, step counts and the unspecified reduction order; the tests run a few sizes", ["upwind/cxx/upwindMpi.cxx:main", "cxx/Filter.cpp:applyFilter"])

p("C70", "What the MPI programs write, rank by rank",
  "For every argument list whose option values can be read and every number of processes, upwindMpi, laplacian and testStencil2d write exactly: on rank 0 the decomposition, the report of the run and the file asked for, on the other ranks nothing (testStencil2d: on every rank its own cells and values on standard error); or, when there is no decomposition, two messages on standard error of rank 0 (upwindMpi and laplacian); or, with -h or an unknown option, the help on every rank. In double precision every check sum upwindMpi prints is 1, whatever order the reductions use, except that the last one is 0 without any step; its file can be read back and gives every cell the six digits of its value and every point its exact coordinates rounded to six digits. The tests of laplacian pass exactly when there is a decomposition, whatever numbers are computed; with four or more axes laplacian announces a file and writes none.",
  "all argument lists, process counts up to 2^30, sizes that are powers of two, reduction orders", "universal over command lines, ranks and reduction orders; the pattern of the tests ignores the numbers", ["upwind/cxx/upwindMpi.cxx:main", "laplacian/cxx/laplacian.cxx:main", "laplacian/cxx/testStencil2d.cxx:main", "cxx/Filter.cpp:Filter,printOutData,saveVTK", "laplacian/cxx/CMakeLists.txt:24"])

p("C71", "applyFilter on every grid and every number of processes",
  "For every grid, every number of processes for which it can be decomposed and every stencil of unit displacements (diagonal ones included), applyFilter() is either defined on all ranks, and then every cell gets the stencil whose displaced indices are reduced in unsigned 64-bit arithmetic, or it reads outside an array. It is defined exactly when, for each displacement that moves along an axis cut into several parts, the other axes of the displacement have one cell per process, and a step to the left of cell 0 along that axis leads to the last cell (the size divides 2^64) or to a cell of the same process. In particular the periodic stencil is computed for all displacements along the axes if and only if all grid sizes divide 2^64, for any number of processes; laplacian without options (8000 x 8000 cells) reads outside an array on any two or more processes that divide the grid and gives wrong values on one.",
  "all grids of fewer than 2^31 cells, process counts up to 2^30, unit stencils, fields and arithmetics", "universal over grid sizes, process counts and stencils; the tests use 32 cells per axis, a divisor of 2^64", ["cxx/Filter.cpp:applyFilter", "laplacian/cxx/laplacian.cxx:main", "upwind/cxx/upwindMpi.cxx:main", "laplacian/cxx/testStencil2d.cxx:main"])

p("C72", "The MPI programs run to completion whatever the relative speed of the ranks",
  "For every argument list whose option values can be read and every number of processes, upwindMpi, laplacian and testStencil2d, each rank executing its own main() from MPI_Init to MPI_Finalize, make matching collective calls, never read released or foreign memory, never deadlock (even if every MPI call waits for the other ranks as long as the standard permits), take the same number of events in every order of execution, and leave behind on every rank exactly the text and files of C70. Whatever the command line, a rank that returns called MPI_Init first, freed every window it created and no other, and called MPI_Finalize last. This holds with the buffers of a window being released before the window. With -vtk on several processes it needs that taking the address of front() of an empty vector is harmless; by the letter of the C++ standard the programs are undefined there.",
  "all argument lists, process counts, schedules, reductions, times and arithmetics for which the program is defined", "all interleavings of whole programs; collective mismatches and deadlocks depend on the MPI implementation", ["upwind/cxx/upwindMpi.cxx:main", "laplacian/cxx/laplacian.cxx:main", "laplacian/cxx/testStencil2d.cxx:main", "cxx/Filter.cpp:Filter,~Filter,newWindow,deleteWindow,fetch,applyFilter,computeCheckSum,saveVTK"])

p("C73", "What the destructor of class Filter leaves behind",
  "For every stencil and every use of the filter, the constructor makes three resources (two buffers and a window) for each displacement that is not zero, and the destructor releases three for each different side (the opposite signs of a displacement), none twice; so 3 * (displacements - sides) are leaked, and nothing is leaked if and only if no two displacements have the same signs along all axes.",
  "all stencils of any reach, process counts and programs of filter calls", "leaks are invisible to functional tests; universal over stencils", ["cxx/Filter.cpp:Filter,newWindow,deleteWindow,~Filter"])

p("C74", "The Fortran versions solve the same problem",
  "upwind.F90, upwindF03.F90, upwindF08.F90 and upwindF08Gpu.F90: after any number of steps the field is the upwind scheme applied to the initial field, with the increment of an axis evaluated as dt v (+-1) (difference) / dx; it is the field of the C++ version wherever a division may be moved across a product (real numbers), but not bit for bit in double precision. Any number of threads, any distribution of the iterations and any interleaving gives the same field without a race. The constructor is defined exactly up to 2^31 - 1 cells, the step is undefined on an axis of 2^30 cells or more with negative velocity; the program runs exactly for 1 <= n and n^3 < 2^31, and its check sum is 1 in real numbers.",
  "all grids, velocities, fields, step counts, arithmetics, schedules, argument lists", "universal over grids, step counts and schedules; the two languages' programs are only compared by eye", ["upwind/fortran/upwind.F90:upwind_new,upwind_advect,main", "upwind/fortran/upwindF03.F90", "upwind/fortran/upwindF08.F90", "upwind/fortran/upwindF08Gpu.F90"])
p("C75", "The file of the Fortran versions",
  "upwind_saveVTK writes the dimensions and values of the C++ version's saveVTK, but the three lists of coordinates in the opposite order of axes; so the file describes a grid exactly when there are three axes and the first has as many cells as the third, and for the cubes of the program it is the C++ file.",
  "all grids of up to three axes, all fields and arithmetics", "the program only ever uses cubes, where the error does not show", ["upwind/fortran/upwind.F90:upwind_saveVTK"])

p("C76", "The Python version solves the same problem",
  "upwind.py: for every grid of fewer than 2^31 cells, all velocities, lengths and step counts, the vectorised numpy statements compute, cell by cell, the upwind scheme with the increment of an axis evaluated as (dt (v (+-1) / dx)) (difference); the field agrees bit for bit with upwindAcc, upwindAcc2 and upwindOMP5 on three axes and, where products and quotients may be regrouped (real numbers), with upwind.cxx. The program runs exactly for 1 <= n (n^3 < 2^31). In double precision all values stay between 0 and 1 and the check sum, in whatever order numpy.sum adds, differs from 1 by at most (7 steps + 1.2 (cells + 2)) / 2^53, so the test pattern accepts the output. With 2^31 cells or more the table of index sets, of type int32, is wrong.",
  "all grids, velocities, fields, step counts, arithmetics, argument lists and orders of summation", "universal over grids, step counts and the unspecified order of numpy.sum; the overflow needs 2^31 cells", ["upwind/python/upwind.py:Upwind,main"])
p("C77", "The file of the Python version",
  "saveVTK.rectilinear writes the header, dimensions and coordinates of the C++ file, but the values without a separator except for a line end after every tenth; so the values become one word for every ten cells, and with two cells or more the file cannot be read.",
  "all grids of up to three axes, all fields and all ways to print numbers without blanks", "no test reads the file back", ["upwind/python/saveVTK.py:rectilinear", "upwind/python/upwind.py:saveVTK"])

p("C78", "The Julia versions solve the same problem",
  "upwind.jl and upwind3.jl: for every grid of fewer than 2^60 cells (upwind3.jl: axes of at most 2^53 cells), all velocities, lengths, fields and step counts, the loop over cells of upwind.jl and the whole-array statements of upwind3.jl compute, cell by cell, the upwind scheme with the increment of an axis evaluated as in C++; the two versions agree bit for bit with each other, and in every cell with the C++ version, although the cells are listed with the first index varying fastest. getFlatIndex and getIndexSet are inverse. The programs run exactly for 1 <= n (|n| < 2^20). In double precision all values stay between 0 and 1 and the check sum, in whatever order sum() adds, differs from 1 by at most (7 steps + 1.2 (cells + 2)) / 2^53, so the test pattern accepts the output. advect! of upwind.jl takes the neighbours from the global variable up: for an object with another grid the field can be silently wrong.",
  "all grids, velocities, fields, step counts, arithmetics, argument lists and orders of summation", "universal over grids, step counts and the unspecified order of sum(); tests run one object on one cube", ["upwind/julia/upwind.jl:Upwind,advect!,getFlatIndex,getIndexSet", "upwind/julia/upwind3.jl:Upwind,advect!,main"])
p("C79", "The file of the Julia versions",
  "saveVTK.jl: what rectilinear writes is read back as the axes and values it was given, and the field of an object has each cell where the format expects it; but the programs never write a file: with vtk they end with status 1.",
  "all axes, fields and ways to print numbers as numerals; all argument lists", "no test passes vtk or reads a file back", ["upwind/julia/saveVTK.jl:rectilinear", "upwind/julia/upwind.jl:save2VTK"])

p("C80", "matmult: the two products agree and the program reports success",
  "matmult.F90: for matrices of any matching sizes and contents matmult0 stores in every element of c the sum over j, in this order, of a(i,j)*b(j,k) (the product of linear algebra in exact arithmetic), whatever c contained. matmult1 (do concurrent) has no race and gives the same result to the last bit for every number of threads, distribution of the iterations and interleaving, and every execution ends. initmat fills a and b with 1, 2, 3, ... by columns; while m (n m + m el)^2 <= 2^53 the product consists of the exact integers. For all arguments that are integers the program prints SUCCESS., for whatever the uninitialised variable ier contains; but ier decides whether the sizes given are used. An argument that is no integer ends the program, and nothing else does.",
  "all matrix sizes and contents, arithmetics, schedules, argument lists and values of ier", "universal over schedules of the concurrent loop, sizes and the contents of an uninitialised variable; the program compares two results on one input", ["matmult/fortran/matmult.F90:initmat,matmult0,matmult1,test"])

p("C81", "The Laplacian benchmark in double precision",
  "laplacian.cxx in IEEE double precision, given that sin of a finite double is finite and at most 1 in absolute value and M_PI is finite: for nd axes with 4 nd <= 2^e, k rounds with e k <= 900, every size that is a power of two, every process count and decomposition: no value overflows or is a NaN, every cell differs from k exact applications of the periodic Laplacian to the initial field by at most k (2 nd + 3) 2^(e k - 53), so it follows the eigenvalue law up to that and the accuracy of the sine; with M_PI the double next to pi and a sine accurate to u, every cell differs from the k-th power of the eigenvalue times the product of sines by at most (nd (u + 42/2^53) + k (2 nd + 3)/2^53) 2^(e k); the check sums are finite in every order of MPI_Reduce and at most (N k (2 nd + 3) + (N + P)^2) 2^(e k - 53) for N cells and P processes. In one and two dimensions constants are mapped to zero without error; in three dimensions they are not.",
  "all dimensions, power-of-two sizes, process counts, numbers of rounds, reduction orders, sine functions", "universal over rounding, decompositions and reduction orders", ["laplacian/cxx/laplacian.cxx:main,func", "cxx/Filter.cpp:applyFilter,computeCheckSum"])

p("C82", "The upwind scheme converges to the solution of the advection equation",
  "In real arithmetic, from a field sampled from a periodic profile with second derivatives bounded by M, under the Courant condition: after n steps of advect every cell differs from the profile carried along with the velocity by at most n M/2 ((dt |v|)^2 + dt sum |v_j| dx_j), so by at most (elapsed time) M |v| h when all cells are at most h long; the error tends to zero on fine grids, uniformly in the time step. The carried profile solves the advection equation. A velocity along one axis that crosses one cell per step moves every field without error.",
  "all dimensions, grids, velocities of any sign, time steps, numbers of steps, profiles", "a test sees a few grids; convergence is a statement about all of them", ["upwind/cxx/upwind.cxx:advect"])

p("C83", "Information travels at most one cell per step, and only downwind",
  "In any arithmetic, rounding included, after n steps of advect a cell depends only on the cells at most n cells upwind (the sum over the axes, on the periodic grid). So a cell with nothing but a steady background value there holds exactly that value; in the program upwind in double precision every cell (i, j, k) with i + j + k larger than the number of steps holds +0 exactly.",
  "all dimensions, grids, velocities, numbers of steps, fields, arithmetics", "two initial fields and all of their continuations are compared", ["upwind/cxx/upwind.cxx:advect,main"])
p("C84", "The advected field is the distribution of a random walk",
  "In real arithmetic the field after n steps is the average of the initial field over all walks of n letters (stay, or one cell upwind along an axis, with probability |v_j| dt / dx_j). From the constructor's corner field, with fewer steps than cells along every axis, it is the multinomial distribution; the program upwind leaves steps! / (i! j! k! (steps-i-j-k)!) (1/10)^(i+j+k) (7/10)^(steps-i-j-k) in cell (i, j, k).",
  "all dimensions, grids, velocities of any sign, time steps, numbers of steps, fields", "closed form for every cell and every number of steps", ["upwind/cxx/upwind.cxx:advect,main"])

p("C85", "The MPI version in Python computes the same field as the serial version, for any number of processes",
  "For every uniform decomposition the processes of upwindMPI.py own boxes that tile the grid, start from one in the first cell and zero elsewhere, and after n steps hold a field given cell by cell by a formula that spells out the order of the operations; gatherRoot returns that field in the order of the serial program. In exact arithmetic the steps are those of the upwind scheme if and only if along every axis with negative velocity each process has one cell; the program therefore (all velocities are 1) gathers the field of upwind.py and upwind.cxx, prints the check sum 1 and writes the file of upwind.py. With a negative velocity and two cells or more per process the step is wrong, and in double precision the bits depend on the decomposition.",
  "all grids of three axes, decompositions, numbers of processes, velocities, lengths, fields, numbers of steps; formula and gather: all arithmetics", "number of processes, decomposition and sign of the velocity are free; the test runs one number of processes", ["upwind/python/upwindMPI.py:Upwind.__init__,advect,checksum,gatherRoot,main"])

p("C86", "In double precision the MPI version in Python passes its test for any number of processes",
  "For every number of processes and uniform decomposition, every order of the additions in numpy.sum and in the reduction, after k steps all values are between 0 and 1 + 9 k / 2^53 and the check sum differs from 1 by at most (9 k + 1.2 n^3) / 2^53; so the program upwindMPI.py ends with status 0 on all processes and its output matches the pattern of the test upwindPythonMpiN. Unlike the other versions a uniform field is not kept: with one cell the value 1 becomes 1 - 2^-53.",
  "all numbers of cells below 2^31, processes, decompositions, steps, orders of summation; IEEE double precision", "rounding errors over all grids, decompositions and summation orders", ["upwind/python/upwindMPI.py:advect,checksum,main", "upwind/python/CMakeLists.txt:18-32"])

p("C87", "In double precision the Fortran versions keep the field in [0,1] and print a check sum the tests accept",
  "After any number of steps k all values of the Fortran programs are finite doubles between 0 and 1, and the sum of the field, in whatever order it is added, differs from 1 by at most (8 k + 1.2 n^3) / 2^53. The program ends with status 0, its last line is the check sum in the format f15.9 and is accepted by the pattern of the tests; with 8 k + 2 n^3 <= 4500000 it is exactly 'check sum:     1.000000000'. Without an argument the exit status is 0 as well.",
  "all numbers of cells with n^3 < 2^31 and all numbers of steps below 2^31; IEEE double precision; any order of summation", "rounding errors over all grids and numbers of steps", ["upwind/fortran/upwind.F90:100-153,305-371", "upwind/fortran/CMakeLists.txt:18-70"])

p("C88", "The VTK file of the Fortran versions can be read after up to 100 steps, and not after more on a large grid",
  "The programs write the file with the format e20.7, which drops the letter E when the exponent has three digits. With at most 100 steps (the default) the file up.vtk is a legacy VTK file a reader accepts: dimensions n+1, the coordinates of each axis read as i/n to 3e-6, and every value reads as the value of the cell to a relative 1e-6. With 101 to 280 steps on a grid with more cells along each axis than steps the reader rejects the file, because the value of the cell the material has just reached is below 0.5e-100. The line DIMENSIONS runs two numbers together when one has ten digits.",
  "all numbers of cells with n^3 < 2^31 and numbers of steps up to 100 (readable), all 101 <= steps <= 280 with steps < n (not readable); IEEE double precision; every e20.7 that rounds to nearest", "text of all files for all grid sizes; the tests do not read the file", ["upwind/fortran/upwind.F90:155-233", "upwind/fortran/upwindF03.F90:195-224", "upwind/fortran/upwindF08.F90:199-228"])

p("C89", "The report of the number of threads in the Fortran versions is right with one thread and a race with more",
  "upwind.F90 and upwindF03.F90 set and test three variables inside a parallel region without declaring them private. With one thread the report is printed once and is right, whatever the variables held before. With two or more threads there are executions that print nothing, executions in which every thread prints its own copy, and executions that print 1 as the number of threads; in every execution each number printed is the right one or 1, and there are at most as many copies as threads. With private variables the report would be right in every execution. upwindF08Gpu.F90 has a race as well, but all threads write the same number and the line is right.",
  "all numbers of threads, all interleavings of the accesses, any contents of the variables before the region", "the outcome depends on the schedule", ["upwind/fortran/upwind.F90:287-303", "upwind/fortran/upwindF03.F90:294-310", "upwind/fortran/upwindF08Gpu.F90:378-384"])

p("C90", "The Cython version computes the field of upwind.py, and only with Python 2 and NumPy before 1.10",
  "The class of upwind5.pyx can be constructed exactly when the division of integers rounds down (Python 2), and its advect works exactly when NumPy stores a float64 sum in an integer array (before 1.10); otherwise every constructor, or every call of advect, raises an exception. When both hold, any number of calls of advect on any field gives, to the last bit, the field of upwind.py. For the problem of the benchmark the values in IEEE doubles stay between 0 and 1 and the check sum is one up to rounding. With 2^31 cells or more the constructor raises an exception.",
  "all dimensions, sizes, velocities, fields, time steps, numbers of calls, both kinds of Python and NumPy", "needs four combinations of Python and NumPy and infinitely many fields", ["upwind/cython/upwind5.pyx:34-99", "upwind/cython/upwind5.pyx:147-148"])
p("C91", "print() and printOut() show every cell once, in the order of the memory",
  "The words printed by Upwind::print (all C++ versions) and by printOut of the Cython version are, for the cells in row-major order, the number of the cell followed by the text of its value, and nothing else.",
  "all dimensions, fields and texts of numbers without white space", "holds for every field; the functions are never called by the programs or tests", ["upwind/cxx/upwind.cxx:105-109", "upwind/cxx/upwindAcc.cxx:98-102", "upwind/cxx/upwindAcc2.cxx:117-121", "upwind/cxx/upwindOMP5.cxx:117-121", "upwind/cxx/upwindOMPTasks.cxx:105-109", "upwind/cython/upwind5.pyx:150-152"])

p("C92", "The stability limit of the upwind scheme is sharp",
  "In real arithmetic the field of Upwind stays within the bounds of its start, for every start and every number of steps, exactly if the Courant numbers |v| dt / dx of the axes of two or more cells add up to at most one. Every Fourier mode of the field is multiplied by its own complex number in every step; if one of them has a modulus above one, and in particular if one axis of two or more cells has a Courant number above one or axes of even length together exceed one, the values computed by the program from its own start grow beyond every bound.",
  "all dimensions, sizes, velocities, time steps, fields, modes and numbers of steps", "a test sees finitely many steps of finitely many fields and cannot tell slow growth from none", ["upwind/cxx/upwind.cxx:23-49", "upwind/cxx/upwind.cxx:51-87"])
p("C93", "The pulse moves with the velocity and spreads like numerical diffusion",
  "In real arithmetic, as long as there are fewer steps than cells along the axis, the centre of mass of the field the program computes has moved exactly |v| t downwind from the first cell, its variance is exactly 2 D t with D = |v| dx (1 - c) / 2 and c the Courant number of the axis, two axes have the covariance -|v_i| |v_j| t dt, and the distribution along one axis is binomial.",
  "all dimensions, sizes, velocities, time steps and numbers of steps below the number of cells of the axis", "an identity for every grid, velocity and number of steps; the tests compare one check sum", ["upwind/cxx/upwind.cxx:23-49", "upwind/cxx/upwind.cxx:51-87"])

p("C94", "The standard deviation printed by the program in closed form; when the field stays bounded; its limit",
  "In real arithmetic the number printed with -std for n cells along each axis after any number of steps is sqrt(S) / n^3, S the sum over all Fourier modes but the constant one of the squared modulus of the factor of the mode to the power of the number of steps. For any grid and velocity the sum of squares after any number of steps is the sum over the modes in the same way, the values computed from the program's own start stay bounded exactly if no factor has a modulus above one, and if the Courant numbers of the moving axes add up to less than one every cell tends to one divided by the number of cells.",
  "all dimensions, sizes, velocities, time steps, fields and numbers of steps", "a closed form for every grid and number of steps, and limits", ["upwind/cxx/upwind.cxx:23-49", "upwind/cxx/upwind.cxx:51-87", "upwind/cxx/upwind.cxx:checksum", "upwind/cxx/upwind.cxx:173-205"])

p("C95", "In double precision every value and the standard deviation printed are close to those of exact arithmetic",
  "For n cells along each axis (n^3 < 2^31) and any number of steps below 2^31 the fields computed in IEEE double precision by upwind.cxx, the accelerator versions, the Python, the Julia, the Fortran and the Cython versions differ from the field the scheme gives in exact arithmetic by at most 9 steps / 2^53 in every cell; for all but the Julia version that bounds even the sum of the differences over all cells, so that any two of the versions agree within 18 steps / 2^53. The fields of upwindMpi (sizes that are powers of two) and of the MPI version in Python, put together from any number of processes, are within 8 and 11 steps / 2^53, so that runs with different numbers of processes and the serial run agree to rounding. With fewer steps than cells along an axis this is the distance to the multinomial probabilities. The number printed with -std is within (16 steps + 12 n^3) / (sqrt(n^3) 2^53) of the exact standard deviation, for which C94 has a closed form.",
  "all grid sizes and numbers of steps", "rounding errors over every grid and number of steps; tests compare a few decimals of the check sum", ["upwind/cxx/upwind.cxx:23-49", "upwind/cxx/upwind.cxx:51-87", "upwind/cxx/upwind.cxx:95-103", "upwind/cxx/upwind.cxx:173-205", "upwind/cxx/upwindAcc.cxx:advect", "upwind/fortran/upwind.F90:upwind_new,upwind_advect,main", "upwind/cython/upwind5.pyx:34-99", "upwind/cxx/upwindMpi.cxx:main", "upwind/python/upwindMPI.py:advect"])

p("C96", "The file written by saveVTK of the Cython version is wrong in its first line and in nothing else",
  "saveVTK of upwind5.pyx writes \"# vtk Data Version 2.0\" instead of \"# vtk DataFile Version 2.0\", so that a reader of legacy VTK files refuses every file it writes. With the first line corrected, for one to three dimensions, the reader finds a rectilinear grid with one point more than cells along each axis (one along the axes the grid lacks), the axes in reverse order, the coordinates of the points and, for the cells in the order of the memory, the values of the field.",
  "all dimensions up to three, sizes, velocities, fields and texts of numbers without white space", "holds for every field; nothing calls the function", ["upwind/cython/upwind5.pyx:102-145"])

with open(os.path.join(os.path.dirname(__file__), "..", "properties.jsonl"), "w") as f:
    for q in P:
        f.write(json.dumps(q) + "\n")
print(len(P), "properties")
