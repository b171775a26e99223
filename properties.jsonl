{"id": "C01", "title": "Offset correlation is the exact mean over admitted frame pairs", "statement": "gcf_offset(f, grid, skip, t, x) returns a strictly increasing list of time differences, each the difference of two recorded steps; the value listed for a time difference is the average of f(x[i0+i], x[i0]) over exactly the pairs with (off,i) in grid, i0 = off, off+skip, off+2*skip, ... with i0+i < len(x), and t[i0+i]-t[i0] equal to that difference; a time difference is listed if and only if at least one such pair exists, so no division by zero happens.", "quantifier": "all f, grids, skips >= 1, step lists and data lists of equal length, and all arithmetics (including rounding ones)", "why_tests_cant": "Tests compare one trajectory's numbers with a tolerance; a dropped or doubled pair in another grid/skip combination is invisible.", "anchors": ["atooms/postprocessing/correlation.py:gcf_offset"]}
{"id": "C02", "title": "Autocorrelation covers all pairs of the grid", "statement": "acf(grid, skip, t, x) averages (x[i0+i]-mean)(x[i0]-mean) over every origin i0 = 0, skip, 2*skip, ... with i0+i < len(x); with skip 1 and lag 0 in the grid, and strictly increasing times, the value at time difference 0 is the variance of x; counts returned are the number of pairs used.", "quantifier": "all grids, skips, step lists and data", "why_tests_cant": "Pair coverage must hold for every length/lag/skip combination.", "anchors": ["atooms/postprocessing/correlation.py:acf"]}
{"id": "C03", "title": "gcf uses all possible pairs (claimed by its documentation)", "statement": "gcf(f, grid, skip, t, x) averages f over all possible pairs (i0+i, i0) provided by grid, including the pair that ends on the last frame.", "quantifier": "all f, grids, step lists and data", "why_tests_cant": "An off-by-one in the last origin changes averages by less than test tolerances.", "anchors": ["atooms/postprocessing/correlation.py:gcf"]}
{"id": "C04", "title": "The time grid only contains realisable time differences and matches every requested time to the nearest one", "statement": "setup_t_grid returns pairs (offset, lag) such that offset < block_size (or 0 when offsets are disabled), offset+lag is a recorded frame, the induced time differences are strictly increasing; for every requested time the closest available difference (smallest on ties) is in the result, and every entry of the result is the closest match of some requested time.", "quantifier": "all step lists, block sizes, timesteps and requested grids", "why_tests_cant": "Requires nearest-match and validity for every step pattern (linear, logarithmic blocks, irregular).", "anchors": ["atooms/postprocessing/helpers.py:setup_t_grid", "atooms/postprocessing/helpers.py:_templated"]}
{"id": "C05", "title": "With periodic blocks the reported times are the nominal ones and each gets data", "statement": "If the steps are periodic over blocks of block_size frames and skip comes from adjust_skip, then the time grid returned by an offset correlation is exactly the list of time differences selected by setup_t_grid, each with at least one pair.", "quantifier": "all block-periodic step lists, block sizes, skips produced by adjust_skip and requested grids", "why_tests_cant": "Interplay of three functions over all periodic patterns; tests use one linear trajectory.", "anchors": ["atooms/postprocessing/helpers.py:setup_t_grid", "atooms/postprocessing/helpers.py:adjust_skip", "atooms/postprocessing/correlation.py:gcf_offset"]}
{"id": "C06", "title": "The interval between time origins is always usable", "statement": "adjust_skip returns an integer between 1 and the number of frames, and unless a single origin results it is a multiple of the block size, for every accepted norigins; norigins=-1 gives one origin per block, norigins=1 a single origin.", "quantifier": "all trajectories with at least one frame, block sizes >= 1 and norigins values of any type", "why_tests_cant": "All combinations of frame number, block size and norigins types.", "anchors": ["atooms/postprocessing/helpers.py:adjust_skip"]}
{"id": "C07", "title": "An integer norigins bounds the number of time origins", "statement": "With norigins = n > 1, exactly n time origins are used (documented: 'use only n_origins time origins').", "quantifier": "all numbers of frames and n", "why_tests_cant": "Tests never count the origins actually used.", "anchors": ["atooms/postprocessing/helpers.py:adjust_skip", "atooms/postprocessing/correlation.py:Correlation"]}
{"id": "C08", "title": "A fractional norigins given on the command line is accepted", "statement": "pp.py --norigins 0.2 (documented in the README), i.e. adjust_skip called with the string '0.2', selects the same origins as the float 0.2; every decimal string strictly between 0 and 1 is accepted.", "quantifier": "all decimal strings denoting a fraction in (0,1)", "why_tests_cant": "The command line path with string-typed options is not exercised by tests.", "anchors": ["atooms/postprocessing/helpers.py:adjust_skip", "bin/pp.py", "README.md"]}
{"id": "C09", "title": "Linear grids hit both ends", "statement": "linear_grid(a, b, n) with integer n >= 2 has n equally spaced entries, the first a and the last b; with a float spacing d > 0 and b >= a it has int((b-a)/d)+1 entries a + i*d, all within [a, b] and the last one within d of b.", "quantifier": "all real a, b, n, d", "why_tests_cant": "Floating and integer branches over all values; unit tests use a few literals.", "anchors": ["atooms/postprocessing/helpers.py:linear_grid"]}
{"id": "C10", "title": "Logarithmic grids with positive start go from x1 to x2", "statement": "logx_grid(x1, x2, n) with 0 < x1 <= x2 and n >= 2 has n nondecreasing entries, starting at x1 and ending exactly at x2, all in [x1, x2], with constant ratio between consecutive entries from the second on.", "quantifier": "all real 0 < x1 <= x2 and n >= 2", "why_tests_cant": "Needs reasoning about real powers for every n.", "anchors": ["atooms/postprocessing/helpers.py:logx_grid"]}
{"id": "C11", "title": "Logarithmic grids starting at zero go from 0 to x2", "statement": "logx_grid(0, x2, n) ('a list of n numbers in logx scale from x1 to x2') ends at x2 and stays within [0, x2]; this is the default time grid of the intermediate scattering, overlap and chi4 classes.", "quantifier": "all x2 > 0 and n >= 2", "why_tests_cant": "The failure shows only for some x2 (for example short trajectories with total time below 4/3).", "anchors": ["atooms/postprocessing/helpers.py:logx_grid", "atooms/postprocessing/fkt.py:IntermediateScatteringBase", "atooms/postprocessing/qt.py:SelfOverlap"]}
{"id": "C12", "title": "A root reported by feqc is a root of the linear interpolant", "statement": "When feqc(x, f, fstar) returns (xstar, i), i is the first index at which f-fstar has the opposite sign of f[0]-fstar, xstar lies between x[i-1] and x[i], and the straight line through the two data points takes the value fstar at xstar; no index is ever taken from the wrong end of the lists and no division by zero occurs for strictly increasing x.", "quantifier": "all data sets with strictly increasing x and all targets", "why_tests_cant": "Holds for every data set, not just monotone samples.", "anchors": ["atooms/postprocessing/helpers.py:feqc"]}
{"id": "C13", "title": "feqc finds a root whenever the data attain the target", "statement": "If f attains or crosses fstar at some data point, feqc returns a root; otherwise it raises ValueError (documented).", "quantifier": "all data sets and targets", "why_tests_cant": "Exact hits and the no-root path are never tested.", "anchors": ["atooms/postprocessing/helpers.py:feqc"]}
{"id": "C14", "title": "Parabolic extremum interpolation is exact for parabolas and always defined", "statement": "ifabsmm(x, f) on strictly increasing x never divides by zero; if the absolute extremum is at the boundary the data point is returned; otherwise the returned abscissa lies strictly between the neighbours of the extremal sample and the returned value is at least as extreme as every sample; data sampled from a parabola give its exact vertex.", "quantifier": "all data sets with strictly increasing x", "why_tests_cant": "One parabola is tested; exactness and bounds must hold for all data.", "anchors": ["atooms/postprocessing/helpers.py:ifabsmm"]}
{"id": "C15", "title": "linear_fit is the least-squares line", "statement": "linear_fit(x, y) with at least two distinct x returns the unique (a, b) minimising sum (y - a x - b)^2; data on a line are recovered exactly with zero error estimates.", "quantifier": "all data sets with two distinct abscissae", "why_tests_cant": "Optimality quantifies over all competing lines.", "anchors": ["atooms/postprocessing/helpers.py:linear_fit"]}
{"id": "C16", "title": "linear_fit never fails on valid data", "statement": "linear_fit does not raise for any data with at least two distinct abscissae (so analyze() of the mean square displacement never aborts a run).", "quantifier": "all data sets, in exact arithmetic and in IEEE double precision", "why_tests_cant": "The square root of a rounded-negative variance appears only for special data.", "anchors": ["atooms/postprocessing/helpers.py:linear_fit", "atooms/postprocessing/msd.py:MeanSquareDisplacement.analyze"]}
{"id": "C17", "title": "Mean square displacement is a mean of squares", "statement": "MeanSquareDisplacement values are nonnegative, zero at time 0, unchanged when the whole trajectory is translated, and equal |v|^2 t^2 when all particles move with constant velocity v.", "quantifier": "all trajectories, grids and skips", "why_tests_cant": "All trajectories and origins.", "anchors": ["atooms/postprocessing/msd.py:MeanSquareDisplacement._compute", "atooms/postprocessing/correlation.py:gcf_offset"]}
{"id": "C18", "title": "fix_cm removes any center-of-mass motion", "statement": "With unfolded positions and fix_cm=True the mass-weighted center of the positions used is at the origin in every frame, and the positions are unchanged if an arbitrary frame-dependent displacement is added to all particles; applying the correction again changes nothing.", "quantifier": "all frames, masses with nonzero total and drifts", "why_tests_cant": "Quantifies over all drifts and repeated computations on a cached trajectory.", "anchors": ["atooms/postprocessing/correlation.py:Correlation._setup_arrays_onebody"]}
{"id": "C19", "title": "Overlap functions are bounded and normalised", "statement": "SelfOverlap values lie in [0,1] and equal 1 at time 0; collective overlap is never below self overlap and never above the number of particles.", "quantifier": "all trajectories with at least one particle, cut-offs a > 0", "why_tests_cant": "Bounds for all configurations.", "anchors": ["atooms/postprocessing/qt.py:SelfOverlap", "atooms/postprocessing/qt.py:CollectiveOverlap"]}
{"id": "C20", "title": "The non-Gaussian parameter is bounded below", "statement": "NonGaussianParameter is 0 at time 0 and, whenever some particle moved, at least -2/5; it vanishes nowhere else by accident of implementation: it equals 3<r^4>/(5<r^2>^2) - 1.", "quantifier": "all pairs of frames", "why_tests_cant": "An inequality over all configurations.", "anchors": ["atooms/postprocessing/alpha2.py:NonGaussianParameter"]}
{"id": "C21", "title": "chi4 is a nonnegative variance", "statement": "Chi4SelfOverlap values are the population variance of the per-origin overlap counts divided by the number of particles, hence nonnegative, and zero at time 0.", "quantifier": "all trajectories, grids and skips", "why_tests_cant": "Nonnegativity over all data.", "anchors": ["atooms/postprocessing/chi4t.py:Chi4SelfOverlap"]}
{"id": "C22", "title": "chi4 uses all time origins with norigins=-1", "statement": "With norigins=-1, Chi4SelfOverlap averages over every frame i0 from which the time difference can be measured.", "quantifier": "all trajectories and lags", "why_tests_cant": "A missing last origin is within tolerance.", "anchors": ["atooms/postprocessing/chi4t.py:Chi4SelfOverlap"]}
{"id": "C23", "title": "norigins controls the origins of velocity and stress autocorrelations", "statement": "VelocityAutocorrelation and StressAutocorrelation use the time origins selected by norigins, and VelocityAutocorrelation can be constructed without a time grid.", "quantifier": "all trajectories and norigins", "why_tests_cant": "Only the default call path via the API is tested.", "anchors": ["atooms/postprocessing/vacf.py:VelocityAutocorrelation", "atooms/postprocessing/sacf.py:StressAutocorrelation"]}
{"id": "C24", "title": "Pair distances are minimum-image distances", "statement": "The Python g(r) kernel returns for each pair the smallest distance among all periodic images; so do the Fortran kernels when coordinate differences are below 3/2 of the cell side.", "quantifier": "all positions, cells with positive sides, any dimension", "why_tests_cant": "A minimum over infinitely many images.", "anchors": ["atooms/postprocessing/gr.py:gr_kernel", "atooms/postprocessing/realspace.f90:gr_self_c"]}
{"id": "C25", "title": "Fortran kernels agree with the Python kernel for unfolded positions", "statement": "The distance used by the Fortran kernels equals the minimum-image distance for every pair of positions, folded or not.", "quantifier": "all positions", "why_tests_cant": "Tests use folded trajectories.", "anchors": ["atooms/postprocessing/realspace.f90:gr_self_c", "atooms/postprocessing/realspace.f90:pbc"]}
{"id": "C26", "title": "Every pair is counted exactly once in the g(r) histogram", "statement": "pairs_newton_hist counts each unordered pair of distinct particles exactly once whatever the batch size, pairs_hist counts each ordered pair exactly once; the histogram total is the number of pairs whose distance lies within the bin edges.", "quantifier": "all particle numbers, positions and bin edges", "why_tests_cant": "Batch boundaries occur only for large systems (more than 316 particles).", "anchors": ["atooms/postprocessing/gr.py:pairs_newton_hist", "atooms/postprocessing/gr.py:pairs_hist"]}
{"id": "C27", "title": "A particle is never its own neighbour in g(r)", "statement": "No calculation of g(r) counts the zero distance of a particle to itself.", "quantifier": "all filters", "why_tests_cant": "Tests skip the first bins.", "anchors": ["atooms/postprocessing/gr.py:RadialDistributionFunctionLegacy._compute", "atooms/postprocessing/filter.py:Filter"]}
{"id": "C28", "title": "g(r) normalisation: coordination numbers and composition rule", "statement": "Multiplying g(r) by density and shell volume and summing gives the mean number of neighbours per particle within the histogram range; g is symmetric in the two groups; and when the particles are partitioned by species, the total g(r) is the sum over pairs of species of the partial g_ab weighted by the product of concentrations.", "quantifier": "all configurations, grids and partitions", "why_tests_cant": "Identities over all configurations.", "anchors": ["atooms/postprocessing/gr.py:RadialDistributionFunctionLegacy._compute", "atooms/postprocessing/partial.py:Partial"]}
{"id": "C29", "title": "Shell volumes are right in every dimension", "statement": "The shell volume used to normalise g(r) is the volume of the d-dimensional spherical shell for every dimension d >= 1.", "quantifier": "all dimensions and bin edges", "why_tests_cant": "Only d=2,3 are tested.", "anchors": ["atooms/postprocessing/gr.py:RadialDistributionFunctionLegacy._compute"]}
{"id": "C30", "title": "Linked cells find every pair within the cutoff exactly once", "statement": "LinkedCells.compute on positions folded in the cell, with at least three cells per side, lists every unordered pair whose minimum-image distance is below rcut exactly once (or every ordered pair exactly once for two groups), lists no pair twice and never a particle with itself.", "quantifier": "all positions in the cell, cutoffs, 2 and 3 dimensions, both periodicities", "why_tests_cant": "All positions and cell numbers; tests use 4 particles.", "anchors": ["atooms/postprocessing/linkedcells.py:LinkedCells.compute", "atooms/postprocessing/linkedcells.py:LinkedCells._map"]}
{"id": "C31", "title": "LinkedCells.compute depends only on its arguments", "statement": "Calling compute on a LinkedCells object gives the same neighbours as calling it on a fresh object, whatever calls were made before.", "quantifier": "all histories of compute calls with varying cells and options", "why_tests_cant": "History-dependent.", "anchors": ["atooms/postprocessing/linkedcells.py:LinkedCells.compute"]}
{"id": "C32", "title": "newton=False gives the full neighbour list", "statement": "With newton=False every neighbour pair appears in both particles' lists.", "quantifier": "all positions", "why_tests_cant": "The only test has one particle per cell.", "anchors": ["atooms/postprocessing/linkedcells.py:LinkedCells.compute"]}
{"id": "C33", "title": "Histogram kernels stay inside the histogram", "statement": "The Fortran g(r) kernels never write outside the histogram array.", "quantifier": "all positions, cells, bin widths and user grids, exact and IEEE arithmetic", "why_tests_cant": "Out-of-bounds writes are silent in Fortran.", "anchors": ["atooms/postprocessing/realspace.f90:gr_self_c", "atooms/postprocessing/realspace.f90:gr_neighbors_self_c", "atooms/postprocessing/gr.py:RadialDistributionFunctionFast"]}
{"id": "C34", "title": "Fast and legacy g(r) agree", "statement": "For folded periodic trajectories and the default grid, RadialDistributionFunctionFast and Legacy return the same counts in every returned bin.", "quantifier": "all folded configurations", "why_tests_cant": "Equality for all configurations.", "anchors": ["atooms/postprocessing/gr.py:RadialDistributionFunctionFast", "atooms/postprocessing/gr.py:RadialDistributionFunctionLegacy"]}
{"id": "C35", "title": "Bond-angle distribution is normalised", "statement": "BondAngleDistribution integrates to 1 whenever at least one angle was recorded, and all angles from 0 to 180 degrees contribute.", "quantifier": "all configurations, cutoffs and bin widths", "why_tests_cant": "Boundary angles and odd bin widths are not tested.", "anchors": ["atooms/postprocessing/ba.py:BondAngleDistribution", "atooms/postprocessing/realspace.f90:bond_angle"]}
{"id": "C36", "title": "Tabulated exponentials are the exponentials", "statement": "expo_sphere(k0, nk, pos) holds exp(i n k0_j x_j) at index nk+n for every n from -nk to nk, every particle and dimension.", "quantifier": "all k0, nk >= 1, positions", "why_tests_cant": "Recursions over all nk.", "anchors": ["atooms/postprocessing/fourierspace.py:expo_sphere", "atooms/postprocessing/fourierspace.py:expo_sphere_safe"]}
{"id": "C37", "title": "Wave-vector shells", "statement": "The wave-vectors selected for k_i are lattice vectors of the cell whose norm is within the (possibly widened) dk_i of k_i, no vector is in two shells, no shell is empty, all table indices are inside the exponential table, and when no widening was needed every lattice vector within dk of some k_i is in exactly one shell.", "quantifier": "all cells in 2 and 3 dimensions, sorted k grids, dk > 0", "why_tests_cant": "All cells and grids.", "anchors": ["atooms/postprocessing/fourierspace.py:FourierSpaceCorrelation._setup_grid_sphere"]}
{"id": "C38", "title": "Shell widening terminates", "statement": "For every cell with positive sides, k grid and dk > 0 the adaptive widening of shells terminates with all shells non-empty.", "quantifier": "all cells, grids, dk > 0", "why_tests_cant": "Termination for all inputs.", "anchors": ["atooms/postprocessing/fourierspace.py:FourierSpaceCorrelation._setup_grid_sphere"]}
{"id": "C39", "title": "Decimation is reproducible and bounded", "statement": "At most nk distinct wave-vectors are kept per shell, at least one, all from the shell; kgrid becomes the mean norm of the kept vectors; the choice does not depend on any previous use of the random module.", "quantifier": "all random generator states, shells and nk >= 1", "why_tests_cant": "Quantifies over generator histories.", "anchors": ["atooms/postprocessing/fourierspace.py:FourierSpaceCorrelation._setup"]}
{"id": "C40", "title": "Wave-vectors can be copied between correlations", "statement": "Setting q.kvectors = p.kvectors makes q.kvectors equal to p.kvectors and q.kgrid equal to the mean norms, for wave-vectors of the cell.", "quantifier": "all cells and lists of lattice wave-vectors", "why_tests_cant": "All lattice vectors.", "anchors": ["atooms/postprocessing/fourierspace.py:FourierSpaceCorrelation.kvectors"]}
{"id": "C41", "title": "User-provided wave-vectors are usable", "statement": "After setting kvectors to any list of lattice wave-vectors, compute() finds every vector inside its table of exponentials.", "quantifier": "all lists of lattice wave-vectors", "why_tests_cant": "Only symmetric sets are tested.", "anchors": ["atooms/postprocessing/fourierspace.py:FourierSpaceCorrelation.kvectors", "atooms/postprocessing/fourierspace.py:expo_sphere"]}
{"id": "C42", "title": "Partial correlations share the same wave-vectors", "statement": "All correlation objects built with the same k grid list, cell and parameters use the same wave-vectors, and the caller's list is left unchanged ('the same set independent of filters').", "quantifier": "all k grids, cells and sequences of computations sharing the list", "why_tests_cant": "Aliasing shows only in sequences of computations.", "anchors": ["atooms/postprocessing/fourierspace.py:FourierSpaceCorrelation._setup", "atooms/postprocessing/partial.py:Partial"]}
{"id": "C43", "title": "Structure factor is nonnegative, translation invariant and 1 for one particle", "statement": "StructureFactor without weights and with a single group is nonnegative, unchanged by a translation of all particles, equals 1 for a single particle, and is the average of |sum exp(i k r)|^2 / N.", "quantifier": "all configurations and wave-vectors", "why_tests_cant": "All configurations.", "anchors": ["atooms/postprocessing/sk.py:StructureFactorLegacy"]}
{"id": "C44", "title": "Partial structure factors add up to the total", "statement": "sum_ab sqrt(N_a N_b) S_ab(k) = N S(k), and S_ab = S_ba, for the same wave-vectors.", "quantifier": "all configurations partitioned in species", "why_tests_cant": "All partitions.", "anchors": ["atooms/postprocessing/sk.py:StructureFactorLegacy", "atooms/postprocessing/partial.py:Partial"]}
{"id": "C45", "title": "StructureFactorFast equals StructureFactorLegacy", "statement": "The Fortran-accelerated structure factor returns the same values as the Python one.", "quantifier": "all configurations and wave-vectors", "why_tests_cant": "The test tolerance hides a different wave-vector.", "anchors": ["atooms/postprocessing/sk.py:StructureFactorFast", "atooms/postprocessing/fourierspace.f90:sk_bare"]}
{"id": "C46", "title": "Self intermediate scattering function is the mean cosine", "statement": "F_s(k,t) is the average of cos(k.(r(t0+t)-r(t0))) over wave-vectors, origins and particles, whatever the block size used to tabulate exponentials; it lies in [-1,1], equals 1 at t=0; legacy and Fortran versions agree.", "quantifier": "all trajectories, wave-vectors, block sizes, grids", "why_tests_cant": "Independence of blocking for all sizes.", "anchors": ["atooms/postprocessing/fkt.py:SelfIntermediateScatteringLegacy", "atooms/postprocessing/fkt.py:SelfIntermediateScatteringFast", "atooms/postprocessing/fourierspace.f90:fskt_kernel_3d"]}
{"id": "C47", "title": "Intermediate scattering function is normalised and starts at the structure factor", "statement": "F(k,t) with normalize=True is 1 at t=0 whenever the unnormalised value there is nonzero, and the unnormalised t=0 value is N S(k) over the same wave-vectors and frames.", "quantifier": "all trajectories and wave-vectors", "why_tests_cant": "All configurations.", "anchors": ["atooms/postprocessing/fkt.py:IntermediateScattering", "atooms/postprocessing/sk.py:StructureFactorLegacy"]}
{"id": "C48", "title": "Partial intermediate scattering functions are symmetric", "statement": "Partial copies the (A,B) function to (B,A); F_AB(k,t) = F_BA(k,t) for every trajectory.", "quantifier": "all trajectories", "why_tests_cant": "Statistical symmetry hides the difference.", "anchors": ["atooms/postprocessing/partial.py:Partial.compute", "atooms/postprocessing/fkt.py:IntermediateScattering", "atooms/postprocessing/correlation.py:Correlation._symmetric"]}
{"id": "C49", "title": "Variable cells are detected", "statement": "is_cell_variable returns True if and only if some frame's cell differs from the first one.", "quantifier": "all trajectories and numbers of tests", "why_tests_cant": "Trajectories whose last frame equals the first.", "anchors": ["atooms/postprocessing/sk.py:is_cell_variable"]}
{"id": "C50", "title": "Species filters partition the particles and do not modify the trajectory", "statement": "filter_species keeps exactly the particles of the given species in order, the original system is unchanged, filtering over all distinct species yields every particle exactly once, and None keeps all.", "quantifier": "all systems and species", "why_tests_cant": "All systems.", "anchors": ["atooms/postprocessing/helpers.py:filter_species", "atooms/postprocessing/partial.py:Partial"]}
{"id": "C51", "title": "The number of filters is limited to the number of bodies", "statement": "add_filter raises once as many filters as bodies have been added ('number of filters cannot exceed n. of bodies'); no accepted filter is ignored.", "quantifier": "all sequences of add_filter calls", "why_tests_cant": "Histories of calls.", "anchors": ["atooms/postprocessing/correlation.py:Correlation.add_filter"]}
{"id": "C52", "title": "Partial computes each partial as if computed alone", "statement": "After Partial.compute(), each entry holds the grid and value that the correlation with that species filter (pair) would give on its own, for symmetric correlation functions.", "quantifier": "all species lists and correlation classes", "why_tests_cant": "All species numbers.", "anchors": ["atooms/postprocessing/partial.py:Partial.compute"]}
{"id": "C53", "title": "compute() can be repeated", "statement": "Calling compute() again on the same object returns the same grid and values.", "quantifier": "all histories of compute calls", "why_tests_cant": "Tests compute each object once.", "anchors": ["atooms/postprocessing/correlation.py:Correlation.compute", "atooms/postprocessing/correlation.py:Correlation._setup_arrays_onebody"]}
{"id": "C54", "title": "Written tables pair each grid point with its value", "statement": "write() outputs one row per grid point (for two-variable functions, per pair of grid points) containing the grid values and the corresponding value.", "quantifier": "all grids and values", "why_tests_cant": "All shapes.", "anchors": ["atooms/postprocessing/correlation.py:Correlation.write"]}
{"id": "C55", "title": "read() restores what write() stored", "statement": "After write(), read() on the same output file restores grid and value up to the six printed digits.", "quantifier": "all computed correlation functions", "why_tests_cant": "One-row files and two-variable functions are not tested.", "anchors": ["atooms/postprocessing/correlation.py:Correlation.read", "atooms/postprocessing/correlation.py:Correlation.write"]}
{"id": "C56", "title": "Update mode only reuses newer output", "statement": "do(update=True) skips the calculation if and only if the output file exists, is not /dev/stdout and is strictly newer than the trajectory; partial correlations are reused only if all output files are.", "quantifier": "all file states and modification times", "why_tests_cant": "All timestamp combinations.", "anchors": ["atooms/postprocessing/correlation.py:Correlation.need_update", "atooms/postprocessing/correlation.py:Correlation.do", "atooms/postprocessing/partial.py:Partial.do"]}
{"id": "C57", "title": "A crash while writing is repaired by the next update run", "statement": "If a run is interrupted at any point, a later do(update=True) never returns incomplete results.", "quantifier": "all crash points", "why_tests_cant": "Crash points.", "anchors": ["atooms/postprocessing/correlation.py:Correlation.write", "atooms/postprocessing/correlation.py:Correlation.do"]}
{"id": "C58", "title": "Output paths identify the calculation", "statement": "Different trajectories or tags produce different output files; the directory part of the path is never altered; with an empty tag the default path is <trajectory>.pp.<symbol>.", "quantifier": "all file names and tags", "why_tests_cant": "All strings.", "anchors": ["atooms/postprocessing/correlation.py:Correlation._output_file", "atooms/postprocessing/core.py:pp_output_path"]}
{"id": "C59", "title": "API functions process every input file", "statement": "Each api function computes and writes its correlation function for each of the given input files.", "quantifier": "all lists of files and species contents", "why_tests_cant": "Tests pass a single two-species file.", "anchors": ["atooms/postprocessing/api.py"]}
{"id": "C60", "title": "API options apply to total and partial correlations alike", "statement": "Options such as fix_cm and filter given to an api function affect all correlation functions it computes.", "quantifier": "all option combinations", "why_tests_cant": "Option combinations.", "anchors": ["atooms/postprocessing/api.py:msd", "atooms/postprocessing/api.py:_compat"]}
{"id": "C61", "title": "Weight fluctuations have zero mean", "statement": "With fluctuations=True the weights used are the values of the field minus a constant, whatever the type of the values, and their average over frames of the frame mean is zero for each group of particles.", "quantifier": "all weight fields", "why_tests_cant": "All fields.", "anchors": ["atooms/postprocessing/correlation.py:_subtract_mean"]}
{"id": "C62", "title": "Susceptibility is the scaled variance over origins", "statement": "Susceptibility.value is N times the population variance of the single-origin values at each time, hence nonnegative.", "quantifier": "all per-origin values", "why_tests_cant": "All data.", "anchors": ["atooms/postprocessing/susceptibility.py:Susceptibility"]}
{"id": "C63", "title": "Relaxation times", "statement": "analyze() of the scattering functions records for each wave-number the first time at which the function decays to 1/e of its initial value, or None.", "quantifier": "all functions", "why_tests_cant": "All data.", "anchors": ["atooms/postprocessing/fkt.py:_extract_tau"]}
{"id": "C64", "title": "fix_cm is honoured for cross correlations", "statement": "IntermediateScattering(fix_cm=True) with two species filters uses positions with the center of mass fixed, as with one filter.", "quantifier": "all trajectories", "why_tests_cant": "Option/filter combinations.", "anchors": ["atooms/postprocessing/correlation.py:Correlation._setup_arrays_twobody"]}
{"id": "C65", "title": "A fractional norigins selects that fraction of the frames", "statement": "With norigins = x in (0,1), a fraction x of the frames is used as time origins.", "quantifier": "all numbers of frames and fractions", "why_tests_cant": "Tests never count the origins actually used.", "anchors": ["atooms/postprocessing/helpers.py:adjust_skip", "atooms/postprocessing/correlation.py:Correlation"]}
{"id": "C66", "title": "The optimised chi4 equals the reference one", "statement": "Chi4SelfOverlapOptimized returns the same grid and values as Chi4SelfOverlap for every trajectory, grid and norigins.", "quantifier": "all trajectories, grids and norigins", "why_tests_cant": "Tests compare the two only on grids whose every point has origins.", "anchors": ["atooms/postprocessing/chi4t.py:Chi4SelfOverlapOptimized", "atooms/postprocessing/chi4t.py:Chi4SelfOverlap"]}
{"id": "C67", "title": "Linked cells do not change g(r)", "statement": "With rmax given, RadialDistributionFunction returns the same grid and values whether or not it decides to use linked cells.", "quantifier": "all trajectories, bin widths and rmax", "why_tests_cant": "The choice depends on the cell size; tests compare the two on one trajectory.", "anchors": ["atooms/postprocessing/gr.py:RadialDistributionFunctionFast._compute", "atooms/postprocessing/linkedcells.py:LinkedCells"]}
{"id": "C68", "title": "Structure factor of a field is a variance", "statement": "StructureFactor with weights (add_weight) and a single group is the variance, over frames and wave-vectors of a shell, of the weighted density sum w exp(i k r), divided by the number of particles; hence it is nonnegative.", "quantifier": "all configurations, weights and wave-vectors", "why_tests_cant": "Tests look at one trajectory and tolerate noise.", "anchors": ["atooms/postprocessing/sk.py:StructureFactorLegacy"]}
{"id": "C69", "title": "Fourier-space results do not depend on periodic images", "statement": "S(k), F_s(k,t) and F(k,t) do not change if any particle in any frame is moved by whole cell sides: folded and unfolded trajectories give the same result, since the wave-vectors used fit in the cell.", "quantifier": "all trajectories, cells, image displacements, wave-vectors", "why_tests_cant": "tests use one folded trajectory; invariance over all displacements needs a proof", "anchors": ["atooms/postprocessing/sk.py:StructureFactorLegacy", "atooms/postprocessing/fkt.py:SelfIntermediateScatteringLegacy", "atooms/postprocessing/fkt.py:IntermediateScattering", "atooms/postprocessing/fourierspace.py:FourierSpaceCorrelation"]}
{"id": "C70", "title": "Particle order does not matter", "statement": "Listing the particles of a trajectory in another order (the same in all frames for single-particle functions, any in each frame for collective ones) changes no result: MSD, alpha2, VACF, self and collective overlaps, chi4, F_s(k,t), F(k,t), S(k), g(r), stress autocorrelation.", "quantifier": "all trajectories and permutations", "why_tests_cant": "N! orders, all trajectories.", "anchors": ["atooms/postprocessing/msd.py:MeanSquareDisplacement", "atooms/postprocessing/alpha2.py:NonGaussianParameter", "atooms/postprocessing/vacf.py:VelocityAutocorrelation", "atooms/postprocessing/qt.py:SelfOverlap", "atooms/postprocessing/qt.py:CollectiveOverlap", "atooms/postprocessing/chi4t.py:Chi4SelfOverlap", "atooms/postprocessing/fkt.py", "atooms/postprocessing/sk.py", "atooms/postprocessing/gr.py"]}
{"id": "C71", "title": "Isotropy of single-particle dynamics", "statement": "Rotating, reflecting or translating all the positions of the trajectory by the same isometry leaves MSD, alpha2, self and collective overlaps and chi4 unchanged; rotating and reflecting the velocities leaves the VACF unchanged.", "quantifier": "all trajectories and isometries", "why_tests_cant": "A continuum of rotations.", "anchors": ["atooms/postprocessing/msd.py:MeanSquareDisplacement", "atooms/postprocessing/alpha2.py:NonGaussianParameter", "atooms/postprocessing/qt.py:SelfOverlap", "atooms/postprocessing/chi4t.py:Chi4SelfOverlap"]}
{"id": "C72", "title": "Results have the right physical dimensions: length", "statement": "Multiplying all lengths (positions, cell sides, rmax, a, the grid of g(r)) by c>0 and wave-vectors by 1/c multiplies MSD by c^2 and VACF (with velocities multiplied by c) by c^2, and leaves alpha2, overlaps, chi4, g, S, F_s and F unchanged.", "quantifier": "all trajectories and scale factors", "why_tests_cant": "All scale factors.", "anchors": ["atooms/postprocessing/msd.py:MeanSquareDisplacement", "atooms/postprocessing/alpha2.py:NonGaussianParameter", "atooms/postprocessing/vacf.py:VelocityAutocorrelation", "atooms/postprocessing/qt.py:SelfOverlap", "atooms/postprocessing/chi4t.py:Chi4SelfOverlap", "atooms/postprocessing/gr.py:RadialDistributionFunctionLegacy", "atooms/postprocessing/sk.py", "atooms/postprocessing/fkt.py"]}
{"id": "C73", "title": "The origin of time does not matter", "statement": "Adding a constant to all the step numbers (as when a trajectory is cut out of a longer one) changes no time correlation function, bit for bit.", "quantifier": "all trajectories, shifts and machine numbers", "why_tests_cant": "All shifts.", "anchors": ["atooms/postprocessing/correlation.py:gcf_offset", "atooms/postprocessing/helpers.py:setup_t_grid", "atooms/postprocessing/msd.py:MeanSquareDisplacement", "atooms/postprocessing/chi4t.py:Chi4SelfOverlap", "atooms/postprocessing/vacf.py:VelocityAutocorrelation"]}
{"id": "C74", "title": "Results have the right physical dimensions: time", "statement": "Multiplying the timestep and the requested times by c>0 multiplies the reported times by c and leaves the values unchanged.", "quantifier": "all trajectories and scale factors", "why_tests_cant": "All scale factors.", "anchors": ["atooms/postprocessing/helpers.py:setup_t_grid", "atooms/postprocessing/msd.py:MeanSquareDisplacement", "atooms/postprocessing/qt.py", "atooms/postprocessing/alpha2.py"]}
{"id": "C75", "title": "g(r) does not depend on folding or on the origin of the cell", "statement": "The reference implementation of g(r) gives the same result if all the positions of a frame are displaced by a vector and any of them is replaced by a periodic image.", "quantifier": "all trajectories, displacements and images", "why_tests_cant": "All displacements and images.", "anchors": ["atooms/postprocessing/gr.py:RadialDistributionFunctionLegacy"]}
{"id": "C76", "title": "Default time grids", "statement": "When no time grid is given: MSD is computed up to half of the trajectory, or with rmax up to the time where the root mean square displacement reaches rmax; overlap functions, chi4 and alpha2 from 0 up to 3/4 of the trajectory, whatever the unit of time.", "quantifier": "all trajectories, rmax, numbers of samples", "why_tests_cant": "Tests pass grids or check one trajectory.", "anchors": ["atooms/postprocessing/msd.py:MeanSquareDisplacement", "atooms/postprocessing/alpha2.py:NonGaussianParameter", "atooms/postprocessing/qt.py:SelfOverlap", "atooms/postprocessing/qt.py:CollectiveOverlap", "atooms/postprocessing/chi4t.py:Chi4SelfOverlap"]}
{"id": "C77", "title": "Diffusion time and coefficient", "statement": "The analysis of the MSD gives the first time at which it reaches sigma^2 and the diffusion coefficient, the least squares slope of the points above sigma^2 over 2*ndim; both are exact for MSD = 2*ndim*D*t; the analysis never makes the calculation fail.", "quantifier": "all computed MSD, sigma, dimensions", "why_tests_cant": "All curves; exactness over a continuum of D and sigma.", "anchors": ["atooms/postprocessing/msd.py:MeanSquareDisplacement.analyze", "atooms/postprocessing/helpers.py:linear_fit", "atooms/postprocessing/helpers.py:feqc"]}
{"id": "C78", "title": "Peaks of alpha2 and chi4", "statement": "The reported t_star, a2_star (t_star, chi4_star) are at or above all the values of the curve and in the cell of its maximum, within the range of the times; they exist whenever the curve is not empty.", "quantifier": "all computed curves", "why_tests_cant": "All curves.", "anchors": ["atooms/postprocessing/alpha2.py:NonGaussianParameter.analyze", "atooms/postprocessing/chi4t.py:Chi4SelfOverlap.analyze", "atooms/postprocessing/helpers.py:ifabsmm"]}
{"id": "C79", "title": "Default cutoffs of the bond-angle distribution", "statement": "If no cutoffs are given, the cutoff of every pair of species is the first minimum of its g(r) after the main peak, for all g(r).", "quantifier": "all g(r), numbers of species", "why_tests_cant": "All curves.", "anchors": ["atooms/postprocessing/ba.py:BondAngleDistribution"]}
{"id": "C80", "title": "Spectral density", "statement": "SpectralDensity is, per shell, the average over wave-vectors k and frames of |sum_p m(|k|, R_p) exp(i k.r_p)|^2 / V, where m is the Fourier transform of a sphere of radius R_p; it is not negative and does not change if the system is displaced.", "quantifier": "all trajectories of spheres, cells, wave-vectors", "why_tests_cant": "All positions, radii and cells.", "anchors": ["atooms/postprocessing/ik.py:SpectralDensity"]}
{"id": "C81", "title": "Four-point dynamic structure factor", "statement": "S4ktOverlap computes, for every time grid and every k grid, the variance of the Fourier transform of the local overlap.", "quantifier": "all trajectories and grids", "why_tests_cant": "No test calls it.", "anchors": ["atooms/postprocessing/s4kt.py:S4ktOverlap"]}
{"id": "C82", "title": "Velocity autocorrelation", "statement": "Z(0) is the mean square velocity per particle averaged over the time origins, hence not negative; |Z(t)| never exceeds the largest mean square velocity of a frame; Z(t) = <v^2> for constant velocities; inverting all velocities changes nothing.", "quantifier": "all trajectories and time grids", "why_tests_cant": "All velocities.", "anchors": ["atooms/postprocessing/vacf.py:VelocityAutocorrelation"]}
{"id": "C83", "title": "Stress autocorrelation", "statement": "S(t) is the average over time origins of the mean product of the off-diagonal components of the stress (virial plus kinetic), over the volume; it is not negative at t=0 and bounded by the largest mean square stress of a frame; it works in any number of dimensions.", "quantifier": "all trajectories and time grids", "why_tests_cant": "All velocities and virials.", "anchors": ["atooms/postprocessing/sacf.py:StressAutocorrelation"]}
{"id": "C84", "title": "Filter decorator", "statement": "Filter(correlation, condition): a one-body correlation uses exactly the particles that satisfy the condition; a two-body correlation with one condition restricts its first group only, with two conditions separated by a comma it restricts the two groups, with more it raises ValueError; correlations with conditions that select different particles write to different files.", "quantifier": "all conditions, particles and correlations", "why_tests_cant": "All texts of conditions.", "anchors": ["atooms/postprocessing/filter.py:Filter", "atooms/postprocessing/correlation.py:Correlation.add_filter"]}
{"id": "C85", "title": "Weights belong to the particles they multiply", "statement": "add_weight(field=...) weighs every particle by its own attribute; add_weight(trajectory, field) by the attribute of the particle at the same place of the same frame of that trajectory, which must have the same steps and particles; the weights of one correlation never depend on another one.", "quantifier": "all trajectories, fields, filters", "why_tests_cant": "All trajectories; interaction of objects through a shared trajectory.", "anchors": ["atooms/postprocessing/correlation.py:Correlation.add_weight", "atooms/postprocessing/helpers.py:copy_field", "atooms/postprocessing/correlation.py:Correlation._setup_weight_twobody"]}
{"id": "C86", "title": "Keeping the frames in memory changes no result", "statement": "Whether the trajectory keeps the frames it has read (the default of the API; --no-cache switches it off to save memory) changes no result, whatever has been computed before on the same trajectory.", "quantifier": "all sequences of correlations on a trajectory", "why_tests_cant": "All sequences of calculations.", "anchors": ["atooms/postprocessing/correlation.py:Correlation._setup_arrays_onebody", "atooms/postprocessing/api.py:_get_trajectories"]}
{"id": "C87", "title": "Structure factor with a variable cell", "statement": "When the cell changes along the trajectory, the structure factor uses in every frame wave-vectors of the cell of that frame; the value reported at k is the average over frames and over wave-vectors whose modulus lies in the shell around k, and the same in all frames; wave-vectors assigned by the user are used in all frames.", "quantifier": "all trajectories of cells and positions, k grids", "why_tests_cant": "All sequences of cells.", "anchors": ["atooms/postprocessing/sk.py:StructureFactorLegacy._compute", "atooms/postprocessing/fourierspace.py:FourierSpaceCorrelation._setup"]}
{"id": "C88", "title": "Every requested time is answered", "statement": "For any trajectory with at least one frame, a nonzero timestep and any accepted norigins, MSD, self and collective overlap, alpha2, chi4 and the velocity autocorrelation called with a list of times raise no exception and return one value for each reported time; the reported times are strictly increasing differences between recorded steps, and for every requested time the reported ones include an available time difference closest to it (rounded to an integer number of steps).", "quantifier": "all trajectories, block sizes, lists of times and norigins", "why_tests_cant": "All trajectories and grids; tests use a handful of them.", "anchors": ["atooms/postprocessing/correlation.py:gcf_offset", "atooms/postprocessing/helpers.py:setup_t_grid", "atooms/postprocessing/helpers.py:adjust_skip", "atooms/postprocessing/msd.py:MeanSquareDisplacement", "atooms/postprocessing/qt.py:SelfOverlap", "atooms/postprocessing/qt.py:CollectiveOverlap", "atooms/postprocessing/alpha2.py:NonGaussianParameter", "atooms/postprocessing/chi4t.py:Chi4SelfOverlap", "atooms/postprocessing/vacf.py:VelocityAutocorrelation"]}
{"id": "C89", "title": "Distances at which g(r) is reported", "statement": "RadialDistributionFunction with rgrid=None succeeds for any trajectory with a cell and reports g(r) at the centers of bins of width dr, from dr/2 up to rmax if rmax > 0 or to half the side of the cell along x at the first step (docstring) otherwise; each value is the mean number of pairs with minimum-image distance in the bin over the one expected at uniform density.", "quantifier": "all trajectories with a cell, dr, rmax, norigins, groups, with and without linked cells", "why_tests_cant": "All cells, positions and cutoffs, including the switch to linked cells.", "anchors": ["atooms/postprocessing/gr.py:RadialDistributionFunctionLegacy", "atooms/postprocessing/gr.py:RadialDistributionFunctionFast"]}
{"id": "C90", "title": "g(r) is an average over frames", "statement": "When all frames are used, g(r) does not depend on the order of the frames.", "quantifier": "all trajectories and permutations of their frames", "why_tests_cant": "All permutations of all trajectories.", "anchors": ["atooms/postprocessing/gr.py:RadialDistributionFunctionLegacy", "atooms/postprocessing/gr.py:RadialDistributionFunctionFast"]}
{"id": "C91", "title": "g(r) without periodic boundaries", "statement": "If the cell is not periodic in any direction and rmax is given, g(r) is computed with the particles farther than rmax from the faces as centers, all the particles as neighbors and Euclidean distances; for systems without a cell all particles are centers and the volume is N/density; both implementations agree on the treatment of periodic boundaries and cells periodic along some directions are supported.", "quantifier": "all trajectories with open cells or without cells", "why_tests_cant": "No test uses open cells of arbitrary size and positions.", "anchors": ["atooms/postprocessing/gr.py:RadialDistributionFunctionFast", "atooms/postprocessing/realspace.f90:on_surface_c"]}
{"id": "C92", "title": "g(r) on a grid given by the user", "statement": "When rgrid is given, g(r) is reported at the distances of rgrid that do not exceed rmax (or half the smallest side of the cell), and each value refers to a bin around its distance.", "quantifier": "all trajectories and increasing grids", "why_tests_cant": "All grids.", "anchors": ["atooms/postprocessing/gr.py:RadialDistributionFunctionLegacy", "atooms/postprocessing/gr.py:RadialDistributionFunctionFast"]}
{"id": "C93", "title": "Positions and groups used by a calculation", "statement": "Correlations of unfolded positions use the positions_unfolded recorded in the trajectory when there are any, otherwise the trajectory unfolded by atooms; in both cases of the particles that pass the filter, in order. With fix_cm=True positions are relative to the center of mass of all the particles of the frame, also when a filter selects some, so the mean square displacement does not depend on a displacement common to all particles of a frame. Two-body correlations take the first group from the first filter and the second from the second filter, or from the only one.", "quantifier": "all trajectories, filters, masses, drifts", "why_tests_cant": "All trajectories and combinations of filters.", "anchors": ["atooms/postprocessing/correlation.py:Correlation._setup_arrays_onebody", "atooms/postprocessing/correlation.py:Correlation._setup_arrays_twobody", "atooms/postprocessing/msd.py:MeanSquareDisplacement"]}
{"id": "C94", "title": "Bond-angle cutoffs belong to pairs of species", "statement": "The matrix rcut of BondAngleDistribution has one row and column per species of the trajectory, in alphabetical order: an angle below the last point of the grid is counted if and only if both its bonds are shorter than the entry of the names of the two species, whatever the order of the particles, the filters and the frames, as long as no particle has more than fifty neighbours; species missing in the first frame raise ValueError.", "quantifier": "all trajectories, species names, cutoffs, filters", "why_tests_cant": "All orders of particles and species.", "anchors": ["atooms/postprocessing/ba.py:BondAngleDistribution"]}
{"id": "C95", "title": "Partial structure factors are positive semi-definite", "statement": "For every reported k and all real numbers x_a, the sum over pairs of species of x_a x_b S_ab(k) is nonnegative; hence S_AB(k)^2 <= S_AA(k) S_BB(k).", "quantifier": "all trajectories with particles of every species in each frame, 2 and 3 dimensions, fixed and variable cells", "why_tests_cant": "All positions, compositions and wave-vectors.", "anchors": ["atooms/postprocessing/sk.py:StructureFactorLegacy", "atooms/postprocessing/partial.py:Partial"]}
{"id": "C96", "title": "chi4 comes with the average and the variance of the overlap", "statement": "Besides chi4, Chi4SelfOverlap keeps and writes the average and the variance of the (not normalised) self overlap at the same times: chi4 is the variance per particle; the three functions go to three files named after the trajectory, the symbol and the tag (or after output_path), whose titles describe the same set of particles.", "quantifier": "all trajectories, grids, tags, output paths", "why_tests_cant": "All trajectories; the relation between the three files is not visible in one of them.", "anchors": ["atooms/postprocessing/chi4t.py:Chi4SelfOverlap", "atooms/postprocessing/chi4t.py:Chi4SelfOverlap.write"]}
{"id": "C97", "title": "Output files document themselves", "statement": "An output file starts with comment lines, all beginning with '#', giving title (long name, short name, description), the names of the columns - the variables in the order of the columns, then the function -, date, command, version and trajectory file, followed by one line per result of the analysis and by the table; the header never changes the table that is read back, also when the user sets the comments attribute; every correlation function can be written.", "quantifier": "all names, results, comments and tables", "why_tests_cant": "All texts and numbers.", "anchors": ["atooms/postprocessing/correlation.py:Correlation.write", "atooms/postprocessing/correlation.py:Correlation.grid_name", "atooms/postprocessing/helpers.py:_dump", "atooms/postprocessing/susceptibility.py:Susceptibility"]}
{"id": "C98", "title": "The times of a result can be used as a time grid", "statement": "In double precision, the times reported by a time correlation function are strictly increasing, and the same calculation with these times as tgrid gives the same times and values; so does the time grid read back from an output file (six significant digits) if the trajectory spans at most 40000 steps.", "quantifier": "all trajectories, time steps, grids, in double precision", "why_tests_cant": "A time k*dt is rounded, divided by dt and rounded again: only a proof covers all time steps.", "anchors": ["atooms/postprocessing/helpers.py:setup_t_grid", "atooms/postprocessing/helpers.py:adjust_skip", "atooms/postprocessing/qt.py:SelfOverlap", "atooms/postprocessing/msd.py:MeanSquareDisplacement", "atooms/postprocessing/chi4t.py:Chi4SelfOverlap"]}
{"id": "C99", "title": "Overlaps in double precision", "statement": "In double precision, the self overlap is between 0 and 1 for all positions, exactly 1 at time zero for finite positions, and the self and collective overlaps never decrease if the threshold a is increased.", "quantifier": "all trajectories, positions, thresholds, in double precision", "why_tests_cant": "All doubles, including nan and infinities.", "anchors": ["atooms/postprocessing/qt.py:self_overlap", "atooms/postprocessing/qt.py:collective_overlap", "atooms/postprocessing/qt.py:SelfOverlap", "atooms/postprocessing/qt.py:CollectiveOverlap"]}
{"id": "C100", "title": "Accuracy of the mean square displacement in double precision", "statement": "The mean square displacement computed in double precision is nonnegative, exactly 0 at time zero, and differs from the exact average of the squared displacements of the stored coordinates by a relative error of at most (number of coordinates + number of pairs of frames + 5) 2^-52.", "quantifier": "all trajectories with coordinates of moderate size, in double precision", "why_tests_cant": "Rounding errors of all inputs.", "anchors": ["atooms/postprocessing/msd.py:MeanSquareDisplacement._compute", "atooms/postprocessing/correlation.py:gcf_offset"]}
{"id": "C101", "title": "chi4 in double precision", "statement": "chi4 computed in double precision as <Q^2> - <Q>^2 is never negative, exactly 0 when all the origins give the same overlap (in particular at time zero), and within N 2^-49 of the exact variance per particle.", "quantifier": "all trajectories with frames * N^2 up to 2^49, in double precision", "why_tests_cant": "The difference of two averages can lose all its digits: only a proof covers all the counts.", "anchors": ["atooms/postprocessing/chi4t.py:Chi4SelfOverlap._compute"]}
{"id": "C102", "title": "Species average to the total", "statement": "At every time the mean square displacement, self overlap, velocity autocorrelation and self scattering function of all the particles are the averages of those of the species, weighted with their numbers of particles; the collective scattering functions of all pairs of species, before normalisation, add up to that of all the particles.", "quantifier": "all trajectories, compositions, time grids, norigins, wave-vectors", "why_tests_cant": "All assignments of species to particles.", "anchors": ["atooms/postprocessing/msd.py:MeanSquareDisplacement", "atooms/postprocessing/qt.py:SelfOverlap", "atooms/postprocessing/vacf.py:VelocityAutocorrelation", "atooms/postprocessing/fkt.py:SelfIntermediateScatteringLegacy", "atooms/postprocessing/fkt.py:IntermediateScattering", "atooms/postprocessing/partial.py:Partial"]}
{"id": "C103", "title": "Different functions of one trajectory are consistent", "statement": "For the same trajectory, grid and norigins: the self overlap is at least 1 - MSD/a^2 and does not decrease with a; the self scattering function is at most 1 and at least 1 - k^2 MSD/2; N chi4 is at most Q (N - Q), Q being the average overlap written beside it, so chi4 is at most N/4; the non-Gaussian parameter lies between -2/5 and 3N/5 - 1; for one particle the collective scattering function before normalisation is the self one.", "quantifier": "all trajectories, grids, norigins, thresholds and wave-vectors", "why_tests_cant": "Relations between independent code paths, for all trajectories.", "anchors": ["atooms/postprocessing/msd.py:MeanSquareDisplacement", "atooms/postprocessing/qt.py:SelfOverlap", "atooms/postprocessing/fkt.py:SelfIntermediateScatteringLegacy", "atooms/postprocessing/chi4t.py:Chi4SelfOverlap", "atooms/postprocessing/alpha2.py:NonGaussianParameter"]}
{"id": "C104", "title": "First and last select whole blocks", "statement": "For a trajectory stored in blocks of frames, the options first, last and skip of the analysis functions select exactly the frames from the beginning of the block that contains first to the beginning of the block that contains last, every skip-th of them, and a trajectory without blocks is sliced like a list; the steps of the selection are those of the first blocks plus a constant, so the default time grids do not depend on the block at which the analysis starts; with skip the steps still repeat over blocks; negative first and last count from the end.", "quantifier": "all numbers of frames, block sizes, first, last, skip", "why_tests_cant": "All sizes and all slices; a test file has one block size.", "anchors": ["atooms/postprocessing/api.py:_get_trajectories"]}
{"id": "C105", "title": "The file of relaxation times is a table", "statement": "The scattering functions write, beside their own file, a file with suffix .tau that holds one row per wave-vector, k and tau(k), and can be loaded with numpy.loadtxt like any other table.", "quantifier": "all wave-vectors and relaxation times, known or not", "why_tests_cant": "Rows depend on which functions decay below 1/e.", "anchors": ["atooms/postprocessing/fkt.py:_write_tau", "atooms/postprocessing/fkt.py:SelfIntermediateScatteringLegacy", "atooms/postprocessing/fkt.py:IntermediateScattering"]}
{"id": "C106", "title": "Trajectories kept in memory", "statement": "For a trajectory without file, do() returns the results it returns for a stored one; it writes no file by default and writes to output_path if the user gives one; do(update=True) computes again.", "quantifier": "all correlation functions, results, output paths", "why_tests_cant": "All results and paths.", "anchors": ["atooms/postprocessing/correlation.py:Correlation", "atooms/postprocessing/correlation.py:Correlation.do", "atooms/postprocessing/correlation.py:Correlation.write", "atooms/postprocessing/fkt.py:SelfIntermediateScatteringLegacy", "atooms/postprocessing/fkt.py:IntermediateScattering"]}
{"id": "C107", "title": "The file of the mean square displacement holds the mean square displacement", "statement": "After MeanSquareDisplacement(trajectory, ...).do() the file <trajectory>.pp.msd (with the tag of the filter, if any) exists, no other file has changed, and reading it gives, for every reported time, the time and the exact average of the squared displacements of the stored coordinates over the pairs of frames with that time difference, both within 6e-6 (relative). For frames stored at regular intervals and norigins=-1 the average is over all the pairs of frames that many frames apart. Several calculations with different output files leave each file with its own results.", "quantifier": "all trajectories with up to 2^28 coordinates and pairs, coordinates of moderate size, grids with at least two times, in double precision", "why_tests_cant": "From stored coordinates to printed digits: rounding in the averages, in the times and in the text, for all inputs.", "anchors": ["atooms/postprocessing/correlation.py:Correlation.do", "atooms/postprocessing/correlation.py:Correlation.write", "atooms/postprocessing/msd.py:MeanSquareDisplacement", "atooms/postprocessing/correlation.py:gcf_offset", "atooms/postprocessing/api.py:msd"]}
{"id": "C108", "title": "Update mode returns the results of the requested calculation", "statement": "do(update=True) returns, to six digits, the same times and values as do(), as long as the trajectory has not changed.", "quantifier": "all calculations, earlier calculations and files", "why_tests_cant": "Depends on the whole history of calculations with the same output file.", "anchors": ["atooms/postprocessing/correlation.py:Correlation.do", "atooms/postprocessing/correlation.py:Correlation.need_update", "atooms/postprocessing/correlation.py:Correlation.read"]}
{"id": "C109", "title": "The direction of time does not matter", "statement": "With all time origins (norigins=-1), reversing the order of the frames of a trajectory stored at regular intervals (and the velocities) leaves the mean square displacement, the self and collective overlaps, the non-Gaussian parameter, the velocity and stress autocorrelations, the self and collective intermediate scattering functions and chi4 unchanged.", "quantifier": "all trajectories, grids, thresholds", "why_tests_cant": "Symmetry over all trajectories.", "anchors": ["atooms/postprocessing/msd.py:MeanSquareDisplacement", "atooms/postprocessing/qt.py:SelfOverlap", "atooms/postprocessing/qt.py:CollectiveOverlap", "atooms/postprocessing/alpha2.py:NonGaussianParameter", "atooms/postprocessing/vacf.py:VelocityAutocorrelation", "atooms/postprocessing/chi4t.py:Chi4SelfOverlap"]}
{"id": "C110", "title": "The report of wave-vectors describes the vectors in use", "statement": "After compute(), or after kvectors have been assigned, report() succeeds and has one line per wave-vector shell: the k value of the result, the average norm of the vectors of the shell and its standard deviation, and their number. The average lies within the (possibly widened) width dk of the requested k, the standard deviation is below it and vanishes only if all the norms are equal, the number is at least 1 and at most nk; the verbose report lists exactly the vectors in use.", "quantifier": "all cells, k grids, parameters and random selections", "why_tests_cant": "All shells and selections.", "anchors": ["atooms/postprocessing/fourierspace.py:FourierSpaceCorrelation.report", "atooms/postprocessing/fourierspace.py:FourierSpaceCorrelation"]}
{"id": "C111", "title": "A system in which nothing moves", "statement": "For a trajectory whose frames are all the same the mean square displacement is exactly 0, the self overlap and the normalised scattering functions are 1, chi4 is 0 at all times, and every function of time is defined (no nan in the results).", "quantifier": "all frozen trajectories, grids and thresholds, in double precision for msd, overlap, chi4 and alpha2", "why_tests_cant": "Needs exact cancellations in floating point for all coordinates.", "anchors": ["atooms/postprocessing/msd.py:MeanSquareDisplacement", "atooms/postprocessing/qt.py:SelfOverlap", "atooms/postprocessing/alpha2.py:NonGaussianParameter", "atooms/postprocessing/chi4t.py:Chi4SelfOverlap", "atooms/postprocessing/fkt.py:SelfIntermediateScattering", "atooms/postprocessing/fkt.py:IntermediateScattering"]}
{"id": "C112", "title": "The time options of the API select the times of the results", "statement": "The functions of time of the API (msd, vacf, chi4qs, alpha2, qst, qt, fkt, fskt) ask for time 0 and tsamples times from one time step up to tmax, or to tmax_fraction of the trajectory if tmax is not given, in increasing order and on the chosen kind of grid; no time beyond the end of the trajectory is asked for; with neither option the default grid of the function is used.", "quantifier": "all files, options and numbers of times", "why_tests_cant": "All combinations of options.", "anchors": ["atooms/postprocessing/api.py:msd", "atooms/postprocessing/api.py:vacf", "atooms/postprocessing/api.py:chi4qs", "atooms/postprocessing/api.py:alpha2", "atooms/postprocessing/api.py:qst", "atooms/postprocessing/api.py:qt", "atooms/postprocessing/api.py:fkt", "atooms/postprocessing/api.py:fskt"]}
{"id": "C113", "title": "The neighbour lists of the Fortran module hold the pairs within the cutoffs", "statement": "The lists filled by the neighbour-list routines of the Fortran module hold, for every particle, exactly the other particles one of whose periodic images is closer than the cutoff of the two species, each once; they are symmetric, fit in the table if no particle has more neighbours than the table has columns, and are the same when the candidates come from linked cells; for two groups the lists of the particles of the first group hold particles of the second one.", "quantifier": "all positions in the cell, species, cutoff tables and table sizes", "why_tests_cant": "All configurations, including pairs across the boundaries and full tables.", "anchors": ["atooms/postprocessing/realspace.f90:neighbors_list", "atooms/postprocessing/realspace.f90:neighbors_full", "atooms/postprocessing/realspace.f90:neighbors_subset", "atooms/postprocessing/realspace.f90:neighbors_list_distinct"]}
{"id": "C114", "title": "Accuracy of the velocity autocorrelation in double precision", "statement": "The velocity autocorrelation reported at a time differs from the exact average of the scalar products of the stored velocities over the same pairs of frames and particles by at most (N d + pairs + 3) 2^-52 times the average of the sums of the |v_i(t0) v_i(t0+t)|, plus a term of the size of the smallest double, whatever the order of the sums; when the products cancel the relative error can be large.", "quantifier": "all velocities up to 2^400, numbers of frames and particles, orders of summation", "why_tests_cant": "Rounding of all possible inputs and summation orders.", "anchors": ["atooms/postprocessing/vacf.py:VelocityAutocorrelation", "atooms/postprocessing/correlation.py:gcf_offset"]}
{"id": "C115", "title": "Accuracy of pair distances in double precision", "statement": "The distance of two particles computed by the Python code (any order of the sum) and by the Fortran kernels (particles at most 3/2 sides apart) differs from the distance of the closest periodic images by at most (2 d + 15) 2^-53 times the sum over the directions of the distance of the coordinates and of the side; also for pairs half a side apart, where the image chosen by rounding is not the closest one. Both backends hence agree to twice that error.", "quantifier": "all positions, sides from 2^-400 to 2^400, dimensions", "why_tests_cant": "All positions, in particular those at the boundary of two images.", "anchors": ["atooms/postprocessing/gr.py:gr_kernel", "atooms/postprocessing/realspace.f90:pbc", "atooms/postprocessing/realspace.f90:gr_self_C"]}
{"id": "C116", "title": "Histograms of distances in double precision", "statement": "In the histograms of distances of g(r), Python and Fortran, a pair whose exact distance is in a bin and further from its ends than the error of the distance is counted in that bin, and no pair further than the error outside a bin is counted in it; if no distance is that close to the end of a bin, the Fortran kernel stays within its arrays and its histogram is the exact one.", "quantifier": "all positions, sides, bin widths from 2^-400 to 2^400 and numbers of bins", "why_tests_cant": "All positions; distances close to the ends of bins.", "anchors": ["atooms/postprocessing/gr.py:RadialDistributionFunctionLegacy", "atooms/postprocessing/gr.py:RadialDistributionFunctionFast", "atooms/postprocessing/realspace.f90:gr_self_C", "atooms/postprocessing/realspace.f90:gr_distinct_c"]}
{"id": "C117", "title": "Accuracy of the non-Gaussian parameter in double precision", "statement": "The non-Gaussian parameter reported at a time differs from the exact average over the same pairs of frames by at most (4 N d + 2 d + N + pairs + 32) 2^-52 times the average of 3 <dr^4> / (5 <dr^2>^2) + 1, plus a term of the size of the smallest double, whatever the order of the sums, if some particle moves between any two frames; that quantity lies between 8/5 and N + 1, so the error is absolute: values close to 0 can have a large relative error.", "quantifier": "all coordinates up to 2^200 that change by 0 or at least 2^-200, numbers of frames and particles, orders of summation", "why_tests_cant": "Rounding of all possible inputs and summation orders.", "anchors": ["atooms/postprocessing/alpha2.py:NonGaussianParameter", "atooms/postprocessing/correlation.py:gcf_offset"]}
{"id": "C118", "title": "Options given to the API affect the results", "statement": "The parameters given to the functions of the API (bins, dimensions and cutoff of gr; wave-vectors and weights of sk; file of radii and wave-vectors of ik; bins of ba; wave-vectors, fixed center of mass and memory of fkt and fskt; length of chi4qs) reach every calculation the function starts, total and partial, and the weights given to sk enter the results whatever the backend.", "quantifier": "all files, options and backends", "why_tests_cant": "All combinations of options.", "anchors": ["atooms/postprocessing/api.py:gr", "atooms/postprocessing/api.py:sk", "atooms/postprocessing/api.py:ik", "atooms/postprocessing/api.py:ba", "atooms/postprocessing/api.py:fkt", "atooms/postprocessing/api.py:fskt", "atooms/postprocessing/api.py:chi4qs", "atooms/postprocessing/sk.py:StructureFactorFast"]}
{"id": "C119", "title": "Relaxation time of the self overlap function", "statement": "For a self overlap function that starts at time 0, analyze() gives the place where the broken line through its values falls below 1/e for the first time, which is between 0 and the last time, or None if no value is below 1/e.", "quantifier": "all trajectories, grids and overlap lengths", "why_tests_cant": "All curves.", "anchors": ["atooms/postprocessing/qt.py:SelfOverlap.analyze", "atooms/postprocessing/helpers.py:feqc"]}
{"id": "C120", "title": "Accuracy of tabulated exponentials and densities in double precision", "statement": "Entry n of the tables of exponentials is exp(i n k0 x) to within 2 |n| (eps + (|k0 x| + 8) 2^-53), where eps is the error of the library's complex exponential: the recursion loses no more than a few roundings per factor. The entry of wave-vector 0 is exactly 1, entries of opposite wave-vectors are exact conjugates in any arithmetic, and the density of N particles at wave-vector k is the exact sum of the exp(i k.r) up to twice the errors of its plane waves plus 8 N^2 2^-53, whatever the order of the sum.", "quantifier": "all finite positions with phases of moderate size, wave-vectors, dimensions, orders of summation, and complex products that are right to six roundings of the moduli", "why_tests_cant": "Rounding of all possible inputs and summation orders.", "anchors": ["atooms/postprocessing/fourierspace.py:expo_sphere", "atooms/postprocessing/sk.py:StructureFactorLegacy", "atooms/postprocessing/sk.py:StructureFactorFast"]}
{"id": "C121", "title": "Accuracy of the self intermediate scattering function in double precision", "statement": "Every value of F_s(k,t) computed in double precision, by the numpy code (either way of multiplying the factors) or by the Fortran kernel, with any block size and any order of the sum over particles, differs from the exact average of cos(k.(r(t0+t)-r(t0))) over vectors, time origins and particles by at most 4 W + (4 (block + terms) + 3) 2^-53, where W bounds the errors of the plane waves; the two implementations hence agree to twice that error. Normalisation makes the first value exactly 1 and leaves the other ones as they are.", "quantifier": "all finite positions with phases of moderate size, grids of vectors and times, block sizes, up to 2^49 terms", "why_tests_cant": "Rounding of all possible inputs and summation orders.", "anchors": ["atooms/postprocessing/fkt.py:SelfIntermediateScatteringLegacy", "atooms/postprocessing/fkt.py:SelfIntermediateScatteringFast", "atooms/postprocessing/fourierspace.f90:fskt_kernel_3d"]}
{"id": "C122", "title": "Accuracy of the collective intermediate scattering function in double precision", "statement": "Every value of F(k,t) computed in double precision in two or three dimensions, for one group of particles or between two groups of N0 and N1 particles, differs from the exact average of Re(rho_0(k,t0+t) conj(rho_1(k,t0))) over vectors and time origins by at most N0 N1 (6 W + (24 (N0 + N1) + 6 terms + 72) 2^-53), where W bounds the errors of the plane waves, whatever the order of the products and of the sums over particles. Normalisation makes the first value exactly 1 and keeps the others right to the errors of the two values.", "quantifier": "all finite positions with phases of moderate size, wave-vectors, time grids, groups of up to 2^47 particles", "why_tests_cant": "Rounding of all possible inputs and summation orders.", "anchors": ["atooms/postprocessing/fkt.py:IntermediateScattering", "atooms/postprocessing/fourierspace.py:expo_sphere"]}
{"id": "C123", "title": "Accuracy of the structure factor in double precision", "statement": "S(k) computed in double precision (numpy version, without weights, constant cell, two or three dimensions), for one group of particles or between two groups of N0 and N1 particles, differs from the exact average of Re(rho_0 conj(rho_1)) over vectors and frames, divided by the square root of the product of the mean numbers of particles, by at most N0 N1 over that square root times 6 W + (24 (N0 + N1) + 6 terms + 148) 2^-53, where W bounds the errors of the plane waves; the value without normalisation is as accurate. No result is given when a shell has no vectors.", "quantifier": "all finite positions with phases of moderate size, wave-vectors, numbers of frames, groups of up to 2^47 particles, orders of summation", "why_tests_cant": "Rounding of all possible inputs and summation orders.", "anchors": ["atooms/postprocessing/sk.py:StructureFactorLegacy", "atooms/postprocessing/fourierspace.py:expo_sphere"]}
{"id": "C124", "title": "Accuracy of the normalisation of g(r) in double precision", "statement": "In two and three dimensions the radial distribution function of the Fortran backend (periodic cells), with the double math.pi and powers right to 4 roundings, equals the exact normalisation of the histograms (mean count over mean number of particles times mean density times the volume of the shell, halved if pairs are counted once) to a relative error of (445 + 46 k) 2^-53 in bin k, although the volume of a shell is a difference of powers of close numbers; the distances reported are the bin centers to 5/2 roundings, and a value is zero exactly when no pair was counted in the bin.", "quantifier": "all histograms and numbers of particles with totals up to 2^53, up to 2^20 bins of width 2^-60 to 2^60, volumes of 2^-200 to 2^200", "why_tests_cant": "Rounding of all possible inputs.", "anchors": ["atooms/postprocessing/gr.py:RadialDistributionFunctionFast"]}
{"id": "C125", "title": "Radial distribution function in double precision, from positions to values", "statement": "In two and three dimensions, the g(r) computed in double precision by the Fortran backend from frames of one periodic cell is, in every bin k, the g(r) of the exact minimum-image distances to a relative error of (448 + 46 k) 2^-53, for one group of particles or two, provided no distance is closer to a multiple of the bin width than the error of a distance; no pair of particles is lost or counted twice. The distances are the centers of the bins to 5/2 roundings, in increasing order; every bin up to half of the smallest side of the cell is reported and none beyond, up to those roundings.", "quantifier": "all finite positions at most 3/2 sides apart, sides and widths of 2^-60 to 2^60, up to 2^20 bins, frames and groups with at most 2^50 pairs in all, any number of time origins", "why_tests_cant": "Rounding of all possible inputs.", "anchors": ["atooms/postprocessing/gr.py:RadialDistributionFunctionFast", "atooms/postprocessing/realspace.f90:gr_self_c", "atooms/postprocessing/realspace.f90:gr_distinct_c"]}
{"id": "C126", "title": "Linked cells in double precision", "statement": "In double precision, linked cells list every pair of particles one of whose periodic images is closer than the cutoff by more than 2^-49 of the sides exactly once (in either direction, or in one with two groups), no pair twice and no particle as its own neighbour, for cells of 3 to 2^30 cutoffs and particles in the cell and not within 2^-50 of a side from its upper end. Both margins are needed: a particle at the double just below half of a side raises KeyError, and two particles at a distance just below the cutoff can be missed.", "quantifier": "all finite positions in the cell, cutoffs of at least 2^-60, two and three dimensions, periodic and open directions", "why_tests_cant": "Rounding of all possible positions, in particular at the boundaries of the subcells.", "anchors": ["atooms/postprocessing/linkedcells.py:LinkedCells.compute", "atooms/postprocessing/linkedcells.py:LinkedCells.adjust", "atooms/postprocessing/linkedcells.py:LinkedCells._index"]}
{"id": "C127", "title": "Radial distribution function with a cutoff in double precision", "statement": "In two and three dimensions, the g(r) computed in double precision by the Fortran backend with rmax given reports the bins whose centers are up to rmax, up to roundings, and no other. Whether linked cells are used or not, a value never exceeds the g(r) of the exact minimum-image distances by more than a relative (448 + 46 k) 2^-53 in bin k, and it is within that error of it without linked cells and, with linked cells, in every bin that ends before rmax by 2^-49 of every side; the choice of linked cells implies cells large enough for them.", "quantifier": "all finite positions in the cell, no distance within its error of the end of a bin, sides and widths of 2^-60 to 2^60, up to 2^20 bins, any number of frames and groups with at most 2^50 pairs in all", "why_tests_cant": "Rounding of all possible inputs, for both ways of finding the pairs.", "anchors": ["atooms/postprocessing/gr.py:RadialDistributionFunctionFast", "atooms/postprocessing/linkedcells.py:LinkedCells.compute", "atooms/postprocessing/realspace.f90:gr_neighbors_self_c", "atooms/postprocessing/realspace.f90:gr_neighbors_distinct_c"]}
{"id": "C128", "title": "Accuracy of the stress autocorrelation in double precision", "statement": "In three dimensions, every value of the stress autocorrelation computed in double precision, with any order of the sums over particles and components, differs from the exact average over the pairs of frames of (s_xy s'_xy + s_xz s'_xz + s_yz s'_yz)/3, divided by the volume, s being the virial plus the sum of m v_j v_k, by at most (2 N + pairs + 13) 2^-52 times the same average with all virials, masses and velocities taken positive, and 2^-486. The pairs of frames are those of the time grid, and none of the times reported is without pairs.", "quantifier": "all trajectories with masses and velocities up to 2^100, virials up to 2^300, volumes of 2^-100 to 2^100, up to 2^40 particles and 2^48 pairs of frames, all summation orders", "why_tests_cant": "Rounding of all possible inputs and summation orders.", "anchors": ["atooms/postprocessing/sacf.py:StressAutocorrelation"]}
{"id": "C129", "title": "Particles on the border of the cell", "statement": "Once a LinkedCells object has been used for a cell, on_border(position) tells, for positions in the cell, whether the position lies in the first or the last subcell along some side, whatever the calls made in between. A particle that is not on the border has no neighbour across a face: any periodic image of a particle of the cell that is closer to it than the cutoff is that particle itself. In double precision this holds for images closer than the cutoff by more than 2^-49 of the sides. An object that has not been used yet raises AttributeError.", "quantifier": "all cells of at least three cutoffs in two and three dimensions, positions in the cell, sequences of calls", "why_tests_cant": "All positions, in particular those next to the boundaries of the subcells.", "anchors": ["atooms/postprocessing/linkedcells.py:LinkedCells.on_border", "atooms/postprocessing/linkedcells.py:LinkedCells._index"]}
{"id": "C130", "title": "Roots and relaxation times in double precision", "statement": "In double precision, the search for the abscissa where a tabulated function crosses a value (relaxation times of intermediate scattering and overlap functions, diffusive time) finds the interval where the exact table first crosses it, and an abscissa within 2^-50 of the right end of that interval from the crossing of the straight line between the two points, not below the left end. It raises no exception and reports no abscissa only if the table does not cross the value. For a correlation function that starts above the level and stays between -1 and 1, any level of 2^-200 or more is admissible.", "quantifier": "all tables of finite doubles up to 2^300 with steps of at least 2^-300, whose values equal the target or differ from it by at least 2^-300", "why_tests_cant": "Rounding of all possible tables: signs of rounded products, cancellation, division.", "anchors": ["atooms/postprocessing/helpers.py:feqc", "atooms/postprocessing/qt.py:SelfOverlap.analyze", "atooms/postprocessing/msd.py:MeanSquareDisplacement.analyze"]}
{"id": "C131", "title": "Straight-line fits and diffusion coefficients in double precision", "statement": "In double precision, with any order of the sums, the slope of a linear fit differs from that of the least-squares line of the exact data by at most 6 (n + 2) 2^-53 (S_xy + |a| S_xx)/D and 2^-800, with D = n sum (x - mean)^2, S_xy = n sum |x y| + sum |x| sum |y|; the diffusion coefficient of the mean square displacement, by 6 (n + 3) 2^-53 of the same over 2 d and 2^-790; it is reported exactly if two points or more lie above sigma^2. The fit raises no exception for two points, nor if the residuals of the least-squares line exceed the roundings, n RSS >= 32 (n + 1) 2^-53 (S_yy + 2 |a| S_xy + a^2 S_xx) + 2^-300.", "quantifier": "all finite data up to 2^60, 2 to 2^26 points, D at least 2^-60 and (n + 1) 2^-45 S_xx, all summation orders", "why_tests_cant": "Cancellations in the differences of sums for all possible data.", "anchors": ["atooms/postprocessing/helpers.py:linear_fit", "atooms/postprocessing/msd.py:MeanSquareDisplacement.analyze"]}
{"id": "C132", "title": "Evenly spaced grids in double precision", "statement": "In double precision, linear_grid(a, b, n) with n >= 2 points has n entries, the first exactly a, each within 2^-50 (|a| + |b|) and n 2^-1074 of the exactly spaced ones (the last one therefore of b), never decreasing if a <= b, and all distinct if the spacing exceeds twice that error. linear_grid(a, b, d) with a spacing d > 0 and b >= a starts exactly at a, does not decrease, has entries within 2^-53 (|a| + 3 i d) of a + i d, none above b by more than 2^-50 (|a| + |b|), and the last one within d + 2^-50 (|a| + |b|) of b.", "quantifier": "all finite ends up to 2^1000, up to 2^53 points", "why_tests_cant": "Rounding for all possible ends and numbers of points.", "anchors": ["atooms/postprocessing/helpers.py:linear_grid"]}
{"id": "C133", "title": "Removal of the center of mass in double precision", "statement": "In double precision, removing the motion of the center of mass (fix_cm=True) raises no exception, leaves the masses unchanged and puts every coordinate within 6 (N + 1) 2^-53 (|x| + extent) and 2^-979 of that relative to the exact center of mass, where the extent is the mass-weighted average of |x|. The center of mass of the result is within 12 (N + 1) 2^-53 of the extent (and 2^-979) of the origin, and the separation of two particles changes by at most 2^-52 times the sum of their new coordinates.", "quantifier": "all systems of 1 to 2^30 particles, masses between 2^-60 and 2^60, coordinates up to 2^60, all dimensions", "why_tests_cant": "Rounding in sums over all possible masses and positions.", "anchors": ["atooms/postprocessing/correlation.py:Correlation._setup_arrays_onebody"]}
{"id": "C134", "title": "Logarithmic grids in double precision", "statement": "In double precision, with a power of floats that is accurate within two units in the last place, logx_grid(a, b, n) from a > 0 has n entries, the first exactly a, the others within a relative 2 (|ln(b/a)| + 8 i + 21) 2^-53 of a (b/a)^((i+1)/n), so that the last one is b up to that error; they increase strictly if the logarithmic spacing ln(b/a)/n exceeds four times the error. From 0, the entries are 0 and then b^((i+1)/n) - 1 with that error relative to 1 + b^((i+1)/n), so that the last one is b - 1, not b.", "quantifier": "all ends between 2^-400 and 2^400, up to 2^40 points, all functions with that accuracy as power", "why_tests_cant": "Powers of a rounded root, for all possible ends and numbers of points.", "anchors": ["atooms/postprocessing/helpers.py:logx_grid"]}
{"id": "C135", "title": "Susceptibilities in double precision", "statement": "In double precision, Susceptibility reports each time found by a calculation with a single origin exactly once, in strictly increasing order, and no other time; the origins are the multiples of the skip below int(nsteps * tmax / total_time) - skip. Each value is a finite, non-negative number within 24 (n + 4) 2^-53 N Y^2 of N times the variance of the n values found at that time, where none of the values exceeds Y in magnitude, whatever the order in which numpy adds the terms of the two sums.", "quantifier": "all correlation functions with finite times (no -0) and values up to Y, Y between 2^-400 and 2^25, 1 to 2^30 particles, up to 2^26 values per time", "why_tests_cant": "Cancellation in the variance and the order of the sums, for all possible values.", "anchors": ["atooms/postprocessing/susceptibility.py:Susceptibility.compute"]}
{"id": "C136", "title": "Relaxation times of scattering functions in double precision", "statement": "In double precision, for times from zero with steps of at least 2^-300 and finite values, the analysis of an intermediate scattering function has exactly one relaxation time per wave-number of the grid, in that order. It is None if and only if no value falls below the first value over e (up to 2^-52 of the first value); otherwise it lies within 2^-50 t of the point where the straight lines through the samples first go below that level, t being the time of the first sample below it.", "quantifier": "all grids of distinct wave-numbers, all times up to 2^300, all values up to 2^200, first values of at least 2^-190, any double within 2^-53 of 1/e", "why_tests_cant": "All possible decays, with rounding in the level, in the test of sign and in the interpolation.", "anchors": ["atooms/postprocessing/fkt.py:_extract_tau", "atooms/postprocessing/helpers.py:feqc"]}
{"id": "C137", "title": "Peaks in double precision", "statement": "In double precision, the peak times and heights found by parabolic interpolation (four-point susceptibility, non-Gaussian parameter) are those of the parabola through the first highest sample and its neighbours, up to 34 2^-53 X^2/h in position and 300 2^-53 (X/h)^3 Y in height, X and Y being the largest abscissa and value and h the smallest spacing; extrema at the first or last sample are reported exactly as sampled. The reported height of a peak is never below the highest sample (false in general: true only up to that error. With the values 0.1, 1, 0.1 at the times 999999, 1000000, 1000001 the reported height is below -20).", "quantifier": "all tables of finite doubles up to 2^60 with steps of at least 2^-60, X at most 2^42 h, values equal or differing by at least 2^-120", "why_tests_cant": "Cancellations in the coefficients of the parabola for all possible tables.", "anchors": ["atooms/postprocessing/helpers.py:ifabsmm", "atooms/postprocessing/chi4t.py:Chi4SelfOverlap.analyze", "atooms/postprocessing/alpha2.py:NonGaussianParameter.analyze"]}
{"id": "C138", "title": "Shells of wave-vectors in double precision", "statement": "In double precision, and however often the widths of empty shells were increased (up to 1000 nested calls), the wave-vectors of a Fourier-space correlation form one non-empty shell per wave-number of the grid, without repetitions and without a vector in two shells. Each width is dk times a power of 1.2 up to rounding. The norm of every vector of a shell is within the width of its wave-number k up to 16 2^-53 (norm + k), and surely within the width of no earlier wave-number; conversely every lattice vector that is surely within the width of a wave-number, and below the last edge by a relative 16 2^-53, is in its shell or in an earlier one. The wave-numbers finally reported are the mean norms of the n vectors of each shell up to (2 n + 14) 2^-53 times the largest norm, in whatever order numpy adds them up; the smallest wave-vectors are 2 pi / L up to a relative 2^-51.", "quantifier": "all cells of two or three dimensions with sides between 2^-50 and 2^50, all grids of non-negative wave-numbers up to 2^60, widths between 2^-60 and 2^20, integer indices up to 2^50", "why_tests_cant": "Membership of vectors at the edges of the shells for all possible cells, grids and numbers of widenings.", "anchors": ["atooms/postprocessing/fourierspace.py:FourierSpaceCorrelation._setup_grid_sphere", "atooms/postprocessing/fourierspace.py:FourierSpaceCorrelation._setup", "atooms/postprocessing/fourierspace.py:_k_norm"]}
{"id": "C139", "title": "Wave-numbers are reported in increasing order", "statement": "The wave-numbers of a Fourier-space correlation, which are the mean norms of the selected wave-vectors, are reported in strictly increasing order, each within the (possibly widened) width of the requested one, and the zero wave-vector is never used (false in general. With the requested wave-numbers 1.715 and 1.72 and dk = 0.02 in a cubic cell whose smallest wave-number is 1, the reported ones are 1.732 and 1.609; if kmax is below the smallest wave-number of the cell, the default grid decreases and ends with the zero vector. True of any two shells that do not overlap as finally widened, of all shells if none has to be widened, and the zero vector is not used alone if the width does not exceed the wave-number).", "quantifier": "all cells of two or three dimensions, grids, widths, samplers and numbers of vectors per shell", "why_tests_cant": "All grids for which some shells are empty at first.", "anchors": ["atooms/postprocessing/fourierspace.py:FourierSpaceCorrelation._setup", "atooms/postprocessing/fourierspace.py:FourierSpaceCorrelation._setup_grid_sphere"]}
{"id": "C140", "title": "Copying wave-vectors in double precision", "statement": "In double precision, the wave-vectors read from a calculation and assigned to another one in the same cell (as partial correlations do) are bit for bit the same afterwards, and so are the mean norms. Vectors given by the user, each within 0.49 of the lattice spacing of a lattice vector in every direction, are accepted, and the calculation uses these lattice vectors, each component up to one rounding, with positive table indices.", "quantifier": "all cells of two or three dimensions with smallest wave-vectors between 2^-60 and 2^60, integer components up to 2^40, any number of shells and vectors, all samplers", "why_tests_cant": "Rounding of every quotient to the nearest integer, for all cells and vectors.", "anchors": ["atooms/postprocessing/fourierspace.py:FourierSpaceCorrelation.kvectors", "atooms/postprocessing/fourierspace.py:FourierSpaceCorrelation._setup"]}
{"id": "C141", "title": "Well separated wave-numbers are served near the request", "statement": "If the requested wave-numbers are non-negative and no two of them are closer than 1.2 K, K being the smallest wave-number of the cell along one of its directions, then for every width dk > 0 the set-up of a Fourier-space correlation succeeds: no shell is widened more often than needed to exceed K/2, so that the limit of 1000 nested calls is not reached if dk is at least K 2^-100. The reported wave-numbers are as many as requested, in strictly increasing order whatever the order in which they were given, and each of them is within max(dk, 0.6 K) of the requested one of the same rank. In particular this holds for the default grid of ksamples wave-numbers from kmin (or K) to kmax if its spacing is at least 1.2 times the smallest K.", "quantifier": "all cells of two or three dimensions, all lists of wave-numbers in any order, all positive widths, samplers and numbers of vectors per shell", "why_tests_cant": "All grids and cells for which shells are empty and are widened one after the other.", "anchors": ["atooms/postprocessing/fourierspace.py:FourierSpaceCorrelation._setup", "atooms/postprocessing/fourierspace.py:FourierSpaceCorrelation._setup_grid_sphere"]}
{"id": "C142", "title": "Bond angles in double precision", "statement": "In double precision, a bond is the difference of two positions folded, in every direction, to an image of the cell that is the closest one up to rounding, and the neighbours are the particles whose bond is shorter than the cutoff up to a relative (2 d + 6) 2^-53 of the squares. The angle recorded for two bonds in d dimensions has the cosine of the exact angle up to (6 d + 20) 2^-53 plus the error of the arccosine of the library, and it is never outside 0 to 180 degrees by more than that error, since the cosine is clamped to the interval from -1 to 1. The distribution has one value per bin of width dtheta from 0 to 180 degrees, at the centers of the bins up to a relative 2^-49. If angles were found, each value is the number of computed angles in the bin over (total number times dtheta) up to a relative 3 2^-53, and the integral is 1 up to the same error; if none was found, all values are nan. An angle is counted in bin k only if it is between k dtheta (1 - 2^-52) and (k + 1) dtheta, and it is counted there if it is at least k dtheta and below (k + 1) dtheta (1 - 2^-52).", "quantifier": "all frames of finite doubles, cutoffs and numbers of species; bonds with components up to 2^100 and squared length of at least 2^-200; widths between 2^-20 and 180 degrees; fewer than 2^53 angles; any arccosine of bounded error", "why_tests_cant": "Rounding of the norms, of the cosine near 1 and -1 and of the angles at the edges of the bins, for all configurations.", "anchors": ["atooms/postprocessing/ba.py:BondAngleDistribution", "atooms/postprocessing/realspace.f90:bond_angle"]}
{"id": "C143", "title": "The file of relaxation times belongs to the function beside it", "statement": "At any moment the file of a scattering function and the file .tau of relaxation times beside it come from the same calculation, whatever sequence of do() and do(update=True) was made and whatever happened to the trajectory in between; a call that computes leaves both files of its own result and touches no other file (false if a call is interrupted between the two files: since only the first one is looked at, no later do(update=True) computes, and the relaxation times remain those of the earlier calculation, or missing, beside the new function. True as long as no call is interrupted).", "quantifier": "all file systems, output paths, sequences of calls, results, times and changes of other files", "why_tests_cant": "All sequences of calls, interruptions and changes of the trajectory.", "anchors": ["atooms/postprocessing/fkt.py:IntermediateScattering.write", "atooms/postprocessing/fkt.py:SelfIntermediateScatteringLegacy.write", "atooms/postprocessing/correlation.py:Correlation.do", "atooms/postprocessing/correlation.py:Correlation.need_update"]}
{"id": "C144", "title": "The files of partial correlations come from one calculation", "statement": "Whenever Partial.do(update=True) reuses the files of the partial correlations, all of them come from one complete call, made after the last change of the trajectory, even if other calls were stopped between two files or within a file other than the last; a call that computes leaves the files of its own results and touches no other file (false if do() without update is stopped between two files while the older files are newer than the trajectory: the next do(update=True) returns results of both calls. True as long as only calls with update=True are stopped, nobody else touches the files and the clock does not go back).", "quantifier": "all numbers of partial correlations, sequences of calls with any options, points at which they are stopped, changes of the trajectory and times", "why_tests_cant": "All interleavings of calls, interruptions between files and changes of the trajectory.", "anchors": ["atooms/postprocessing/partial.py:Partial.do", "atooms/postprocessing/partial.py:Partial.need_update", "atooms/postprocessing/correlation.py:Correlation.need_update"]}
{"id": "C145", "title": "Average and variance of the overlap after an update run", "statement": "After Chi4SelfOverlap.do(update=True) the attributes average and variance hold the values that do() computes, and their files hold them too (false whenever the file of chi4 is newer than the trajectory: then nothing is computed or written even if the other two files are old or missing, and average and variance hold no values, also right after a complete call. True of every call that computes, which writes the three files and no other).", "quantifier": "all file systems, trajectories, tags, results and times", "why_tests_cant": "All states of the three files relative to the trajectory.", "anchors": ["atooms/postprocessing/chi4t.py:Chi4SelfOverlap", "atooms/postprocessing/correlation.py:Correlation.do", "atooms/postprocessing/correlation.py:Correlation.read"]}
