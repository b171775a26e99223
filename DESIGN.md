# Formal model of atooms postprocessing (Rocq / Coq 8.16.1)

The code in /repo is read as text only; nothing there is built or run.

## Trusted base

* Coq's kernel (8.16.1) and the standard library.
* Axioms: theorems about real numbers depend on the standard library's axioms for the
  classical reals (`ClassicalDedekindReals.sig_forall_dec`, `ClassicalDedekindReals.sig_not_dec`,
  `FunctionalExtensionality.functional_extensionality_dep`, and where trigonometry or real powers
  are used possibly `Classical_Prop.classic`). `Print Assumptions` is written under every theorem in
  the `T_*.v` files and prints the exact list in the build log. Everything
  else is closed under the global context. No axiom, parameter or section-less
  variable is declared here. The list for each theorem is in the section Assumptions.
* The reading of the code: each model definition cites the file and lines it models. What is
  outside the model is listed at the end.

## Shape of the model

* Python exceptions are values (`res A := Ok a | Err e`). numpy and Fortran operations that cannot
  raise stay total; guards are then visible in the theorem statements.
* Numbers: the numeric functions take a record of operations `arith` (no laws). Two instances:
  `Rops` (exact real arithmetic of the Coq library) and `F64ops` (IEEE double precision built from
  `SpecFloat`, executable). Theorems about bookkeeping (which pairs are counted, which bins are
  hit, which frames are averaged) are proved for every `arith`, so they hold for doubles.
  Algebraic and analytic laws are proved for `Rops`. Where rounding breaks a claim, a
  `_refuted` theorem exhibits a double-precision execution.
* Steps are `Z`, indices `nat`, dictionaries association lists, file system a finite map with
  modification times.
* Externals (random.sample, trajectory decorators, number formatting) enter as explicit function
  arguments, universally quantified, never as axioms.
* Files: `M_*.v` model, `Spec_*.v` small independent specifications, `P_*.v` proofs, `T_*.v`
  theorem statements (with short proofs and auxiliary lemmas), each followed by `Print Assumptions` and an
  example meeting the hypotheses.

When a property is false of the code as written, the theorem is named `..._refuted` and exhibits
an execution; the part of the claim that is true is proved beside it as `..._partial`. In
MANIFEST.json such a claim has status "partial" and the note starts with REFUTED.

## Plan per property

| id | what is modelled | how it is proved |
|----|------------------|------------------|
| C01 | `gcf_offset` loop with dictionaries, any arithmetic | induction on loops; spec = list of admitted pairs grouped by dt |
| C02 | `acf` | same dictionary lemma; variance by field over R |
| C03 | `gcf` | refutation by a three-frame run; partial: set of pairs really used |
| C04 | `setup_t_grid`, `_templated` | induction; argmin lemma |
| C05 | composition setup_t_grid / adjust_skip / gcf_offset | invariance of step differences under shift by whole blocks |
| C06 | `adjust_skip` | case analysis, integer arithmetic |
| C07 | `adjust_skip` with integer | refutation (10 frames, 4 origins) and bounds n..2n-1 |
| C08 | `adjust_skip` with strings, small parser of int()/float() | every decimal string "0.ddd" raises ValueError |
| C09 | `linear_grid` | reals: up/archimed; doubles: witness |
| C10, C11 | `logx_grid` | Rpower algebra; refutation of the end point |
| C12, C13 | `feqc` | loop invariant: no strict sign change so far; refutations |
| C14 | `ifabsmm` | argmin lemma, algebra of the three-point parabola |
| C15, C16 | `linear_fit` | sums as linear functionals, completing squares; double witness for sqrt of a negative number |
| C17 | MSD kernel over `gcf_offset` | mean of squares |
| C18 | center-of-mass correction | vector algebra |
| C19 | overlap kernels | counting |
| C20 | alpha2 kernel | Cauchy-Schwarz |
| C21, C22 | chi4 loop | variance nonnegative; refutation for origins |
| C23 | vacf/sacf compute | skip is block size whatever norigins: refutation |
| C24, C25 | gr_kernel, Fortran pbc | rint is the nearest integer; refutation beyond 3/2 L |
| C26, C27 | pairs_newton_hist, pairs_hist, Legacy._compute | permutation of pairs; refutation for self pairs |
| C28, C29 | normalisation of g(r) | sum exchange; shell volume formula |
| C30-C32 | LinkedCells | arithmetic of cell indices, geometric lemma, NoDup |
| C33, C34 | Fortran g(r) kernels | bin index bounds; per bin equality |
| C35 | ba.py normalisation, bond_angle | sum / bin index |
| C36 | expo_sphere | induction with addition formulas |
| C37, C38 | _setup_grid_sphere | enumeration of lattice, termination measure |
| C39 | decimation | oracle random.sample seeded; functional dependence |
| C40, C41 | kvectors property | integer round trip; refutation |
| C42 | object heap with shared kgrid | refutation on integers/rationals; partial for fresh lists |
| C43-C45 | S(k) | complex sums |
| C46 | F_s(k,t) | sums over blocks |
| C47, C48 | F(k,t) | sums; in dimensions other than 2 and 3 an invariant of the table that is overwritten while it is read |
| C49 | is_cell_variable | loop |
| C50-C52 | filter_species, add_filter, Partial.compute | lists, state machine |
| C53 | repeated compute | state machine of the arrays |
| C54, C55 | write/read tables | token lists |
| C56, C57 | update, crash | file system transition system |
| C58 | output path | strings |
| C59, C60 | api functions | trace of computed objects |
| C61 | _subtract_mean, _setup_weight_* | sums; rounding error of the mean in any order; refutation for integer arrays |
| C62 | susceptibility | variance |
| C63 | _extract_tau | uses C12 |
| C64 | _setup_arrays_twobody | state |
| C65 | `adjust_skip` with floats | bounds on the number of origins; refutation |
| C66 | Chi4SelfOverlapOptimized | loop equality; refutation (no pair for a grid point) |
| C67 | linked cells inside g(r) | reuses C30; refutation |
| C68 | weighted S(k) | variance of the accumulators |
| C69 | S(k), F_s(k,t), F(k,t) under periodic images | exp(i k n L) = 1 |
| C70 | relabelling of particles | permutation lemmas for sums and counts |
| C71 | isometries of space | kernels depend on distances only |
| C72, C74 | units of length and time | homogeneity of kernels and grids |
| C73 | shift of all the steps | differences only |
| C75 | folding and origin of the cell for g(r) | minimum image modulo lattice |
| C76 | default time grids | total_time 3/4 and setup_t_grid; refutation |
| C77 | MSD analysis | feqc and linear_fit lemmas; double witness |
| C78 | alpha2 / chi4 peaks | ifabsmm lemmas |
| C79 | default cutoffs of the bond angles | loop; refutation |
| C80 | spectral density | S(k) lemmas with weights; refutation of the form factor |
| C81 | s4kt | always AttributeError |
| C82, C83 | vacf, sacf | Cauchy-Schwarz; refutation in two dimensions |
| C84 | Filter | str.replace and split on strings, eval as an argument; refutations with an evaluator of a fragment |
| C85 | add_weight, copy_field | lists of particles with attributes; callbacks on the trajectory |
| C86 | correlations on a trajectory that keeps its frames | state of the frames; idempotence of the center of mass |
| C87 | structure factor with a variable cell | S(k) lemmas with wave-vectors that depend on the frame; induction over the frames visited; refutations in doubles |
| C88 | every requested time is answered | composition of the time-grid theorems (C04), norigins (C06) and the pair loops (C01); over R |
| C89 | distances at which g(r) is reported | default grids, crop and linked cells composed with the kernels (C20, C21, C65); refutation of the documented limit |
| C90 | order of the frames in g(r) | permutation invariance of means; refutation when the volume varies |
| C91 | g(r) without periodic boundaries | the kernels with huge sides measure Euclidean distances; refutations |
| C92 | g(r) on a grid of the user | edges built from the first gap; refutations |
| C93 | positions and groups of a calculation | the set-up functions against a specification by particles; center-of-mass algebra over R |
| C94 | cutoffs of bond angles by species name | the ids are ranks in the sorted list of names; composition with C35 |
| C95 | partial structure factors form a positive matrix | sum of squares of the weighted amplitudes, shell by shell |
| C96 | functions and files of chi4 | moments of the counts (C21), default paths (C58), text of the files (C97); refutations |
| C97 | header of the output files | the text split into lines; composition with C54, C55; refutations |
| C98 | reported times used as grid, in doubles | rounding error of k*dt below half a step; uniqueness of the nearest frame |
| C99 | overlaps in doubles | counts exact, rounding monotone |
| C100 | accuracy of the MSD in doubles | relative errors (1 +- u)^K through differences, squares, sums, quotients |
| C101 | sign and accuracy of chi4 in doubles | integer gap of the variance against rounding errors |
| C102 | species averages: MSD, self overlap, VACF, F_s, F | sums over particles regrouped by species, averages are linear |
| C103 | inequalities between MSD, overlap, F_s, chi4, alpha2 | Markov, 1-cos, Cauchy-Schwarz, Bhatia-Davis; averages over the same pairs |
| C104 | first, last, skip on blocks | arithmetic of slices; refuted for negative indices when the last block is not complete |
| C105 | the .tau file | words and columns of loadtxt; loads exactly when all tau or none are known; refuted in the mixed case |
| C106 | trajectories without file | choice of the output path; refuted for scattering functions, update=True and the constructor argument |
| C107 | file of the mean square displacement | composition of C100 (doubles), C97 (text), C58 (path); several calculations in a row |
| C108 | update mode and parameters | refuted: the output file says nothing about the parameters |
| C109 | time reversal | pairs at each lag for regularly stored frames; refuted for chi4 (last origin left out) |
| C110 | report of the wave-vectors | the lines written against the vectors in use |
| C111 | a system in which nothing moves | constant pairs in the averages; refutation for alpha2 (0/0) |
| C112 | time options of the API | composition of api.py with the grids; refutation |
| C113 | neighbour lists of realspace.f90 | counts and completeness within the cutoffs; refutations |
| C114, C117 | VACF and alpha2 in doubles | sums in any order, relative errors through quotients |
| C115, C116 | distances and histograms in doubles | minimum image with rounding, square root, cumulative counts |
| C118 | options of the API reach the calculations | trace of the jobs, backends of S(k) |
| C119 | relaxation time of the self overlap | composition of the averages with feqc |
| C120 | exponentials and densities in doubles | induction over the powers |
| C121, C122, C123 | F_s, F and S(k) in doubles | C120 with sums over blocks, vectors and frames |
| C124 | normalisation of g(r) in doubles | errors of the bin boundaries, differences of powers, math.pi by Machin's formula |
| C125 | g(r) in doubles from positions to values | exact histograms (C116) through the whole object, volume and half of the smallest side in doubles, normalisation (C124) |
| C126 | linked cells in doubles | error of the subcell index below 2^-20, adjacency of close particles with a margin of 2^-49 of the side; counterexamples without the margins |
| C127 | g(r) with a cutoff in doubles, linked cells or not | histograms of the listed pairs against exact counts (C116, C126), the object for both ways of counting, normalisation (C124) |
| C128 | accuracy of the stress autocorrelation in doubles | products of nearby numbers (nearby_mul), sums in any order, the averages of C101/C114 |
| C129 | on_border of linked cells | the index of C30/C126 read back as a distance from the faces; no shift can bring a particle within the cutoff |
| C130 | roots and relaxation times in double precision | every difference is exact up to a relative 2^-53, products and quotients of the admissible range do not underflow; so the sign test is that of the exact values and the interpolation has five relative errors; example of an underflow outside the range |
| C131 | straight-line fits and diffusion coefficients in double precision | errors of n sum xy - sum x sum y for any order of the sums; the quotient with a well-conditioned denominator; for the square root, the Cauchy-Schwarz inequality bounds the error of the explained variance by the size of the residuals |
| C132 | evenly spaced grids in double precision | products by integers have no underflow error, so a point has two relative errors; monotony of rounding, with equal products being equal doubles; the truncated quotient lies within a relative 3 u of the exact one |
| C133 | removal of the center of mass in double precision | the fold over particles splits into one sum per coordinate, whose quotient has a relative error against the sum of |m x|; the averaged errors telescope in the new center; separations are differences of two rounded differences by the same double |
| C134 | logarithmic grids in double precision | errors are followed as differences of logarithms: they add under products and are multiplied by the exponent under powers; the power of floats is a parameter assumed accurate to two units in the last place (a rounding to zero of the exact power is shown to be one) |
| C135 | susceptibilities in double precision | the two-pass variance: the error of the mean enters the squares to first order times the deviation, hence an error relative to the square of the bound of the values, not to the variance; the dictionary of times is the lemma behind C62, for keys compared as doubles |
| C136 | relaxation times in double precision | the level f(0)/e is below f(0) and positive, hence C130 applies with "crossing" meaning "below the level"; the factor is any double within 2^-53 of 1/e, exhibited for the example by the alternating series of exp(-1) |
| C137 | peaks in double precision | a small calculus of sums, products and differences with absolute errors bounds the coefficients of the parabola; the determinant is at least 2 h^3, and the leading coefficient at least h times the sum of the drops to both neighbours, hence the position of the vertex; the height c - b^2/4a cancels terms of order (X/h)^2 Y. Refuted by a computed table |
| C138 | shells of wave-vectors in double precision | the pass over the lattice is analysed once for all arithmetics (find_shell_gen, setup_grid_gen); a calculus of relative errors bounds the norms of the wave-vectors and hence the tests of the shells and of the cutoff; the lattice is large enough because the quotient is truncated and one is added; widening is an induction on the number of nested calls |
| C139 | order of the reported wave-numbers | strict bounds of a mean, applied to the shells of C37; without widening the vectors of a later shell lie above the upper edge of every earlier one. Two refutations computed in double precision |
| C140 | wave-vectors copied in double precision | the quotient of a lattice double by the spacing rounds to within 1/2 of its integer, so that rounding to the nearest integer recovers it; the products are then the same doubles |
| C141 | well separated wave-numbers | a lattice vector lies within K/2 of any wave-number, so that a shell stops being widened at 0.6 K; shells of that width do not overlap if the wave-numbers are 1.2 K apart (C139). The order comes from the sort of the model (insertion sort for numpy's) |
| C142 | bond angles in double precision | the model of C35 run in doubles; the arccosine in degrees of the Fortran library is a parameter of which only a bound E on the error is assumed (and that it returns a finite number). The sum of squares and the scalar product are taken in index order. C142_images and C142_neighbours tie the computed bonds and neighbours to the exact ones; positions at most 1.5 sides apart (one folding). Bonds shorter than 2^-100 or longer than 2^100 are excluded |
| C143 | relaxation times and function come from the same calculation | histories of calls of do() and of changes of other files, folded over the file system of C105; an interrupted call is the state after the first of the two files. A call that raises is taken to write nothing |
| C144 | files of partial correlations come from one calculation | inductive relation of the reachable file systems: start without output, changes of the trajectory, calls that write a prefix of the members; invariant on the last member. Calls may also be stopped within a file, of which any part is left, but not within the last one (C57). A member writes one file here; the partial scattering functions also write .tau (C143) and chi4 two more files (C145) |
| C145 | average and variance of the overlap after an update run | do() of a new Chi4SelfOverlap object on the file system of C96; refutation: only the file of chi4 is looked at and read |

## What is modelled where

| module | code | scope and simplifications |
|--------|------|---------------------------|
| PyBase, Num | Python exceptions, lists, arithmetic | `F64ops` is IEEE binary64 with round to nearest even; `nrint`, `ntrunc`, square root included |
| M_Helpers | helpers.py | `logx_grid` over the reals only |
| M_Logx64 | helpers.py: logx_grid with floats | the power of floats is a parameter; negative `x2` not modelled |
| M_Correlation | correlation.py: gcf, gcf_offset, acf, grids, adjust_skip | complete |
| M_Dynamics | msd, alpha2, qt, chi4t, vacf, sacf | compute methods after the arrays are filled |
| M_Arrays, M_Groups | correlation.py: filters, _setup_arrays* | Unfolded and fold of atooms are arguments |
| M_Weights | correlation.py: add_weight, _setup_weight_*; helpers.py: copy_field | attributes are ints or floats; state after an exception not modelled |
| M_Filter | filter.py | eval is an argument; the fragment `py_eval` is used by examples and refutations only |
| M_Cache | sequences of correlations on one trajectory | a trajectory that keeps its frames returns the same particles; Unfolded returns others |
| M_VarCell | sk.py:58-75 with fourierspace.py:183-240: wave-vectors of every frame visited | the list given by the user is threaded through the calls of _setup that overwrite it |
| M_Partial | partial.py | the correlation class is an argument |
| M_Realspace, M_BondAngle | gr.py, ba.py, realspace.f90 | Fortran indices checked; integers unbounded |
| M_LinkedCells | linkedcells.py | complete |
| M_GrObject | gr.py: both _compute methods from trajectory to result, deferred grid, open cells, no cell, linked cells | Cell.volume is the product of the sides, every cell has `periodic`, System.density is an argument, dr is a float |
| M_BaObject | ba.py: _compute from trajectory to result, ids of the species, check of the cutoffs given by the user | Python float rcut matrix given as a list of lists; default cutoffs in M_Analyze |
| M_KGrid, M_Fourier, M_Fkt, M_Spectral | fourierspace.py, fkt.py, sk.py, ik.py, s4kt.py, fourierspace.f90 | exponentials over the reals; random.sample is an argument |
| M_Expo64, M_Fkt64 | fourierspace.py:21-51, sk.py density, fkt.py:109-246 and fourierspace.f90:26-64 for any complex arithmetic | the library's complex exponential, numpy's complex product and sum are parameters: theorems assume an error bound of the first, a product right to six roundings of the moduli (`plain_product` is) and a sum in some order |
| M_Collective64 | fkt.py:278-363 and sk.py:60-163 (two and three dimensions, no weights, constant cell) for any complex arithmetic | same parameters as M_Expo64; numpy's division of a complex number by an int and `**0.5` are parameters too, assumed right to three roundings (the correctly rounded ones are); dimensions other than 2 and 3, weights and variable cells are in M_Fkt and M_Fourier (exact arithmetic) only |
| M_Norm64 | gr.py:328-362 for any arithmetic, periodic cells | powers `r**2`, `r**3` are a parameter, assumed right to 4 roundings (products are); math.pi is the double `f64_pi` of F64Pi |
| M_Text, M_Output | write, read, need_update, do | %g and float() executable; header text is a list of lines |
| M_Header | write: text of the header, names of the columns, user comments; helpers.py: _dump | `inline=False`; results of the analysis printed by the caller; carriage returns are ordinary characters |
| M_Chi4Object | chi4t.py: average and variance, the three files of write | after construction and one compute() |
| F64Round, F64Ops, F64Facts, F64Sqrt | (not code of the project) +, -, *, /, square root, comparison and conversion of Coq's `spec_float`, proved correctly rounded | used by T_Doubles, T_Doubles2, T_Doubles3, T_Dot, T_Distances, T_Alpha, T_Cosine, T_Expo64, T_Fkt64, T_Collective64, T_Sk64, T_Weights64, T_Norm64 on the existing models at `F64ops` |
| M_Path | _output_file | str.format restricted to the six names |
| M_Api | api.py | jobs recorded, not run |
| M_Slice | api.py:17-40 _get_trajectories: slices of frames | opening files, fields and the Sliced class of atooms not modelled: a slice is Python's on the list of frames |
| M_Memory | correlation.py:210-213, 299-306, 646-664; fkt.py:166-173, 369-376 | calculation is a parameter |
| M_Chi4Run | chi4t.py:36-89 and correlation.py:646-664 do | a new object; the calculation is a parameter |
| M_Repeat | several compute() of one object: scattering functions, chi4, g(r) | wave-vectors and time grid of the first call; g(r): mean numbers over the frames instead of their copies |
| M_Report | fourierspace.py:338-366 report | rows as tuples instead of formatted lines |
| M_Neighbors | realspace.f90:133-208, 710-786 neighbour lists called by no class | offset 'C'; species from 0; writing outside the tables (undefined in Fortran) is an error |
| M_Run | correlation.py:536-555, 598-664; msd.py:38-77 | compute() of the double-precision model; analyze() is a parameter |
| M_Analysis, M_Analyze | susceptibility.py, relaxation times, analyze methods, default grids and cutoffs | susceptibility and relaxation times over any arithmetic (reals in C62, doubles in C135); over the reals where logarithms enter |

The script bin/acf.py is not modelled: as written it uses the name `postprocessing`,
which it never binds (it imports `atooms.postprocessing`), so that it stops with a
NameError on any input, and it ignores its options.

## Assumptions

What `Print Assumptions` lists for each theorem:

<!-- assumptions begin -->
* No axiom (closed under the global context):
    C01_gcf_offset_mean, C02_acf_mean, C03_gcf_all_pairs_refuted, C03_gcf_mean_partial, C04_setup_t_grid,
  C04_setup_t_grid_total, C05_periodic_grid_partial, C05_periodic_grid_refuted, C06_skip_multiple_partial,
  C06_skip_multiple_refuted, C06_skip_range, C07_origins_refuted, C08_fraction_refuted, C09_overshoot_refuted,
  C09_undershoot_refuted, C104_negative_partial, C104_negative_refuted, C104_same_steps_partial,
  C104_skip_frames_partial, C104_skip_partial, C104_whole_blocks_partial, C105_file, C105_load_refuted,
  C106_default_name_refuted, C106_output_path_refuted, C106_path_set_partial, C106_results_partial,
  C106_scattering_refuted, C106_update_refuted, C109_chi4_refuted, C109_origins_refuted, C110_lines,
  C110_vectors, C113_distinct_refuted, C120_conjugates, C121_products, C122_products, C123_empty_shell,
  C129_used, C131_reported, C139_order_refuted, C139_zero_refuted, C143_computed_partial,
  C143_interrupted_refuted, C143_same_calculation_partial, C144_complete_partial, C144_reused_partial,
  C144_stopped_refuted, C145_reused_refuted, C16_linear_fit_raises_refuted, C19_collective_ge_self_refuted,
  C23_sacf_norigins_refuted, C23_vacf_no_grid_refuted, C23_vacf_norigins_refuted, C26_distinct_counts_once,
  C26_newton_counts_once, C26_newton_counts_once_default, C26_number_of_pairs,
  C28_composition_absent_species_refuted, C31_first_call_only, C31_groups_refuted, C31_partial, C31_refuted,
  C32_refuted, C33_double_out_of_bounds_refuted, C34_varying_number_refuted, C42_partial, C42_refuted,
  C50_filter_partition, C50_filter_species, C51_filters_used_partial, C51_number_of_filters_partial,
  C51_number_of_filters_refuted, C52_one_body, C52_repeated_species_refuted, C52_two_bodies,
  C53_chi4_repeat_refuted, C53_grid_repeat_refuted, C53_msd_repeat_refuted, C54_one_variable,
  C54_two_variables, C54_written, C56_effect, C56_partial_correlations, C56_single, C57_crash_partial,
  C58_blanks, C58_default_path_partial, C58_default_path_refuted, C58_directory, C58_distinct_partial,
  C58_distinct_refuted, C60_filter_partial, C61_in_doubles_partial, C61_integer_refuted, C64_fix_cm_partial,
  C64_fix_cm_refuted, C64_two_filters_refuted, C66_optimized_agrees_partial, C67_refuted, C70_chi4,
  C70_collective_overlap, C70_self_overlap, C73_chi4, C73_chi4_optimized, C73_msd, C73_overlap_alpha2,
  C73_stress, C73_vacf, C76_msd_rmax_refuted, C77_linear_msd_refuted, C79_one_pair_refuted,
  C81_always_fails_refuted, C81_empty_partial, C83_two_dimensions_refuted, C84_comma_refuted,
  C84_one_body_partial, C84_one_body_two_conditions_refuted, C84_tag_characters_partial, C84_tag_refuted,
  C84_twice_refuted, C84_two_body, C85_missing_particles_refuted, C85_other_field_partial,
  C85_shared_trajectory_refuted, C85_steps_checked, C86_cache_refuted, C86_next_is_fixed_refuted,
  C86_plain_partial, C87_assigned_refuted, C87_default_grid_refuted, C87_drift_refuted, C93_groups,
  C93_reconstructed, C93_recorded, C94_new_species, C96_output_path_refuted, C97_short_name_refuted,
  C97_susceptibility_refuted, C97_variables.
* `ClassicalDedekindReals.sig_forall_dec`, `FunctionalExtensionality.functional_extensionality_dep`:
    C100_msd_sign, C101_chi4_accuracy, C101_chi4_zero, C105_loads_partial, C105_rows_partial, C107_file,
  C107_session, C108_again_partial, C108_grid_refuted, C108_other_refuted, C111_alpha2_refuted, C111_chi4,
  C111_msd, C111_self_overlap, C112_cut, C114_any_order, C114_cancellation, C114_size, C114_vacf_accuracy,
  C117_size, C121_normalised, C122_normalised, C126_upper_border, C128_any_order, C128_sacf_accuracy,
  C128_size, C130_relaxation_time, C130_root, C131_any_order, C131_diffusion, C131_no_exception, C131_slope,
  C132_count, C132_distinct, C132_spacing, C133_center, C133_positions, C133_separations, C135_susceptibility,
  C135_variance, C137_peak_refuted, C140_assign, C140_copy, C140_setup, C142_bin, C142_distribution,
  C142_images, C142_neighbours, C145_computed_partial, C145_second_call_refuted, C34_all_frames,
  C34_constant_number, C35_cosine, C55_roundtrip_partial, C55_roundtrip_refuted, C57_crash_refuted,
  C61_rounding_partial, C96_description_refuted, C96_files_partial, C97_columns, C97_lines, C97_read_partial,
  C97_user_comments_refuted, C98_chi4_again, C98_msd_again, C98_times_again, C99_monotone, C99_self_overlap.
* `ClassicalDedekindReals.sig_forall_dec`, `ClassicalDedekindReals.sig_not_dec`,
  `FunctionalExtensionality.functional_extensionality_dep`:
    C02_acf_variance, C04_requested_steps, C06_accepted, C06_all_origins, C06_single_origin,
  C06_zero_rejected, C07_origins_bounds_partial, C07_origins_exact_partial,
  C08_fraction_strings_rejected_refuted, C08_integer_strings_partial, C09_linear_grid_count,
  C09_linear_grid_spacing_partial, C100_any_order, C100_msd_accuracy, C102_msd, C102_scattering,
  C102_self_overlap, C102_self_scattering, C102_vacf, C103_chi4_average, C103_non_gaussian,
  C103_overlap_grows, C103_overlap_msd, C103_single_particle, C107_msd, C107_msd_even, C109_alpha2_partial,
  C109_msd_partial, C109_overlap_partial, C109_stress_partial, C109_vacf_partial, C110_shells,
  C111_self_scattering, C113_linked_cells, C113_neighbors_list, C113_subset_partial, C113_subset_refuted,
  C115_backends, C115_fdist, C115_img_dist, C115_python, C116_distinct, C116_exact, C116_legacy,
  C116_legacy_distinct, C116_self, C117_alpha2_accuracy, C117_any_order, C118_fast_weights_refuted,
  C120_plain, C123_operations, C126_missed, C126_ordered_pairs_once, C126_pairs_once, C129_border,
  C129_doubles, C129_inner, C12_feqc_no_exception, C12_feqc_root, C137_not_below_partial, C137_peak_partial,
  C138_shells, C138_wave_numbers, C139_increasing_partial, C139_separated_partial, C13_feqc_complete_partial,
  C13_feqc_start_refuted, C13_feqc_touch_refuted, C141_default, C141_given, C141_limit, C141_reported,
  C141_widening, C14_ifabsmm, C15_linear_fit_exact, C15_linear_fit_optimal, C16_linear_fit_total_partial,
  C17_msd_average, C17_msd_ballistic, C17_msd_nonnegative, C17_msd_translation, C17_msd_zero_at_zero,
  C18_fix_cm, C18_fix_cm_drift, C19_collective_ge_self_partial, C19_collective_overlap, C19_self_overlap,
  C20_non_gaussian, C21_chi4_sign, C21_chi4_variance, C22_chi4_all_origins_refuted, C22_chi4_origins_partial,
  C23_vacf_average_partial, C24_folded_minimum_image, C24_fortran_minimum_image, C24_python_minimum_image,
  C25_fortran_exact_condition_partial, C25_fortran_unfolded_refuted, C26_distinct_total, C26_newton_total,
  C27_one_condition_refuted, C27_partial_like_partial, C27_partial_unlike_partial, C27_two_conditions_partial,
  C27_unfiltered_partial, C28_composition_partial, C28_coordination_numbers, C28_symmetric,
  C29_shell_volume_odd_refuted, C29_shell_volume_partial, C30_ordered_pairs_once, C30_pairs_once, C32_partial,
  C33_distinct_in_bounds_partial, C33_neighbors_in_bounds_partial, C33_neighbors_short_grid_refuted,
  C33_self_in_bounds_partial, C34_fast_legacy_partial, C36_safe, C36_table, C37_complete, C37_disjoint,
  C37_shells, C39_decimation, C40_between, C40_copy, C41_partial, C41_refuted, C43_assigned, C43_bound,
  C43_nonneg, C43_one, C43_selected, C43_translation, C43_value, C44_other_dims_refuted, C44_sum_rule_partial,
  C44_symmetric_partial, C45_partial, C45_refuted, C45_two_dimensions, C46_bounds, C46_value,
  C47_four_dimensions_refuted, C47_one_dimension_partial, C47_one_dimension_refuted,
  C47_other_dimensions_partial, C47_value_partial, C48_refuted, C48_start_partial, C49_all_frames,
  C49_partial, C49_refuted, C49_sound, C52_fkt_refuted, C52_gr, C52_sk, C53_gr_fast_repeat_refuted,
  C53_gr_legacy_partial, C53_scattering_repeat_refuted, C53_self_scattering_repeat_refuted,
  C53_structure_factor_partial, C61_one_group_partial, C61_subtract_mean, C61_two_groups_partial, C62_defined,
  C62_susceptibility, C65_fraction_bounds_partial, C65_fraction_refuted, C66_optimized_refuted,
  C66_optimized_total_partial, C67_partial, C68_nonneg, C68_variance, C69_collective, C69_self,
  C69_structure_factor, C70_alpha2, C70_gr, C70_msd, C70_scattering, C70_self_scattering, C70_stress,
  C70_structure_factor, C70_vacf, C71_alpha2, C71_chi4, C71_collective_overlap, C71_msd, C71_self_overlap,
  C71_vacf, C72_alpha2, C72_chi4, C72_collective_overlap, C72_gr, C72_msd, C72_scattering, C72_self_overlap,
  C72_self_scattering, C72_structure_factor, C72_vacf, C74_chi4, C74_msd, C74_msd_default, C74_overlap_alpha2,
  C74_stress, C74_vacf, C75_gr, C76_alpha2_default_partial, C76_msd_half_refuted, C76_msd_rmax_partial,
  C77_diffusion_exact_partial, C77_diffusion_partial, C77_msd_analyzed_partial, C78_alpha2_peak,
  C78_chi4_peak, C78_peak, C79_cutoff_partial, C79_no_minimum_refuted, C80_nonneg_partial,
  C80_translation_partial, C80_value_partial, C81_attribute_refuted, C82_bounded, C82_constant, C82_reversal,
  C82_time_zero, C83_average_partial, C83_bounds_partial, C85_own_field, C86_all_fixed_partial,
  C87_assigned_fails_refuted, C87_constant, C87_kmin_partial, C87_reported_partial, C87_value_partial,
  C88_chi4_defined, C88_default_grid, C88_defined, C89_documented_refuted, C89_fast, C89_legacy,
  C90_order_partial, C90_order_refuted, C91_first_bin_refuted, C91_flags_refuted,
  C91_isolated_default_refuted, C91_isolated_last_refuted, C91_isolated_partial, C91_mixed_refuted,
  C91_open_partial, C92_fast_last_refuted, C92_fast_partial, C92_fast_start_refuted, C92_spacing_refuted,
  C92_uniform_partial, C93_drift, C93_fix_cm, C95_cauchy_schwarz, C95_positive, C96_values,
  C96_variance_refuted.
* `ClassicalDedekindReals.sig_forall_dec`, `ClassicalDedekindReals.sig_not_dec`, `Classical_Prop.classic`,
  `FunctionalExtensionality.functional_extensionality_dep`:
    C103_scattering_msd, C109_scattering_partial, C109_self_scattering_partial, C10_logx_grid_positive,
  C111_scattering_partial, C112_cut_refuted, C112_times_partial, C118_options_partial, C119_overlap_tau,
  C11_logx_grid_zero_partial, C11_logx_grid_zero_refuted, C120_density, C120_table, C121_agree,
  C121_self_accuracy, C122_collective_accuracy, C123_structure_factor_accuracy, C124_empty_bins,
  C124_products, C124_values, C125_values, C127_values, C134_increasing, C134_positive, C134_zero, C136_tau,
  C138_cell, C142_angle, C35_angles, C35_partial, C35_refuted, C38_setup, C38_terminates, C46_normalized,
  C47_normalized_partial, C47_start_partial, C59_every_file_partial, C59_every_file_refuted,
  C59_total_or_partial_partial, C60_options_refuted, C60_same_arguments_partial, C60_update, C63_tau_partial,
  C63_tau_refuted, C73_scattering, C74_scattering, C76_overlap_default_partial, C76_overlap_short_refuted,
  C80_wave_number_refuted, C87_succeeds, C88_user_grid, C94_cutoffs.
<!-- assumptions end -->

## Not modelled

Plotting/report text, progress bar, logging, argument parsing (`bin/pp.py` beyond the types of the options),
trajectory file formats, numpy memory layout, Fortran compiler behaviour, other modules of atooms.
